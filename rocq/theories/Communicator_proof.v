(** Proofs for C19: the streams and the bytes of one packet. *)
From Coq Require Import Lia.
From Verif Require Import Base Base_lemmas RtcpTrav_model RtcpBuild_model RtcpBuild_spec RtcpBuild_proof RtcpProto_proof RtcpBuild_props Communicator_model Communicator_spec.
Open Scope res_scope.
Local Open Scope nat_scope.

Lemma streams_from mx other first : forall k j cur, cur + other < mx -> j <= mx - 1 - other ->
  streams k mx cur other first (first + j) = (let n := Nat.min k (mx - 1 - other - j) in (if n =? 0 then cur else Nat.max cur (j + n), seq (first + j) n)).
Proof.
  induction k as [|k IH]; intros j cur H J; cbn [streams]; [reflexivity|].
  unfold next_stream. cbv zeta. replace (first + j - first + 1) with (j + 1) by lia. destruct (Nat.leb_spec mx (Nat.max cur (j + 1) + other)).
  - replace (Nat.min (S k) (mx - 1 - other - j)) with 0 by lia. reflexivity.
  - rewrite <- Nat.add_assoc, IH by lia. cbv zeta. replace (Nat.min (S k) (mx - 1 - other - j)) with (S (Nat.min k (mx - 1 - other - (j + 1)))) by lia.
    cbn [fst snd seq Nat.eqb]. replace (S (first + j)) with (first + (j + 1)) by lia. f_equal. destruct (Nat.eqb_spec (Nat.min k (mx - 1 - other - (j + 1))) 0) as [->|]; lia.
Qed.
Lemma streams_is k mx cur other first : cur + other < mx -> streams k mx cur other first first = (Nat.max cur (Nat.min k (mx - 1 - other)), seq first (Nat.min k (mx - 1 - other))).
Proof.
  intros H. pose proof (streams_from mx other first k 0 cur H ltac:(lia)) as E. rewrite Nat.add_0_r, Nat.sub_0_r in E. rewrite E. cbv zeta. f_equal.
  destruct (Nat.eqb_spec (Nat.min k (mx - 1 - other)) 0) as [->|]; lia.
Qed.

(** *** The packets described by a payload *)
Definition rems (e : env) (c : comm) : nat := if e_sending e then k_sn c - k_si c else 0.
Definition remr (e : env) (c : comm) : nat := if e_receiving e then k_rn c - k_ri c else 0.
Definition xrs (e : env) (d i : nat) : list xin := [IMeas (e_meas e d i); IDelay (e_delay e d i); IQueue (e_queue e d i)].
Definition part {A} (b : bool) (l : list A) : list A := if b then l else [].
Definition pks (cfg : wcfg) (e : env) (c : comm) (s r : nat) : list pk :=
  let reps := map (e_rep e (k_di c)) (seq (k_ri c) r) in
  let sends := e_sending e && (k_si c <? k_sn c) in
  part (c_srrr cfg) [if e_sending e then PSr (e_sr e) reps else PRr (e_ssrc e) reps] ++
  part (c_xr cfg && (sends || e_receiving e))
    [PXr (e_ssrc e) (part sends [IDlrr (map (e_dlrr e (k_di c)) (seq (k_si c) s))] ++ part (e_receiving e) (IRrtr (e_ntp e) :: concat (map (xrs e (k_di c)) (seq (k_ri c) r))))] ++
  part (c_sdes cfg) [PSdes [(e_ssrc e, [(1%Z, e_cname e)])]] ++
  part (e_bye e) [PBye [e_ssrc e] None].

Lemma calls_one p : concat (map calls_pk [p]) = calls_pk p. Proof. cbn [map concat]. apply app_nil_r. Qed.
Lemma calls_part b l : concat (map calls_pk (part b l)) = part b (concat (map calls_pk l)). Proof. destruct b; reflexivity. Qed.
Lemma map_concat2 (e : env) (d : nat) l : concat (map calls_xin (concat (map (xrs e d) l))) = concat (map (fun i => [OMeas (e_meas e d i); ODelay (e_delay e d i); OQueue (e_queue e d i)]) l).
Proof. induction l as [|i l IH]; [reflexivity|]. cbn [map concat]. rewrite map_app, concat_app, IH. reflexivity. Qed.

Lemma counts (b : bool) Sn R mx r1 s r : 1 <= mx -> r1 = (if b then Nat.min R (mx - 1) else 0) -> s = Nat.min Sn (mx - 1 - r1) -> r = Nat.max r1 (Nat.min R (mx - 1 - s)) ->
  (b = true -> r = r1) /\ s + r = Nat.min (Sn + R) (mx - 1) /\ s <= Sn /\ r <= R /\ Nat.min R (mx - 1 - s) = r.
Proof. intros M -> -> ->. destruct b; lia. Qed.
(** How many streams of each kind a packet is about *)
Lemma payload_is cfg e c : cfg_ok cfg e -> 1 <= k_max c -> k_rn c - k_ri c = remr e c -> k_sn c - k_si c = rems e c ->
  exists s r, reports_payload cfg e c = (calls (pks cfg e c s r) None, s, r) /\ s <= rems e c /\ r <= remr e c /\ s + r = Nat.min (rems e c + remr e c) (k_max c - 1).
Proof.
  intros (K1 & K2 & K3) M Er Es. unfold rems, remr in *. unfold reports_payload, calls. cbv zeta.
  set (mx := k_max c) in *. set (R := k_rn c - k_ri c) in *. set (Sn := k_sn c - k_si c) in *.
  set (r1 := if c_srrr cfg then Nat.min R (mx - 1) else 0). set (s := if c_xr cfg && e_sending e then Nat.min Sn (mx - 1 - r1) else 0).
  set (r := if c_xr cfg then Nat.max r1 (Nat.min R (mx - 1 - s)) else r1).
  assert (H1 : (if c_srrr cfg then standard_report e c 0 0 else ([], 0)) = (part (c_srrr cfg) (calls_pk (if e_sending e then PSr (e_sr e) (map (e_rep e (k_di c)) (seq (k_ri c) r1)) else PRr (e_ssrc e) (map (e_rep e (k_di c)) (seq (k_ri c) r1)))), r1)).
  { unfold r1, part. destruct (c_srrr cfg); [|reflexivity]. unfold standard_report. cbv zeta. fold R mx.
    assert (Es2 : (if e_receiving e then streams R mx 0 0 (k_ri c) (k_ri c) else (0, [])) = (Nat.min R (mx - 1), seq (k_ri c) (Nat.min R (mx - 1)))).
    { destruct (e_receiving e); [rewrite streams_is by lia; rewrite Nat.sub_0_r, Nat.max_0_l; reflexivity|]. rewrite Er. reflexivity. }
    rewrite Es2. cbn [fst snd]. destruct (e_sending e); cbn [calls_pk]; rewrite map_map; reflexivity. }
  rewrite H1. cbn [fst snd].
  assert (H2 : (if c_xr cfg then extended_report e c 0 r1 else ([], 0, r1)) =
    (part (c_xr cfg && (e_sending e && (k_si c <? k_sn c) || e_receiving e)) (calls_pk (PXr (e_ssrc e) (part (e_sending e && (k_si c <? k_sn c)) [IDlrr (map (e_dlrr e (k_di c)) (seq (k_si c) s))] ++ part (e_receiving e) (IRrtr (e_ntp e) :: concat (map (xrs e (k_di c)) (seq (k_ri c) r)))))), s, r)
    /\ (c_srrr cfg = true -> r = r1) /\ s + r = Nat.min (Sn + R) (mx - 1) /\ s <= Sn /\ r <= R).
  { destruct (c_xr cfg) eqn:Ex.
    2:{ cbn [andb part]. unfold s, r. cbn [andb]. split; [reflexivity|]. split; [reflexivity|]. destruct (e_sending e); [discriminate (K2 eq_refl)|]. unfold r1. destruct (e_receiving e); [destruct (K3 eq_refl) as [E|E]; [rewrite E; lia|discriminate E]|]. destruct (c_srrr cfg); lia. }
    assert (Lr1 : r1 <= mx - 1 /\ r1 <= R) by (unfold r1; destruct (c_srrr cfg); lia).
    assert (Ls : s = Nat.min Sn (mx - 1 - r1)) by (unfold s; destruct (e_sending e); cbn [andb]; lia).
    destruct (counts (c_srrr cfg) Sn R mx r1 s r M eq_refl Ls eq_refl) as (Q1 & Q2 & Q3 & Q4 & Q5). split; [|tauto].
    unfold extended_report. cbv zeta. fold R mx Sn. cbn [andb].
    assert (E1 : (if e_sending e && (k_si c <? k_sn c) then streams Sn mx 0 r1 (k_si c) (k_si c) else (0, [])) = (s, seq (k_si c) s)).
    { rewrite Ls. destruct (e_sending e); cbn [andb]; [|rewrite Es; reflexivity]. destruct (Nat.ltb_spec (k_si c) (k_sn c)); [rewrite streams_is by lia; reflexivity|]. replace Sn with 0 by (unfold Sn; lia). reflexivity. }
    rewrite E1. cbn [fst snd].
    assert (E2 : (if e_receiving e then streams R mx r1 s (k_ri c) (k_ri c) else (r1, [])) = (r, if e_receiving e then seq (k_ri c) r else [])).
    { assert (r1 <= r) by (unfold r; lia). destruct (e_receiving e); [|f_equal; lia]. rewrite streams_is by lia. rewrite Q5. f_equal. lia. }
    rewrite E2. cbn [fst snd]. destruct (e_sending e && (k_si c <? k_sn c)) eqn:Eb, (e_receiving e) eqn:Ee; cbn [orb part app calls_pk].
    - rewrite app_nil_r || idtac. cbn [map concat calls_xin]. rewrite map_map, map_concat2. cbn [app]. rewrite <- ?app_assoc. cbn [app]. rewrite <- ?app_assoc. reflexivity.
    - cbn [map concat calls_xin]. rewrite map_map. cbn [app]. rewrite ?app_nil_r, <- ?app_assoc. reflexivity.
    - cbn [map concat calls_xin]. rewrite map_concat2. cbn [app]. reflexivity.
    - assert (s = 0) as -> by (rewrite Ls; destruct (e_sending e); cbn [andb] in Eb; [apply Nat.ltb_ge in Eb; unfold Sn; lia|lia]). assert (r = r1) as -> by (unfold r; lia). reflexivity. }
  destruct H2 as (-> & Rr & Sum & Sl & Rl). cbn [fst snd]. exists s, r. split.
  - f_equal. f_equal. unfold pks. cbv zeta. rewrite app_nil_r, !map_app, !concat_app, !calls_part, !calls_one.
    destruct (c_srrr cfg); cbn [part].
    + rewrite (Rr eq_refl). reflexivity.
    + reflexivity.
  - destruct (e_sending e), (e_receiving e); lia.
Qed.

(** *** These packets are valid, and their size *)
Lemma total_app a b : total (a ++ b) = total a + total b.
Proof. induction a as [|x a IH]; [reflexivity|]. cbn [app]. rewrite !total_cons, IH. lia. Qed.
Lemma total_xrs e d l : total (map size_xin (concat (map (xrs e d) l))) = 76 * length l.
Proof. induction l as [|i l IH]; [reflexivity|]. cbn [map concat length]. rewrite map_app, total_app, IH. cbn. lia. Qed.
Lemma up4_mono a b : a <= b -> up4 a <= up4 b.
Proof. unfold up4. intros H. apply Z2Nat.inj_le; [pose proof (Z.div_pos (Z.of_nat a + 3) 4); lia|pose proof (Z.div_pos (Z.of_nat b + 3) 4); lia|]. pose proof (Z.div_le_mono (Z.of_nat a + 3) (Z.of_nat b + 3) 4). lia. Qed.
Lemma pks_size cfg e c s r : (s = 0 \/ k_si c < k_sn c) -> size_all (pks cfg e c s r) None <= need cfg e s r.
Proof.
  intros Hs. unfold size_all, need, pks. cbv zeta. rewrite !map_app, !total_app, Nat.add_0_r. 
  assert (A1 : total (map size (part (c_srrr cfg) [if e_sending e then PSr (e_sr e) (map (e_rep e (k_di c)) (seq (k_ri c) r)) else PRr (e_ssrc e) (map (e_rep e (k_di c)) (seq (k_ri c) r))])) = if c_srrr cfg then (if e_sending e then 28 else 8) + 24 * r else 0).
  { destruct (c_srrr cfg); [|reflexivity]. cbn [part]. destruct (e_sending e); cbn [map size]; rewrite total_cons, map_length, seq_length; cbn [total fold_right]; lia. }
  rewrite A1. clear A1.
  match goal with |- _ + (?a + (?b + ?d)) <= _ => assert (A2 : a <= if c_xr cfg then 8 + (if e_sending e then 4 + 12 * s else 0) + (if e_receiving e then 12 + 76 * r else 0) else 0) end.
  { destruct (c_xr cfg); cbn [andb part]; [|cbn; lia].
    destruct (e_sending e && (k_si c <? k_sn c)) eqn:Eb; destruct (e_receiving e); cbn [orb part app map]; rewrite ?total_cons; cbn [size]; rewrite ?map_cons, ?total_cons; rewrite ?total_xrs; rewrite ?seq_length; cbn [size_xin]; rewrite ?map_length, ?seq_length; cbn [map total fold_right].
    - destruct (e_sending e); [|discriminate]. lia.
    - destruct (e_sending e); [|discriminate]. lia.
    - lia.
    - lia. }
  assert (A3 : total (map size (part (c_sdes cfg) [PSdes [(e_ssrc e, [(1%Z, e_cname e)])]])) = if c_sdes cfg then 4 + up4 (4 + (2 + length (e_cname e)) + 1) else 0).
  { destruct (c_sdes cfg); [|reflexivity]. cbn [part map size]. rewrite total_cons. cbn [map]. rewrite total_cons. unfold size_chunk. cbn [snd map]. rewrite total_cons. change (total []) with 0. rewrite !Nat.add_0_r. reflexivity. }
  assert (A4 : total (map size (part (e_bye e) [PBye [e_ssrc e] None])) = if e_bye e then 8 else 0) by (destruct (e_bye e); reflexivity).
  lia.
Qed.
Lemma Forall_part {A} (P : A -> Prop) b l : (b = true -> Forall P l) -> Forall P (part b l).
Proof. destruct b; intros H; [apply H; reflexivity|constructor]. Qed.
Lemma sizes_ok_all ps : Forall (fun p => size p <= limit) ps -> sizes_ok ps 0.
Proof. induction ps as [|p ps IH]; intros H; [exact I|]. inversion H; subst. destruct ps; cbn [sizes_ok]; [lia|]. split; [assumption|]. apply IH. assumption. Qed.
Lemma Forall_maps {A B} (P : B -> Prop) (f : A -> B) l : (forall x, P (f x)) -> Forall P (map f l).
Proof. intros H. induction l; constructor; [apply H|assumption]. Qed.
Lemma up4_le n : up4 n <= n + 3.
Proof. unfold up4. pose proof (Z.mul_div_le (Z.of_nat n + 3) 4). lia. Qed.
Lemma pks_valid cfg e c s r : env_ok e -> cfg_ok cfg e -> s + r <= 30 -> valid cfg (pks cfg e c s r) None /\ named cfg (pks cfg e c s r).
Proof.
  intros (U1 & T1 & T2 & U2 & U3 & Ev) (K1 & K2 & K3) L. split.
  - split; [|split; [|split; [|split; [|exact I]]]].
    + unfold pks. cbv zeta. destruct K1 as [-> | ->]; cbn [part app]; [discriminate|]. intros E. apply app_eq_nil in E as [_ E]. apply app_eq_nil in E as [_ E]. discriminate.
    + unfold pks. cbv zeta. rewrite !Forall_app. split; [|split; [|split]]; apply Forall_part; intros E; (constructor; [|constructor]).
      * assert (F : Forall rin_ok (map (e_rep e (k_di c)) (seq (k_ri c) r))) by (apply Forall_maps; intros i; apply Ev).
        destruct (e_sending e); cbn [pk_ok]; rewrite map_length, seq_length; split; try (split; [exact F|lia]); assumption.
      * cbn [pk_ok]. split; [exact U1|]. rewrite Forall_app. split; apply Forall_part; intros _.
        -- constructor; [|constructor]. cbn [xin_ok]. apply Forall_maps. intros i. apply Ev.
        -- constructor; [exact U2|]. induction (seq (k_ri c) r) as [|i l IH]; [constructor|]. cbn [map concat]. rewrite Forall_app. split; [|exact IH]. destruct (Ev (k_di c) i) as (_ & _ & X1 & X2 & X3). unfold xrs. repeat (constructor; [assumption|]). constructor.
      * cbn [pk_ok length]. split; [|lia]. constructor; [|constructor]. split; [exact U1|]. cbn [fst snd]. split; [constructor; [|constructor]; split; [cbn [fst]; lia|exact T1]|]. exists (e_cname e). split; [reflexivity|exact T2].
      * cbn [pk_ok length]. split; [constructor; [exact U1|constructor]|]. split; [lia|exact I].
    + apply sizes_ok_all. assert (Lm : Z.of_nat limit = 65532%Z) by reflexivity. unfold pks. cbv zeta. rewrite !Forall_app. split; [|split; [|split]]; apply Forall_part; intros E; (constructor; [|constructor]).
      * destruct (e_sending e); cbn [size]; rewrite map_length, seq_length; lia.
      * cbn [size]. rewrite map_app, total_app. destruct (e_sending e && (k_si c <? k_sn c)), (e_receiving e); cbn [part map]; rewrite ?total_cons, ?total_xrs, ?seq_length; cbn [size_xin total fold_right]; rewrite ?map_length, ?seq_length; lia.
      * cbn [size map]. unfold size_chunk. cbn [snd map]. rewrite !total_cons. change (total []) with 0. rewrite !Nat.add_0_r. destruct T1 as [T1 _]. pose proof (up4_le (4 + (2 + length (e_cname e)) + 1)). lia.
      * cbn [size length]. lia.
    + unfold allowed, pks. cbv zeta. split; [|split; [|split]]; intros E; rewrite ?E; cbn [andb part app].
      * destruct (e_sending e); reflexivity.
      * rewrite !Forall_app. split; [|split]; apply Forall_part; intros _; repeat constructor.
      * rewrite !Forall_app. split; [|split]; apply Forall_part; intros _; repeat constructor. destruct (e_sending e); exact I.
      * rewrite !Forall_app. split; [|split]; apply Forall_part; intros _; repeat constructor. destruct (e_sending e); exact I.
  - intros E. unfold pks. cbv zeta. rewrite E. apply Exists_app. right. apply Exists_app. right. apply Exists_app. left. apply Exists_cons_hd. exact I.
Qed.

(** *** What they tell *)
Definition shows {A} (f : view -> list A) (ps : list pk) : list A := concat (map f (map see ps)).
Lemma shows_app {A} (f : view -> list A) a b : shows f (a ++ b) = shows f a ++ shows f b.
Proof. unfold shows. rewrite !map_app, concat_app. reflexivity. Qed.
Lemma shows_one {A} (f : view -> list A) p : shows f [p] = f (see p).
Proof. unfold shows. cbn [map concat]. apply app_nil_r. Qed.
Lemma shows_none {A} (f : view -> list A) b ps : Forall (fun p => f (see p) = []) ps -> shows f (part b ps) = [].
Proof. destruct b; [|reflexivity]. unfold shows. cbn [part]. induction ps as [|p ps IH]; intros H; [reflexivity|]. inversion H; subst. cbn [map concat]. rewrite IH by assumption. rewrite app_nil_r. assumption. Qed.
Lemma dlrr_xrs e d l : concat (map (fun x => match x with XDlrr l => l | _ => [] end) (map see_xin (concat (map (xrs e d) l)))) = [].
Proof. induction l as [|i l IH]; [reflexivity|]. cbn [map concat]. rewrite !map_app, concat_app, IH. reflexivity. Qed.
Definition told_x (e : env) (d : nat) (l : list nat) : list xview := concat (map (fun i => map see_xin [IMeas (e_meas e d i); IDelay (e_delay e d i); IQueue (e_queue e d i)]) l).
Lemma metrics_xrs e d l : filter (fun x => match x with XMeas _ _ _ _ _ _ | XDelay _ _ _ _ _ _ | XQueue _ _ _ _ => true | _ => false end) (map see_xin (concat (map (xrs e d) l))) = told_x e d l.
Proof. unfold told_x. induction l as [|i l IH]; [reflexivity|]. cbn [map concat]. rewrite !map_app, filter_app, IH. reflexivity. Qed.
Lemma shows_dlrr cfg e c s r : (s = 0 \/ c_xr cfg = true /\ e_sending e = true /\ k_si c < k_sn c) ->
  shows dlrrs_in (pks cfg e c s r) = map (fun i => see_din (e_dlrr e (k_di c) i)) (seq (k_si c) s).
Proof.
  intros H. unfold pks. cbv zeta. rewrite !shows_app. rewrite (shows_none dlrrs_in (c_sdes cfg)), (shows_none dlrrs_in (e_bye e)), (shows_none dlrrs_in (c_srrr cfg)) by (repeat constructor; destruct (e_sending e); reflexivity).
  rewrite app_nil_r. cbn [app]. rewrite ?app_nil_r.
  destruct H as [->|(-> & -> & Hlt)].
  - cbn [seq map]. apply shows_none. constructor; [|constructor]. cbn [see]. unfold dlrrs_in, blocks_in. rewrite map_app, map_app, concat_app. 
    destruct (e_sending e && (k_si c <? k_sn c)), (e_receiving e); cbn [part map concat see_xin app]; rewrite ?dlrr_xrs; reflexivity.
  - apply Nat.ltb_lt in Hlt. rewrite Hlt. cbn [andb orb part]. rewrite shows_one. cbn [see app]. unfold dlrrs_in, blocks_in. rewrite map_cons. cbn [see_xin]. rewrite map_cons. cbn [concat]. rewrite map_map.
    replace (concat _) with (@nil dblock); [apply app_nil_r|]. destruct (e_receiving e); cbn [part map see_xin concat app]; [rewrite dlrr_xrs|]; reflexivity.
Qed.
Lemma shows_reports cfg e c s r : c_srrr cfg = true -> shows reports_in (pks cfg e c s r) = map (fun i => see_rin (e_rep e (k_di c) i)) (seq (k_ri c) r).
Proof.
  intros E. unfold pks. cbv zeta. rewrite !shows_app. rewrite (shows_none reports_in (c_sdes cfg)), (shows_none reports_in (e_bye e)), (shows_none reports_in (c_xr cfg && _)) by (repeat constructor).
  cbn [app]. rewrite !app_nil_r, E. cbn [part]. rewrite shows_one. destruct (e_sending e); cbn [see reports_in]; rewrite map_map; reflexivity.
Qed.
Lemma shows_metrics cfg e c s r : c_xr cfg = true -> e_receiving e = true -> shows metrics_in (pks cfg e c s r) = told_x e (k_di c) (seq (k_ri c) r).
Proof.
  intros Ex Er. unfold pks. cbv zeta. rewrite !shows_app. rewrite (shows_none metrics_in (c_sdes cfg)), (shows_none metrics_in (e_bye e)), (shows_none metrics_in (c_srrr cfg)) by (repeat constructor; destruct (e_sending e); reflexivity).
  rewrite !app_nil_r. cbn [app]. rewrite Ex, Er, orb_true_r. cbn [andb part]. rewrite shows_one. cbn [see]. unfold metrics_in, blocks_in. rewrite map_app, filter_app, map_cons. cbn [see_xin filter]. rewrite metrics_xrs.
  destruct (e_sending e && (k_si c <? k_sn c)); reflexivity.
Qed.

(** *** One packet *)
Lemma pks_built cfg e c cap s r : env_ok e -> cfg_ok cfg e -> s + r <= 30 ->
  exists b, w_run (w_new cfg cap) (calls (pks cfg e c s r) None) = Ok b /\ w_destroy b = Ok tt /\ (w_ok b = true <-> size_all (pks cfg e c s r) None <= cap) /\
    (w_ok b = true -> walk (w_result b) = Ok (Some (map see (pks cfg e c s r), false))).
Proof.
  intros Eo Co L. destruct (pks_valid cfg e c s r Eo Co L) as [V Nm]. destruct (C16_roundtrip cfg cap _ None V (or_introl eq_refl)) as (b & R & O & W).
  exists b. split; [exact R|]. split; [exact (C16_destroy _ _ _ _ _ V Nm R)|]. split; [exact O|]. intros X. apply W, X.
Qed.
Definition mid (e : env) (c : comm) : Prop :=
  k_dn c = e_dests e /\ k_di c < k_dn c /\ k_sn c = (if e_sending e then e_nsend e (k_di c) else 0) /\ k_rn c = (if e_receiving e then e_nrecv e (k_di c) else 0) /\
  k_si c <= k_sn c /\ k_ri c <= k_rn c.
Definition max_ok (c : comm) : Prop := 2 <= k_max c <= 31.
Lemma need_mono cfg e s r s' r' : s <= s' -> r <= r' -> need cfg e s r <= need cfg e s' r'.
Proof. intros H1 H2. unfold need. destruct (c_srrr cfg), (c_xr cfg), (e_sending e), (e_receiving e); lia. Qed.
Definition adv (c : comm) (s r m : nat) : comm := mkComm (k_dn c) (k_di c) (k_sn c) (k_si c + s) (k_rn c) (k_ri c + r) m.
Lemma payload_step cfg cap e : env_ok e -> cfg_ok cfg e -> two_fit cfg cap e -> forall fuel c, mid e c -> max_ok c -> k_max c < fuel ->
  exists s r m l, packet_payload fuel PtReports cfg cap e c = Ok (Some (adv c s r m, Some l)) /\ 2 <= m <= k_max c /\
    s <= k_sn c - k_si c /\ r <= k_rn c - k_ri c /\ (0 < (k_sn c - k_si c) + (k_rn c - k_ri c) -> 0 < s + r) /\
    walk l = Ok (Some (map see (pks cfg e c s r), false)).
Proof.
  intros Eo Co Tf. induction fuel as [|fuel IH]; intros c Mi Mx Hf; [lia|]. pose proof Mi as (M1 & M2 & M3 & M4 & M5 & M6). destruct Mx as [Mx1 Mx2].
  assert (Hr : k_rn c - k_ri c = remr e c) by (unfold remr; destruct (e_receiving e); lia). assert (Hs : k_sn c - k_si c = rems e c) by (unfold rems; destruct (e_sending e); lia).
  destruct (payload_is cfg e c Co ltac:(lia) Hr Hs) as (s & r & P & Ls & Lr & Sum). cbn [packet_payload payload_of]. cbv zeta. rewrite P. cbn [fst snd].
  destruct (pks_built cfg e c cap s r Eo Co ltac:(lia)) as (b & -> & D & O & W). cbn [bind]. rewrite D. cbn [bind].
  assert (Zs : s = 0 \/ k_si c < k_sn c) by lia. pose proof (pks_size cfg e c s r Zs) as Sz.
  destruct (w_ok b) eqn:Ob; cbn [negb].
  - exists s, r, (k_max c), (w_result b). split; [reflexivity|]. split; [lia|]. split; [lia|]. split; [lia|]. split; [lia|]. apply W. reflexivity.
  - assert (Big : cap < size_all (pks cfg e c s r) None) by (destruct (Nat.lt_ge_cases cap (size_all (pks cfg e c s r) None)) as [X|X]; [exact X|]; apply O in X; discriminate X).
    assert (T3 : 3 <= s + r).
    { destruct (le_lt_dec 3 (s + r)) as [X|X]; [exact X|]. exfalso. assert (need cfg e s r <= cap); [|lia]. apply Tf; [lia| |]; intros Hp.
      - unfold rems in Ls. destruct (e_sending e); [reflexivity|lia].
      - unfold remr in Lr. destruct (e_receiving e); [reflexivity|lia]. }
    destruct (Nat.leb_spec (s + r) 1); [lia|].
    destruct (IH (set_max c (s + r - 1))) as (s' & r' & m & l & Q1 & Q2 & Q3 & Q4 & Q5 & Q6); [exact Mi|unfold max_ok; cbn; lia|cbn; lia|].
    exists s', r', m, l. split; [exact Q1|]. cbn in Q2, Q3, Q4, Q5. split; [lia|]. split; [exact Q3|]. split; [exact Q4|]. split; [exact Q5|exact Q6].
Qed.
