(** Proofs for C19: all packets of a generation, and sequences of generations. *)
From Coq Require Import Lia.
From Verif Require Import Base Base_lemmas RtcpTrav_model RtcpBuild_model RtcpBuild_spec RtcpBuild_proof RtcpBuild_props Communicator_model Communicator_spec Communicator_proof.
Open Scope res_scope.
Local Open Scope nat_scope.

Definition tells (cfg : wcfg) (e : env) (d a s b r : nat) (l : list pkt_out) : Prop :=
  (e_sending e = true -> found dlrrs_in d l = map (fun i => see_din (e_dlrr e d i)) (seq a s)) /\
  (e_receiving e = true -> c_srrr cfg = true -> found reports_in d l = map (fun i => see_rin (e_rep e d i)) (seq b r)) /\
  (e_receiving e = true -> c_xr cfg = true -> found metrics_in d l = told_x e d (seq b r)).
Lemma found_none {A} (f : view -> list A) d l : ~ In d (map fst l) -> found f d l = [].
Proof. intros H. unfold found. replace (filter _ l) with (@nil pkt_out); [reflexivity|]. induction l as [|p l IH]; [reflexivity|]. cbn in *. destruct (Nat.eqb_spec (fst p) d); [tauto|]. apply IH. tauto. Qed.
Lemma found_cons {A} (f : view -> list A) d p l vs : fst p = d -> walk (snd p) = Ok (Some (vs, false)) -> found f d (p :: l) = concat (map f vs) ++ found f d l.
Proof. intros H W. unfold found. cbn [filter]. destruct (Nat.eqb_spec (fst p) d); [|contradiction]. cbn [map concat]. rewrite W. reflexivity. Qed.
Lemma found_other {A} (f : view -> list A) d p l : fst p <> d -> found f d (p :: l) = found f d l.
Proof. intros H. unfold found. cbn [filter]. destruct (Nat.eqb_spec (fst p) d); [contradiction|]. reflexivity. Qed.
Lemma told_x_app e d a b : told_x e d (a ++ b) = told_x e d a ++ told_x e d b.
Proof. unfold told_x. rewrite map_app, concat_app. reflexivity. Qed.
Lemma tells_none cfg e d a b l : ~ In d (map fst l) -> tells cfg e d a 0 b 0 l.
Proof. intros H. unfold tells. rewrite !found_none by exact H. repeat split; reflexivity. Qed.
Lemma tells_cons cfg e c bytes s r s' r' l : (s = 0 \/ c_xr cfg = true /\ e_sending e = true /\ k_si c < k_sn c) ->
  walk bytes = Ok (Some (map see (pks cfg e c s r), false)) -> tells cfg e (k_di c) (k_si c + s) s' (k_ri c + r) r' l -> tells cfg e (k_di c) (k_si c) (s + s') (k_ri c) (r + r') ((k_di c, bytes) :: l).
Proof.
  intros H W (T1 & T2 & T3). unfold tells. rewrite !(found_cons _ _ _ _ _ (eq_refl : fst (k_di c, bytes) = k_di c) W), !seq_app, !map_app, told_x_app.
  split; [|split].
  - intros E. rewrite T1 by exact E. f_equal. apply shows_dlrr. exact H.
  - intros E1 E2. rewrite T2 by assumption. f_equal. apply shows_reports. exact E2.
  - intros E1 E2. rewrite T3 by assumption. f_equal. apply shows_metrics; assumption.
Qed.
Lemma tells_other cfg e d a s b r p l : fst p <> d -> tells cfg e d a s b r l -> tells cfg e d a s b r (p :: l).
Proof. intros H T. unfold tells in *. rewrite !found_other by exact H. exact T. Qed.

Definition ns (e : env) (d : nat) : nat := if e_sending e then e_nsend e d else 0.
Definition nr (e : env) (d : nat) : nat := if e_receiving e then e_nrecv e d else 0.
Definition later (e : env) (d : nat) : nat := total (map (fun d => 1 + ns e d + nr e d) (seq d (e_dests e - d))).
Definition left_ (e : env) (c : comm) : nat := (k_sn c - k_si c) + (k_rn c - k_ri c) + later e (k_di c + 1).
Lemma later_step e d : d < e_dests e -> later e d = 1 + ns e d + nr e d + later e (d + 1).
Proof. intros H. unfold later. replace (e_dests e - d) with (S (e_dests e - (d + 1))) by lia. cbn [seq map]. rewrite total_cons. rewrite Nat.add_1_r. reflexivity. Qed.
Definition told_from (cfg : wcfg) (e : env) (c : comm) (l : list pkt_out) : Prop :=
  Forall (fun p => k_di c <= fst p < e_dests e /\ readable p) l /\
  tells cfg e (k_di c) (k_si c) (k_sn c - k_si c) (k_ri c) (k_rn c - k_ri c) l /\
  forall d, k_di c < d < e_dests e -> In d (map fst l) /\ tells cfg e d 0 (ns e d) 0 (nr e d) l.
Definition fresh (e : env) (m d : nat) : comm := mkComm (e_dests e) d (ns e d) 0 (nr e d) 0 m.
(** the state in which the next packet is generated *)
Definition after (cfg : wcfg) (e : env) (io : nat -> io) (n : nat) (bye : bool) (out : comm * bool * status * list pkt_out) (m : nat) (Q : list pkt_out -> Prop) : Prop :=
  let '(c', bye', st, l) := out in
  2 <= k_max c' <= m /\ (bye' = true \/ bye' = bye) /\ (st = StOk -> Q l) /\ ((forall i, n <= i -> io i = io_good) -> st = StOk).

Section Loop.
Variables (cfg : wcfg) (cap : nat) (e : env) (io : nat -> io).
Hypotheses (Eo : env_ok e) (Co : cfg_ok cfg e) (Tf : two_fit cfg cap e).
Lemma fresh_mid m d : d < e_dests e -> mid e (fresh e m d).
Proof. intros H. unfold mid, fresh, ns, nr. cbn. destruct (e_sending e), (e_receiving e); lia. Qed.
(** a packet, then the rest *)
Definition rest (fuel fuel' n : nat) (bye : bool) (c : comm) : res (option (comm * bool * status * list pkt_out)) :=
  r <- gen_packet fuel PtReports cfg cap e (io n) c ;;
  match r with
  | None => Ok None
  | Some (c, b, inl s) => Ok (Some (c, bye || b, s, []))
  | Some (c, b, inr p) =>
    if negb (io_write (io n)) then Ok (Some (c, bye || b, StWriter, []))
    else
      r <- gen_loop fuel' PtReports cfg cap e io (n + 1) c (bye || b) ;;
      Ok (match r with None => None | Some (c, b, s, l) => Some (c, b, s, p :: l) end)
  end.
Lemma rest_step fuel fuel' n bye c : mid e c -> max_ok c -> k_max c < fuel ->
  (forall s r m bye', 2 <= m <= k_max c -> s <= k_sn c - k_si c -> r <= k_rn c - k_ri c -> (0 < k_sn c - k_si c + (k_rn c - k_ri c) -> 0 < s + r) -> (bye' = true \/ bye' = bye) ->
     exists out, gen_loop fuel' PtReports cfg cap e io (n + 1) (adv c s r m) bye' = Ok (Some out) /\ after cfg e io (n + 1) bye' out m (told_from cfg e (adv c s r m))) ->
  exists out, rest fuel fuel' n bye c = Ok (Some out) /\
    after cfg e io n bye out (k_max c) (fun l => In (k_di c) (map fst l) /\ told_from cfg e c l) /\ (io_alloc (io n) = true -> e_bye e = true -> snd (fst (fst out)) = true).
Proof.
  intros Mi Mx Hf IH. unfold rest, gen_packet. destruct (io_alloc (io n)) eqn:Ia; cbn [negb].
  2:{ cbn [bind]. eexists. split; [reflexivity|]. split; [|discriminate]. unfold after. split; [unfold max_ok in Mx; lia|]. split; [rewrite orb_false_r; tauto|]. split; [discriminate|]. intros G. rewrite (G n) in Ia by lia. discriminate Ia. }
  destruct (payload_step cfg cap e Eo Co Tf fuel c Mi Mx Hf) as (s & r & m & l & -> & Q1 & Q2 & Q3 & Q4 & W). cbn [bind].
  destruct (io_buffer (io n)) eqn:Ib; cbn [negb].
  2:{ eexists. split; [reflexivity|]. split; [|cbn; intros _ ->; apply orb_true_r]. unfold after. split; [cbn; lia|]. split; [destruct bye, (e_bye e); tauto|]. split; [discriminate|]. intros G. rewrite (G n) in Ib by lia. discriminate Ib. }
  destruct (io_prepare (io n)) eqn:Ip; cbn [negb].
  2:{ eexists. split; [reflexivity|]. split; [|cbn; intros _ ->; apply orb_true_r]. unfold after. split; [cbn; lia|]. split; [destruct bye, (e_bye e); tauto|]. split; [discriminate|]. intros G. rewrite (G n) in Ip by lia. discriminate Ip. }
  destruct (io_write (io n)) eqn:Iw; cbn [negb].
  2:{ eexists. split; [reflexivity|]. split; [|cbn; intros _ ->; apply orb_true_r]. unfold after. split; [cbn; lia|]. split; [destruct bye, (e_bye e); tauto|]. split; [discriminate|]. intros G. rewrite (G n) in Iw by lia. discriminate Iw. }
  destruct (IH s r m (bye || e_bye e) Q1 Q2 Q3 Q4 ltac:(destruct bye, (e_bye e); tauto)) as (out & -> & A). cbn [bind].
  destruct out as [[[c' bye'] st] l']. eexists. split; [reflexivity|]. destruct A as (A1 & A2 & A3 & A4). split.
  - unfold after. split; [lia|]. split; [destruct bye, (e_bye e), A2 as [-> | ->]; cbn; tauto|]. split; [|intros G; apply A4; intros i Hi; apply G; lia].
    intros ->. destruct (A3 eq_refl) as (B1 & B2 & B3). change (k_di (adv c s r m)) with (k_di c) in *. split; [left; reflexivity|]. pose proof Mi as (M1 & M2 & M3 & M4 & M5 & M6).
    split; [|split].
    + constructor; [|exact B1]. cbn [fst]. split; [cbn; lia|]. exists (map see (pks cfg e c s r)). exact W.
    + replace (k_sn c - k_si c) with (s + (k_sn c - (k_si c + s))) by lia. replace (k_rn c - k_ri c) with (r + (k_rn c - (k_ri c + r))) by lia.
      apply tells_cons; [|exact W|exact B2]. destruct (e_sending e) eqn:Es; [|left; lia]. destruct Co as (_ & K2 & _). rewrite Es in K2. destruct (Nat.eq_dec s 0); [left; assumption|]. right. split; [apply K2; reflexivity|]. split; [reflexivity|lia].
    + intros d Hd. destruct (B3 d Hd) as [C1 C2]. split; [right; exact C1|]. apply tells_other; [cbn; lia|exact C2].
  - cbn [fst snd]. intros _ Hb. rewrite Hb, orb_true_r in A2. destruct A2 as [A2|A2]; exact A2.
Qed.
Lemma gen_is fuel n bye c : gen_loop (S fuel) PtReports cfg cap e io n c bye =
  if negb (snd (continue_gen e c)) then Ok (Some (fst (continue_gen e c), bye, StOk, [])) else rest (S fuel) fuel n bye (fst (continue_gen e c)).
Proof. cbn [gen_loop]. destruct (continue_gen e c) as [c' go]. reflexivity. Qed.
Lemma loop_run : forall m fuel n bye c, mid e c -> max_ok c -> left_ e c <= m -> m + 31 < fuel ->
  exists out, gen_loop fuel PtReports cfg cap e io n c bye = Ok (Some out) /\ after cfg e io n bye out (k_max c) (told_from cfg e c).
Proof.
  induction m as [m IH] using lt_wf_ind. intros fuel n bye c Mi Mx Hm Hf. destruct fuel as [|fuel]; [lia|]. rewrite gen_is. pose proof Mi as (M1 & M2 & M3 & M4 & M5 & M6).
  unfold continue_gen. destruct (Nat.leb_spec (k_sn c) (k_si c)) as [H1|H1]; [destruct (Nat.leb_spec (k_rn c) (k_ri c)) as [H2|H2]|]; cbn [andb fst snd negb].
  - destruct (Nat.eqb_spec (k_dn c) 0) as [E0|_]; [lia|]. destruct (Nat.leb_spec (k_dn c) (k_di c + 1)) as [H3|H3]; cbn [fst snd negb].
    + eexists. split; [reflexivity|]. unfold after. cbn [k_max]. split; [unfold max_ok in Mx; lia|]. split; [tauto|]. split; [|reflexivity]. intros _. split; [constructor|]. split; [|intros d Hd; lia].
      replace (k_sn c - k_si c) with 0 by lia. replace (k_rn c - k_ri c) with 0 by lia. apply tells_none. intros [].
    + rewrite M1. change (mkComm (e_dests e) (k_di c + 1) _ 0 _ 0 (k_max c)) with (fresh e (k_max c) (k_di c + 1)). set (c1 := fresh e (k_max c) (k_di c + 1)).
      assert (Mi1 : mid e c1) by (apply fresh_mid; lia). assert (Lt : left_ e c1 < left_ e c). { unfold left_. rewrite (later_step e (k_di c + 1)) by lia. unfold c1, fresh. cbn. lia. }
      destruct (rest_step (S fuel) fuel n bye c1 Mi1 Mx ltac:(unfold max_ok in Mx; cbn; lia)) as (out & -> & A & _).
      { intros s r m' bye' Hm' Hs Hr Hp Hb. apply (IH (left_ e c1)); [lia| | | |lia].
        - destruct Mi1 as (X1 & X2 & X3 & X4 & X5 & X6). unfold mid, adv. cbn [k_dn k_di k_sn k_si k_rn k_ri]. repeat split; try assumption; lia.
        - unfold max_ok in *. cbn in *. lia.
        - unfold left_, adv. cbn [k_sn k_si k_rn k_ri k_di]. lia. }
      exists out. split; [reflexivity|]. destruct out as [[[c' b'] st] l]. destruct A as (A1 & A2 & A3 & A4). unfold after. split; [exact A1|]. split; [exact A2|]. split; [|exact A4]. intros E. destruct (A3 E) as (I1 & B1 & B2 & B3). change (k_di c1) with (k_di c + 1) in *. split; [|split].
      * eapply Forall_impl; [|exact B1]. cbn. intros p [Hp Hq]. split; [lia|exact Hq].
      * replace (k_sn c - k_si c) with 0 by lia. replace (k_rn c - k_ri c) with 0 by lia. apply tells_none. intros X. apply in_map_iff in X as (p & Ep & Ip). rewrite Forall_forall in B1. apply B1 in Ip. lia.
      * intros d Hd. destruct (Nat.eq_dec d (k_di c + 1)) as [->|N]; [|apply B3; lia]. split; [exact I1|]. cbn in B2. rewrite !Nat.sub_0_r in B2. exact B2.
  - destruct (rest_step (S fuel) fuel n bye c Mi Mx ltac:(unfold max_ok in Mx; lia)) as (out & -> & A & _).
    { intros s r m' bye' Hm' Hs Hr Hp Hb. specialize (Hp ltac:(lia)). assert (M0 : 0 < m) by (unfold left_ in Hm; lia). apply (IH (m - 1)); [lia| | | |lia].
      - unfold mid, adv. cbn [k_dn k_di k_sn k_si k_rn k_ri]. repeat split; try assumption; lia.
      - unfold max_ok in *. cbn. lia.
      - unfold left_, adv in *. cbn [k_sn k_si k_rn k_ri k_di]. lia. }
    exists out. split; [reflexivity|]. destruct out as [[[c' b'] st] l]. destruct A as (A1 & A2 & A3 & A4). unfold after. repeat split; try tauto. all: apply A3; assumption.
  - destruct (rest_step (S fuel) fuel n bye c Mi Mx ltac:(unfold max_ok in Mx; lia)) as (out & -> & A & _).
    { intros s r m' bye' Hm' Hs Hr Hp Hb. specialize (Hp ltac:(lia)). assert (M0 : 0 < m) by (unfold left_ in Hm; lia). apply (IH (m - 1)); [lia| | | |lia].
      - unfold mid, adv. cbn [k_dn k_di k_sn k_si k_rn k_ri]. repeat split; try assumption; lia.
      - unfold max_ok in *. cbn. lia.
      - unfold left_, adv in *. cbn [k_sn k_si k_rn k_ri k_di]. lia. }
    exists out. split; [reflexivity|]. destruct out as [[[c' b'] st] l]. destruct A as (A1 & A2 & A3 & A4). unfold after. repeat split; try tauto. all: apply A3; assumption.
Qed.
(** [k]: any state kept from the previous generation *)
Lemma gen_run k : max_ok k -> (e_bye e = true -> 0 < e_dests e /\ io_alloc (io 0) = true) -> forall fuel, later e 0 + 40 < fuel ->
  exists c' st l, gen_packets fuel PtReports cfg cap e io k = Ok (Some (c', st, l)) /\ 2 <= k_max c' <= k_max k /\ (st = StOk -> told_all cfg e l) /\ ((forall i, io i = io_good) -> st = StOk).
Proof.
  intros Mx Hb fuel Hf. unfold gen_packets. destruct fuel as [|fuel]; [lia|]. rewrite gen_is. unfold continue_gen. cbn [k_sn k_si k_rn k_ri k_dn k_di k_max Nat.leb andb Nat.eqb].
  destruct (Nat.leb_spec (e_dests e) 0) as [H0|H0]; cbn [fst snd negb bind].
  - destruct (e_bye e) eqn:Eb; [destruct (Hb eq_refl); lia|]. cbn [andb]. do 3 eexists. split; [reflexivity|]. split; [cbn; unfold max_ok in Mx; lia|]. split; [|reflexivity]. intros _. split; [constructor|]. intros d Hd. lia.
  - change (mkComm (e_dests e) 0 _ 0 _ 0 (k_max k)) with (fresh e (k_max k) 0). set (c1 := fresh e (k_max k) 0).
    assert (Mi1 : mid e c1) by (apply fresh_mid; lia). assert (Lt : left_ e c1 < later e 0). { unfold left_. rewrite (later_step e 0) by lia. unfold c1, fresh. cbn. lia. }
    destruct (rest_step (S fuel) fuel 0 false c1 Mi1 Mx ltac:(unfold max_ok in Mx; cbn; lia)) as (out & -> & A & Bb).
    { intros s r m' bye' Hm' Hs Hr Hp Hbb. apply (loop_run (left_ e c1)); [| | |lia].
      - destruct Mi1 as (X1 & X2 & X3 & X4 & X5 & X6). unfold mid, adv. cbn [k_dn k_di k_sn k_si k_rn k_ri]. repeat split; try assumption; lia.
      - unfold max_ok in *. cbn in *. lia.
      - unfold left_, adv. cbn [k_sn k_si k_rn k_ri k_di]. lia. }
    cbn [bind]. destruct out as [[[c' b'] st] l]. destruct A as (A1 & A2 & A3 & A4). cbn [fst snd] in Bb.
    assert (Eb : e_bye e && negb b' = false). { destruct (e_bye e) eqn:Eb; [|reflexivity]. rewrite Bb by (first [reflexivity|apply Hb; reflexivity]). reflexivity. }
    rewrite Eb. do 3 eexists. split; [reflexivity|]. split; [exact A1|]. split; [|intros G; apply A4; intros; apply G].
    intros E. destruct (A3 E) as (I1 & B1 & B2 & B3). change (k_di c1) with 0 in *. split.
    + eapply Forall_impl; [|exact B1]. cbn. intros p [Hp Hq]. split; [lia|exact Hq].
    + intros d Hd. assert (T : In d (map fst l) /\ tells cfg e d 0 (ns e d) 0 (nr e d) l).
      { destruct (Nat.eq_dec d 0) as [->|N]; [|apply B3; lia]. split; [exact I1|]. cbn in B2. rewrite !Nat.sub_0_r in B2. exact B2. }
      destruct T as (T0 & T1 & T2 & T3). split; [exact T0|]. unfold ns, nr in *. split; [|split].
      * intros Es. rewrite Es in T1. apply T1. reflexivity.
      * intros Er Ec. rewrite Er in T2. apply T2; [reflexivity|exact Ec].
      * intros Er Ec. rewrite Er in T3. apply T3; [reflexivity|exact Ec].
Qed.
End Loop.
