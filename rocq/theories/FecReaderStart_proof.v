(** A reader that never starts (C14). *)
From Verif Require Import Base Seqnum_model SortedQueue_model FecReader_model FecReader_spec FecReader_proof FecReaderRun_proof FecReaderSafe_proof.
Open Scope res_scope.
Local Open Scope Z_scope.

(** Both readers deliver some packets and then have no more. *)
Definition more (s r : list rpk) : rin := mkRin s false r false.

Definition known (e : renv) (p : rpk) : Prop := exists g, k_fec p = Some g /\ c_scheme g = o_scheme e.
Record stuck (e : renv) (k : nat) (r : fr) : Prop := {
  st_a : r_alive r = true; st_s : r_started r = false; st_r : r_sres r = true; st_l : length (r_sb r) = k;
  st_q : forall p, In p (sq_list (r_src r)) -> known e p /\ forall g, k_fec p = Some g -> c_sblen g <> k;
  st_p : forall p, In p (sq_list (r_rep r)) -> known e p }.
Lemma fetch_in : forall e l err q, (forall p, In p l -> known e p) ->
  exists q', fetch e q l err = Ok (q', true, negb err) /\ forall p, In p (sq_list q') -> In p (sq_list q) \/ In p l.
Proof.
  induction l as [|x l IH]; intros err q H; cbn [fetch].
  - exists q. auto.
  - destruct (H x (or_introl eq_refl)) as (g & E & Eg). unfold scheme_ok. rewrite E, Eg, Z.eqb_refl. cbn [bind].
    destruct (IH err (sq_write pk_cmp q x)) as (q' & F & Hq); [intros; apply H; right; auto|].
    exists q'. split; [exact F|]. intros p Hp. destruct (Hq p Hp) as [Hw|Hl]; [|right; right; auto].
    assert (G : Forall (fun p => In p (sq_list q) \/ p = x) (sq_list (sq_write pk_cmp q x)))
      by (apply write_forall; [auto|apply Forall_forall; auto]).
    rewrite Forall_forall in G. destruct (G p Hw) as [| ->]; auto. right. left. reflexivity.
Qed.

Lemma head_in (q : sq rpk) p : sq_head q = Some p -> In p (sq_list q).
Proof. unfold sq_head. intros H. apply back_in in H. rewrite H. apply in_or_app. right. left. reflexivity. Qed.
Lemma removelast_in {A} (l : list A) x : In x (removelast l) -> In x l.
Proof. induction l as [|y [|z l] IH]; cbn [removelast]; [tauto|intros []|]. intros [<- |H]; [left; auto|right; auto]. Qed.
Lemma read_in (q : sq rpk) p : In p (sq_list (fst (sq_read q))) -> In p (sq_list q).
Proof. unfold sq_read. destruct (list_back _); cbn; [apply removelast_in|auto]. Qed.
Lemma stuck_read e k r i : stuck e k r -> (forall p, In p (i_src i) \/ In p (i_rep i) -> known e p) ->
  (forall p g, In p (i_src i) -> k_fec p = Some g -> c_sblen g <> k) ->
  exists r' s p, fr_read e r i = Ok (r', s, p) /\ stuck e k r'.
Proof.
  intros T Hk Hs. unfold fr_read. rewrite (st_a _ _ _ T). cbn [negb]. unfold fr_read_, fetch_all.
  destruct (fetch_in e (i_src i) (i_srcerr i) (r_src r)) as (q1 & E1 & H1); [intros; apply Hk; auto|]. rewrite E1. cbn [bind fst snd].
  assert (G1 : forall p, In p (sq_list q1) -> known e p /\ forall g, k_fec p = Some g -> c_sblen g <> k).
  { intros p Hp. destruct (H1 p Hp) as [Hq|Hq]; [apply (st_q _ _ _ T); auto|]. split; [apply Hk; auto|]. intros g. apply Hs. exact Hq. }
  destruct (i_srcerr i); cbn [negb bind fst snd].
  { rewrite (st_a _ _ _ T : r_alive (set_src r q1) = true). cbn [negb]. do 3 eexists. split; [reflexivity|]. destruct T. constructor; auto. }
  cbn [set_src r_rep]. destruct (fetch_in e (i_rep i) (i_reperr i) (r_rep r)) as (q2 & E2 & H2); [intros; apply Hk; auto|].
  change (r_rep (set_src r q1)) with (r_rep r). rewrite E2. cbn [bind fst snd].
  assert (G2 : forall p, In p (sq_list q2) -> known e p) by (intros p Hp; destruct (H2 p Hp); [apply (st_p _ _ _ T); auto|apply Hk; auto]).
  set (r1 := set_rep (set_src r q1) q2).
  assert (T1 : stuck e k r1) by (destruct T; constructor; auto).
  destruct (i_reperr i); cbn [negb bind fst snd].
  { rewrite (st_a _ _ _ T1). cbn [negb]. do 3 eexists. split; [reflexivity|exact T1]. }
  rewrite (st_s _ _ _ T1).
  assert (Et : try_start e r1 = Ok (r1, false)).
  { unfold try_start. destruct (sq_head (r_src r1)) as [p|] eqn:Eh; [|reflexivity].
    assert (Hp : In p (sq_list (r_src r1))) by (apply head_in; exact Eh).
    destruct (st_q _ _ _ T1 p Hp) as ((g & Eg & _) & Hn). unfold fec_of. rewrite Eg. cbn [bind].
    unfold process_source. destruct (source_ok g); cbn [negb fst snd]; [|reflexivity].
    destruct (can_payload r1 (c_psize g)); cbn [negb fst snd]; [|reflexivity].
    unfold can_source. rewrite (st_l _ _ _ T1), (st_r _ _ _ T1). rewrite (proj2 (Nat.eqb_neq k (c_sblen g))); [|intros Ek; exact (Hn g Eg (eq_sym Ek))].
    reflexivity. }
  rewrite Et. cbn [bind negb fst snd]. rewrite (st_a _ _ _ T1 : r_alive (set_src r1 (fst (sq_read (r_src r1)))) = true). cbn [negb].
  do 3 eexists. split; [reflexivity|]. destruct T1. constructor; auto. intros p Hp. apply st_q0. apply (read_in _ _ Hp).
Qed.

Lemma never_starts : forall e is first f, o_alloc e 0 = true -> k_fec first = Some f -> c_scheme f = o_scheme e ->
  source_ok f = true -> (0 < c_esi f)%nat -> (c_sblen f <= o_max e)%nat ->
  (forall p, In p (sources is) \/ In p (repairs is) -> known e p) ->
  (forall p g, In p (sources is) -> k_fec p = Some g -> c_sblen g <> c_sblen f) ->
  exists r outs, fr_run e fr_new (more [first] [] :: is) = Ok (r, outs) /\ r_started r = false /\ r_alive r = true /\ decoded outs = [].
Proof.
  intros e is first f Ha Ef Es Ok1 Hp Hm Hk Hn.
  assert (G : forall is r, stuck e (c_sblen f) r -> (forall p, In p (sources is) \/ In p (repairs is) -> known e p) ->
    (forall p g, In p (sources is) -> k_fec p = Some g -> c_sblen g <> c_sblen f) ->
    exists r' o, fr_run e r is = Ok (r', o) /\ stuck e (c_sblen f) r' /\ decoded o = []).
  { clear. induction is as [|i is IH]; intros r T Hk Hn; cbn [fr_run]; [exists r, []; auto|].
    unfold sources, repairs in Hk, Hn. cbn [flat_map] in Hk, Hn.
    destruct (stuck_read e _ r i T) as (r1 & s & p & E & T1).
    - intros p [H|H]; apply Hk; [left|right]; apply in_or_app; auto.
    - intros p g H. apply Hn. apply in_or_app. auto.
    - rewrite E. cbn [bind fst snd]. destruct (IH r1 T1) as (r2 & o & E2 & T2 & D).
      + intros q [H|H]; apply Hk; [left|right]; apply in_or_app; auto.
      + intros q g H. apply Hn. apply in_or_app. auto.
      + rewrite E2. cbn [bind fst snd]. do 2 eexists. split; [reflexivity|]. split; [exact T2|]. cbn [decoded flat_map]. rewrite (st_s _ _ _ T1). exact D. }
  assert (F : exists r s p, fr_read e fr_new (more [first] []) = Ok (r, s, p) /\ stuck e (c_sblen f) r).
  { set (q := sq_write pk_cmp (sq_new 0) first). assert (Eq : q = mkSq [first] (Some first) 0) by reflexivity.
    set (r0 := set_rep (set_src fr_new q) (sq_new 0)).
    assert (Ef1 : fetch_all e fr_new (more [first] []) = Ok (r0, true)).
    { unfold fetch_all, more. cbn [i_src i_srcerr i_rep i_reperr fetch]. unfold scheme_ok. rewrite Ef, Es, Z.eqb_refl. reflexivity. }
    assert (Hk0 : (0 < c_sblen f)%nat) by (unfold source_ok in Ok1; apply andb_prop in Ok1 as [Ok2 _]; apply andb_prop in Ok2 as [Ok2 _]; apply andb_prop in Ok2 as [Ok2 _]; apply Nat.ltb_lt in Ok2; lia).
    assert (Ep : process_source e r0 f = (set_sres (set_sb (tick (set_pay r0 (c_psize f))) (resize_to [] (c_sblen f))), true)).
    { unfold process_source. rewrite Ok1. cbn [negb]. unfold can_payload. change (r_pres r0) with false. cbn [negb]. rewrite Bool.orb_true_r. cbn [negb].
      unfold can_source. change (r_sb r0) with (@nil (option rpk)). cbn [length]. rewrite (proj2 (Nat.eqb_neq 0 (c_sblen f))) by lia.
      change (r_sres r0) with false. rewrite (proj2 (Nat.ltb_ge _ _) Hm). cbn [negb fst snd]. unfold update_source.
      change (r_sb (set_pay r0 (c_psize f))) with (@nil (option rpk)). cbn [length]. rewrite (proj2 (Nat.eqb_neq 0 (c_sblen f))) by lia.
      change (r_tick (set_pay r0 (c_psize f))) with 0%nat. rewrite Ha. reflexivity. }
    unfold fr_read. change (r_alive fr_new) with true. cbn [negb]. unfold fr_read_. rewrite Ef1. cbn [bind fst snd negb].
    change (r_started r0) with false. unfold try_start. change (sq_head (r_src r0)) with (Some first). unfold fec_of. rewrite Ef. cbn [bind]. rewrite Ep. cbn [fst snd negb].
    set (r1 := set_sbn _ (c_sbn f)). change (drop_repair (S (length (sq_list (r_rep r1)))) r1) with (Ok r1). cbn [bind]. rewrite (proj2 (Nat.ltb_lt _ _) Hp). cbn [bind fst snd negb].
    change (r_alive (set_src r1 (fst (sq_read (r_src r1))))) with true. cbn [negb].
    do 3 eexists. split; [reflexivity|]. constructor; try reflexivity; try (cbn; tauto). change (length (resize_to [] (c_sblen f)) = c_sblen f). unfold resize_to. rewrite firstn_nil. cbn [length app]. rewrite repeat_length. lia. }
  destruct F as (r & s & p & E & T). cbn [fr_run]. rewrite E. cbn [bind fst snd].
  destruct (G is r T Hk Hn) as (r2 & o & E2 & T2 & D). rewrite E2. cbn [bind fst snd].
  do 2 eexists. split; [reflexivity|]. split; [apply (st_s _ _ _ T2)|]. split; [apply (st_a _ _ _ T2)|]. cbn [decoded flat_map]. rewrite (st_s _ _ _ T). exact D.
Qed.
