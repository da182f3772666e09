(** C50: the session router of the receiver (SSRC, CNAME and address to session). *)
From Coq Require Import ZArith List Bool Lia.
From Verif Require Import Base Base_lemmas SessRouter_model SessRouter_spec SessRouter_proof SessRouterRef_proof.
Import ListNotations.
Local Open Scope Z_scope.

Lemma start oom : inv (router_new oom) /\ tied [] (st_routes (router_new oom)) /\
  known [] (st_routes (router_new oom)) /\ full (st_routes (router_new oom)).
Proof.
  splits; [apply inv_new | | |]; cbn; unfold tied, known, full; cbn; intros; tauto.
Qed.

(** Polite calls never abort, whatever allocations fail, and the router can be
    destroyed afterwards. *)
Theorem C50_safe : forall oom ops, all_polite [] ops ->
  exists ks st, rrun (router_new oom) ops = Ok (ks, st) /\ length ks = length ops /\
    exists st', remove_all (num_routes st) st = Ok st' /\ num_routes st' = 0%nat.
Proof.
  intros oom ops P. destruct (start oom) as (S1 & S2 & S3 & _).
  destruct (run_safe ops [] _ S1 S2 S3 P) as (ks & st & E & L & I & _).
  exists ks, st. splits; auto.
  destruct (remove_all_ok (num_routes st) st I (le_n _)) as (st' & E' & N).
  exists st'. split; auto. unfold num_routes. rewrite N. auto.
Qed.

(** As long as memory suffices, the answers are those of the reference table. *)
Theorem C50_refines : forall oom ops ks st, all_polite [] ops ->
  rrun (router_new oom) ops = Ok (ks, st) -> ~ In StNoMem ks ->
  exists v, spec_run v_empty ops ks v /\ answers st v /\
    (* SSRCs with the same CNAME lead to the same session *)
    (forall s t c, vc v s = Some c -> vc v t = Some c -> find_by_source st s = find_by_source st t).
Proof.
  intros oom ops ks st P E N. destruct (start oom) as (S1 & S2 & S3 & S4).
  exists (abs st). splits.
  - assert (X := run_refines ops [] _ ks st S1 S2 S3 S4 P E N). exact X.
  - unfold answers. auto.
  - destruct (run_safe ops [] _ S1 S2 S3 P) as (ks1 & st1 & E1 & _ & I & _).
    assert (st1 = st) by congruence. subst st1.
    intros s t c H1 H2. cbn in H1, H2. apply (fc_iff st I) in H1, H2.
    destruct H1 as (r & A1 & A2 & A3 & A4), H2 as (q & B1 & B2 & B3 & _).
    assert (r = q) by (eapply (u_cname st I); eauto). subst q.
    rewrite (fs_none st I s r), (fs_none st I t r); auto.
Qed.

(** A session found for an SSRC or an address was registered, is not removed,
    and is known to the router, even after failed allocations. *)
Theorem C50_valid : forall oom ops ks st x, all_polite [] ops ->
  rrun (router_new oom) ops = Ok (ks, st) ->
  (exists s, find_by_source st s = Some x) \/ (exists a, find_by_address st a = Some x) \/
    has_session st x = true ->
  has_session st x = true /\ registered (rev (combine ops ks)) x = true.
Proof.
  intros oom ops ks st x P E H. destruct (start oom) as (S1 & S2 & S3 & _).
  destruct (run_safe ops [] _ S1 S2 S3 P) as (ks1 & st1 & E1 & _ & I & K).
  assert (ks1 = ks /\ st1 = st) by (split; congruence). destruct H0; subst ks1 st1.
  rewrite app_nil_r in K.
  assert (X : exists r, In r (st_routes st) /\ r_sess r = Some x).
  { destruct H as [(s & H) | [(a & H) | H]].
    - apply (fs_iff st I) in H. destruct H as (r & H1 & _ & H2). eauto.
    - apply (fa_iff st I) in H. destruct H as (r & H1 & _ & H2). eauto.
    - apply (hs_iff st I) in H. auto. }
  split; [apply (hs_iff st I); auto |]. destruct X as (r & H1 & H2). eapply K; eauto.
Qed.

Lemma rrun_app ops : forall st ops' ks st',
  rrun st (ops ++ ops') = Ok (ks, st') ->
  exists k1 st1 k2, rrun st ops = Ok (k1, st1) /\ rrun st1 ops' = Ok (k2, st') /\ ks = k1 ++ k2.
Proof.
  induction ops as [| o ops IH]; intros st ops' ks st' H; cbn [app rrun] in *.
  - eauto 6.
  - destruct (rstep st o) as [[k s1] | |]; cbn [bind fst snd] in *; try discriminate H.
    destruct (rrun s1 (ops ++ ops')) as [[l s2] | |] eqn:E; cbn [bind fst snd] in *;
      try discriminate H.
    assert (ks = k :: l /\ s2 = st') by (split; congruence). destruct H0; subst.
    destruct (IH _ _ _ _ E) as (k1 & st1 & k2 & E1 & E2 & ->).
    exists (k :: k1), st1, k2. rewrite E1. auto.
Qed.

Lemma spec_run_app ops : forall ops' v ks w,
  spec_run v (ops ++ ops') ks w ->
  exists k1 k2 u, spec_run v ops k1 u /\ spec_run u ops' k2 w /\ ks = k1 ++ k2.
Proof.
  induction ops as [| o ops IH]; intros ops' v ks w H; cbn [app] in *.
  - exists [], ks, v. splits; auto. constructor. apply same_refl.
  - inversion H as [| ? ? r w' ? rs z H1 H2]; subst.
    destruct (IH _ _ _ _ H2) as (k1 & k2 & u & U1 & U2 & ->).
    exists (r :: k1), k2, u. splits; auto. econstructor; eauto.
Qed.

Lemma v_link v s c k w : spec_step v (RLink s c) k w -> vc w s = Some c.
Proof.
  cbn [spec_step]. intros (_ & H1 & H2).
  assert (D : vc v s = Some c \/ vc v s <> Some c).
  { destruct (vc v s) as [d |]; [| right; congruence].
    destruct (list_eq_dec Z.eq_dec d c); [left | right]; congruence. }
  destruct D as [D | D].
  - destruct (H1 D) as (_ & _ & _ & X). rewrite X. auto.
  - destruct (H2 D) as (t & _ & H). destruct (vs v s); destruct H as (_ & _ & _ & X);
      rewrite X; cbn; rewrite Z.eqb_refl; auto.
Qed.

Lemma v_link_other v s t c k w : spec_step v (RLink s c) k w -> t <> s -> vc w t = vc v t.
Proof.
  cbn [spec_step]. intros (_ & H1 & H2) N.
  assert (D : vc v s = Some c \/ vc v s <> Some c).
  { destruct (vc v s) as [d |]; [| right; congruence].
    destruct (list_eq_dec Z.eq_dec d c); [left | right]; congruence. }
  apply Z.eqb_neq in N.
  destruct D as [D | D].
  - destruct (H1 D) as (_ & _ & _ & X). rewrite X. auto.
  - destruct (H2 D) as (t' & _ & H). destruct (vs v s); destruct H as (_ & _ & _ & X);
      rewrite X; cbn; rewrite N; auto.
Qed.

(** Two SSRCs linked to one CNAME lead to one session. *)
Theorem C50_together : forall oom ops ks st s t c,
  all_polite [] (ops ++ [RLink s c; RLink t c]) ->
  rrun (router_new oom) (ops ++ [RLink s c; RLink t c]) = Ok (ks, st) -> ~ In StNoMem ks ->
  find_by_source st s = find_by_source st t.
Proof.
  intros oom ops ks st s t c P E N.
  destruct (C50_refines _ _ _ _ P E N) as (v & R & _ & T).
  destruct (spec_run_app _ _ _ _ _ R) as (k1 & k2 & u & _ & R2 & _).
  inversion R2 as [| ? ? r1 w1 ? rs1 ? H1 R3]; subst.
  inversion R3 as [| ? ? r2 w2 ? rs2 ? H2 R4]; subst.
  inversion R4 as [? ? S4 |]; subst. destruct S4 as (_ & _ & _ & S4).
  destruct (Z.eq_dec t s) as [-> | D]; auto. apply (T s t c).
  - rewrite <- S4, (v_link_other _ _ s _ _ _ H2); [| congruence]. apply v_link in H1. auto.
  - rewrite <- S4. apply v_link in H2. auto.
Qed.

(** After a successful registration both keys lead to the new session. *)
Theorem C50_added : forall oom ops ks st x s a,
  all_polite [] (ops ++ [RAdd x s (Some a)]) ->
  rrun (router_new oom) (ops ++ [RAdd x s (Some a)]) = Ok (ks ++ [StOK], st) -> ~ In StNoMem ks ->
  find_by_source st s = Some x /\ find_by_address st a = Some x /\ has_session st x = true.
Proof.
  intros oom ops ks st x s a P E N.
  destruct (C50_refines _ _ _ _ P E) as (v & R & (A1 & A2 & A3) & _).
  { rewrite in_app_iff. cbn. intuition congruence. }
  destruct (spec_run_app _ _ _ _ _ R) as (k1 & k2 & u & _ & R2 & X).
  inversion R2 as [| ? ? r1 w1 ? rs1 ? H1 R3]; subst.
  inversion R3 as [? ? S4 |]; subst. apply app_inj_tail in X. destruct X as [_ <-].
  cbn [spec_step] in H1. destruct H1 as [H1 H2].
  destruct (va u a) eqn:Ea. { destruct H1 as [Y _]; [left; congruence | discriminate Y]. }
  destruct (vl u x) eqn:Ex. { destruct H1 as [Y _]; [right; congruence | discriminate Y]. }
  destruct (H2 eq_refl eq_refl) as (_ & u' & _ & W1 & W2 & W3 & _).
  destruct S4 as (S1 & S2 & S3 & _).
  rewrite A1, A2, A3, <- S1, <- S2, <- S3, W1, W2, W3. cbn. rewrite !Z.eqb_refl, Nat.eqb_refl. auto.
Qed.

(** After removal nothing leads to the session. *)
Theorem C50_removed : forall oom ops ks st x, all_polite [] ops ->
  rrun (router_new oom) (ops ++ [RRemove x]) = Ok (ks, st) ->
  (forall s, find_by_source st s <> Some x) /\ (forall a, find_by_address st a <> Some x) /\
  has_session st x = false.
Proof.
  intros oom ops ks st x P E.
  assert (P' : all_polite [] (ops ++ [RRemove x])).
  { assert (G : forall l h, all_polite h l -> all_polite h (l ++ [RRemove x])).
    { induction l as [| o l IH]; cbn; intros h Q; [auto |]. destruct Q as [Q1 Q2]. auto. }
    apply G, P. }
  assert (R : registered (rev (combine (ops ++ [RRemove x]) ks)) x = false).
  { destruct (C50_safe oom _ P') as (k1 & s1 & E1 & L1 & _).
    assert (k1 = ks) by congruence. subst k1. clear - L1. revert ks L1.
    assert (G : forall (l : list (rop * code)) k, rev (l ++ [(RRemove x, k)]) = (RRemove x, k) :: rev l).
    { intros. rewrite rev_app_distr. auto. }
    intros ks L. assert (exists ks' k, ks = ks' ++ [k]) as (ks' & k & ->).
    { destruct (exists_last (l := ks)) as (ks' & k & ->); eauto.
      intros ->. rewrite app_length in L. cbn in L. lia. }
    rewrite !app_length in L. cbn in L. assert (length ks' = length ops) by lia.
    assert (X : combine (ops ++ [RRemove x]) (ks' ++ [k]) = combine ops ks' ++ [(RRemove x, k)]).
    { clear - H. revert ks' H. induction ops; intros [| z ks'] H; cbn in *; auto; try lia.
      rewrite IHops; auto. }
    rewrite X, G. cbn. rewrite Nat.eqb_refl. auto. }
  assert (V : forall y, (exists s, find_by_source st s = Some y) \/ (exists a, find_by_address st a = Some y) \/
    has_session st y = true -> registered (rev (combine (ops ++ [RRemove x]) ks)) y = true).
  { intros y H. eapply C50_valid; eauto. }
  splits.
  - intros s H. rewrite V in R; [discriminate R | eauto].
  - intros a H. rewrite V in R; [discriminate R | eauto].
  - destruct (has_session st x) eqn:H; auto. rewrite V in R; [discriminate R | auto].
Qed.

(** Calls that are not polite may abort the process. *)
Definition cA : list Z := [97].
Definition cB : list Z := [98].

(** Linking to an empty CNAME. *)
Theorem C50_empty_cname_refuted : rrun (router_new []) [RLink 1 []] = Panic.
Proof. vm_compute. reflexivity. Qed.

(** Changing the CNAME of an SSRC that has no session yet, twice: the first time
    the empty address is inserted in the table of addresses, the second time it
    is there already. *)
Theorem C50_relink_refuted :
  rrun (router_new []) [RLink 1 cA; RLink 2 cB; RLink 1 cB; RLink 3 cA; RLink 4 [99]; RLink 3 [99]] = Panic.
Proof. vm_compute. reflexivity. Qed.

(** One such change makes the target CNAME's SSRCs lose their session. *)
Theorem C50_relink_wipes_refuted : exists ks st st',
  rrun (router_new []) [RLink 1 cA; RLink 2 cB; RAdd 7 2 (Some 50)] = Ok (ks, st) /\
  find_by_source st 2 = Some 7%nat /\
  link_source st 1 cB = Ok (StOK, st') /\ find_by_source st' 2 = None /\
  find_by_address st' 50 = None /\ has_session st' 7 = false.
Proof.
  do 3 eexists. split; [vm_compute; reflexivity |]. split; [vm_compute; reflexivity |].
  split; [vm_compute; reflexivity |]. vm_compute. auto.
Qed.

(** The hypotheses are met: a sender with separate source and repair SSRCs is
    joined by CNAME, leaves and comes back. *)
Definition story : list rop :=
  [RAdd 1 10 (Some 500); RLink 10 cA; RLink 11 cA; RAdd 2 20 (Some 600); RAdd 3 20 (Some 500);
   RLink 20 cA; RUnlink 10; RUnlink 20; RRemove 2; RAdd 4 10 (Some 500); RLink 10 cB].

Example C50_story_polite : all_polite [] story.
Proof. repeat split; unfold cA, cB; cbn; auto; congruence. Qed.

Example C50_story_runs : exists st,
  rrun (router_new []) story =
    Ok ([StOK; StOK; StOK; StOK; StConflict; StOK; StOK; StOK; StOK; StOK; StOK], st) /\
  map (find_by_source st) [10; 11; 20] = [Some 4%nat; None; None] /\
  find_by_address st 500 = Some 4%nat /\ find_by_address st 600 = None.
Proof. eexists. split; [vm_compute; reflexivity |]. vm_compute. auto. Qed.

(* before the first session ends all three SSRCs share the later session *)
Example C50_story_joined : exists ks st, rrun (router_new []) (firstn 6 story) = Ok (ks, st) /\
  map (find_by_source st) [10; 11; 20] = [Some 2%nat; Some 2%nat; Some 2%nat] /\
  has_session st 1 = false.
Proof. do 2 eexists. split; [vm_compute; reflexivity |]. vm_compute. auto. Qed.

(* a failed allocation *)
Example C50_story_nomem : exists ks st,
  rrun (router_new [true; true; false]) story = Ok (ks, st) /\ hd StOK ks = StNoMem.
Proof. do 2 eexists. split; vm_compute; reflexivity. Qed.

Print Assumptions C50_safe.
Print Assumptions C50_refines.
Print Assumptions C50_valid.
Print Assumptions C50_together.
Print Assumptions C50_added.
Print Assumptions C50_removed.
