(** C70: the concurrent packet queue. *)
From Verif Require Import Base Mpsc_model Mpsc_spec Mpsc_proof Mpsc_props ConcQueue_model ConcQueue_spec ConcQueue_proof.

Lemma prefix_of : forall b ls outs s, cq_run b cq_new ls = Ok (outs, s) ->
  exists rest, entered outs = got outs ++ held s ++ rest.
Proof.
  intros b ls outs s R. apply new_run in R. destruct (i_run _ _ _ R) as (l & F & M).
  apply C28_fifo in M. rewrite (i_pop _ _ _ R) in M.
  exists (skipn (length (got outs ++ held s)) (entered outs)).
  rewrite app_assoc. rewrite M at 1. symmetry. apply firstn_skipn.
Qed.

(** Packets are read in the order in which they entered the queue, each once; those of
    one writer enter in the order of its calls, between call and return. *)
Theorem C70_fifo : forall b ls outs s, cq_run b cq_new ls = Ok (outs, s) ->
  got outs = firstn (length (got outs)) (entered outs) /\
  forall t, behind_one (entered_by t outs) (called_by t outs) /\
            behind_one (wrote_by t outs) (entered_by t outs).
Proof.
  intros b ls outs s R. split.
  - destruct (prefix_of _ _ _ _ R) as (rest & E). rewrite E, firstn_app, Nat.sub_diag, firstn_all.
    cbn. rewrite app_nil_r. auto.
  - intros t. apply new_run in R. destruct (i_run _ _ _ R) as (l & F & M).
    split; [apply (C28_producer_order _ _ _ t M)|].
    pose proof (run_tcase t l mq_new _ _ [] [] [] M (conj eq_refl eq_refl)) as H. cbn [app] in H.
    pose proof (i_by _ _ _ R t) as B. pose proof (i_w _ _ _ R t) as W.
    unfold entered_by, behind_one. destruct (c_w s t).
    + rewrite W in H. rewrite app_nil_r in B. cbn [tcase] in H. destruct H as [H1 H2]. left. congruence.
    + rewrite app_nil_r in B. destruct W as [W|[W|(a & W)]]; rewrite W in H; cbn [tcase] in H; destruct H as [H1 H2].
      * left. congruence.
      * left. congruence.
      * right. exists x. congruence.
    + rewrite W in H. cbn [tcase] in H. destruct H as [H1 H2]. right. exists x. congruence.
Qed.

(** In blocking mode a read never returns without a packet. *)
Theorem C70_blocking : forall ls outs s r, cq_run true cq_new ls = Ok (outs, s) ->
  ~ In (CGot r None) outs.
Proof. intros ls outs s r R. apply new_run in R. apply (proj1 (i_some _ _ _ R eq_refl)). Qed.

(** In both modes a read that finds nothing does so at a moment when every packet that
    entered the queue was read. *)
Theorem C70_nodata : forall b ls outs s r o s', cq_run b cq_new ls = Ok (outs, s) ->
  cq_step b s (CReader r) = Some (Ok (o, s')) -> c_r s r <> RHave None -> c_r s' r = RHave None ->
  got outs = entered outs.
Proof.
  intros b ls outs s r o s' R S N H. apply new_run in R.
  cbn [cq_step] in S. unfold cq_reader in S. destruct (c_r s r) eqn:CR; try discriminate S.
  - destruct (c_sem s); [discriminate S|]. injection S as <- <-. cbn in H. rewrite upf_same in H. discriminate H.
  - destruct (mq_step (c_q s) (QPop true)) as [[(x, q)| |]|]; try discriminate S. injection S as <- <-.
    cbn in H. rewrite upf_same in H. discriminate H.
  - assert (CL : c_lock s = Some r) by (apply (i_lock _ _ _ R); congruence).
    destruct (mq_step (c_q s) QCons) as [[(x, q)| |]|] eqn:MS; try discriminate S.
    assert (E : x = QPopped None).
    { injection S as <- <-. cbn in H. destruct x; try congruence. rewrite upf_same in H. congruence. }
    subst x. destruct (i_run _ _ _ R) as (l & F & M).
    assert (Q : popped (inner outs) = queued (inner outs)).
    { eapply C28_blocking_empty; [|exact M|exact MS]. apply Forall_app. split; auto.
      constructor; auto. discriminate. }
    rewrite (i_pop _ _ _ R) in Q. unfold held in Q. rewrite CL, CR, app_nil_r in Q. exact Q.
  - injection S as <- <-. cbn in H. rewrite upf_same in H. discriminate H.
Qed.

(** No wakeup is lost: while a reader can not go on, as many packets were read as writes
    returned, and if nobody is writing, every packet that entered the queue was read. *)
Theorem C70_waiting : forall ls outs s r, cq_run true cq_new ls = Ok (outs, s) -> stuck s r ->
  length (got outs) = length (wrote outs) /\ (no_writes s -> got outs = entered outs).
Proof.
  intros ls outs s r R [S1 S2]. pose proof (C70_fifo _ _ _ _ R) as [FI _]. apply new_run in R.
  assert (CL : c_lock s = Some r) by (apply (i_lock _ _ _ R); congruence).
  pose proof (i_sem _ _ _ R eq_refl) as SE. unfold past in SE. rewrite CL, S1, S2 in SE.
  split; [lia|]. intros NW. destruct (i_late _ _ _ R) as (P & P1 & P2 & P3).
  assert (P = []).
  { destruct P as [|t P]; auto. exfalso. assert (L : late s t) by (apply P2; left; auto).
    pose proof (i_w _ _ _ R t) as W. rewrite (NW t) in W. destruct L as [(x & a & L)|(x & L)]; [congruence|].
    rewrite (NW t) in L. discriminate L. }
  subst P. cbn in P3. rewrite FI. rewrite firstn_all2; auto. lia.
Qed.

(** A double write of a packet that is still queued aborts; nothing else does. *)
Theorem C70_safe : forall b ls outs s l r, cq_run b cq_new ls = Ok (outs, s) ->
  cq_step b s l = Some r ->
  (exists o s', r = Ok (o, s')) \/
  (r = Panic /\ exists t x, l = CWrite t x /\
     (count_occ Z.eq_dec (popped (inner outs)) x < count_occ Z.eq_dec (called (inner outs)) x)%nat).
Proof.
  intros b ls outs s l r R S. apply new_run in R. destruct (i_run _ _ _ R) as (l0 & F & M).
  assert (K : forall ml mr, mq_step (c_q s) ml = Some mr ->
    (exists o q, mr = Ok (o, q)) \/ (mr = Panic /\ exists t x, ml = QPush t x /\
      (count_occ Z.eq_dec (popped (inner outs)) x < count_occ Z.eq_dec (called (inner outs)) x)%nat)).
  { intros ml mr E. destruct (run_qinv l0 mq_new [stub] _ _ new_qinv M) as (L & I & _).
    pose proof (step_qinv (c_q s) L ml mr I E) as ST. destruct mr as [(o, q)| |]; [eauto| |tauto].
    right. split; auto. destruct ST as (t & x & -> & Ho). exists t, x. split; auto.
    pose proof (run_ocase x l0 mq_new _ _ [] [] M eq_refl) as H. unfold ocase in H. cbn [app] in H.
    rewrite Ho in H. lia. }
  destruct l as [t x|t|u|u]; cbn [cq_step] in S.
  - destruct (c_w s t); try discriminate S.
    destruct (mq_step (c_q s) (QPush t x)) as [mr|] eqn:E; [|discriminate S].
    destruct (K _ _ E) as [(o & q & ->)|(-> & t' & x' & Q & C)].
    + left. injection S as <-. eauto.
    + right. split; [congruence|]. exists t', x'. split; auto. congruence.
  - left. unfold cq_writer in S. destruct (c_w s t); try discriminate S.
    + destruct (mq_step (c_q s) (QStep t)) as [mr|] eqn:E; [|discriminate S].
      destruct (K _ _ E) as [(o & q & ->)|(-> & t' & x' & Q & C)]; [|discriminate Q].
      destruct (mq_prods q t), b; injection S as <-; eauto.
    + injection S as <-. eauto.
  - left. destruct (c_r s u), (c_lock s); try discriminate S. injection S as <-. eauto.
  - left. unfold cq_reader in S. destruct (c_r s u); try discriminate S.
    + destruct (c_sem s); [discriminate S|]. injection S as <-. eauto.
    + destruct (mq_step (c_q s) (QPop true)) as [mr|] eqn:E; [|discriminate S].
      destruct (K _ _ E) as [(o & q & ->)|(-> & t' & x' & Q & C)]; [|discriminate Q].
      injection S as <-. eauto.
    + destruct (mq_step (c_q s) QCons) as [mr|] eqn:E; [|discriminate S].
      destruct (K _ _ E) as [(o & q & ->)|(-> & t' & x' & Q & C)]; [|discriminate Q].
      injection S as <-. eauto.
    + injection S as <-. eauto.
Qed.

(** Steps of a reader after its read returned do nothing. *)
Lemma idle_steps : forall b s r n, c_r s r = RIdle -> cq_run b s (repeat (CReader r) n) = Ok ([], s).
Proof.
  induction n as [|n IH]; intros H; cbn [repeat cq_run]; auto.
  cbn [cq_step]. unfold cq_reader. rewrite H. auto.
Qed.

Lemma idle_cons : forall q n, mq_cons q = MCIdle -> mq_run q (repeat QCons n) = Ok ([], q).
Proof.
  induction n as [|n IH]; intros H; cbn [repeat mq_run]; auto.
  cbn [mq_step]. unfold mq_cons_step. rewrite H. auto.
Qed.

(** The pop of the inner queue, as steps of the reader. *)
Lemma sim_cons : forall b r k m s oi q v, (k < m)%nat -> c_r s r = RPop ->
  mq_run (c_q s) (repeat QCons k) = Ok (oi, q) -> In (QPopped v) oi ->
  exists o s', cq_run b s (repeat (CReader r) m) = Ok (o, s') /\ In (CGot r v) o /\
    got o = (match v with Some x => [x] | None => [] end) /\ c_r s' r = RIdle.
Proof.
  induction k as [|k IH]; intros m s oi q v KM CR R I; cbn [repeat mq_run] in R.
  { injection R as <- <-. destruct I. }
  destruct m as [|m]; [lia|]. cbn [repeat cq_run cq_step]. unfold cq_reader. rewrite CR.
  destruct (mq_step (c_q s) QCons) as [[(x, q1)| |]|] eqn:MS; cbn [bind fst snd] in R |- *; try discriminate R.
  - destruct (mq_run q1 (repeat QCons k)) as [(o2, q2)| |] eqn:R2; cbn [bind fst snd] in R; try discriminate R.
    injection R as <- <-. destruct (cons_eff _ _ _ MS) as (_ & [(-> & P2)|(w & -> & P2)]).
    + destruct I as [I|I]; [discriminate I|].
      edestruct (IH m (mkCq q1 (c_sem s) (c_w s) (c_r s) (c_lock s)) o2 q2 v) as (o & s' & E & E1 & E2 & E3); auto; [lia|].
      rewrite E. cbn [bind fst snd]. exists ([CQ QNone] ++ o), s'. split; auto. split; [right; auto|]. split; auto.
    + rewrite (idle_cons q1 k P2) in R2. injection R2 as <- <-.
      destruct I as [I|[]]. assert (w = v) by congruence. subst w.
      destruct m as [|m]; [lia|]. cbn [repeat cq_run cq_step]. unfold cq_reader. cbn [c_r]. rewrite upf_same.
      cbn [bind fst snd].
      match goal with |- context [cq_run b ?st (repeat (CReader r) m)] =>
        assert (Q : cq_run b st (repeat (CReader r) m) = Ok ([], st)) by (apply idle_steps; cbn; apply upf_same);
        rewrite Q; cbn [bind fst snd]; eexists; exists st end.
      split; [reflexivity|]. split; [cbn; auto|]. split; [destruct v; auto|]. cbn. apply upf_same.
  - exfalso. cbn [mq_step] in MS. unfold mq_cons_step in MS. destruct (mq_cons (c_q s)) eqn:C; try discriminate MS.
    rewrite (idle_cons _ k C) in R. injection R as <- <-. destruct I.
Qed.

(** While nobody is writing and no read is under way, a read returns the next unread
    packet within eleven steps of its own. *)
Theorem C70_progress : forall b ls outs s r x rest, cq_run b cq_new ls = Ok (outs, s) ->
  no_writes s -> c_lock s = None -> entered outs = got outs ++ x :: rest ->
  exists o s', cq_run b s (CRead r :: repeat (CReader r) 10) = Ok (o, s') /\
    In (CGot r (Some x)) o /\ got o = [x].
Proof.
  intros b ls outs s r x rest R NW CL EN. apply new_run in R.
  assert (CR : c_r s r = RIdle).
  { destruct (c_r s r) eqn:C; auto; exfalso;
      assert (Z : c_lock s = Some r) by (apply (i_lock _ _ _ R); congruence); congruence. }
  assert (PI : forall t, mq_prods (c_q s) t = MPIdle).
  { intros t. pose proof (i_w _ _ _ R t) as W. rewrite (NW t) in W. auto. }
  pose proof (i_free _ _ _ R CL) as MC.
  destruct (i_run _ _ _ R) as (l0 & F & M).
  destruct (run_qinv l0 mq_new [stub] _ _ new_qinv M) as (L & QI & E').
  cbn [in_hand mq_new mq_cons app elems filter negb Z.eqb stub] in E'. rewrite MC in E'. cbn [in_hand app] in E'.
  rewrite (i_pop _ _ _ R) in E'. unfold held in E'. rewrite CL, app_nil_r in E'.
  unfold entered in EN. rewrite E' in EN. apply app_inv_head in EN.
  destruct (drain_one (c_q s) L true QI MC PI) as (oi & q' & L' & RR & _ & _ & _ & _ & _ & _ & IN).
  rewrite EN in IN. cbn [hd_error] in IN. unfold one_pop in RR. cbn [mq_run] in RR.
  destruct (mq_step (c_q s) (QPop true)) as [[(y, q1)| |]|] eqn:MS; cbn [bind fst snd] in RR; try discriminate RR.
  2:{ cbn [mq_step] in MS. rewrite MC in MS. discriminate MS. }
  destruct (mq_run q1 (repeat QCons 7)) as [(o7, q7)| |] eqn:R7; cbn [bind fst snd] in RR; try discriminate RR.
  assert (Q : oi = y :: o7) by congruence. destruct (pop_eff _ _ _ _ MS) as (-> & _ & _).
  rewrite Q in IN. destruct IN as [IN|IN]; [discriminate IN|].
  cbn [cq_run cq_step]. rewrite CR, CL. cbn [bind fst snd].
  assert (GO : forall n s1, (8 < n)%nat -> c_r s1 r = RGo -> c_q s1 = c_q s ->
    exists o s', cq_run b s1 (repeat (CReader r) n) = Ok (o, s') /\ In (CGot r (Some x)) o /\ got o = [x]).
  { intros n s1 N C1 C2. destruct n as [|n]; [lia|]. cbn [repeat cq_run cq_step]. unfold cq_reader. rewrite C1, C2, MS.
    cbn [bind fst snd].
    destruct (sim_cons b r 7 n (mkCq q1 (c_sem s1) (c_w s1) (upf (c_r s1) r RPop) (c_lock s1)) o7 q7 (Some x))
      as (o & s' & E & E1 & E2 & E3); auto; [lia|cbn; apply upf_same|].
    rewrite E. cbn [bind fst snd]. exists ([CQ QNone] ++ o), s'. split; auto. split; [right; auto|]. auto. }
  destruct b.
  - pose proof (i_sem _ _ _ R eq_refl) as SE. unfold past in SE. rewrite CL in SE.
    destruct (i_late _ _ _ R) as (P & P1 & P2 & P3).
    assert (P = []).
    { destruct P as [|t P]; auto. exfalso. assert (LT : late s t) by (apply P2; left; auto).
      destruct LT as [(z & a & LT)|(z & LT)]; [rewrite PI in LT; discriminate LT|]. rewrite (NW t) in LT. discriminate LT. }
    subst P. unfold entered in P3. rewrite E', app_length, EN in P3. cbn [length] in P3.
    destruct (c_sem s) as [|n] eqn:CS; [lia|].
    change (repeat (CReader r) 10) with (CReader r :: repeat (CReader r) 9). cbn [cq_run cq_step]. unfold cq_reader at 1. cbn [c_r c_sem].
    rewrite upf_same. cbn [bind fst snd c_q c_w c_r c_lock c_sem].
    match goal with |- context [cq_run true ?st (repeat (CReader r) 9)] =>
      destruct (GO 9%nat st) as (o & s' & E & E1 & E2); [lia|cbn; apply upf_same|auto|rewrite E] end.
    cbn [bind fst snd]. exists ([] ++ [] ++ o), s'. cbn [app]. auto.
  - match goal with |- context [cq_run false ?st (repeat (CReader r) 10)] =>
      destruct (GO 10%nat st) as (o & s' & E & E1 & E2); [lia|cbn; apply upf_same|auto|rewrite E] end.
    cbn [bind fst snd]. exists ([] ++ o), s'. cbn [app]. auto.
Qed.

(** Two writers and a reader; both packets arrive. *)
Definition ex_two : list cqlabel :=
  [CWrite 0 5; CWriter 0; CWriter 0; CWrite 1 6; CWriter 1; CWriter 1; CWriter 1; CWriter 1; CWriter 0].

Example ex_both :
  exists outs s, cq_run true cq_new (ex_two ++ [CWriter 0; CRead 0] ++ repeat (CReader 0) 10 ++
                                     [CRead 3] ++ repeat (CReader 3) 10) = Ok (outs, s) /\
    got outs = [5; 6] /\ entered outs = [5; 6] /\ wrote outs = [6; 5] /\ no_writes s /\ c_sem s = O.
Proof.
  do 2 eexists. split; [vm_compute; reflexivity|]. repeat split; try reflexivity.
  intros [|[|t]]; reflexivity.
Qed.

(** The promise that a read blocks only while the queue is empty is broken for a while: a
    packet whose write returned is in the queue, unread, and the reader waits for a writer
    that is stopped before its end. *)
Theorem C70_blocked_refuted :
  exists ls outs s, cq_run true cq_new ls = Ok (outs, s) /\ stuck s 0 /\
    wrote outs = [6] /\ got outs = [5] /\ entered outs = [5; 6].
Proof.
  exists (ex_two ++ [CRead 0] ++ repeat (CReader 0) 10 ++ [CRead 0]).
  do 2 eexists. split; [vm_compute; reflexivity|]. repeat split; reflexivity.
Qed.

Lemma run_app2 : forall b l1 l2 s o1 s1, cq_run b s l1 = Ok (o1, s1) ->
  forall o2 s2, cq_run b s1 l2 = Ok (o2, s2) -> cq_run b s (l1 ++ l2) = Ok (o1 ++ o2, s2).
Proof.
  induction l1 as [|l l1 IH]; intros l2 s o1 s1 E1 o2 s2 E2; cbn [cq_run app] in *.
  - injection E1 as <- <-. auto.
  - destruct (cq_step b s l) as [[(o, s0)| |]|]; cbn [bind fst snd] in *; try discriminate E1; [|eauto].
    destruct (cq_run b s0 l1) as [(o3, s3)| |] eqn:ER; cbn [bind fst snd] in *; try discriminate E1.
    injection E1 as <- <-. rewrite (IH l2 _ _ _ ER _ _ E2). cbn [bind fst snd]. rewrite app_assoc. auto.
Qed.

(** Reads of a non-blocking queue are documented to be wait-free if there is one reader.
    They are not: while a writer is stopped inside [write], the read goes on forever. *)
Theorem C70_wait_free_refuted : forall n,
  exists outs s, cq_run false cq_new ([CWrite 0 5; CWriter 0; CWriter 0; CRead 0] ++ repeat (CReader 0) n)
                 = Ok (outs, s) /\ forall r v, ~ In (CGot r v) outs.
Proof.
  intros n.
  destruct (Nat.le_gt_cases n 2) as [LE|GT].
  - destruct n as [|[|[|n]]]; [| | |lia]; do 2 eexists; (split; [vm_compute; reflexivity|]);
      intros r v; cbn; intuition discriminate.
  - replace n with (2 + (n - 2))%nat by lia. rewrite repeat_app, app_assoc.
    assert (H : forall m s, c_r s 0%nat = RPop -> (exists k, mq_cons (c_q s) = MCWait1 true k) ->
      mq_next (c_q s) (mq_head (c_q s)) = None ->
      exists o s', cq_run false s (repeat (CReader 0) m) = Ok (o, s') /\ forall r v, ~ In (CGot r v) o).
    { induction m as [|m IH]; intros s C1 (k & C2) C3; cbn [repeat cq_run].
      - exists [], s. split; auto.
      - cbn [cq_step]. unfold cq_reader. rewrite C1. cbn [mq_step]. unfold mq_cons_step. rewrite C2, C3.
        unfold goto. cbn [bind fst snd].
        match goal with |- context [cq_run false ?st _] => destruct (IH st) as (o & s' & E & N) end; auto.
        { cbn. eauto. }
        rewrite E. cbn [bind fst snd]. eexists. exists s'. split; [reflexivity|].
        intros r v I. cbn in I. destruct I as [I|I]; [discriminate I|]. eapply N; eauto. }
    match goal with |- context [cq_run false cq_new (?l1 ++ ?l2)] =>
      assert (E1 : exists o1 s1, cq_run false cq_new l1 = Ok (o1, s1) /\ (forall r v, ~ In (CGot r v) o1) /\
        c_r s1 0%nat = RPop /\ (exists k, mq_cons (c_q s1) = MCWait1 true k) /\
        mq_next (c_q s1) (mq_head (c_q s1)) = None) end.
    { do 2 eexists. split; [vm_compute; reflexivity|]. split; [intros r v; cbn; intuition discriminate|].
      split; [reflexivity|]. split; [eexists; reflexivity|]. reflexivity. }
    destruct E1 as (o1 & s1 & E1 & N1 & C1 & C2 & C3).
    destruct (H (n - 2)%nat s1 C1 C2 C3) as (o & s' & E & N).
    exists (o1 ++ o), s'. split; [eapply run_app2; eauto|].
    intros r v I. apply in_app_iff in I. destruct I as [I|I]; [eapply N1; eauto|eapply N; eauto].
Qed.

Print Assumptions C70_fifo.
Print Assumptions C70_blocking.
Print Assumptions C70_nodata.
Print Assumptions C70_waiting.
Print Assumptions C70_safe.
Print Assumptions C70_progress.
Print Assumptions C70_blocked_refuted.
Print Assumptions C70_wait_free_refuted.
