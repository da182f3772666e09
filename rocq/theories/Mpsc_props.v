From Verif Require Import Base Base_lemmas Mpsc_model Mpsc_spec Mpsc_proof.

(** Under every schedule, elements are popped in the order in which they were
    queued: none is lost, invented or popped twice. *)
Theorem C28_fifo : forall ls outs s,
  mq_run mq_new ls = Ok (outs, s) -> popped outs = firstn (length (popped outs)) (queued outs).
Proof.
  intros ls outs s E. destruct (run_qinv ls mq_new [stub] outs s new_qinv E) as (L & _ & E').
  cbn [in_hand mq_new mq_cons app elems filter negb Z.eqb stub] in E'. rewrite E'. rewrite firstn_app, Nat.sub_diag. cbn [firstn].
  rewrite firstn_all, app_nil_r. auto.
Qed.
Print Assumptions C28_fifo.

(** Each push is queued between its call and its return, so elements pushed by
    one producer are queued, hence popped, in the order of its calls; a push
    that returned is queued. *)
Theorem C28_producer_order : forall ls outs s t,
  mq_run mq_new ls = Ok (outs, s) ->
  behind_one (queued_of t outs) (calls_of t outs) /\ behind_one (returned_of t outs) (queued_of t outs).
Proof.
  intros ls outs s t E. pose proof (run_tcase t ls mq_new outs s [] [] [] E) as H.
  specialize (H (conj eq_refl eq_refl)). cbn [app] in H. unfold behind_one. destruct (mq_prods s t); cbn [tcase] in H.
  - destruct H as (-> & ->). auto.
  - destruct H as (-> & ->). eauto.
  - destruct H as (-> & ->). eauto.
  - destruct H as (E1 & E2). rewrite E1. split; [auto|]. right. eauto.
Qed.
Print Assumptions C28_producer_order.

(** Pushing an element that is not in the queue never fails, and nothing else
    fails either. *)
Theorem C28_safe : forall ls outs s l,
  mq_run mq_new ls = Ok (outs, s) ->
  (forall t x, l = QPush t x -> count_occ Z.eq_dec (called outs) x = count_occ Z.eq_dec (popped outs) x) ->
  forall r, mq_step s l = Some r -> exists o s', r = Ok (o, s').
Proof.
  intros ls outs s l E HP r ES. destruct (run_qinv ls mq_new [stub] outs s new_qinv E) as (L & I & _).
  pose proof (step_qinv s L l r I ES) as ST. destruct r as [(o, s')| |]; [eauto| |tauto].
  destruct ST as (t & x & -> & Ho). specialize (HP t x eq_refl).
  pose proof (run_ocase x ls mq_new outs s [] [] E) as H. specialize (H eq_refl). unfold ocase in H. cbn [app] in H. rewrite Ho in H. lia.
Qed.
Print Assumptions C28_safe.

(** Pushing an element that is in the queue is detected. *)
Theorem C28_double_push_detected : forall ls outs s t x,
  mq_run mq_new ls = Ok (outs, s) -> mq_prods s t = MPIdle -> x <> stub ->
  (count_occ Z.eq_dec (popped outs) x < count_occ Z.eq_dec (called outs) x)%nat ->
  mq_step s (QPush t x) = Some Panic.
Proof.
  intros ls outs s t x E Et Hx HC. pose proof (run_ocase x ls mq_new outs s [] [] E) as H. specialize (H eq_refl). unfold ocase in H. cbn [app] in H.
  cbn [mq_step]. rewrite Et. destruct (Z.eqb_spec x stub); [congruence|]. destruct (mq_owned s x); [auto|lia].
Qed.
Print Assumptions C28_double_push_detected.

(** A pop reports an empty queue only if it is empty at that moment, or (for
    the non-blocking pop) a push is in progress. *)
Theorem C28_empty : forall ls outs s l s',
  mq_run mq_new ls = Ok (outs, s) -> mq_step s l = Some (Ok (QPopped None, s')) ->
  popped outs = queued outs \/ exists t, returned_of t outs <> queued_of t outs.
Proof.
  intros ls outs s l s' E ES. destruct (run_qinv ls mq_new [stub] outs s new_qinv E) as (L & I & E').
  cbn [in_hand mq_new mq_cons app elems filter negb Z.eqb stub] in E'.
  pose proof (step_qinv s L l _ I ES) as ST. cbn beta iota in ST. destruct ST as (L' & _ & _ & Q). specialize (Q eq_refl).
  destruct Q as [Q|(t & x & a & Ht)].
  - left. rewrite E', Q, app_nil_r. auto.
  - right. exists t. pose proof (run_tcase t ls mq_new outs s [] [] [] E (conj eq_refl eq_refl)) as H. cbn [app] in H.
    rewrite Ht in H. cbn [tcase] in H. destruct H as (E1 & E2). rewrite E1, E2. intros H. 
    apply (f_equal (@length Z)) in H. rewrite app_length in H. cbn in H. lia.
Qed.
Print Assumptions C28_empty.

(** With the blocking pop alone, "empty" always means empty. *)
Definition spinning (c : mcons) : Prop :=
  match c with MCIdle | MCRelease _ => True
  | MCTail1 b | MCWait1 b _ | MCNext b | MCTail2 b | MCStubClear b | MCStubXchg b | MCStubLink b _ | MCWait2 b _ => b = true end.
Lemma spin_step s l o s' : spinning (mq_cons s) -> l <> QPop false -> mq_step s l = Some (Ok (o, s')) ->
  spinning (mq_cons s') /\ (o = QPopped None -> mq_tail s = mq_head s /\ exists b, mq_cons s = MCTail1 b).
Proof.
  intros S NL E. destruct l as [u x|u|spin|]; cbn [mq_step] in E.
  - destruct (mq_prods s u) eqn:Eu; try discriminate. destruct (x =? stub); [discriminate|]. destruct (mq_owned s x); [discriminate|].
    injection E as <- <-. split; [auto|discriminate].
  - unfold mq_prod_step in E. destruct (mq_prods s u) eqn:Eu; try discriminate; injection E as <- <-; (split; [auto|discriminate]).
  - destruct (mq_cons s); try discriminate. destruct spin; [|congruence]. unfold mq_begin_pop, goto, advance, finish in E.
    destruct (mq_next s (mq_head s)), (mq_head s =? stub); injection E as <- <-; (split; [exact I || reflexivity|discriminate]).
  - unfold mq_cons_step, goto, advance, finish, return_null in E. destruct (mq_cons s) as [|spin|spin k|spin|spin|spin|spin|spin prev|spin k|x] eqn:EC; try discriminate; cbn [spinning] in S; try subst spin.
    + destruct (Z.eqb_spec (mq_tail s) (mq_head s)); injection E as <- <-; (split; [exact I || reflexivity|]); [eauto|discriminate].
    + destruct (mq_next s (mq_head s)); injection E as <- <-; (split; [exact I || reflexivity|discriminate]).
    + destruct (mq_next s (mq_head s)); injection E as <- <-; (split; [exact I || reflexivity|discriminate]).
    + destruct (mq_tail s =? mq_head s); injection E as <- <-; (split; [exact I || reflexivity|discriminate]).
    + injection E as <- <-; (split; [exact I || reflexivity|discriminate]).
    + injection E as <- <-; (split; [exact I || reflexivity|discriminate]).
    + injection E as <- <-; (split; [exact I || reflexivity|discriminate]).
    + destruct (mq_next s (mq_head s)); injection E as <- <-; (split; [exact I || reflexivity|discriminate]).
    + destruct (mq_owned s x); [|discriminate]; injection E as <- <-; (split; [exact I || reflexivity|discriminate]).
Qed.
Lemma spin_run : forall ls s outs s', Forall (fun l => l <> QPop false) ls -> spinning (mq_cons s) -> mq_run s ls = Ok (outs, s') -> spinning (mq_cons s').
Proof.
  induction ls as [|l ls IH]; intros s outs s' F S E; cbn [mq_run] in E; [injection E as <- <-; auto|]. inversion F; subst.
  destruct (mq_step s l) as [r|] eqn:ES; [|eauto]. destruct r as [(o, s1)| |]; cbn [bind snd fst] in *; [|discriminate..].
  destruct (mq_run s1 ls) as [(outs1, s3)| |] eqn:ER; cbn [bind] in E; [|discriminate..]. injection E as <- <-. cbn [fst snd] in *.
  apply (IH s1 outs1 s3); auto. eapply spin_step; eauto.
Qed.
Theorem C28_blocking_empty : forall ls outs s l s',
  Forall (fun l => l <> QPop false) (ls ++ [l]) ->
  mq_run mq_new ls = Ok (outs, s) -> mq_step s l = Some (Ok (QPopped None, s')) -> popped outs = queued outs.
Proof.
  intros ls outs s l s' F E ES. apply Forall_app in F. destruct F as (F1 & F2). inversion F2; subst.
  destruct (run_qinv ls mq_new [stub] outs s new_qinv E) as (L & I & E').
  cbn [in_hand mq_new mq_cons app elems filter negb Z.eqb stub] in E'.
  destruct (spin_step s l _ s' (spin_run ls mq_new outs s F1 Logic.I E) H1 ES) as (_ & Q). destruct (Q eq_refl) as (QT & b & QC).
  pose proof (q_phase _ _ I) as PH. unfold phase in PH. rewrite QC in *. cbn [in_hand app] in E'.
  rewrite (single _ _ I QT), PH in E'. cbn in E'. rewrite app_nil_r in E'. auto.
Qed.
Print Assumptions C28_blocking_empty.

(** Once no push is in progress, popping (blocking or not) delivers every
    queued element, in order, and then reports an empty queue. *)
Theorem C28_drain : forall ls outs s b,
  mq_run mq_new ls = Ok (outs, s) -> mq_cons s = MCIdle -> (forall t, mq_prods s t = MPIdle) ->
  exists outs' s', mq_run s (concat (repeat (one_pop b) (length (queued outs) - length (popped outs)))) = Ok (outs', s') /\
    popped (outs ++ outs') = queued outs /\
    exists outs'' s'', mq_run s' (one_pop b) = Ok (outs'', s'') /\ In (QPopped None) outs''.
Proof.
  intros ls outs s b E EC EP. destruct (run_qinv ls mq_new [stub] outs s new_qinv E) as (L & I & E').
  cbn [in_hand mq_new mq_cons app elems filter negb Z.eqb stub] in E'. rewrite EC in E'. cbn [in_hand app] in E'.
  assert (D : forall n s L, length (elems L) = n -> qinv s L -> mq_cons s = MCIdle -> (forall t, mq_prods s t = MPIdle) ->
    exists outs' s', mq_run s (concat (repeat (one_pop b) n)) = Ok (outs', s') /\ popped outs' = elems L /\
      exists outs'' s'', mq_run s' (one_pop b) = Ok (outs'', s'') /\ In (QPopped None) outs'').
  { clear. induction n; intros s L HL I EC EP.
    - destruct (elems L) eqn:EL; [|discriminate]. exists [], s. split; [auto|]. split; [auto|].
      destruct (drain_one s L b I EC EP) as (o & s1 & L1 & R & _ & _ & _ & _ & _ & _ & IN). rewrite EL in IN. exists o, s1. auto.
    - destruct (drain_one s L b I EC EP) as (o & s1 & L1 & R & I1 & EC1 & EP1 & PO & EL1 & _ & _).
      destruct (elems L) as [|x l] eqn:EL; [discriminate|]. cbn [firstn skipn] in *.
      destruct (IHn s1 L1) as (o2 & s2 & R2 & P2 & Q2); auto; [rewrite EL1; cbn in HL; lia|].
      exists (o ++ o2), s2. split; [cbn [repeat concat]; eapply run_app; eauto|]. split; [|auto].
      unfold popped in *. rewrite flat_map_app, PO, P2, EL1. auto. }
  assert (HN : (length (queued outs) - length (popped outs))%nat = length (elems L)) by (rewrite E', app_length; lia).
  rewrite HN. destruct (D _ s L eq_refl I EC EP) as (o & s1 & R & PO & Q). exists o, s1. split; [auto|]. split; [|auto].
  unfold popped in *. rewrite flat_map_app, PO. auto.
Qed.
Print Assumptions C28_drain.

(** Two producers interleaved with a consumer that finds a push in progress. *)
Definition ex_schedule : list mqlabel :=
  [QPush 0 10; QPush 1 20; QStep 0; QStep 1; QStep 1; QStep 0; QStep 0; QPop false; QCons; QCons; QCons; QCons; QStep 1; QPop true; QCons; QCons; QPop true; QCons].
Example C28_ex : match mq_run mq_new ex_schedule with
  | Ok (outs, _) => queued outs = [20; 10] /\ popped outs = [20] /\ calls_of 1 outs = [20] /\ returned_of 0 outs = [10] /\ In (QPopped None) outs
  | _ => False end.
Proof. vm_compute. intuition. Qed.
