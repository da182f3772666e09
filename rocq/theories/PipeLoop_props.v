(** C47: tasks of the pipeline loop are executed exactly once, in order, never at the same time
    as a frame or as each other. *)
From Coq Require Import Lia.
From Verif Require Import Base Base_lemmas PipeLoop_model PipeLoop_spec PipeLoop_proof PipeLoopLive_proof PipeLoopClients_proof.

(** Nothing ever begins while a task or a frame is being processed, whatever the number of
    threads and however they are interleaved. *)
Theorem C47_exclusive c n l s : run c (loop_new n) l = Some s -> activity_after (log (sh s)) <> None.
Proof.
  intros R. pose proof (reach_inv _ _ _ _ R) as I. destruct (pmutex (sh s)) as [i|] eqn:E; [|rewrite (i_free _ I E); discriminate].
  assert (L : (i < length (pcs s))%nat) by (apply (i_lt _ I); left; exact E).
  destruct (nth_error (pcs s) i) as [p|] eqn:Hp; [|apply nth_error_None in Hp; lia].
  rewrite (i_act _ I _ _ Hp); [discriminate|]. apply (i_pm _ I _ _ Hp). exact E.
Qed.

Lemma quiet_sum (f : pc -> Z) s : f Idle = 0 -> quiet s -> sumf f (pcs s) = 0.
Proof. intros F Q. apply sumf_zero. eapply Forall_impl; [|exact Q]. intros p ->. exact F. Qed.

(** A task is executed at most once, and only if it was scheduled. When all calls have returned,
    every scheduled task has either been executed exactly once or waits in the queue, never both. *)
Theorem C47_once c n l s t : run c (loop_new n) l = Some s ->
  (times (TaskB t) (log (sh s)) <= 1)%nat /\ (times (TaskE t) (log (sh s)) <= times (TaskB t) (log (sh s)))%nat /\
  (In (TaskB t) (log (sh s)) -> exists w, In (Inv t w) (log (sh s))) /\
  (quiet s -> (exists w, In (Inv t w) (log (sh s))) ->
     (times (TaskE t) (log (sh s)) = 1%nat /\ ~ In t (waiting s)) \/ (times (TaskB t) (log (sh s)) = 0%nat /\ In t (waiting s))).
Proof.
  intros R. pose proof (reach_inv _ _ _ _ R) as I. pose proof (i_cnt _ I t) as C. pose proof (i_one _ I t) as O. pose proof (i_run _ I t) as U.
  pose proof (sumf_nonneg _ (own t) (pcs s) (own_range t)) as A. pose proof (sumf_nonneg _ (runs t) (pcs s) (runs_range t)) as B.
  pose proof (qcnt_nonneg t (queue (sh s))) as D. unfold ev in C, U. repeat split; try lia.
  - intros H. apply ev_in in H. unfold ev in H. assert (E : 1 <= evi t (log (sh s))) by lia. unfold evi in E.
    destruct (Z_lt_le_dec 0 (ev (Inv t true) (log (sh s)))) as [X|X]; [exists true|exists false]; apply ev_in; lia.
  - intros Q (w & Hw). rewrite (quiet_sum (own t) s eq_refl Q) in C. rewrite (quiet_sum (runs t) s eq_refl Q) in U.
    assert (E : evi t (log (sh s)) = 1).
    { apply ev_in in Hw. unfold evi in *. pose proof (ev_nonneg (Inv t true) (log (sh s))). pose proof (ev_nonneg (Inv t false) (log (sh s))). destruct w; lia. }
    unfold waiting. rewrite (qcnt_in t). lia.
Qed.

(** The completer of a task is called exactly as often as the task has been executed; tasks that
    are waited for have none. *)
Theorem C47_notified c n l s t : run c (loop_new n) l = Some s ->
  (In (Inv t false) (log (sh s)) -> times (Compl t) (log (sh s)) = times (TaskE t) (log (sh s))) /\
  (In (Inv t true) (log (sh s)) -> times (Compl t) (log (sh s)) = 0%nat).
Proof.
  intros R. pose proof (reach_inv _ _ _ _ R) as I. split; intros H.
  - pose proof (i_compl1 _ I t H) as X. unfold ev in X. lia.
  - pose proof (i_compl2 _ I t H) as X. unfold ev in X. lia.
Qed.

(** schedule_and_wait() returns only after the task has been executed, and once the task has been
    executed nothing keeps it from returning. *)
Theorem C47_wait c n l s t : run c (loop_new n) l = Some s ->
  (In (Ret t true) (log (sh s)) -> In (TaskE t) (log (sh s))) /\
  (forall i b, nth_error (pcs s) i = Some (CWait t) -> In (TaskE t) (log (sh s)) ->
     exists s', step c s i (AStep b) = Some s' /\ In (Ret t true) (log (sh s')) /\ nth_error (pcs s') i = Some Idle).
Proof.
  intros R. pose proof (reach_inv _ _ _ _ R) as I. split; [apply (i_wret _ I)|]. intros i b H E.
  pose proof (i_waiter _ I i (CWait t) t H eq_refl E) as P. apply posted_in in P. unfold step. rewrite H. cbn [pstep]. rewrite P.
  eexists. split; [reflexivity|]. cbn [sh pcs log add_log]. split; [apply in_or_app; right; left; reflexivity|].
  apply nth_error_upd_eq, nth_error_Some. congruence.
Qed.

(** If scheduling one task returned before another task was scheduled, the two are executed in
    that order. *)
Theorem C47_order c n l s t1 w1 t2 w2 : run c (loop_new n) l = Some s ->
  before (Ret t1 w1) (Inv t2 w2) (log (sh s)) -> In (TaskB t2) (log (sh s)) -> before (TaskB t1) (TaskB t2) (log (sh s)).
Proof. intros R. apply (i_order _ (reach_inv _ _ _ _ R)). Qed.

Lemma quiet_nonempty c l : forall s s', pcs s <> [] -> run c s l = Some s' -> pcs s' <> [].
Proof.
  induction l as [|[i a] l IH]; intros s s' N R; cbn [run] in R; [congruence|]. destruct (step c s i a) as [s1|] eqn:E; [|discriminate].
  eapply IH; [|exact R]. unfold step in E. intros X. apply N. destruct (pcs s) as [|p ps] eqn:Ep; [reflexivity|]. exfalso.
  destruct (nth_error (p :: ps) i); [|discriminate]. clear R. destruct a.
  - destruct p0; try discriminate. destruct (_ || _); [discriminate|]. injection E as <-. cbn [pcs] in X. destruct i; discriminate.
  - destruct p0; try discriminate. destruct (_ || _); [discriminate|]. injection E as <-. cbn [pcs] in X. destruct i; discriminate.
  - destruct p0; try discriminate. destruct (_ && _); [|discriminate]. injection E as <-. cbn [pcs] in X. destruct i; discriminate.
  - destruct (pstep _ _ _ _ _) as [[? ?]|]; [|discriminate]. injection E as <-. cbn [pcs] in X. destruct i; discriminate.
Qed.

(** When all calls have returned and background processing is armed, background processing that
    is not interrupted and not denied executes every waiting task. *)
Theorem C47_fire c n l s : run c (loop_new n) l = Some s -> quiet s -> armed (sh s) = true ->
  exists bs s', run c s (call 0 AFire bs) = Some s' /\ quiet s' /\ waiting s' = [] /\
    (forall t, In t (waiting s) -> In (TaskE t) (log (sh s'))).
Proof.
  intros R Q A. destruct (drain c s (reach_inv _ _ _ _ R) (reach_inv2 _ _ _ _ R) Q) as (s' & R' & Q' & E & T); [|exact A|].
  - eapply quiet_nonempty; [|exact R]. discriminate.
  - exists (repeat true (5 * length (queue (sh s)) + 10)), s'. split; [exact R'|]. split; [exact Q'|].
    unfold waiting. rewrite E. split; [reflexivity|]. intros t H. apply in_map_iff in H. destruct H as (e & <- & H). apply T. exact H.
Qed.

(** However often background processing is told to stop early, if no other call is in progress it
    arms itself again before leaving a task behind. *)
Theorem C47_rearm c n l s bs s' : run c (loop_new n) l = Some s -> quiet s ->
  run c s (call 0 AFire bs) = Some s' -> quiet s' -> waiting s' = [] \/ armed (sh s') = true.
Proof.
  intros R Q R' Q'. destruct (fire_solo c s bs s' (reach_inv _ _ _ _ R) (reach_inv2 _ _ _ _ R) Q R' Q') as [E|[E _]]; [left|right; exact E].
  unfold waiting. rewrite E. reflexivity.
Qed.

(** Whatever happened before, after a frame that no other call overlaps no task is left behind
    unarmed. *)
Theorem C47_frame c n l s i d bs s' : run c (loop_new n) l = Some s -> quiet s ->
  run c s (call i (AFrame d) bs) = Some s' -> quiet s' -> waiting s' = [] \/ armed (sh s') = true.
Proof.
  intros R Q R' Q'. destruct (frame_solo c s i d bs s' (reach_inv _ _ _ _ R) (reach_inv2 _ _ _ _ R) Q R' Q') as [E|[E _]]; [left|right; exact E].
  unfold waiting. rewrite E. reflexivity.
Qed.

(** With precise task scheduling enabled, such a frame itself executes the task at the head of
    the queue, provided it is not shorter than the configured minimum between tasks and that
    processing it succeeds. *)
Theorem C47_inframe c n l s i d bs s' t q : run c (loop_new n) l = Some s -> quiet s ->
  precise c = true -> 0 <= min_samples c <= d -> 0 <= max_samples c -> min_samples c + d < 2 ^ 32 ->
  waiting s = t :: q ->
  run c s (call i (AFrame d) bs) = Some s' -> quiet s' -> ~ In (FrameE false) (skipn (length (log (sh s))) (log (sh s'))) ->
  In (TaskB t) (log (sh s')) /\ ~ In (TaskB t) (log (sh s)).
Proof.
  intros R Q P H1 H2 H3 W R' Q' F. split.
  - unfold waiting in W. destruct (queue (sh s)) as [|e q'] eqn:Eq; [discriminate|]. cbn [map] in W.
    assert (E1 : e_task e = t) by congruence.
    destruct (frame_exec c s i d bs s' e q' (reach_inv _ _ _ _ R) (reach_inv2 _ _ _ _ R) (reach_G _ _ _ _ (proj1 H1) R) Q P H1 H2 H3 Eq R' Q') as [X|X]; [congruence|contradiction].
  - intros X. pose proof (reach_inv _ _ _ _ R) as I. pose proof (i_cnt _ I t) as C. pose proof (i_one _ I t) as O.
    pose proof (sumf_nonneg _ (own t) (pcs s) (own_range t)) as A. apply ev_in in X.
    assert (Y : In t (map e_task (queue (sh s)))) by (fold (waiting s); rewrite W; left; reflexivity). apply qcnt_in in Y. lia.
Qed.

(** If calls do not overlap, except for scheduling calls with each other, no task is ever left
    behind unarmed: when all calls have returned, tasks in the queue are waiting for armed
    background processing. *)
Theorem C47_rounds c n s : by_rounds c n s -> waiting s = [] \/ armed (sh s) = true.
Proof.
  intros B. assert (X : (exists l, run c (loop_new n) l = Some s) /\ quiet s /\ pcs s <> [] /\ coherent (sh s) /\ settled (sh s)).
  { assert (AP : forall s0 l l' s1 s2, run c s0 l = Some s1 -> run c s1 l' = Some s2 -> run c s0 (l ++ l') = Some s2).
    { intros s0 l. revert s0. induction l as [|[j b] l IH]; intros s0 l' s1 s2 R R'; cbn [run app] in *; [congruence|].
      destruct (step c s0 j b); [|discriminate]. eapply IH; eassumption. }
    assert (LN : forall l s1 s2, run c s1 l = Some s2 -> pcs s1 <> [] -> pcs s2 <> []).
    { induction l as [|[j b] l IH]; intros s1 s2 R N; cbn [run] in R; [congruence|]. destruct (step c s1 j b) as [s3|] eqn:E; [|discriminate].
      eapply IH; [exact R|]. unfold step in E. destruct (nth_error (pcs s1) j) as [p|] eqn:Hp; [|discriminate].
      assert (UN : forall p', upd (pcs s1) j p' <> []) by (intros p' Y; apply (f_equal (@length pc)) in Y; rewrite length_upd in Y; destruct (pcs s1); [congruence|discriminate Y]).
      destruct b; [destruct p; try discriminate; destruct (_ || _) in E; [discriminate|]|destruct p; try discriminate; destruct (_ || _) in E; [discriminate|]
        |destruct p; try discriminate; destruct (_ && _) in E; [|discriminate]|destruct (pstep _ _ _ _ _) as [[? ?]|]; [|discriminate]]; injection E as <-; cbn [pcs]; apply UN. }
    induction B as [|s i a bs s' B ((l & R) & Q & N & C & S) R' Q'|s l2 s' B ((l & R) & Q & N & C & S) O R' Q'].
    - split; [exists []; reflexivity|]. split; [apply Forall_forall; intros p Hp; apply repeat_spec in Hp; exact Hp|]. split; [discriminate|]. split; [split; discriminate|left; reflexivity].
    - split; [eexists; eapply AP; eassumption|]. split; [exact Q'|]. split; [eapply LN; eassumption|].
      apply (call_solo c s i a bs s' (reach_inv _ _ _ _ R) (reach_inv2 _ _ _ _ R) Q C S R' Q').
    - split; [eexists; eapply AP; eassumption|]. split; [exact Q'|]. split; [eapply LN; eassumption|].
      apply (overlap_settled c s l2 s' (reach_inv _ _ _ _ R) (reach_inv2 _ _ _ _ R) Q N C S O R' Q'). }
  destruct X as (_ & _ & _ & _ & [E|[E _]]); [left|right; exact E]. unfold waiting. rewrite E. reflexivity.
Qed.

(** In particular if no two calls overlap. *)
Theorem C47_sequential c n s : by_calls c n s -> waiting s = [] \/ armed (sh s) = true.
Proof.
  intros B. apply (C47_rounds c n). induction B as [|s i a bs s' B IH R Q]; [constructor|]. eapply rounds_call; eassumption.
Qed.

(** *** Lost tasks *)
Definition stp (i n : nat) (b : bool) : list (nat * action) := repeat (i, AStep b) n.
Definition cfg0 := mkCfg true 100 0.
Definition final (c : config) (n : nat) (l : list (nat * action)) := run c (loop_new n) l.

(** No background processing takes part: a scheduling thread arms background processing, sees that
    a frame is being processed and decides to disarm it again. Meanwhile the frame ends, leaves the
    task to background processing and arms it. The first thread then disarms it. *)
Definition lost_client : list (nat * action) :=
  (1%nat, ASched 7 false) :: stp 1 14 false ++ [(2%nat, AFrame 10)] ++ stp 2 1 true ++ stp 1 1 true ++ stp 2 26 true ++ stp 1 6 true.
Theorem C47_frame_client_refuted : exists s, run cfg0 (loop_new 2) lost_client = Some s /\ quiet s /\ waiting s = [7%nat] /\ armed (sh s) = false.
Proof.
  eexists. split; [vm_compute; reflexivity|]. split; [repeat constructor|]. split; reflexivity.
Qed.

(** Background processing found nothing left to do; before it records that it is no longer
    running, a thread schedules a task and does not arm it. *)
Definition lost_running : list (nat * action) :=
  (1%nat, ASched 7 false) :: stp 1 16 false ++ [(0%nat, AFire)] ++ stp 0 14 true ++ [(2%nat, ASched 8 false)] ++ stp 2 14 false ++ stp 0 1 true.
Theorem C47_running_refuted : exists s, run cfg0 (loop_new 2) lost_running = Some s /\ quiet s /\ waiting s = [8%nat] /\ armed (sh s) = false.
Proof.
  eexists. split; [vm_compute; reflexivity|]. split; [repeat constructor|]. split; reflexivity.
Qed.

(** Background processing starts and ends between the moment a thread armed it and the moment
    that thread records it. From then on it counts as scheduled although it is not, and tasks
    scheduled later, here two, are only queued. *)
Definition lost_scheduled : list (nat * action) :=
  (1%nat, ASched 7 false) :: stp 1 12 false ++ [(0%nat, AFire)] ++ stp 0 15 true ++ stp 1 4 true
  ++ [(2%nat, ASched 8 false)] ++ stp 2 14 false ++ [(1%nat, ASched 9 false)] ++ stp 1 4 false.
Theorem C47_scheduled_refuted : exists s, run cfg0 (loop_new 2) lost_scheduled = Some s /\ quiet s /\ waiting s = [8%nat; 9%nat] /\ armed (sh s) = false.
Proof.
  eexists. split; [vm_compute; reflexivity|]. split; [repeat constructor|]. split; reflexivity.
Qed.

(** *** Examples *)
Definition cfg1 := mkCfg true 8 4.
(** A task executed in place, one refused and left to background processing, one waited for; a
    frame of 12 samples then runs in subframes of 4 and executes the first of them. *)
Definition ex_run : list (nat * action) :=
  call 1 (ASched 5 false) (repeat true 11) ++ call 1 (ASched 6 false) (repeat false 16)
  ++ (2%nat, ASched 7 true) :: stp 2 4 true ++ call 3 (AFrame 12) [] ++ stp 3 12 true.
Example ex_run_log : option_map (fun s => (log (sh s), waiting s)) (run cfg1 (loop_new 3) ex_run) =
  Some ([Inv 5 false; TaskB 5; TaskE 5; Compl 5; Ret 5 false; Inv 6 false; Ret 6 false; Inv 7 true; FrameB; FrameE true], [6%nat; 7%nat]).
Proof. vm_compute. reflexivity. Qed.
Example ex_exclusive : option_map (fun s => activity_after (log (sh s))) (run cfg1 (loop_new 3) (ex_run ++ stp 3 5 true)) = Some (Some (Task 6)).
Proof. vm_compute. reflexivity. Qed.
Definition ex_frame := ex_run ++ stp 3 24 true ++ stp 2 1 true.
Example ex_order : option_map (fun s => (skipn 10 (log (sh s)), waiting s)) (run cfg1 (loop_new 3) ex_frame) =
  Some ([FrameB; FrameE true; TaskB 6; TaskE 6; Compl 6; TaskB 7; TaskE 7; Post 7; FrameB; FrameE true; Ret 7 true], []).
Proof. vm_compute. reflexivity. Qed.
Example ex_order_before : exists s, run cfg1 (loop_new 3) ex_frame = Some s /\ before (Ret 6 false) (Inv 7 true) (log (sh s)) /\ In (TaskB 7) (log (sh s)).
Proof.
  eexists. split; [vm_compute; reflexivity|]. cbn [sh log]. split.
  - exists [Inv 5 false; TaskB 5; TaskE 5; Compl 5; Ret 5 false; Inv 6 false], []. eexists. cbn [app]. reflexivity.
  - cbn. tauto.
Qed.
(** A quiet state with a waiting task and background processing armed; firing it, and a frame. *)
Definition ex_quiet := call 1 (ASched 6 false) (repeat false 16).
Example ex_fire : exists s, run cfg1 (loop_new 3) ex_quiet = Some s /\ quiet s /\ armed (sh s) = true /\ waiting s = [6%nat].
Proof. eexists. split; [vm_compute; reflexivity|]. split; [repeat constructor|]. split; reflexivity. Qed.
Example ex_rearm : exists s s', run cfg1 (loop_new 3) ex_quiet = Some s /\ run cfg1 s (call 0 AFire (repeat true 4 ++ repeat false 12)) = Some s' /\ quiet s' /\
  armed (sh s') = true /\ waiting s' = [6%nat].
Proof. eexists _, _. split; [vm_compute; reflexivity|]. split; [vm_compute; reflexivity|]. split; [repeat constructor|]. split; reflexivity. Qed.
Example ex_inframe : exists s s', run cfg1 (loop_new 3) ex_quiet = Some s /\ run cfg1 s (call 2 (AFrame 12) (repeat true 32)) = Some s' /\ quiet s' /\
  skipn (length (log (sh s))) (log (sh s')) = [FrameB; FrameE true; FrameB; FrameE true; TaskB 6; TaskE 6; Compl 6; FrameB; FrameE true] /\
  waiting s = [6%nat] /\ waiting s' = [].
Proof. eexists _, _. split; [vm_compute; reflexivity|]. split; [vm_compute; reflexivity|]. split; [repeat constructor|]. repeat split. Qed.
Example ex_calls : exists s, by_calls cfg1 3 s /\ waiting s = [6%nat].
Proof.
  destruct ex_fire as (s & R & Q & _ & W). exists s. split; [|exact W]. eapply calls_more; [apply calls_none|exact R|exact Q].
Qed.
(** Three threads schedule at the same time: the first executes its task in place, the second and
    the third queue theirs meanwhile, and the first arms background processing when it is done. *)
Definition ex_overlap : list (nat * action) :=
  (1%nat, ASched 5 false) :: stp 1 5 true ++ (2%nat, ASched 6 false) :: stp 2 4 true ++ (3%nat, ASched 7 false) :: stp 3 2 true ++ stp 1 14 true ++ stp 3 2 true.
Example ex_rounds : exists s, by_rounds cfg1 3 s /\ waiting s = [6%nat; 7%nat] /\ armed (sh s) = true.
Proof.
  eexists. split.
  - eapply (rounds_sched _ _ _ ex_overlap); [apply rounds_none| |vm_compute; reflexivity|repeat constructor].
    unfold sched_only. apply Forall_forall. intros x Hx. vm_compute in Hx. repeat destruct Hx as [<-|Hx]; cbn; auto. contradiction.
  - split; reflexivity.
Qed.
(** After the lost wakeup of [lost_client], the next frame brings the task back. *)
Example ex_recover : exists s s', run cfg0 (loop_new 2) lost_client = Some s /\ run cfg0 s (call 1 (AFrame 10) (repeat true 25)) = Some s' /\ quiet s' /\
  armed (sh s') = true /\ waiting s' = [7%nat].
Proof. eexists _, _. split; [vm_compute; reflexivity|]. split; [vm_compute; reflexivity|]. split; [repeat constructor|]. split; reflexivity. Qed.

Print Assumptions C47_exclusive.
Print Assumptions C47_once.
Print Assumptions C47_order.
Print Assumptions C47_inframe.
Print Assumptions C47_rounds.
Print Assumptions C47_sequential.
Print Assumptions C47_scheduled_refuted.
