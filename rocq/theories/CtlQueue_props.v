(** C52: the control task queue, roc_ctl/control_task_queue.cpp. *)
From Verif Require Import Base CtlQueue_model CtlQueue_spec CtlQueue_proof CtlQueueInv_proof CtlQueueRun_proof CtlQueueEnd_proof.

(** However schedule, schedule_at, async_cancel and wait are called from any number of threads
    and interleaved with the loop thread, no assertion of the queue fails and no destroyed task is
    touched. *)
Theorem C52_no_crash m hc n ls : legal_run m hc (queue_new n) ls -> forall c, run hc (queue_new n) ls <> Abort c.
Proof. intros L c. apply (run_safe m hc ls (queue_new n) c (sinv_init m hc n) L). Qed.
Print Assumptions C52_no_crash.

(** Every execution carries out a request that was made before, and not before its deadline. *)
Theorem C52_execution_justified m hc n ls x : legal_run m hc (queue_new n) ls -> run hc (queue_new n) ls = Go x ->
  forall l1 l2 t d v k, log (sh x) = l1 ++ Exec t d v k :: l2 -> In (Req t d v) l1 /\ 0 <= d <= k.
Proof.
  intros L H l1 l2 t d v k E. change (Exec t d v k :: l2) with ([Exec t d v k] ++ l2) in E. rewrite app_assoc in E.
  pose proof (prefixes m hc n (fun l => forall t d v k, In (Exec t d v k) l -> In (Req t d v) l /\ 0 <= d <= k)) as P.
  destruct (P ltac:(intros ls' y L' H' t' d' v' k' X; pose proof (i_exec _ _ _ _ _ (run_inv m hc ls' _ _ (sinv_init m hc n) L' H') t' d' v' k' X); tauto) ls x L H _ _ E t d v k) as [A B].
  { apply in_or_app. right. left. reflexivity. }
  split; [|exact B]. apply in_app_or in A. destruct A as [A|[A|[]]]; [exact A|discriminate A].
Qed.
Print Assumptions C52_execution_justified.

(** The requests about a task carry increasing numbers, so the number names the request. *)
Theorem C52_requests_numbered m hc n ls x : legal_run m hc (queue_new n) ls -> run hc (queue_new n) ls = Go x ->
  forall l1 l2 t d v d' v', log (sh x) = l1 ++ Req t d v :: l2 -> In (Req t d' v') l1 -> v' < v.
Proof. intros L H. exact (proj2 (numbered m hc n ls x L H)). Qed.
Print Assumptions C52_requests_numbered.

(** When no thread can move any more, nothing that was asked for has been forgotten: the last
    request about each task has been executed, or its deadline is in the future and the loop will
    wake up by then, or it was a cancellation and the task is completed. Threads are blocked only
    in wait() for a task whose deadline is still to come. *)
Theorem C52_nothing_lost m hc n ls x : legal_run m hc (queue_new n) ls -> run hc (queue_new n) ls = Go x -> at_rest hc x ->
  (forall t d v, last_request t (log (sh x)) = Some (d, v) ->
     (0 <= d -> (exists k, In (Exec t d v k) (log (sh x))) \/ (now (sh x) < d /\ 0 <= tdl (sh x) <= d)) /\
     (d < 0 -> k_st (tk (sh x) t) = Completed)) /\
  (forall i p, nth_error (cl x) i = Some p -> p = Idle \/ exists t, waiting t p = true /\ k_st (tk (sh x) t) = Sleeping).
Proof.
  intros L H R. pose proof (run_inv m hc ls _ _ (sinv_init m hc n) L H) as I. split.
  - intros t d v A. destruct (rest_asked m hc x t d v I R A) as [B C]. split; [|exact C]. intros D. destruct (B D) as [(d' & k & E)|(E & F & _)]; [|auto].
    left. exists k. assert (Hd : d' = d).
    { destruct (i_exec _ _ _ _ _ I t d' v k E) as (_ & Q & _). rewrite (i_last _ _ _ _ _ I t (rest_odd m hc x t I R)) in A.
      pose proof (i_req _ _ _ _ _ I t (rest_odd m hc x t I R)) as Q'. destruct (Z.eqb_spec (k_ver (tk (sh x) t)) 0) as [V|V]; [discriminate A|].
      assert (Ed : k_dl (tk (sh x) t) = d) by congruence. assert (Ev : k_ver (tk (sh x) t) = v) by congruence. rewrite Ed, Ev in Q'.
      assert (V0 : 0 < v) by (destruct (i_ver _ _ _ _ _ I t); lia). specialize (Q' V0).
      destruct (in_split _ _ Q) as (l1 & l2 & S). rewrite S in Q'. apply in_app_or in Q'. destruct Q' as [X|[X|X]]; [|congruence|].
      - pose proof (C52_requests_numbered m hc n ls x L H _ _ _ _ _ _ _ S X). lia.
      - destruct (in_split _ _ X) as (l3 & l4 & S'). rewrite S' in S. pose proof (C52_requests_numbered m hc n ls x L H (l1 ++ Req t d' v :: l3) l4 t d v d' v) as N.
        rewrite <- app_assoc in N. specialize (N S). assert (v < v); [|lia]. apply N. apply in_or_app. right. left. reflexivity. }
    subst d'. exact E.
  - intros i p E. destruct (rest_clients m hc x I R i p E) as [->|(t & -> & S)]; [auto|]. right. exists t. split; [apply Nat.eqb_refl|exact S].
Qed.
Print Assumptions C52_nothing_lost.

(** The completer is called on the loop thread only, never more often than executions ended or
    cancellations were carried out before, and as often once no thread can move. *)
Theorem C52_completion m hc n ls x : legal_run m hc (queue_new n) ls -> run hc (queue_new n) ls = Go x -> forall t,
  (forall b, In (Compl t b) (log (sh x)) -> b = true) /\
  (hc t = true -> forall l1 l2, log (sh x) = l1 ++ l2 -> (ev_count (is_compl t) l1 <= ev_count (is_end t) l1)%nat) /\
  (at_rest hc x -> notified hc t (log (sh x))).
Proof.
  intros L H t. pose proof (run_inv m hc ls _ _ (sinv_init m hc n) L H) as I. repeat split.
  - intros b. apply (i_cloop _ _ _ _ _ I).
  - intros C l1 l2 E. revert E. apply (prefixes m hc n (fun l => (ev_count (is_compl t) l <= ev_count (is_end t) l)%nat)) with (ls := ls); auto.
    intros ls' y L' H'. pose proof (i_compl _ _ _ _ _ (run_inv m hc ls' _ _ (sinv_init m hc n) L' H') t C) as Q. pose proof (lk_nn t (lp y)). unfold cnt_compl, cnt_end in Q. lia.
  - intros R. apply (rest_notified m hc x t I R).
Qed.
Print Assumptions C52_completion.

(** If nobody schedules a task while a thread waits for it, wait() returns when the task is
    completed. *)
Theorem C52_wait hc n ls x : legal_run Apart hc (queue_new n) ls -> run hc (queue_new n) ls = Go x ->
  forall i t b, In (WRet i t b) (log (sh x)) -> b = true.
Proof. intros L H. apply (i_aret _ _ _ _ _ (run_inv Apart hc ls _ _ (sinv_init Apart hc n) L H) eq_refl). Qed.
Print Assumptions C52_wait.

(** ** The hypotheses are met *)
Definition L (k : nat) := repeat (Lp false TSuccess) k.
Definition P (k : nat) := repeat (Lp false TPause) k.
Definition A (k : nat) := repeat (Cl 0) k.
Definition B (k : nat) := repeat (Cl 1) k.
Definition all (t : nat) := true.
(** One thread schedules a task, another one waits for it, the task is executed and destroyed. *)
Definition story := [Call 0 (Sched 0)] ++ A 11 ++ [Call 1 (Wait 0)] ++ B 5 ++ L 31 ++ B 3 ++ [Destroy 0].
Example story_ok : legal_run Apart all (queue_new 2) story /\
  exists x, run all (queue_new 2) story = Go x /\ log (sh x) = [Req 0 0 2; WInv 1 0; Exec 0 0 2 0; Fin 0; Compl 0 true; WRet 1 0 true] /\
            last_request 0 (log (sh x)) = Some (0, 2) /\ cl x = [Idle; Idle] /\ lp x = LWait.
Proof. split; [apply legal_runb_ok; vm_compute; reflexivity|]. eexists. split; [vm_compute; reflexivity|]. repeat split; vm_compute; reflexivity. Qed.
(** A task scheduled for a point in the future is cancelled; another one is left asleep. *)
Definition story2 := [Call 0 (SchedAt 0 9)] ++ A 18 ++ [Call 0 (SchedAt 1 5)] ++ A 18 ++ [Call 0 (Cancel 0)] ++ A 10 ++ L 25.
Example story2_ok : legal_run Overlap all (queue_new 1) story2 /\
  exists x, run all (queue_new 1) story2 = Go x /\ log (sh x) = [Req 0 9 2; Req 1 5 2; Req 0 (-1) 4; Canc 0 4; Compl 0 true] /\ at_rest all x /\
            last_request 1 (log (sh x)) = Some (5, 2) /\ tdl (sh x) = 5.
Proof.
  split; [apply legal_runb_ok; vm_compute; reflexivity|]. eexists. split; [vm_compute; reflexivity|]. split; [vm_compute; reflexivity|]. split; [|vm_compute; auto].
  split; [intros [|[|]]; vm_compute; reflexivity|intros b r; vm_compute; reflexivity].
Qed.

(** ** What the documentation promises and the code does not keep *)
(** One request, made while the task is executed, can be executed twice: the request is stored,
    the loop notices it after the execution and puts the task back by itself, executes it, and then
    the scheduling thread puts it into the queue once more. *)
Definition race := [Call 0 (Sched 0)] ++ A 11 ++ L 13 ++ [Call 1 (Sched 0)] ++ B 3 ++ L 33.
Theorem C52_once_refuted : legal_run Overlap all (queue_new 2) (race ++ B 8 ++ L 30) /\
  exists x, run all (queue_new 2) (race ++ B 8 ++ L 30) = Go x /\
    log (sh x) = [Req 0 0 2; Exec 0 0 2 0; Req 0 0 4; Fin 0; Compl 0 true; Exec 0 0 4 0; Fin 0; Compl 0 true; Exec 0 0 4 0; Fin 0; Compl 0 true].
Proof. split; [apply legal_runb_ok; vm_compute; reflexivity|]. eexists. split; vm_compute; reflexivity. Qed.
Print Assumptions C52_once_refuted.
(** Hence a completer that destroys the task after the second of two requests has been executed
    leaves the second schedule() with a dangling reference, although each request has been answered
    by a call of the completer. *)
Theorem C52_destroy_in_completer_refuted : exists x,
  run all (queue_new 2) race = Go x /\ log (sh x) = [Req 0 0 2; Exec 0 0 2 0; Req 0 0 4; Fin 0; Compl 0 true; Exec 0 0 4 0; Fin 0; Compl 0 true] /\
  run all x [Destroy 0; Cl 1] = Abort Freed.
Proof. eexists. split; [vm_compute; reflexivity|]. split; vm_compute; reflexivity. Qed.
Print Assumptions C52_destroy_in_completer_refuted.
(** A task that asks to pause after it was cancelled stays paused: the cancellation is lost. *)
Definition pausing := [Call 0 (Sched 0)] ++ A 11 ++ L 13 ++ [Call 1 (Cancel 0)] ++ B 5 ++ P 15.
Theorem C52_cancel_pausing_refuted : exists x, run all (queue_new 2) pausing = Go x /\ at_rest all x /\
  last_request 0 (log (sh x)) = Some (-1, 4) /\ k_st (tk (sh x) 0) = Sleeping /\ log (sh x) = [Req 0 0 2; Exec 0 0 2 0; Req 0 (-1) 4].
Proof.
  eexists. split; [vm_compute; reflexivity|]. split; [|repeat split; vm_compute; reflexivity].
  split; [intros [|[|[|]]]; vm_compute; reflexivity|intros b r; vm_compute; reflexivity].
Qed.
Print Assumptions C52_cancel_pausing_refuted.
(** A task can be paused only once: resuming leaves it in the list of paused tasks, so that pausing
    it again, or destroying it after it has succeeded, fails an assertion. *)
Definition resumed := [Call 0 (Sched 0)] ++ A 11 ++ P 27 ++ [Call 0 (Resume 0)] ++ A 7.
Theorem C52_pause_twice_refuted : run all (queue_new 2) (resumed ++ P 17) = Abort Listed /\
  exists x, run all (queue_new 2) (resumed ++ L 32) = Go x /\ log (sh x) = [Req 0 0 2; Exec 0 0 2 0; Exec 0 0 2 0; Fin 0; Compl 0 true] /\
            k_st (tk (sh x) 0) = Completed /\ step all x (Destroy 0) = Abort Listed.
Proof. split; [vm_compute; reflexivity|]. eexists. split; [vm_compute; reflexivity|]. repeat split; vm_compute; reflexivity. Qed.
Print Assumptions C52_pause_twice_refuted.
(** resume() of a task that is not paused does not do nothing: a completed task is executed again,
    and a cancelled one fails an assertion. *)
Theorem C52_resume_completed_refuted :
  (exists x y, run all (queue_new 2) ([Call 0 (Sched 0)] ++ A 11 ++ L 31) = Go x /\ log (sh x) = [Req 0 0 2; Exec 0 0 2 0; Fin 0; Compl 0 true] /\
     run all x ([Call 0 (Resume 0)] ++ A 7 ++ L 32) = Go y /\ log (sh y) = log (sh x) ++ [Exec 0 0 2 0; Fin 0; Compl 0 true]) /\
  run all (queue_new 2) ([Call 0 (SchedAt 0 9)] ++ A 18 ++ [Call 0 (Cancel 0)] ++ A 10 ++ L 25 ++ [Call 0 (Resume 0)] ++ A 7 ++ L 11) = Abort CancelledTwice.
Proof. split; [|vm_compute; reflexivity]. do 2 eexists. split; [vm_compute; reflexivity|]. split; [vm_compute; reflexivity|]. split; vm_compute; reflexivity. Qed.
Print Assumptions C52_resume_completed_refuted.
(** If a task is scheduled while somebody is about to return from wait(), the semaphore is left
    signalled, and a later wait() returns although the task has not been executed. *)
Definition stale := [Call 0 (Sched 0)] ++ A 11 ++ [Call 1 (Wait 0)] ++ B 2 ++ L 31 ++ B 4 ++ [Call 0 (Sched 0)] ++ A 11 ++ L 32 ++ B 2.
Theorem C52_wait_refuted : legal_run Overlap all (queue_new 2) (stale ++ [Call 0 (SchedAt 0 9)] ++ A 18 ++ [Call 1 (Wait 0)] ++ B 8) /\
  exists x y, run all (queue_new 2) stale = Go x /\ cl x = [Idle; Idle] /\
    run all x ([Call 0 (SchedAt 0 9)] ++ A 18 ++ [Call 1 (Wait 0)] ++ B 8) = Go y /\ log (sh y) = log (sh x) ++ [Req 0 9 6; WInv 1 0; WRet 1 0 false].
Proof. split; [apply legal_runb_ok; vm_compute; reflexivity|]. do 2 eexists. split; [vm_compute; reflexivity|]. split; [vm_compute; reflexivity|]. split; vm_compute; reflexivity. Qed.
Print Assumptions C52_wait_refuted.
