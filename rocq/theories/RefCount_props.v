(** C32: reference counting destroys exactly once. *)
From Verif Require Import Base RefCount_model RefCount_spec RefCount_proof.

(** Any number of threads and variables, any schedule without data races on
    the variables: no step touches a destroyed object, and nothing fails unless
    a counter stands at its limit of 100000. *)
Theorem C32_safe : forall threads locals ls, well_used (rc_new threads locals) ls ->
  rc_run (rc_new threads locals) ls <> UB /\
  (rc_run (rc_new threads locals) ls = Panic ->
   exists ls1 outs s o, rc_run (rc_new threads locals) ls1 = Ok (outs, s) /\ counter s o = Some 100000).
Proof.
  intros T L ls W. pose proof (run_hist ls [] _ (hist0 T L) W) as H.
  destruct (rc_run (rc_new T L) ls) as [[o s]| |] eqn:E; [|clear E|destruct H].
  - split; discriminate.
  - split; [discriminate|]. intros _. destruct H as (ls1 & o1 & s1 & A & o & ob & B & C & D & F).
    exists ls1, o1, s1, o. split; auto. unfold counter. rewrite B. now rewrite F.
Qed.

(** Every object is destroyed at most once, never while a variable holds it,
    and when no operation is in progress the destroyed objects are exactly
    those that no variable holds. *)
Theorem C32_once : forall threads locals ls outs s, well_used (rc_new threads locals) ls ->
  rc_run (rc_new threads locals) ls = Ok (outs, s) ->
  NoDup (destroyed outs) /\ NoDup (created outs) /\ incl (destroyed outs) (created outs).
Proof.
  intros T L ls outs s W E. pose proof (run_hist ls [] _ (hist0 T L) W) as H. rewrite E in H. cbn [app] in H.
  split; [apply H|]. rewrite (h_created _ _ H). split; [apply seq_NoDup|]. intros o D. apply (h_dead _ _ H) in D.
  apply in_seq. split; [apply Nat.le_0_l|]. cbn. unfold st_of in D. apply nth_error_Some. intros X. rewrite X in D. discriminate.
Qed.

Theorem C32_not_while_held : forall threads locals ls outs s o, well_used (rc_new threads locals) ls ->
  rc_run (rc_new threads locals) ls = Ok (outs, s) -> held s o -> ~ In o (destroyed outs).
Proof.
  intros T L ls outs s o W E. pose proof (run_hist ls [] _ (hist0 T L) W) as H. rewrite E in H. apply held_not_destroyed. exact H.
Qed.

Theorem C32_last_release : forall threads locals ls outs s o, well_used (rc_new threads locals) ls ->
  rc_run (rc_new threads locals) ls = Ok (outs, s) -> idle s -> In o (created outs) ->
  (In o (destroyed outs) <-> ~ held s o).
Proof.
  intros T L ls outs s o W E. pose proof (run_hist ls [] _ (hist0 T L) W) as H. rewrite E in H. apply idle_destroyed. exact H.
Qed.

(** getref() counts the variables that point to the object. *)
Theorem C32_getref : forall threads locals ls outs s o, well_used (rc_new threads locals) ls ->
  rc_run (rc_new threads locals) ls = Ok (outs, s) -> idle s -> In o (created outs) -> ~ In o (destroyed outs) ->
  counter s o = Some (holders s o).
Proof.
  intros T L ls outs s o W E. pose proof (run_hist ls [] _ (hist0 T L) W) as H. rewrite E in H. apply idle_count. exact H.
Qed.

(** The excluded form [p = p->member] is legal C++ and uses a destroyed object:
    reset() releases the old object before acquiring the new one. Here variable
    0 is the only holder of object 1, whose member is the only holder of
    object 0. *)
Definition chain : list rlabel :=
  [RStart 0 (ONew 1); RStep 0; RStep 0; RStart 0 (ONew 0); RStep 0; RStep 0; RStart 0 (OPut 0 1); RStep 0; RStep 0;
   RStart 0 (OClear 1); RStep 0; RStep 0].
Theorem C32_self_member_refuted :
  (exists s, rc_run (rc_new 1 2) chain = Ok ([RCreated 0; RNone; RNone; RCreated 1; RNone; RNone; RNone; RNone; RNone; RNone; RNone; RNone], s) /\
     idle s /\ holders s 0 = 1 /\ holders s 1 = 1) /\
  rc_run (rc_new 1 2) (chain ++ RStart 0 (OGet 0 0) :: repeat (RStep 0) 8) = UB.
Proof.
  split; [|vm_compute; reflexivity]. eexists. split; [vm_compute; reflexivity|]. split; [|vm_compute; auto]. repeat constructor.
Qed.

(** Two threads release the last two references of an object in an interleaved
    way; it is destroyed once, together with the object its member holds. *)
Definition race : list rlabel :=
  chain ++ [RStart 1 (OAssign 1 0); RStep 1; RStep 1; RStart 0 (OClear 0); RStart 1 (OClear 1); RStep 1; RStep 0; RStep 1; RStep 0; RStep 0; RStep 0; RStep 0; RStep 0; RStep 0].
Example C32_ex_used : well_used (rc_new 2 2) race.
Proof.
  assert (G : forall s, rc_new 2 2 = s -> well_used s race); [|apply (G _ eq_refl)].
  intros s <-.
  repeat match goal with
  | |- True => exact I
  | |- _ /\ _ => split
  | |- well_used _ _ => progress cbn
  end; try (cbn; unfold not_used, not_written, points; cbn; repeat split; repeat (constructor; [cbn; intuition discriminate|]); eauto; try discriminate).
  all: try (eexists; eexists; reflexivity).
  all: try (eexists; split; [eexists; reflexivity|]; repeat split; repeat (constructor; [cbn; intuition discriminate|]); try constructor).
Qed.
Example C32_ex : exists s, rc_run (rc_new 2 2) race =
   Ok ([RCreated 0; RNone; RNone; RCreated 1; RNone; RNone; RNone; RNone; RNone; RNone; RNone; RNone;
        RNone; RNone; RNone; RNone; RNone; RNone; RNone; RNone; RNone; RNone; RNone; RDestroyed 0; RDestroyed 1; RNone], s) /\ idle s.
Proof. eexists. split; [vm_compute; reflexivity|]. repeat constructor. Qed.

Print Assumptions C32_safe.
Print Assumptions C32_once.
Print Assumptions C32_not_while_held.
Print Assumptions C32_last_release.
Print Assumptions C32_getref.
Print Assumptions C32_self_member_refuted.
