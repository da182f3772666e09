(** C30: the deadline timer never misses a wake-up. *)
From Verif Require Import Base Base_lemmas Timer_model Timer_spec Timer_proof.

(** Whenever no try_set_deadline() call is in progress and the waiting thread
    sleeps, it sleeps no later than the most recently set deadline, or that
    deadline is negative (disabled). *)
Theorem C30_no_lost_wakeup : forall n now ls outs s until, 0 <= now ->
  tm_run (tm_new n now) ls = (outs, s) -> setters_idle s -> asleep s until ->
  last_set outs < 0 \/ (exists t, until = Some t /\ t <= last_set outs).
Proof. intros n now ls outs s u N H Id A. eapply no_lost; eauto. apply (run_inv ls [] _ (inv0 n now N) _ _ H). Qed.

(** Once the most recently set deadline has been reached and no call that sets
    it is in progress, wait_deadline() returns within 11 of its own steps. *)
Theorem C30_wakes : forall n now ls outs s bs, 0 <= now ->
  tm_run (tm_new n now) ls = (outs, s) -> setters_idle s -> waiting s ->
  0 <= last_set outs <= tm_now s -> (11 <= length bs)%nat ->
  exists d, In (TReturned d) (fst (tm_run s (map TWStep bs))).
Proof.
  intros n now ls outs s bs N H Id W D L. pose proof (run_inv ls [] _ (inv0 n now N) _ _ H) as I.
  eapply wakes; eauto; [|pose proof (rank_le s); lia]. split; auto. cbn [app] in I. now rewrite <- (i_last _ _ I).
Qed.

(** wait_deadline() never returns early: the deadline it saw was in force at
    some moment since it was called, and the clock has reached it. *)
Theorem C30_not_early : forall n now ls l outs s d s', 0 <= now ->
  tm_run (tm_new n now) ls = (outs, s) -> tm_step s l = Some (TReturned d, s') ->
  0 <= d <= tm_now s /\
  exists o1 a b, outs = o1 ++ TEntered :: a ++ b /\ ~ In TEntered (a ++ b) /\ last_set (o1 ++ TEntered :: a) = d.
Proof.
  intros n now ls l outs s d s' N H E. destruct (run_cinv ls [] _ (inv0 n now N) (cinv0 n now) _ _ H) as [I C].
  destruct (returned _ _ _ _ _ I C E) as [A B]. split; auto.
Qed.

Ltac tgo UU UE :=  repeat (first [progress cbn [tm_run tm_step set_step upd_flag upd_set upd_sem upd_dl tm_set tm_dl tm_sem tm_flag tm_nw tm_nw_busy tm_now tm_wt tm_dl_busy] | rewrite UU | rewrite UE]).

(** try_set_deadline() that finds no other call in progress succeeds: alone it
    stores the deadline and returns true within four more steps. *)
Theorem C30_uncontended : forall n now ls outs s i d f1 f2 f3 f4, 0 <= now ->
  tm_run (tm_new n now) ls = (outs, s) -> setters_idle s -> (i < n)%nat ->
  exists o s', tm_run s [TSet i d; TStep i f1; TStep i f2; TStep i f3; TStep i f4] = (o, s') /\
    In (TStored i d) o /\ In (TAccepted i) o /\ setters_idle s'.
Proof.
  intros n now ls outs s i d f1 f2 f3 f4 N H Id L.
  assert (Len : length (tm_set s) = n).
  { assert (G : forall ls s o s', tm_run s ls = (o, s') -> length (tm_set s') = length (tm_set s)).
    { induction ls0 as [|l r IH]; intros a o b R; cbn [tm_run] in R; [injection R as <- <-; auto|].
      destruct (tm_step a l) as [[o1 s1]|] eqn:E; [|eauto].
      destruct (tm_run s1 r) as [os s2] eqn:R2. injection R as <- <-. rewrite (IH _ _ _ R2).
      destruct l as [j x|j fl| |y|dt]; cbn [tm_step] in E.
      - destruct (nth_error (tm_set a) j) as [[]|]; try discriminate. destruct (tm_dl_busy a); injection E as <- <-; auto. cbn. apply length_upd.
      - destruct (nth_error (tm_set a) j) as [[]|]; try discriminate; cbn [set_step] in E; cbv zeta in E;
        repeat match type of E with Some (if ?c then _ else _) = _ => destruct c end; injection E as <- <-; cbn; apply length_upd.
      - destruct (tm_wt a); try discriminate. injection E as <- <-. auto.
      - unfold wait_step in E. destruct (tm_wt a); try discriminate.
        all: repeat match type of E with
          | (if ?c then _ else _) = _ => destruct c
          | (match ?c with _ => _ end) = _ => destruct c end; try discriminate.
        all: injection E as <- <-; auto.
      - destruct (0 <=? dt); [|discriminate]. injection E as <- <-. auto. }
    rewrite (G _ _ _ _ H). cbn. apply repeat_length. }
  pose proof (run_inv ls [] _ (inv0 n now N) _ _ H) as I. cbn [app] in I.
  assert (B : tm_dl_busy s = false).
  { destruct (tm_dl_busy s) eqn:B; auto. destruct (i_busy _ _ I B) as [x X]. exfalso. revert X. apply idle_none; auto. discriminate. }
  assert (Ei : nth_error (tm_set s) i = Some SIdle).
  { destruct (nth_error (tm_set s) i) as [p|] eqn:E; [|apply nth_error_None in E; lia]. apply nth_error_In in E as E'.
    unfold setters_idle in Id. rewrite Forall_forall in Id. now rewrite (Id _ E'). }
  assert (Hi : (i < length (tm_set s))%nat) by lia.
  assert (FI : forall l, Forall (fun p => p = SIdle) l -> Forall (fun p => p = SIdle) (upd l i SIdle)).
  { intros l F. clear -F. revert i. induction F; intros [|i]; cbn; auto. }
  assert (UU : forall l (p q : spc), upd (upd l i p) i q = upd l i q).
  { intros l p q. clear. revert i. induction l; intros [|i]; cbn; auto. now rewrite IHl. }
  assert (UE : forall p, nth_error (upd (tm_set s) i p) i = Some p) by (intros; apply nth_error_upd_eq; auto).
  cbn [tm_run tm_step]. rewrite Ei, B. tgo UU UE.
  match goal with |- context [if ?c then _ else _] => destruct c end; tgo UU UE.
  - destruct (tm_flag s) eqn:F; tgo UU UE.
    + do 2 eexists. split; [reflexivity|]. cbn. intuition. unfold setters_idle. cbn. rewrite ?UU. apply FI, Id.
    + do 2 eexists. split; [reflexivity|]. cbn. intuition. unfold setters_idle. cbn. rewrite ?UU. apply FI, Id.
  - do 2 eexists. split; [reflexivity|]. cbn. intuition. unfold setters_idle. cbn. rewrite ?UU. apply FI, Id.
Qed.

(** The waiter goes to sleep until 100, thread 0 moves the deadline to 50 and
    is overtaken by thread 1 (70); the waiter wakes up and sleeps until 70. *)
Definition ex_sched : list tlabel :=
  [TSet 0 100; TStep 0 false; TStep 0 false; TWait; TWStep false; TWStep false; TWStep false; TWStep false; TWStep false; TWStep false; TWStep false;
   TSet 0 50; TSet 1 60; TStep 0 false; TSet 1 70; TStep 0 false; TStep 1 false; TStep 1 false; TStep 0 false; TStep 0 false;
   TStep 1 false;
   TWStep false; TWStep false; TWStep false; TWStep false; TWStep false; TWStep false; TWStep false; TWStep false].
Example C30_ex_asleep : let '(outs, s) := tm_run (tm_new 2 5) ex_sched in
  setters_idle s /\ asleep s (Some 70) /\ last_set outs = 70 /\ In (TRefused 1) outs /\ waiting s.
Proof. vm_compute. intuition (auto; try discriminate; repeat constructor). Qed.
Example C30_ex_wakes : let '(_, s) := tm_run (tm_new 2 5) (ex_sched ++ [TTick 65]) in
  fst (tm_run s (map TWStep (repeat true 11))) = repeat TNone 7 ++ [TReturned 70].
Proof. vm_compute. reflexivity. Qed.

Print Assumptions C30_no_lost_wakeup.
Print Assumptions C30_wakes.
Print Assumptions C30_not_early.
Print Assumptions C30_uncontended.
