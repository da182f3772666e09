(** C69: what a sender shows and does about feedback from its receivers. *)
From Verif Require Import Base RateLimiter_model Feedback_model Feedback_spec Feedback_proof.
Local Open Scope res_scope.

(** A report of a receiver that does not report again can be found in one place only. *)
Lemma latest_unique : forall p r t src m n p' r' t' m' n',
  p ++ Report t src m n :: r = p' ++ Report t' src m' n' :: r' ->
  (forall u v w, ~ In (Report u src v w) r) -> (forall u v w, ~ In (Report u src v w) r') ->
  r = r' /\ t = t' /\ m = m' /\ n = n'.
Proof.
  intros p r t src m n p' r' t' m' n' E A B. apply app_eq_app in E.
  destruct E as (l & [[E3 E4]|[E3 E4]]).
  - destruct l as [|y l]; cbn in E4; [repeat split; congruence|]. exfalso. apply (B t m n).
    assert (Q : r' = l ++ Report t src m n :: r) by congruence.
    rewrite Q. apply in_app_iff. cbn. auto.
  - destruct l as [|y l]; cbn in E4; [repeat split; congruence|]. exfalso. apply (A t' m' n').
    assert (Q : r = l ++ Report t' src m' n' :: r') by congruence.
    rewrite Q. apply in_app_iff. cbn. auto.
Qed.

Section Claims.
Variable T : Type.
Variable tuner0 : T.
Variable tuner_update : metrics -> T -> T * bool.
Variable tuner_advance : Z -> T -> T.
Variable tuner_fetch : T -> T * option Z.
Variable scaling_ok : Z -> bool.
Variables timeout cooldown : Z.
Variable scaling : bool.

Notation hist := (mon_history tuner0 tuner_update tuner_advance tuner_fetch scaling_ok timeout
                    cooldown scaling).

(** What is shown was reported: by one receiver, after the start, and it is that
    receiver's latest report; no frame was written later than the timeout after it. If no
    report had a count of zero, it is shown exactly as reported. *)
Theorem C69_shown : forall evs s es from i x,
  hist evs = Ok (s, es) -> in_order from evs -> 0 <= i -> mon_metrics s i = Ok x ->
  i = 0 /\
  exists pre rest t0 src m sent, reported_in pre rest t0 src m sent evs /\
    stands_for x m sent /\
    ((forall t' src' m' sent', In (Report t' src' m' sent') evs -> m_total m' <> 0) -> x = m) /\
    (forall t' m' sent', ~ In (Report t' src m' sent') rest) /\
    (forall t' d, In (WriteFrame t' d) rest -> t' - t0 <= timeout).
Proof.
  intros evs s es from i x H O I M. destruct (run_ok _ _ _ _ _ _ _ _ _ _ H O) as [X _].
  unfold mon_metrics, participants in M. destruct (has_feedback s) eqn:HF.
  - destruct (Z.leb_spec 1 i); [discriminate M|]. assert (E : x = shown s) by congruence.
    subst x. split; [lia|].
    destruct (ex_shown X HF) as (pre & rest & t0 & src & m & sent & R & R1 & R2 & R3 & R4 & R5 & R6).
    exists pre, rest, t0, src, m, sent. repeat split; auto; try apply R; try apply R3.
    intros NZ. specialize (R4 (ex_count X NZ)). destruct R3 as (L1 & L2 & _).
    destruct (shown s), m. cbn in *. congruence.
  - destruct (Z.leb_spec 0 i); [discriminate M|lia].
Qed.

(** With a single receiver its latest report is shown, from the moment it arrives until
    a frame is written later than the timeout after it. *)
Theorem C69_single : forall evs s es from pre rest t0 src m sent,
  hist evs = Ok (s, es) -> in_order from evs ->
  (forall t' src' m' sent', In (Report t' src' m' sent') evs -> src' = src) ->
  reported_in pre rest t0 src m sent evs ->
  (forall t' m' sent', ~ In (Report t' src m' sent') rest) ->
  (participants s = 1 <-> forall t' d, In (WriteFrame t' d) rest -> t' - t0 <= timeout) /\
  (participants s = 1 -> exists x, mon_metrics s 0 = Ok x /\ stands_for x m sent) /\
  (participants s <> 1 -> participants s = 0 /\ forall i, 0 <= i -> mon_metrics s i = Panic).
Proof.
  intros evs s es from pre rest t0 src m sent H O ONE R LAST.
  destruct (run_ok _ _ _ _ _ _ _ _ _ _ H O) as [X _]. unfold mon_metrics, participants.
  destruct (has_feedback s) eqn:HF.
  - destruct (ex_shown X HF) as (p0 & r0 & t1 & s1 & m1 & n1 & R0 & R1 & R2 & R3 & R4 & R5 & R6).
    clear R1. assert (s1 = src).
    { apply (ONE t1 s1 m1 n1). rewrite (proj1 R0). apply in_app_iff. cbn. auto. }
    subst s1.
    assert (E : pre ++ Report t0 src m sent :: rest = p0 ++ Report t1 src m1 n1 :: r0).
    { rewrite <- (proj1 R). exact (proj1 R0). }
    destruct (latest_unique _ _ _ _ _ _ _ _ _ _ _ E LAST R5) as (-> & -> & -> & ->).
    split; [tauto|]. split; [|congruence]. intros _. exists (shown s). auto.
  - split; [|split; [discriminate|]].
    + split; [discriminate|]. intros W. exfalso.
      destruct (ex_none X HF R) as (t' & d & I & [L|(u & v & w & z & I2 & N)]).
      * specialize (W t' d I). lia.
      * apply N. apply (ONE _ _ _ _ I2).
    + intros _. split; auto. intros i I. destruct (Z.leb_spec 0 i); auto. lia.
Qed.

(** A frame written when all reports are older than the timeout: no receiver is shown, a
    query panics, and the tuner is given nothing at that moment. *)
Theorem C69_silent : forall evs s es from t d,
  hist (evs ++ [WriteFrame t d]) = Ok (s, es) -> in_order from (evs ++ [WriteFrame t d]) ->
  (forall t0 src m sent, In (Report t0 src m sent) evs -> timeout < t - t0) ->
  participants s = 0 /\ (forall i, 0 <= i -> mon_metrics s i = Panic) /\
  forall x, ~ In (EFeed t x) es.
Proof.
  intros evs s es from t d H O OLD. destruct (run_ok _ _ _ _ _ _ _ _ _ _ H O) as [X F].
  assert (IN : forall pre rest t0 src m sent,
    reported_in pre rest t0 src m sent (evs ++ [WriteFrame t d]) ->
    In (WriteFrame t d) rest /\ timeout < t - t0).
  { intros pre rest t0 src m sent R. apply reported_unsnoc in R.
    destruct R as [(r & -> & [R _])|(_ & _ & R)]; [|discriminate R].
    split; [apply in_app_iff; cbn; auto|]. apply (OLD t0 src m sent). rewrite R.
    apply in_app_iff. cbn. auto. }
  assert (HF : has_feedback s = false).
  { destruct (has_feedback s) eqn:HF; auto. exfalso.
    destruct (ex_shown X HF) as (p0 & r0 & t1 & s1 & m1 & n1 & R0 & R1 & R2 & R3 & R4 & R5 & R6).
    destruct (IN _ _ _ _ _ _ R0) as [I1 I2]. specialize (R6 _ _ I1). lia. }
  unfold mon_metrics, participants. rewrite HF. split; auto. split.
  - intros i I. destruct (Z.leb_spec 0 i); auto. lia.
  - intros x I. destruct (F t x I) as (p0 & r0 & t1 & s1 & m1 & n1 & d1 & R0 & R1 & R2 & R3).
    destruct (IN _ _ _ _ _ _ R0) as [I1 I2]. lia.
Qed.

(** The tuner is only given what a receiver reported at most the timeout before, and only
    while a frame is written. *)
Theorem C69_fed : forall evs s es from t x,
  hist evs = Ok (s, es) -> in_order from evs -> In (EFeed t x) es ->
  exists pre rest t0 src m sent d, reported_in pre rest t0 src m sent evs /\
    stands_for x m sent /\ 0 <= t - t0 <= timeout /\ In (WriteFrame t d) rest.
Proof. intros evs s es from t x H O I. destruct (run_ok _ _ _ _ _ _ _ _ _ _ H O) as [_ F]. apply F. auto. Qed.

(** Every frame is passed on, in order, whatever the feedback is; a history ends early
    only if the cooldown is not positive or the resampler refuses a factor. *)
Theorem C69_frames : forall evs,
  (forall s es, hist evs = Ok (s, es) -> frames es = written evs) /\
  hist evs <> UB /\
  (hist evs = Panic -> cooldown <= 0 \/ exists x, scaling_ok x = false).
Proof.
  intros evs. split; [intros s es H; eapply run_frames; eauto|].
  unfold mon_history, mon_new, rl_new. destruct (Z.leb_spec cooldown 0); cbn [bind].
  - split; [discriminate|auto].
  - match goal with |- mon_run _ _ _ _ _ _ ?s _ <> UB /\ _ =>
      pose proof (run_panic tuner_update tuner_advance tuner_fetch scaling_ok timeout scaling evs s) as P end.
    destruct P as [P1 P2]. split; auto.
Qed.

(** A receiver that is shown is replaced by another one only by a report of that one, and
    the replacement is noted with its time. *)
Theorem C69_replaced : forall evs e s es s' es',
  hist evs = Ok (s, es) -> hist (evs ++ [e]) = Ok (s', es') ->
  participants s = 1 -> participants s' = 1 -> source s <> source s' ->
  exists t m sent, e = Report t (source s') m sent /\ es' = es ++ [ESwitch t (source s) (source s')].
Proof.
  intros evs e s es s' es' H H' P P' N.
  apply hist_inv in H. destruct H as [_ H]. apply hist_inv in H'. destruct H' as [_ H'].
  apply run_snoc in H'. destruct H' as (s1 & es1 & e1 & H1 & H2 & ->).
  assert (Q : s1 = s /\ es1 = es) by (rewrite H in H1; split; congruence). destruct Q as [-> ->].
  unfold participants in P, P'.
  destruct (has_feedback s) eqn:HF; [|discriminate P].
  destruct (has_feedback s') eqn:HF'; [|discriminate P'].
  destruct e as [|now src m sent|now dur]; cbn [mon_step] in H2.
  - assert (Q : s' = mon_start s) by congruence. subst s'. cbn in N. congruence.
  - assert (Q : mon_report s now src m sent = (s', e1)) by congruence.
    unfold mon_report in Q. destruct (negb (started s)); [congruence|]. rewrite HF in Q.
    destruct (Z.eqb_spec (source s) src); cbn [negb andb] in Q.
    { exfalso. assert (QQ : s' = mon_accept s now src m sent) by congruence. subst s'.
      cbn in N. congruence. }
    destruct (rl_allow (limiter s) now) as [l [|]].
    + exists now, m, sent.
      match type of Q with (mon_accept ?a ?b ?c ?d ?f, _) = _ =>
        assert (QQ : s' = mon_accept a b c d f) by congruence end.
      assert (SS : source s' = src) by (rewrite QQ; auto). rewrite SS. split; auto.
      f_equal. congruence.
    + exfalso. match type of Q with (?a, _) = _ => assert (QQ : s' = a) by congruence end.
      subst s'. cbn in N. congruence.
  - exfalso. unfold mon_write in H2. destruct (negb (started s)); [congruence|].
    destruct (mon_update tuner_update tuner_advance timeout s now dur) as [s1 e2] eqn:E.
    assert (K : has_feedback s1 = true -> source s1 = source s).
    { unfold mon_update in E. rewrite HF in E. cbn [negb] in E.
      destruct (timeout <? now - last_ts s).
      - inversion E. cbn. discriminate.
      - destruct (tuner_update (shown s) (tuner s)). inversion E. auto. }
    assert (V : has_feedback s' = has_feedback s1 /\ source s' = source s1).
    { destruct scaling.
      - unfold mon_scale in H2. destruct (tuner_fetch (tuner s1)) as [t [x|]].
        + destruct (scaling_ok x); cbn [bind fst snd] in H2; [|discriminate H2].
          inversion H2. auto.
        + cbn [bind fst snd] in H2. inversion H2. auto.
      - cbn [bind fst snd] in H2. inversion H2. auto. }
    destruct V as [V1 V2]. rewrite V1 in HF'. specialize (K HF'). congruence.
Qed.

(** Of any three replacements, the first and the last are more than the cooldown apart. *)
Theorem C69_switching : forall evs s es from i j k x y z,
  0 < cooldown < 2 ^ 62 -> hist evs = Ok (s, es) -> in_order from evs ->
  (forall e t, In e evs -> time_of e = Some t -> t < from + 2 ^ 62) ->
  (i < j < k)%nat -> nth_error (switches es) i = Some x -> nth_error (switches es) j = Some y ->
  nth_error (switches es) k = Some z ->
  z - x > cooldown.
Proof.
  intros evs s es from i j k x y z CD H O BD IJK X Y Z.
  destruct (run_grid _ _ _ _ _ _ _ _ _ CD H O BD) as [[P G] _].
  destruct (rl_start (limiter s)) as [b|].
  - destruct G as (_ & _ & G).
    assert (A : (x - b) / cooldown < (y - b) / cooldown) by (apply (G i j); auto; lia).
    assert (B : (y - b) / cooldown < (z - b) / cooldown) by (apply (G j k); auto; lia).
    clear G. nia.
  - destruct G as [G _]. rewrite G in X. destruct i; discriminate X.
Qed.

End Claims.

(** A monitor with a tuner that asks for the factor 1 after each report it is given. *)
Definition ex_hist (timeout cooldown : Z) :=
  mon_history (T := bool) false (fun _ _ => (true, true)) (fun _ t => t)
    (fun t => (false, if t then Some 1 else None)) (fun x => x =? 1) timeout cooldown true.

Definition ex_m (n : Z) : metrics := mkMetrics 7 n 9.

(** Two receivers, the second ignored at first, taken after the first one fell silent. *)
Definition ex_evs : list event :=
  [WriteFrame 1 5; Start; Report 2 100 (ex_m 40) 41; WriteFrame 3 6; Report 4 100 (ex_m 50) 51;
   WriteFrame 90 7; Report 95 200 (ex_m 60) 61; WriteFrame 96 8].

Example ex_shown :
  exists s es, ex_hist 50 20 ex_evs = Ok (s, es) /\ in_order 0 ex_evs /\
    mon_metrics s 0 = Ok (ex_m 60) /\ participants s = 1 /\
    es = [EFrame 5; EFeed 3 (ex_m 40); EScale 1; EFrame 6; EFrame 7;
          EFeed 96 (ex_m 60); EScale 1; EFrame 8].
Proof.
  do 2 eexists. split; [vm_compute; reflexivity|]. split; [cbn; lia|].
  split; [reflexivity|]. split; reflexivity.
Qed.

Example ex_single_silent :
  exists s es s' es',
    ex_hist 50 20 (firstn 5 ex_evs) = Ok (s, es) /\ participants s = 1 /\
    mon_metrics s 0 = Ok (ex_m 50) /\
    ex_hist 50 20 (firstn 5 ex_evs ++ [WriteFrame 90 7]) = Ok (s', es') /\ participants s' = 0 /\
    mon_metrics s' 0 = Panic.
Proof.
  do 4 eexists. split; [vm_compute; reflexivity|]. split; [reflexivity|]. split; [reflexivity|].
  split; [vm_compute; reflexivity|]. split; reflexivity.
Qed.

(** The cooldown does not keep replacements apart: the sender goes to a receiver and back
    one nanosecond later, with a cooldown of fifty milliseconds. *)
Theorem C69_cooldown_refuted :
  exists evs s es x y, in_order 0 evs /\ ex_hist (10 ^ 9) (50 * 10 ^ 6) evs = Ok (s, es) /\
    nth_error (switches es) 1 = Some x /\ nth_error (switches es) 2 = Some y /\ y = x + 1.
Proof.
  exists [Start; Report 0 1 (ex_m 1) 1; Report 10 2 (ex_m 2) 2;
          Report (10 + 100000000 - 1) 1 (ex_m 3) 3; Report (10 + 100000000) 2 (ex_m 4) 4].
  do 4 eexists. split; [cbn; lia|]. split; [vm_compute; reflexivity|].
  split; [reflexivity|]. split; reflexivity.
Qed.

(** After one report with a count of zero, the counts a receiver reports are not shown any
    more, although it reports them. *)
Theorem C69_counts_refuted :
  exists evs s es, in_order 0 evs /\ ex_hist 50 20 evs = Ok (s, es) /\
    evs = [Start; Report 0 1 (ex_m 0) 3; Report 10 1 (ex_m 1000) 1003] /\
    mon_metrics s 0 = Ok (ex_m 1003).
Proof.
  exists [Start; Report 0 1 (ex_m 0) 3; Report 10 1 (ex_m 1000) 1003].
  do 2 eexists. split; [cbn; lia|]. split; [vm_compute; reflexivity|].
  split; [reflexivity|]. reflexivity.
Qed.

Print Assumptions C69_shown.
Print Assumptions C69_single.
Print Assumptions C69_silent.
Print Assumptions C69_fed.
Print Assumptions C69_frames.
Print Assumptions C69_replaced.
Print Assumptions C69_switching.
Print Assumptions C69_cooldown_refuted.
Print Assumptions C69_counts_refuted.
