(** C43: rate limiter. *)
From Verif Require Import Base RateLimiter_model RateLimiter_proof.

(** [ts] are the times of the calls (non-decreasing, first one [t]); [bs] the
    answers. Time is cut into intervals of the period starting at the first
    call: no interval contains two permitted events. *)
Theorem C43_one_per_interval p s t ts i j x y :
  rl_new p = Ok s -> sorted_from t ts ->
  (forall u, In u (t :: ts) -> u - t + p < 18446744073709551616) ->
  (i < j)%nat ->
  nth_error (rl_run s (t :: ts)) i = Some true -> nth_error (t :: ts) i = Some x ->
  nth_error (rl_run s (t :: ts)) j = Some true -> nth_error (t :: ts) j = Some y ->
  (x - t) / p < (y - t) / p.
Proof.
  intros Hn Hs Hb Hij. rewrite (rl_new_spec p t ts s Hn Hs Hb).
  apply cells_distinct; auto. unfold rl_new in Hn. destruct (p <=? 0) eqn:E; [discriminate|lia].
Qed.
Print Assumptions C43_one_per_interval.

(** Hence three permitted events never fall within one period. *)
Theorem C43_two_per_window p s t ts i j k x y z :
  rl_new p = Ok s -> sorted_from t ts ->
  (forall u, In u (t :: ts) -> u - t + p < 18446744073709551616) ->
  (i < j < k)%nat ->
  nth_error (rl_run s (t :: ts)) i = Some true -> nth_error (t :: ts) i = Some x ->
  nth_error (rl_run s (t :: ts)) j = Some true -> nth_error (t :: ts) j = Some y ->
  nth_error (rl_run s (t :: ts)) k = Some true -> nth_error (t :: ts) k = Some z ->
  p < z - x.
Proof.
  intros Hn Hs Hb [Hij Hjk] A1 A2 B1 B2 C1 C2.
  pose proof (C43_one_per_interval p s t ts i j x y Hn Hs Hb Hij A1 A2 B1 B2).
  pose proof (C43_one_per_interval p s t ts j k y z Hn Hs Hb Hjk B1 B2 C1 C2).
  assert (Hp : 0 < p) by (unfold rl_new in Hn; destruct (p <=? 0) eqn:E; [discriminate|lia]).
  pose proof (mul_div_le p (x - t) Hp). pose proof (mul_div_le p (z - t) Hp). nia.
Qed.
Print Assumptions C43_two_per_window.

(** Every call has a permitted one (possibly itself) less than one period
    before it: an event is never suppressed for longer than the period. *)
Theorem C43_not_starved p s t ts i y :
  rl_new p = Ok s -> sorted_from t ts ->
  (forall u, In u (t :: ts) -> u - t + p < 18446744073709551616) ->
  nth_error (t :: ts) i = Some y ->
  exists j x, (j <= i)%nat /\ nth_error (rl_run s (t :: ts)) j = Some true /\
              nth_error (t :: ts) j = Some x /\ y - x < p.
Proof.
  intros Hn Hs Hb Hi. rewrite (rl_new_spec p t ts s Hn Hs Hb).
  assert (Hp : 0 < p) by (unfold rl_new in Hn; destruct (p <=? 0) eqn:E; [discriminate|lia]).
  destruct (cells_recent p t Hp (t :: ts) None i y t) as [H|(k & E & _)]; auto; [cbn; split; [lia|exact Hs]|lia|discriminate].
Qed.
Print Assumptions C43_not_starved.

(** The intervals are fixed ones, not counted from the last permitted event:
    two events one nanosecond apart can both be permitted. *)
Theorem C43_close_events_refuted :
  exists p s t ts, rl_new p = Ok s /\ sorted_from t ts /\
    t :: ts = [0; p + p - 1; p + p] /\ rl_run s (t :: ts) = [true; true; true].
Proof. exists 10, (mkRl 10 0 None), 0, [19; 20]. vm_compute. intuition congruence. Qed.
Print Assumptions C43_close_events_refuted.

Example C43_example :
  rl_run (mkRl 10 0 None) [100; 105; 109; 110; 111; 125; 129; 131] =
  [true; false; false; true; false; true; false; true].
Proof. vm_compute. reflexivity. Qed.

(** would_allow() answers what allow() would answer at the same time, and asking
    does not change any later answer. *)
Theorem C43_would_allow s now ts :
  snd (rl_would_allow s now) = snd (rl_allow s now) /\
  rl_run (fst (rl_would_allow s now)) (now :: ts) = rl_run s (now :: ts).
Proof.
  unfold rl_would_allow, rl_allow, rl_elapsed. cbn [rl_run]. unfold rl_allow, rl_elapsed.
  destruct (rl_start s) as [t|] eqn:E; cbn [fst snd rl_pos rl_start rl_period].
  - rewrite ?E. destruct (rl_pos s <=? now - t); split; reflexivity.
  - rewrite Z.sub_diag. destruct (rl_pos s <=? 0); split; reflexivity.
Qed.
Print Assumptions C43_would_allow.
