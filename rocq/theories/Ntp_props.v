(** C17 (compact NTP timestamps) and C21 (NTP time conversion). *)
From Verif Require Import Base Ntp_model Ntp_proof.

(** Storing a timestamp in the 32-bit field and extending it against a base
    less than 2^47 (half of what the field spans) away restores it, also across
    the wrap of the middle bits and of the whole 64-bit timestamp. [X] is any
    integer naming the same instant as [x] modulo 2^64. *)
Theorem C17_extend base x X :
  0 <= base < 18446744073709551616 -> 0 <= x < 18446744073709551616 ->
  x mod 65536 = 0 ->
  x = X mod 18446744073709551616 -> Z.abs (X - base) < 140737488355328 ->
  ntp_extend base (ntp32_get (ntp32_set x)) = Ok x.
Proof. exact (extend_spec base x X). Qed.
Print Assumptions C17_extend.

(** A timestamp that also has low bits loses exactly those. *)
Theorem C17_extend_truncates base x :
  0 <= base < 18446744073709551616 -> 0 <= x < 18446744073709551616 ->
  Z.abs (x - base) < 140737488355328 - 65536 ->
  ntp_extend base (ntp32_get (ntp32_set x)) = Ok (x - x mod 65536).
Proof.
  intros Hb Hx Hn.
  replace (ntp32_set x) with (ntp32_set (x - x mod 65536)).
  - apply (extend_spec base (x - x mod 65536) (x - x mod 65536)); lia.
  - unfold ntp32_set. rewrite !Z.shiftr_div_pow2 by lia. f_equal. change (2 ^ 16) with 65536. lia.
Qed.
Print Assumptions C17_extend_truncates.

(** Delays are stored rounded to 1/65536 s and saturate at the maximum of the
    field, instead of losing their high bits. *)
Theorem C17_delay_saturates x :
  0 <= x < 18446744073709551616 - 32768 ->
  ntp32_get (set_delay x) = Z.min ((x + 32768) / 65536) 4294967295 * 65536.
Proof.
  intros H. unfold set_delay. rewrite clamp32_spec by (unfold max_delay; lia).
  change (max_delay / 65536) with 4294967295. rewrite ntp32_get_set by lia.
  rewrite Z.div_mul, Z.mod_small by lia. reflexivity.
Qed.
Print Assumptions C17_delay_saturates.

(** A metric that was set is never mistaken for a missing one. *)
Theorem C17_metric_available x :
  0 <= x < 18446744073709551616 - 32768 ->
  has_metric_32 (set_metric_32 x) = true /\
  ntp32_get (set_metric_32 x) = Z.min ((x + 32768) / 65536) 4294967294 * 65536.
Proof.
  intros H.
  assert (E : ntp32_get (set_metric_32 x) = Z.min ((x + 32768) / 65536) 4294967294 * 65536).
  { unfold set_metric_32. rewrite clamp32_spec by (unfold metric_unavail_32; lia).
    change ((metric_unavail_32 - 1) / 65536) with 4294967294. rewrite ntp32_get_set by lia.
    rewrite Z.div_mul, Z.mod_small by lia. reflexivity. }
  split; [|exact E]. unfold has_metric_32. rewrite E.
  change metric_unavail_32 with (4294967295 * 65536). lia.
Qed.
Print Assumptions C17_metric_available.

Theorem C17_metric64_available x :
  0 <= x < 18446744073709551616 ->
  has_metric_64 (set_metric_64 x) = true /\
  ntp64_get (set_metric_64 x) = Z.min x 18446744073709551614.
Proof.
  intros H. unfold set_metric_64, has_metric_64, ntp_clamp_64.
  change (metric_unavail_64 - 1) with 18446744073709551614.
  destruct (18446744073709551614 <? x) eqn:E; rewrite ntp64_rt by lia;
    change metric_unavail_64 with 18446744073709551615; lia.
Qed.
Print Assumptions C17_metric64_available.

(** The bound on [x] is needed: within half a unit of 2^64 the rounding wraps
    and the largest delay is stored as zero. *)
Theorem C17_delay_wraps_refuted :
  exists x, 0 <= x < 18446744073709551616 /\ ntp32_get (set_delay x) = 0 /\ 18446744073709551615 <= x.
Proof. exists 18446744073709551615. vm_compute. intuition congruence. Qed.
Print Assumptions C17_delay_wraps_refuted.

Example C17_example :
  ntp_extend 0x0001000000000005 (ntp32_get (ntp32_set 0x0000FFFFFFFF0000)) = Ok 0x0000FFFFFFFF0000 /\
  ntp_extend 0x0000000000000005 (ntp32_get (ntp32_set 0xFFFFFFFFFFFF0000)) = Ok 0xFFFFFFFFFFFF0000 /\
  ntp_extend 0x0000FFFFFFFF0005 (ntp32_get (ntp32_set 0x0001000000070000)) = Ok 0x0001000000070000.
Proof. vm_compute. auto. Qed.

(** Unix time to NTP and back: exact, or one nanosecond less, for every time
    from 1968-01-20 03:14:08 to 2104-02-26 09:42:24 UTC. *)
Theorem C21_unix_round_trip t :
  -61505152000000000 <= t < 4233462144000000000 ->
  exists v, unix_2_ntp t = Ok v /\ 0 <= v < 18446744073709551616 /\
            t - 1 <= ntp_2_unix v <= t.
Proof. exact (unix_rt t). Qed.
Print Assumptions C21_unix_round_trip.

(** NTP to Unix and back, for every 64-bit NTP timestamp: within one
    nanosecond (which is 4.3 NTP units). *)
Theorem C21_ntp_round_trip v :
  0 <= v < 18446744073709551616 ->
  exists v', unix_2_ntp (ntp_2_unix v) = Ok v' /\ v - 5 <= v' <= v + 4.
Proof. exact (ntp_rt v). Qed.
Print Assumptions C21_ntp_round_trip.

(** Durations: both conversions are rounded down (so the error is below one
    unit of the target) and monotone. *)
Theorem C21_durations d :
  0 <= d < 4294967296 * 1000000000 ->
  nanoseconds_2_ntp d = Ok (d * 4294967296 / 1000000000).
Proof. intros H. apply ns2ntp_floor. exact H. Qed.
Print Assumptions C21_durations.

Theorem C21_durations_back v :
  0 <= v < 18446744073709551616 -> ntp_2_nanoseconds v = v * 1000000000 / 4294967296.
Proof. exact (ntp2ns_floor v). Qed.
Print Assumptions C21_durations_back.

Theorem C21_monotone :
  (forall d d' v v', 0 <= d <= d' -> d' < 4294967296 * 1000000000 ->
     nanoseconds_2_ntp d = Ok v -> nanoseconds_2_ntp d' = Ok v' -> v <= v') /\
  (forall v v', 0 <= v <= v' -> v' < 18446744073709551616 -> ntp_2_nanoseconds v <= ntp_2_nanoseconds v').
Proof. split; [exact ns2ntp_mono|exact ntp2ns_mono]. Qed.
Print Assumptions C21_monotone.

(** Outside that range: times before 1900 abort, times after 2104-02-26 come
    back as a time 136 years earlier. *)
Theorem C21_out_of_range_refuted :
  (exists t, unix_2_ntp t = Panic) /\
  (exists t v, unix_2_ntp t = Ok v /\ ntp_2_unix v = t - 4294967296 * 1000000000).
Proof.
  split; [exists (-2208988800000000001); reflexivity|].
  exists 4233462144000000000, 9223372036854775808. vm_compute. auto.
Qed.
Print Assumptions C21_out_of_range_refuted.

Example C21_example :
  unix_2_ntp 1700000000123456789 = Ok 16788979056960527671 /\
  ntp_2_unix 16788979056960527671 = 1700000000123456788.
Proof. vm_compute. auto. Qed.
