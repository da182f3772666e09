(* C55: conversions between nanoseconds, samples, stream timestamps and bytes. *)
From Coq Require Import Reals ZArith List Bool Lia Lra.
From Flocq Require Import Core.Core.
From Verif Require Import Base Float32 TimeConv_model TimeConv_spec TimeConv_proof.
Local Open Scope Z_scope.

(* what SampleSpec::is_valid() and the types of its fields guarantee *)
Definition valid (s : spec) : Prop := 1 <= s_rate s < 2 ^ 64 /\ 1 <= s_chans s <= 1024.
(* and a sample rate a float represents exactly: up to 16.7 MHz *)
Definition usual (s : spec) : Prop := valid s /\ s_rate s <= 2 ^ 24.

Definition cd := mkSpec 44100 2 16.
Definition studio := mkSpec 48000 2 16.
Example cd_usual : usual cd. Proof. unfold usual, valid. cbn [s_rate s_chans cd]. lia. Qed.
Example studio_usual : usual studio. Proof. unfold usual, valid. cbn [s_rate s_chans studio]. lia. Qed.

(* No conversion panics, overflows or converts a float that does not fit, for
   any duration or number of samples that its argument can hold; and the result
   fits its type. *)
Theorem C55_never_undefined : forall s, valid s ->
  (forall ns, 0 <= ns < 2 ^ 63 -> (exists r, ns_2_samples_per_chan s ns = Ok r /\ 0 <= r < 2 ^ 64)) /\
  (forall ns, 0 <= ns < 2 ^ 63 -> (exists r, ns_2_samples_overall s ns = Ok r /\ 0 <= r < 2 ^ 64)) /\
  (forall ns, 0 <= ns < 2 ^ 63 -> (exists r, ns_2_stream_timestamp s ns = Ok r /\ 0 <= r < 2 ^ 32)) /\
  (forall ns, - 2 ^ 63 <= ns < 2 ^ 63 -> (exists r, ns_2_stream_timestamp_delta s ns = Ok r /\ - 2 ^ 31 <= r < 2 ^ 31)) /\
  (forall n, 0 <= n < 2 ^ 64 -> (exists r, samples_per_chan_2_ns s n = Ok r /\ - 2 ^ 63 <= r < 2 ^ 63)) /\
  (forall n, 0 <= n < 2 ^ 64 -> n mod s_chans s = 0 -> (exists r, samples_overall_2_ns s n = Ok r /\ - 2 ^ 63 <= r < 2 ^ 63)) /\
  (forall n, 0 <= n < 2 ^ 32 -> (exists r, stream_timestamp_2_ns s n = Ok r /\ - 2 ^ 63 <= r < 2 ^ 63)) /\
  (forall n, - 2 ^ 31 <= n < 2 ^ 31 -> (exists r, stream_timestamp_delta_2_ns s n = Ok r /\ - 2 ^ 63 <= r < 2 ^ 63)).
Proof.
  intros s [Hr Hc].
  assert (I : forall t k ns mul, std_ty t k -> Z.abs ns <= 2 ^ 63 -> 1 <= mul <= 1024 ->
    exists r, ns_2_int_samples t ns (s_rate s) mul = Ok r /\ t_min t <= r <= t_max t).
  { intros t k ns mul T Hn Hm. destruct (ns_int t k ns (s_rate s) mul T Hn) as (r & E & S0); try lia.
    exists r. split; auto. destruct (std_max t k T) as (X1 & X2 & X3).
    assert (P : 0 < 2 ^ k) by (apply Z.pow_pos_nonneg; lia).
    assert (Q1 : 0 <= Z.quot (t_max t) mul * mul <= t_max t).
    { rewrite Z.quot_div_nonneg by lia. pose proof (Z.mul_div_le (t_max t) mul). pose proof (Z.div_pos (t_max t) mul). nia. }
    assert (Q2 : t_min t <= Z.quot (t_min t) mul * mul <= 0).
    { destruct X3 as [E0|E0]; rewrite E0; [rewrite Z.quot_0_l; lia|]. rewrite Z.quot_opp_l, Z.quot_div_nonneg by lia.
      pose proof (Z.mul_div_le (2 ^ k) mul). pose proof (Z.div_pos (2 ^ k) mul). nia. }
    destruct S0 as [(_ & ->)|[(_ & _ & ->)|(_ & _ & A & ->)]]; lia. }
  assert (J : forall n, Z.abs n <= 2 ^ 64 -> exists r, nsamples_2_ns (f32_of_Z n) (s_rate s) = Ok r /\ - 2 ^ 63 <= r < 2 ^ 63).
  { intros n Hn. destruct (of_Z_bound n Hn) as (A1 & A2 & _). destruct (ns_samples _ (s_rate s) A1 A2) as (r & E & S0); [lia|].
    exists r. split; auto. destruct S0 as [(_ & ->)|[(_ & ->)|(A & ->)]]; lia. }
  unfold ns_2_samples_per_chan, ns_2_samples_overall, ns_2_stream_timestamp, ns_2_stream_timestamp_delta,
    samples_per_chan_2_ns, samples_overall_2_ns, stream_timestamp_2_ns, stream_timestamp_delta_2_ns.
  split; [|split; [|split; [|split; [|split; [|split; [|split]]]]]].
  - intros ns Hn. rewrite (proj2 (Z.ltb_ge ns 0)) by lia.
    destruct (I size_ty 64 ns 1 std_size) as (r & E & B); try lia. exists r. cbn [t_min t_max size_ty] in B. split; auto; lia.
  - intros ns Hn. rewrite (proj2 (Z.ltb_ge ns 0)) by lia.
    destruct (I size_ty 64 ns (s_chans s) std_size) as (r & E & B); try lia. exists r. cbn [t_min t_max size_ty] in B. split; auto; lia.
  - intros ns Hn. rewrite (proj2 (Z.ltb_ge ns 0)) by lia.
    destruct (I ts_ty 32 ns 1 std_ts) as (r & E & B); try lia. exists r. cbn [t_min t_max ts_ty] in B. split; auto; lia.
  - intros ns Hn.
    destruct (I diff_ty 31 ns 1 std_diff) as (r & E & B); try lia. exists r. cbn [t_min t_max diff_ty] in B. split; auto; lia.
  - intros n Hn. apply J. lia.
  - intros n Hn Hd. rewrite Hd. cbn [Z.eqb negb]. destruct (chans_bound n (s_chans s) Hn Hc) as (A1 & A2 & _).
    destruct (ns_samples _ (s_rate s) A1 A2) as (r & E & S0); [lia|].
    exists r. split; auto. destruct S0 as [(_ & ->)|[(_ & ->)|(A & ->)]]; lia.
  - intros n Hn. apply J. lia.
  - intros n Hn. apply J. lia.
Qed.
Print Assumptions C55_never_undefined.

Example ex_never : ns_2_stream_timestamp cd (2 ^ 63 - 1) = Ok (2 ^ 32 - 1).
Proof. vm_compute. reflexivity. Qed.

(* Durations become samples to within 0.24 ppm and half a sample, unless that
   is more than the type can hold, less one millionth. *)
Theorem C55_duration_to_samples : forall s ns r, usual s -> 0 <= ns < 2 ^ 63 ->
  let x := exact_samples ns (s_rate s) in
  (ns_2_samples_per_chan s ns = Ok r -> (x <= IZR (2 ^ 64) * (1 - / 1048576))%R -> close r x) /\
  (ns_2_stream_timestamp s ns = Ok r -> (x <= IZR (2 ^ 32) * (1 - / 1048576))%R -> close r x) /\
  (ns_2_samples_overall s ns = Ok r -> (x * IZR (s_chans s) <= IZR (2 ^ 64) * (1 - / 1048576))%R ->
     exists n, r = n * s_chans s /\ close n x).
Proof.
  intros s ns r [[Hr Hc] Hr2] Hn x.
  assert (PX : (0 <= x)%R).
  { unfold x, exact_samples. assert (0 <= IZR ns)%R by (apply (IZR_le 0); lia). assert (0 <= IZR (s_rate s))%R by (apply (IZR_le 0); lia). nra. }
  assert (AX : Rabs x = x) by (apply Rabs_right; lra).
  assert (K : forall t k mul, std_ty t k -> 1 <= mul <= 1024 -> (x * IZR mul <= IZR (2 ^ k) * (1 - / 1048576))%R ->
     ns_2_int_samples t ns (s_rate s) mul = Ok r -> exists n, r = n * mul /\ close n x).
  { intros t k mul T Hm HB E. destruct (samples_accurate t k ns (s_rate s) mul r T) as (n & A & B); auto; try lia.
    - fold (exact_samples ns (s_rate s)). fold x. rewrite AX, pow_IZR; [auto|]. destruct (std_max t k T); lia.
    - exists n. split; auto. unfold close. fold (exact_samples ns (s_rate s)) in B. fold x in B.
      pose proof c_bounds as (_ & _ & _ & _ & C5). rewrite u32_val in C5. rewrite AX in *. nra. }
  unfold ns_2_samples_per_chan, ns_2_samples_overall, ns_2_stream_timestamp. rewrite (proj2 (Z.ltb_ge ns 0)) by lia.
  split; [|split].
  - intros E B. destruct (K size_ty 64 1 std_size ltac:(lia) ltac:(lra) E) as (n & -> & C). now rewrite Z.mul_1_r.
  - intros E B. destruct (K ts_ty 32 1 std_ts ltac:(lia) ltac:(lra) E) as (n & -> & C). now rewrite Z.mul_1_r.
  - intros E B. exact (K size_ty 64 (s_chans s) std_size Hc B E).
Qed.
Print Assumptions C55_duration_to_samples.

(* 7 ms of CD audio: 308.7 samples per channel, which round to 309, times two *)
Example ex_samples : ns_2_samples_overall cd 7000000 = Ok 618 /\ ns_2_stream_timestamp cd 7000000 = Ok 309.
Proof. vm_compute. auto. Qed.

Theorem C55_delta_to_samples : forall s ns r, usual s -> - 2 ^ 63 <= ns < 2 ^ 63 ->
  let x := exact_samples ns (s_rate s) in
  ns_2_stream_timestamp_delta s ns = Ok r -> (Rabs x <= IZR (2 ^ 31) * (1 - / 1048576))%R -> close r x.
Proof.
  intros s ns r [[Hr Hc] Hr2] Hn x E B. unfold ns_2_stream_timestamp_delta in E.
  destruct (samples_accurate diff_ty 31 ns (s_rate s) 1 r std_diff) as (n & A & G); auto; try lia.
  - cbn [t_min diff_ty]. lia.
  - fold (exact_samples ns (s_rate s)). fold x. rewrite pow_IZR by lia. lra.
  - rewrite Z.mul_1_r in A. subst r. unfold close. fold (exact_samples ns (s_rate s)) in G. fold x in G.
    pose proof c_bounds as (_ & _ & _ & _ & C5). rewrite u32_val in C5. pose proof (Rabs_pos x). nra.
Qed.
Print Assumptions C55_delta_to_samples.

Example ex_delta : ns_2_stream_timestamp_delta cd (-7000000) = Ok (-309).
Proof. vm_compute. reflexivity. Qed.

(* and beyond that the conversion saturates *)
Theorem C55_saturates : forall s ns, usual s -> 0 <= ns < 2 ^ 63 ->
  let x := exact_samples ns (s_rate s) in
  ((IZR (2 ^ 32) * (1 + / 1048576) <= x)%R -> ns_2_stream_timestamp s ns = Ok (2 ^ 32 - 1)) /\
  ((IZR (2 ^ 31) * (1 + / 1048576) <= x)%R -> ns_2_stream_timestamp_delta s ns = Ok (2 ^ 31 - 1)) /\
  ((IZR (2 ^ 64) * (1 + / 1048576) <= x * IZR (s_chans s))%R ->
     ns_2_samples_overall s ns = Ok ((2 ^ 64 - 1) / s_chans s * s_chans s)).
Proof.
  intros s ns [[Hr Hc] Hr2] Hn x.
  unfold ns_2_samples_overall, ns_2_stream_timestamp, ns_2_stream_timestamp_delta. rewrite (proj2 (Z.ltb_ge ns 0)) by lia.
  assert (K : forall t k mul, std_ty t k -> 1 <= mul <= 1024 -> (IZR (2 ^ k) * (1 + / 1048576) <= x * IZR mul)%R ->
     ns_2_int_samples t ns (s_rate s) mul = Ok (t_max t / mul * mul)).
  { intros t k mul T Hm HB. destruct (ns_int t k ns (s_rate s) mul T) as (r & E & S0); try lia. rewrite E. f_equal.
    apply (saturates t k ns (s_rate s) mul); auto; try lia. rewrite pow_IZR; [exact HB|]. destruct (std_max t k T); lia. }
  split; [|split]; intros B.
  - rewrite (K ts_ty 32 1 std_ts); [reflexivity|lia|]. lra.
  - rewrite (K diff_ty 31 1 std_diff); [reflexivity|lia|]. lra.
  - apply (K size_ty 64 (s_chans s) std_size); auto.
Qed.
Print Assumptions C55_saturates.

Example ex_sat : ns_2_stream_timestamp studio 90000000000000 = Ok (2 ^ 32 - 1). (* 25 hours *)
Proof. vm_compute. reflexivity. Qed.

(* Numbers of samples become durations to within 0.24 ppm and half a nanosecond. *)
Theorem C55_samples_to_duration : forall s n r, usual s ->
  let x := exact_ns n (s_rate s) in
  (Rabs x <= IZR (2 ^ 62))%R ->
  (0 <= n < 2 ^ 64 -> samples_per_chan_2_ns s n = Ok r -> close r x) /\
  (0 <= n < 2 ^ 32 -> stream_timestamp_2_ns s n = Ok r -> close r x) /\
  (- 2 ^ 31 <= n < 2 ^ 31 -> stream_timestamp_delta_2_ns s n = Ok r -> close r x).
Proof.
  intros s n r [[Hr Hc] Hr2] x HX.
  assert (K : Z.abs n <= 2 ^ 64 -> nsamples_2_ns (f32_of_Z n) (s_rate s) = Ok r -> close r x).
  { intros Hn E. pose proof (int_close n (s_rate s) r Hn ltac:(lia) HX E) as G.
    fold (exact_ns n (s_rate s)) in G. fold x in G. unfold close. eapply Rle_trans; [exact G|].
    assert ((u32 + c2 + u32 * c2 <= / 4194304)%R) by (unfold c2; rewrite u32_val; lra).
    pose proof (Rabs_pos x). nra. }
  unfold samples_per_chan_2_ns, stream_timestamp_2_ns, stream_timestamp_delta_2_ns.
  split; [|split]; intros Hn E; apply K; auto; lia.
Qed.
Print Assumptions C55_samples_to_duration.

Example ex_ns : stream_timestamp_2_ns cd 441 = Ok 10000000.
Proof. vm_compute. reflexivity. Qed.

(* Of all channels together: within half a millionth and half a nanosecond. *)
Theorem C55_overall_to_duration : forall s n r, usual s -> 0 <= n -> n * s_chans s < 2 ^ 64 ->
  let x := exact_ns n (s_rate s) in (x <= IZR (2 ^ 62))%R ->
  samples_overall_2_ns s (n * s_chans s) = Ok r -> (Rabs (IZR r - x) <= x / 2000000 + 1 / 2)%R.
Proof.
  intros s n r [[Hr Hc] Hr2] Hn Hm x HX. unfold samples_overall_2_ns. rewrite Z.mod_mul by lia. cbn [Z.eqb negb]. intros E.
  destruct (chans_bound (n * s_chans s) (s_chans s)) as (A1 & A2 & A3); try nia.
  assert (R1 : (1 <= IZR (s_rate s))%R) by (apply IZR_le; lia).
  assert (R2 : (1 <= IZR (s_chans s) <= 1024)%R) by (split; apply IZR_le; lia).
  assert (PX : (0 <= x)%R).
  { unfold x, exact_ns, Rdiv. apply Rmult_le_pos; [apply Rmult_le_pos; [apply (IZR_le 0); lia|lra]|]. left; apply Rinv_0_lt_compat; lra. }
  pose proof c_bounds as (C1 & C2 & C3 & C4 & C5).
  destruct (rnd_Z_rel (n * s_chans s)) as (e1 & H1 & E1).
  assert (V : n = 0 \/ (1 / 2 <= Rabs (rnd32 (IZR (n * s_chans s)) / IZR (s_chans s)))%R).
  { destruct (Z.eq_dec n 0) as [|N0]; auto. right. rewrite E1.
    replace (IZR (n * s_chans s) * (1 + e1) / IZR (s_chans s))%R with (IZR n * (1 + e1))%R by (rewrite mult_IZR; field; lra).
    apply Rle_trans with (2 := half_bound (IZR n) e1 H1). rewrite <- abs_IZR.
    assert (1 <= IZR (Z.abs n))%R by (apply IZR_le; lia). lra. }
  assert (V2 : exists g, (Rabs g <= c2)%R /\ rnd32 (rnd32 (IZR (n * s_chans s)) / IZR (s_chans s)) = (IZR n * (1 + g))%R).
  { destruct (rnd32_rel (rnd32 (IZR (n * s_chans s)) / IZR (s_chans s))) as (e2 & H2 & E2).
    { destruct V as [->|V]; [left; rewrite Z.mul_0_l, rnd32_0; lra|]. apply big_enough; rewrite ?pow100; lra. }
    destruct (comp _ _ _ _ H1 H2) as (g & Hg & Eg). exists g. split; auto.
    rewrite E2, E1, mult_IZR, <- Eg. field. lra. }
  destruct (ns_close _ (IZR n) (s_rate s) c2 r A1 A2) as [_ G]; auto; try lia; try lra.
  - rewrite A3. exact V2.
  - rewrite A3. apply rnd_ge20. destruct V as [->|V]; [left; rewrite Z.mul_0_l, rnd32_0; lra|]. right.
    apply Rle_trans with (2 := V). apply Rle_trans with (bpow radix2 (-1)); [apply bpow_le; lia|]. cbn. lra.
  - fold (exact_ns n (s_rate s)). fold x. rewrite Rabs_right by lra. rewrite pow_IZR by lia. exact HX.
  - fold (exact_ns n (s_rate s)) in G. fold x in G. rewrite (Rabs_right x) in G by lra.
    eapply Rle_trans; [exact G|]. assert ((c2 + c2 + c2 * c2 <= / 2000000)%R) by (unfold c2; rewrite u32_val; lra). nra.
Qed.
Print Assumptions C55_overall_to_duration.

Example ex_overall : samples_overall_2_ns cd 882 = Ok 10000000 /\ samples_overall_2_ns cd 883 = Panic.
Proof. vm_compute. auto. Qed.

(* A stream timestamp of up to 1.5 million samples, forwards or back, survives
   the conversion to nanoseconds and back. *)
Theorem C55_round_trip : forall s n, usual s ->
  (0 <= n <= 1500000 -> exists ns, stream_timestamp_2_ns s n = Ok ns /\ ns_2_stream_timestamp s ns = Ok n) /\
  (0 <= n <= 1500000 -> exists ns, samples_per_chan_2_ns s n = Ok ns /\ ns_2_samples_per_chan s ns = Ok n) /\
  (-1500000 <= n <= 1500000 -> exists ns, stream_timestamp_delta_2_ns s n = Ok ns /\ ns_2_stream_timestamp_delta s ns = Ok n).
Proof.
  intros s n [[Hr Hc] Hr2].
  assert (J : Z.abs n <= 1500000 -> exists r, nsamples_2_ns (f32_of_Z n) (s_rate s) = Ok r).
  { intros Hn. destruct (of_Z_bound n) as (A1 & A2 & _); [lia|]. destruct (ns_samples _ (s_rate s) A1 A2) as (r & E & S0); [lia|]. eauto. }
  unfold samples_per_chan_2_ns, stream_timestamp_2_ns, stream_timestamp_delta_2_ns,
    ns_2_samples_per_chan, ns_2_stream_timestamp, ns_2_stream_timestamp_delta.
  split; [|split]; intros Hn; (destruct J as (m & E); [lia|]); exists m; (split; [exact E|]).
  - destruct (round_trip n (s_rate s) m) as (_ & _ & P); auto; try lia.
    rewrite (proj2 (Z.ltb_ge m 0)) by (apply P; lia). apply (round_trip_int ts_ty 32); auto; try lia. exact std_ts.
  - destruct (round_trip n (s_rate s) m) as (_ & _ & P); auto; try lia.
    rewrite (proj2 (Z.ltb_ge m 0)) by (apply P; lia). apply (round_trip_int size_ty 64); auto; try lia. exact std_size.
  - apply (round_trip_int diff_ty 31); auto; try lia. exact std_diff. cbn [t_min diff_ty]. lia.
Qed.
Print Assumptions C55_round_trip.

Example ex_trip : stream_timestamp_2_ns cd 1499999 = Ok 34013583360 /\ ns_2_stream_timestamp cd 34013583360 = Ok 1499999.
Proof. vm_compute. auto. Qed.

(* but not every timestamp does: after 69 s at 44100 Hz the result is one
   sample off ... *)
Theorem C55_round_trip_refuted :
  ~ (forall s n ns, usual s -> 0 <= n < 2 ^ 32 -> stream_timestamp_2_ns s n = Ok ns -> ns_2_stream_timestamp s ns = Ok n).
Proof.
  intros H. assert (E : stream_timestamp_2_ns cd 3030623 = Ok 68721614848) by (vm_compute; reflexivity).
  specialize (H cd 3030623 68721614848 cd_usual ltac:(lia) E).
  assert (F : ns_2_stream_timestamp cd 68721614848 = Ok 3030624) by (vm_compute; reflexivity). congruence.
Qed.
Print Assumptions C55_round_trip_refuted.

(* ... and an hour at 48000 Hz is not an hour although it is a whole number of
   nanoseconds: it is 40.96 microseconds short. *)
Theorem C55_exact_refuted :
  ~ (forall s n ns r, usual s -> 0 <= n < 2 ^ 32 -> n * 1000000000 = ns * s_rate s -> stream_timestamp_2_ns s n = Ok r -> r = ns).
Proof.
  intros H. assert (E : stream_timestamp_2_ns studio 172800000 = Ok 3599999959040) by (vm_compute; reflexivity).
  assert (3599999959040 = 3600000000000); [|lia].
  apply (H studio 172800000 3600000000000); auto. exact studio_usual. lia.
Qed.
Print Assumptions C55_exact_refuted.

(* A longer duration is never fewer samples, more samples never a shorter duration. *)
Theorem C55_monotone : forall s, valid s ->
  (forall a b x y, 0 <= a <= b -> b < 2 ^ 63 -> ns_2_samples_per_chan s a = Ok x -> ns_2_samples_per_chan s b = Ok y -> x <= y) /\
  (forall a b x y, 0 <= a <= b -> b < 2 ^ 63 -> ns_2_samples_overall s a = Ok x -> ns_2_samples_overall s b = Ok y -> x <= y) /\
  (forall a b x y, 0 <= a <= b -> b < 2 ^ 63 -> ns_2_stream_timestamp s a = Ok x -> ns_2_stream_timestamp s b = Ok y -> x <= y) /\
  (forall a b x y, - 2 ^ 63 <= a <= b -> b < 2 ^ 63 -> ns_2_stream_timestamp_delta s a = Ok x -> ns_2_stream_timestamp_delta s b = Ok y -> x <= y) /\
  (forall a b x y, 0 <= a <= b -> b < 2 ^ 32 -> stream_timestamp_2_ns s a = Ok x -> stream_timestamp_2_ns s b = Ok y -> x <= y) /\
  (forall a b x y, - 2 ^ 31 <= a <= b -> b < 2 ^ 31 -> stream_timestamp_delta_2_ns s a = Ok x -> stream_timestamp_delta_2_ns s b = Ok y -> x <= y).
Proof.
  intros s [Hr Hc].
  assert (I : forall t k mul a b x y, std_ty t k -> 1 <= mul <= 1024 -> - 2 ^ 63 <= a <= b -> b < 2 ^ 63 ->
    ns_2_int_samples t a (s_rate s) mul = Ok x -> ns_2_int_samples t b (s_rate s) mul = Ok y -> x <= y).
  { intros t k mul a b x y T Hm Ha Hb E1 E2.
    destruct (ns_int t k a (s_rate s) mul T) as (x' & F1 & S1); try lia.
    destruct (ns_int t k b (s_rate s) mul T) as (y' & F2 & S2); try lia.
    assert (x' = x) by congruence. assert (y' = y) by congruence. subst x' y'.
    eapply sat_mono; [exact T| |apply nsamp_mono with (a := a) (b := b)|exact S1|exact S2]; lia. }
  assert (J : forall a b x y, Z.abs a <= 2 ^ 64 -> Z.abs b <= 2 ^ 64 -> a <= b ->
    nsamples_2_ns (f32_of_Z a) (s_rate s) = Ok x -> nsamples_2_ns (f32_of_Z b) (s_rate s) = Ok y -> x <= y).
  { intros a b x y Ha Hb H E1 E2. destruct (of_Z_bound a Ha) as (A1 & A2 & A3). destruct (of_Z_bound b Hb) as (B1 & B2 & B3).
    destruct (ns_samples _ (s_rate s) A1 A2) as (x' & F1 & S1); [lia|]. destruct (ns_samples _ (s_rate s) B1 B2) as (y' & F2 & S2); [lia|].
    assert (x' = x) by congruence. assert (y' = y) by congruence. subst x' y'.
    assert (G : nns (f32_val (f32_of_Z a)) (s_rate s) <= nns (f32_val (f32_of_Z b)) (s_rate s)).
    { apply nns_mono; [lia|]. rewrite A3, B3. now apply rnd32_mono, IZR_le. }
    destruct S1 as [(P1 & ->)|[(P1 & ->)|(P1 & ->)]]; destruct S2 as [(Q1 & ->)|[(Q1 & ->)|(Q1 & ->)]]; try lia;
      try apply le_IZR in P1; try apply le_IZR in Q1; lia. }
  unfold stream_timestamp_2_ns, stream_timestamp_delta_2_ns,
    ns_2_samples_per_chan, ns_2_samples_overall, ns_2_stream_timestamp, ns_2_stream_timestamp_delta.
  split; [|split; [|split; [|split; [|split]]]]; intros a b x y H1 H2;
    try (rewrite (proj2 (Z.ltb_ge a 0)), (proj2 (Z.ltb_ge b 0)) by lia); intros E1 E2.
  - apply (I size_ty 64 1 a b); auto; try lia. exact std_size.
  - apply (I size_ty 64 (s_chans s) a b); auto; try lia. exact std_size.
  - apply (I ts_ty 32 1 a b); auto; try lia. exact std_ts.
  - apply (I diff_ty 31 1 a b); auto; try lia. exact std_diff.
  - apply (J a b); auto; lia.
  - apply (J a b); auto; lia.
Qed.
Print Assumptions C55_monotone.

Example ex_mono : ns_2_stream_timestamp cd 7000000 = Ok 309 /\ ns_2_stream_timestamp cd 8000000 = Ok 353.
Proof. vm_compute. auto. Qed.

(* Sizes of uncompressed audio are converted exactly, both ways. *)
Theorem C55_bytes : forall s b, valid s -> s_width s = 8 * b -> 1 <= b ->
  (forall ts, 0 <= ts < 2 ^ 32 -> ts * b * s_chans s < 2 ^ 64 ->
     stream_timestamp_2_bytes s ts = Ok (ts * b * s_chans s) /\ bytes_2_stream_timestamp s (ts * b * s_chans s) = Ok ts) /\
  (forall n, 0 <= n -> n < 2 ^ 32 * (b * s_chans s) -> exists ts, bytes_2_stream_timestamp s n = Ok ts /\
     0 <= ts < 2 ^ 32 /\ ts * (b * s_chans s) <= n < (ts + 1) * (b * s_chans s)).
Proof.
  intros s b [Hr Hc] W Hb. unfold stream_timestamp_2_bytes, bytes_2_stream_timestamp.
  assert (W1 : (s_width s mod 8 =? 0) = true) by (apply Z.eqb_eq; rewrite W, Z.mul_comm; apply Z.mod_mul; lia).
  assert (W2 : s_width s / 8 = b) by (rewrite W, Z.mul_comm; apply Z.div_mul; lia).
  rewrite W1, W2. cbn [negb]. split.
  - intros ts Ht Hm. rewrite Z.mod_small by nia. split; auto. f_equal.
    replace (ts * b * s_chans s) with (ts * s_chans s * b) by ring. rewrite Z.div_mul, Z.div_mul, Z.mod_small by lia. reflexivity.
  - intros n Hn Hm. eexists. split; [reflexivity|]. rewrite Z.div_div by lia.
    assert (P : 0 < b * s_chans s) by nia. set (q := b * s_chans s) in *.
    assert (Q1 : 0 <= n / q < 2 ^ 32) by (split; [apply Z.div_pos; lia|apply Z.div_lt_upper_bound; lia]).
    rewrite Z.mod_small by exact Q1. split; [exact Q1|]. pose proof (Z.mul_div_le n q P). pose proof (Z.mul_succ_div_gt n q P). lia.
Qed.
Print Assumptions C55_bytes.

Example ex_bytes : stream_timestamp_2_bytes cd 441 = Ok 1764 /\ bytes_2_stream_timestamp cd 1764 = Ok 441.
Proof. vm_compute. auto. Qed.

(* and durations to and from sizes as accurately as to and from timestamps *)
Theorem C55_bytes_duration : forall s b, usual s -> s_width s = 8 * b -> 1 <= b -> b * s_chans s <= 2 ^ 32 ->
  (forall ns, 0 <= ns < 2 ^ 63 -> (exact_samples ns (s_rate s) <= IZR (2 ^ 32) * (1 - / 1048576))%R ->
     exists n, ns_2_bytes s ns = Ok (n * (b * s_chans s)) /\ close n (exact_samples ns (s_rate s))) /\
  (forall n, 0 <= n < 2 ^ 32 -> (exact_ns n (s_rate s) <= IZR (2 ^ 62))%R ->
     exists r, bytes_2_ns s (n * (b * s_chans s)) = Ok r /\ close r (exact_ns n (s_rate s))).
Proof.
  intros s b U W Hb Hq. pose proof U as [V Hr2]. destruct (C55_bytes s b V W Hb) as [B1 B2].
  destruct (C55_never_undefined s V) as (_ & _ & D3 & _ & _ & _ & D7 & _). pose proof V as [Hr Hc]. split.
  - intros ns Hn HB. destruct (D3 ns Hn) as (n & E & Rn). exists n. unfold ns_2_bytes. rewrite E. cbn [bind].
    destruct (B1 n Rn) as [F _]; [nia|]. rewrite F. split; [f_equal; ring|].
    destruct (C55_duration_to_samples s ns n U Hn) as (_ & K & _). now apply K.
  - intros n Hn HB. destruct (B1 n Hn) as [_ F]; [nia|]. destruct (D7 n Hn) as (r & E & Rr).
    exists r. unfold bytes_2_ns. rewrite Z.mul_assoc, F. cbn [bind]. split; auto.
    destruct (C55_samples_to_duration s n r U) as (_ & K & _); [|now apply K].
    rewrite Rabs_right; auto. apply Rle_ge. unfold exact_ns, Rdiv. apply Rmult_le_pos.
    + apply Rmult_le_pos; [apply (IZR_le 0); lia|lra].
    + left; apply Rinv_0_lt_compat. apply (IZR_lt 0). lia.
Qed.
Print Assumptions C55_bytes_duration.

Example ex_bytes_ns : ns_2_bytes cd 7000000 = Ok 1236 /\ bytes_2_ns cd 1764 = Ok 10000000.
Proof. vm_compute. auto. Qed.

(* The older conversions of roc_packet agree with those of SampleSpec, except
   that where those saturate these are undefined. *)
Theorem C55_units_agree : forall s ns, valid s ->
  (0 <= ns < 2 ^ 63 ->
     (exists r, u_ns_2_stream_timestamp ns (s_rate s) = Ok r /\ ns_2_stream_timestamp s ns = Ok r /\ r < 2 ^ 32 - 1) \/
     (u_ns_2_stream_timestamp ns (s_rate s) = UB /\ ns_2_stream_timestamp s ns = Ok (2 ^ 32 - 1))) /\
  (- 2 ^ 63 <= ns < 2 ^ 63 ->
     (exists r, u_ns_2_stream_timestamp_delta ns (s_rate s) = Ok r /\ ns_2_stream_timestamp_delta s ns = Ok r /\ r < 2 ^ 31 - 1) \/
     (u_ns_2_stream_timestamp_delta ns (s_rate s) = UB /\ ns_2_stream_timestamp_delta s ns = Ok (2 ^ 31 - 1))) /\
  (forall ts, - 2 ^ 31 <= ts < 2 ^ 32 -> u_stream_timestamp_2_ns ts (s_rate s) = stream_timestamp_2_ns s ts).
Proof.
  intros s ns [Hr Hc].
  assert (L : forall ts, - 2 ^ 31 <= ts < 2 ^ 32 -> u_stream_timestamp_2_ns ts (s_rate s) = stream_timestamp_2_ns s ts).
  { intros ts Ht. apply units_ns; lia. }
  unfold u_ns_2_stream_timestamp, u_ns_2_stream_timestamp_delta, ns_2_stream_timestamp, ns_2_stream_timestamp_delta.
  rewrite (proj2 (Z.eqb_neq (s_rate s) 0)) by lia. fold (ns_2_fract_samples ns (s_rate s)). cbv zeta.
  split; [|split; [|exact L]]; intros Hn.
  - rewrite (proj2 (Z.ltb_ge ns 0)) by lia.
    destruct (clamp_int ts_ty 32 ns (s_rate s) std_ts) as [(A & B & C)|(A & B & C)]; try lia.
    + right. auto.
    + left. exists (Z.max (nsamp ns (s_rate s)) (t_min ts_ty)). repeat split; auto. cbn [t_min t_max ts_ty] in *. lia.
  - destruct (clamp_int diff_ty 31 ns (s_rate s) std_diff) as [(A & B & C)|(A & B & C)]; try lia.
    + right. auto.
    + left. exists (Z.max (nsamp ns (s_rate s)) (t_min diff_ty)). repeat split; auto. cbn [t_min t_max diff_ty] in *. lia.
Qed.
Print Assumptions C55_units_agree.

Example ex_units : u_ns_2_stream_timestamp 7000000 44100 = Ok 309.
Proof. vm_compute. reflexivity. Qed.

Theorem C55_units_refuted :
  ~ (forall ns rate, 0 <= ns < 2 ^ 63 -> 1 <= rate < 2 ^ 64 -> u_ns_2_stream_timestamp ns rate <> UB).
Proof. intros H. apply (H 90000000000000 48000); try lia. vm_compute. reflexivity. Qed.
Print Assumptions C55_units_refuted.
