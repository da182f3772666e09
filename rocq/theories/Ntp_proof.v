From Verif Require Import Base Base_lemmas Ntp_model.

(** Bit masks as arithmetic. *)
Lemma land_mid x j k : 0 <= j -> 0 <= k ->
  Z.land x (Z.shiftl (Z.ones k) j) = ((x / 2 ^ j) mod 2 ^ k) * 2 ^ j.
Proof.
  intros Hj Hk. rewrite <- Z.land_ones, <- Z.shiftr_div_pow2, <- Z.shiftl_mul_pow2 by lia.
  apply Z.bits_inj'. intros n Hn.
  rewrite Z.land_spec, !Z.shiftl_spec by lia.
  destruct (Z.ltb_spec n j).
  - rewrite !(Z.testbit_neg_r _ (n - j)) by lia. apply andb_false_r.
  - rewrite Z.land_spec, Z.shiftr_spec by lia. do 2 f_equal. lia.
Qed.

Lemma lor_add x y k : 0 <= k -> 0 <= y < 2 ^ k -> x mod 2 ^ k = 0 -> Z.lor x y = x + y.
Proof.
  intros Hk Hy Hx.
  assert (E : x = Z.shiftl (x / 2 ^ k) k).
  { rewrite Z.shiftl_mul_pow2 by lia. pose proof (Z.div_mod x (2 ^ k)). lia. }
  rewrite E at 1 2. symmetry. apply Z.add_nocarry_lxor || idtac.
  rewrite <- Z.lxor_lor.
  - apply Z.add_nocarry_lxor.
    apply Z.bits_inj'. intros n Hn. rewrite Z.land_spec, Z.shiftl_spec, Z.bits_0 by lia.
    destruct (Z.ltb_spec n k).
    + rewrite (Z.testbit_neg_r _ (n - k)) by lia. reflexivity.
    + replace (Z.testbit y n) with false; [apply andb_false_r|].
      symmetry. destruct (Z.eq_dec y 0) as [->|]; [apply Z.bits_0|].
      apply Z.bits_above_log2; [lia|]. apply Z.log2_lt_pow2; [lia|].
      apply Z.lt_le_trans with (2 ^ k); [lia|]. apply Z.pow_le_mono_r; lia.
  - apply Z.bits_inj'. intros n Hn. rewrite Z.land_spec, Z.shiftl_spec, Z.bits_0 by lia.
    destruct (Z.ltb_spec n k).
    + rewrite (Z.testbit_neg_r _ (n - k)) by lia. reflexivity.
    + replace (Z.testbit y n) with false; [apply andb_false_r|].
      symmetry. destruct (Z.eq_dec y 0) as [->|]; [apply Z.bits_0|].
      apply Z.bits_above_log2; [lia|]. apply Z.log2_lt_pow2; [lia|].
      apply Z.lt_le_trans with (2 ^ k); [lia|]. apply Z.pow_le_mono_r; lia.
Qed.

Ltac ntp_pow :=
  change (2 ^ 8) with 256 in *; change (2 ^ 16) with 65536 in *; change (2 ^ 32) with 4294967296 in *;
  change (2 ^ 48) with 281474976710656 in *; change (2 ^ 64) with 18446744073709551616 in *;
  change (2 ^ (64 - 1)) with 9223372036854775808 in *; change (2 ^ 63) with 9223372036854775808 in *.

Lemma land_hi32 x : 0 <= x < 2 ^ 64 -> Z.land x 0xffffffff00000000 = (x / 2 ^ 32) * 2 ^ 32.
Proof.
  intros H. change 0xffffffff00000000 with (Z.shiftl (Z.ones 32) 32).
  rewrite land_mid by lia. f_equal. apply Z.mod_small. ntp_pow. lia.
Qed.
Lemma land_lo32 x : Z.land x 0xffffffff = x mod 2 ^ 32.
Proof. change 0xffffffff with (Z.ones 32). apply Z.land_ones. lia. Qed.
Lemma land_hi48 x : 0 <= x < 2 ^ 64 -> Z.land x 0xFFFFFFFFFFFF0000 = (x / 2 ^ 16) * 2 ^ 16.
Proof.
  intros H. change 0xFFFFFFFFFFFF0000 with (Z.shiftl (Z.ones 48) 16).
  rewrite land_mid by lia. f_equal. apply Z.mod_small. ntp_pow. lia.
Qed.
Lemma land_mid32 x : Z.land x 0x0000FFFFFFFF0000 = ((x / 2 ^ 16) mod 2 ^ 32) * 2 ^ 16.
Proof. change 0x0000FFFFFFFF0000 with (Z.shiftl (Z.ones 32) 16). apply land_mid; lia. Qed.
Lemma land_hi16 x : 0 <= x < 2 ^ 64 -> Z.land x 0xFFFF000000000000 = (x / 2 ^ 48) * 2 ^ 48.
Proof.
  intros H. change 0xFFFF000000000000 with (Z.shiftl (Z.ones 16) 48).
  rewrite land_mid by lia. f_equal. apply Z.mod_small. ntp_pow. lia.
Qed.
Lemma land_top x : 0 <= x < 2 ^ 64 -> Z.land x 0x8000000000000000 = (x / 2 ^ 63) * 2 ^ 63.
Proof.
  intros H. change 0x8000000000000000 with (Z.shiftl (Z.ones 1) 63).
  rewrite land_mid by lia. f_equal. apply Z.mod_small. ntp_pow. change (2 ^ 1) with 2. lia.
Qed.

Lemma unpack_spec v : 0 <= v < 2 ^ 64 -> bits_unpack v = (v / 2 ^ 32, v mod 2 ^ 32).
Proof.
  intros H. unfold bits_unpack. rewrite land_hi32, land_lo32, Z.shiftr_div_pow2 by lia.
  rewrite Z.div_mul by lia. unfold u32, wrapu. ntp_pow. f_equal; lia.
Qed.

Lemma pack_spec hi lo : 0 <= hi -> 0 <= lo < 2 ^ 32 -> bits_pack hi lo = hi * 2 ^ 32 + lo.
Proof.
  intros. unfold bits_pack. rewrite Z.shiftl_mul_pow2 by lia. apply (lor_add _ _ 32); [lia|lia|].
  apply Z.mod_mul. lia.
Qed.

Lemma ns2ntp_spec d : 0 <= d < 2 ^ 32 * 1000000000 ->
  nanoseconds_2_ntp d =
    Ok (d / 1000000000 * 4294967296 + (d mod 1000000000) * 4294967296 / 1000000000).
Proof.
  intros H. unfold nanoseconds_2_ntp, second. destruct (d <? 0) eqn:E; [lia|].
  rewrite Z.shiftl_mul_pow2 by lia. ntp_pow.
  replace (d - d / 1000000000 * 1000000000) with (d mod 1000000000) by lia.
  assert (0 <= d mod 1000000000 * 4294967296 / 1000000000 < 4294967296).
  { assert (0 <= d mod 1000000000 < 1000000000) by (apply Z.mod_pos_bound; lia).
    set (n := d mod 1000000000) in *. clearbody n. lia. }
  unfold u32, wrapu. ntp_pow.
  rewrite (Z.mod_small (d / 1000000000)) by lia. rewrite (Z.mod_small (_ / _)) by lia.
  rewrite pack_spec; ntp_pow; try reflexivity; lia.
Qed.

Lemma ntp2ns_spec v : 0 <= v < 2 ^ 64 ->
  ntp_2_nanoseconds v = v / 4294967296 * 1000000000 + (v mod 4294967296) * 1000000000 / 4294967296.
Proof.
  intros H. unfold ntp_2_nanoseconds, second. rewrite unpack_spec by lia. ntp_pow.
  rewrite Z.shiftr_div_pow2 by lia. reflexivity.
Qed.

(** Both conversions are floors of a rational scaling. *)
Lemma ns2ntp_floor d : 0 <= d < 2 ^ 32 * 1000000000 ->
  nanoseconds_2_ntp d = Ok (d * 4294967296 / 1000000000) /\
  0 <= d * 4294967296 / 1000000000 < 18446744073709551616.
Proof.
  intros H. rewrite ns2ntp_spec by auto. ntp_pow. split; [f_equal|lia].
  replace (d * 4294967296) with ((d mod 1000000000) * 4294967296 + (d / 1000000000 * 4294967296) * 1000000000) by lia.
  rewrite Z.div_add by lia. lia.
Qed.

Lemma ntp2ns_floor v : 0 <= v < 2 ^ 64 -> ntp_2_nanoseconds v = v * 1000000000 / 4294967296.
Proof.
  intros H. rewrite ntp2ns_spec by auto. ntp_pow.
  replace (v * 1000000000) with ((v mod 4294967296) * 1000000000 + (v / 4294967296 * 1000000000) * 4294967296) by lia.
  rewrite Z.div_add by lia. lia.
Qed.

Lemma unix_rt t : -61505152000000000 <= t < 4233462144000000000 ->
  exists v, unix_2_ntp t = Ok v /\ 0 <= v < 18446744073709551616 /\
            t - 1 <= ntp_2_unix v <= t.
Proof.
  intros H. unfold unix_2_ntp, second, era1, unix_epoch.
  change ((70 * 365 + 17) * (24 * 3600)) with 2208988800.
  change ((66 * 365 + 16 + 37) * (24 * 3600) + 6 * 3600 + 28 * 60 + 16) with 2085978496.
  change (2208988800 * 1000000000) with 2208988800000000000.
  change (2085978496 * 1000000000) with 2085978496000000000.
  destruct (t <? 2085978496000000000) eqn:E.
  - destruct (ns2ntp_floor (t + 2208988800000000000)) as [-> Hv]; [ntp_pow; lia|].
    eexists; split; [reflexivity|]. split; [exact Hv|].
    set (v := (t + 2208988800000000000) * 4294967296 / 1000000000) in *.
    assert (Hvb : v * 1000000000 <= (t + 2208988800000000000) * 4294967296 < (v + 1) * 1000000000) by lia.
    clearbody v.
    unfold ntp_2_unix. rewrite land_top by (ntp_pow; lia). ntp_pow.
    replace (v / 9223372036854775808 * 9223372036854775808 =? 0) with false by lia. cbn [negb].
    change (u64 (Z.shiftl unix_epoch 32)) with 9487534653230284800.
    unfold u64, wrapu. ntp_pow.
    destruct (v <? 9487534653230284800) eqn:E2.
    + rewrite (Z.mod_small (_ - v)) by lia. rewrite ntp2ns_floor by (ntp_pow; lia). lia.
    + rewrite (Z.mod_small (v - _)) by lia. rewrite ntp2ns_floor by (ntp_pow; lia). lia.
  - destruct (ns2ntp_floor (t - 2085978496000000000)) as [-> Hv]; [ntp_pow; lia|].
    eexists; split; [reflexivity|]. split; [exact Hv|].
    set (v := (t - 2085978496000000000) * 4294967296 / 1000000000) in *.
    assert (Hvb : v * 1000000000 <= (t - 2085978496000000000) * 4294967296 < (v + 1) * 1000000000) by lia.
    clearbody v.
    unfold ntp_2_unix. rewrite land_top by (ntp_pow; lia). ntp_pow.
    replace (v / 9223372036854775808 * 9223372036854775808 =? 0) with true by lia. cbn [negb].
    change (u64 (Z.shiftl era1 32)) with 8959209421575749632 || idtac.
    replace (u64 (Z.shiftl era1 32)) with (2085978496 * 4294967296) by reflexivity.
    unfold u64, wrapu. ntp_pow.
    rewrite (Z.mod_small (v + _)) by lia. rewrite ntp2ns_floor by (ntp_pow; lia). lia.
Qed.

Lemma ntp_rt v : 0 <= v < 18446744073709551616 ->
  exists v', unix_2_ntp (ntp_2_unix v) = Ok v' /\ v - 5 <= v' <= v + 4.
Proof.
  intros H. unfold ntp_2_unix. rewrite land_top by (ntp_pow; lia). ntp_pow.
  change (u64 (Z.shiftl unix_epoch 32)) with (2208988800 * 4294967296).
  replace (u64 (Z.shiftl era1 32)) with (2085978496 * 4294967296) by reflexivity.
  unfold u64, wrapu. ntp_pow.
  assert (K : forall t, -61505152000000000 <= t < 2085978496000000000 ->
            unix_2_ntp t = Ok ((t + 2208988800000000000) * 4294967296 / 1000000000)).
  { intros t Ht. unfold unix_2_ntp, second.
    change (era1 * 1000000000) with 2085978496000000000. change (unix_epoch * 1000000000) with 2208988800000000000.
    replace (t <? 2085978496000000000) with true by lia.
    apply ns2ntp_floor. ntp_pow. lia. }
  assert (K2 : forall t, 2085978496000000000 <= t < 4233462144000000000 ->
            unix_2_ntp t = Ok ((t - 2085978496000000000) * 4294967296 / 1000000000)).
  { intros t Ht. unfold unix_2_ntp, second.
    change (era1 * 1000000000) with 2085978496000000000.
    replace (t <? 2085978496000000000) with false by lia.
    apply ns2ntp_floor. ntp_pow. lia. }
  destruct (v / 9223372036854775808 * 9223372036854775808 =? 0) eqn:E; cbn [negb].
  - rewrite (Z.mod_small (v + _)) by lia. rewrite ntp2ns_floor by (ntp_pow; lia).
    set (t := _ / 4294967296).
    assert (Ht : t * 4294967296 <= (v + 2085978496 * 4294967296) * 1000000000 < (t + 1) * 4294967296) by (unfold t; lia).
    clearbody t. rewrite K2 by lia. eexists; split; [reflexivity|]. lia.
  - destruct (v <? 2208988800 * 4294967296) eqn:E2.
    + rewrite (Z.mod_small (_ - v)) by lia. rewrite ntp2ns_floor by (ntp_pow; lia).
      set (t := _ / 4294967296).
      assert (Ht : t * 4294967296 <= (2208988800 * 4294967296 - v) * 1000000000 < (t + 1) * 4294967296) by (unfold t; lia).
      clearbody t. rewrite K by lia. eexists; split; [reflexivity|]. lia.
    + rewrite (Z.mod_small (v - _)) by lia. rewrite ntp2ns_floor by (ntp_pow; lia).
      set (t := _ / 4294967296).
      assert (Ht : t * 4294967296 <= (v - 2208988800 * 4294967296) * 1000000000 < (t + 1) * 4294967296) by (unfold t; lia).
      clearbody t. rewrite K by lia. eexists; split; [reflexivity|]. lia.
Qed.

Lemma ns2ntp_mono d d' v v' : 0 <= d <= d' -> d' < 2 ^ 32 * 1000000000 ->
  nanoseconds_2_ntp d = Ok v -> nanoseconds_2_ntp d' = Ok v' -> v <= v'.
Proof.
  intros H H'. destruct (ns2ntp_floor d) as [-> _]; [lia|]. destruct (ns2ntp_floor d') as [-> _]; [lia|].
  intros [= <-] [= <-]. apply Z.div_le_mono; lia.
Qed.

Lemma ntp2ns_mono v v' : 0 <= v <= v' -> v' < 2 ^ 64 -> ntp_2_nanoseconds v <= ntp_2_nanoseconds v'.
Proof. intros. rewrite !ntp2ns_floor by lia. apply Z.div_le_mono; lia. Qed.

(** Compact timestamps. *)
Lemma ntp32_get_set t : 0 <= t -> ntp32_get (ntp32_set t) = ((t / 65536) mod 4294967296) * 65536.
Proof.
  intros. unfold ntp32_get, ntp32_set, u32, wrapu.
  rewrite Z.shiftl_mul_pow2, Z.shiftr_div_pow2 by lia. reflexivity.
Qed.

Lemma s64_small x : - 9223372036854775808 <= x < 9223372036854775808 -> s64 x = x.
Proof. intros. unfold s64, wraps. ntp_pow. destruct (_ <? _) eqn:E; lia. Qed.
Lemma s64_u64 x : s64 (u64 x) = s64 x.
Proof. unfold s64, u64, wraps, wrapu. rewrite Z.mod_mod by lia. reflexivity. Qed.
Lemma s64_eqm x y k : x = y + k * 18446744073709551616 -> s64 x = s64 y.
Proof. intros ->. unfold s64, wraps. ntp_pow. rewrite Z.mod_add by lia. reflexivity. Qed.

Lemma land_outer v : 0 <= v -> v mod 65536 = 0 -> v < 281474976710656 -> Z.land v 0xFFFF00000000FFFF = 0.
Proof.
  intros H0 H1 H2. change 0xFFFF00000000FFFF with (Z.lor (Z.shiftl (Z.ones 16) 48) (Z.ones 16)).
  rewrite Z.land_lor_distr_r, land_mid, Z.land_ones by lia. ntp_pow.
  rewrite H1, (Z.div_small v 281474976710656) by lia. reflexivity.
Qed.

(** [x] is within 2^47 of [base] on the circle modulo 2^64. *)
Lemma extend_spec base x X :
  0 <= base < 18446744073709551616 -> 0 <= x < 18446744073709551616 -> x mod 65536 = 0 ->
  x = X mod 18446744073709551616 -> Z.abs (X - base) < 140737488355328 ->
  ntp_extend base (ntp32_get (ntp32_set x)) = Ok x.
Proof.
  intros Hb Hx Hlow HX Hn. rewrite ntp32_get_set by lia.
  set (m := (x / 65536) mod 4294967296 * 65536).
  assert (Hm : 0 <= m < 281474976710656) by (unfold m; lia).
  assert (Hm' : m mod 65536 = 0) by (unfold m; apply Z.mod_mul; lia).
  assert (Hxm : x = x / 281474976710656 * 281474976710656 + m) by (unfold m; lia).
  unfold ntp_extend. rewrite land_outer by lia. cbn [Z.eqb negb].
  rewrite land_hi16 by (ntp_pow; lia). change (2 ^ 48) with 281474976710656.
  set (b := base / 281474976710656). assert (Hbb : 0 <= b < 65536) by (unfold b; lia).
  set (c := x / 281474976710656) in *. assert (Hcc : 0 <= c < 65536) by (unfold c; lia).
  clearbody m.
  assert (Hb0 : base = b * 281474976710656 + base mod 281474976710656) by (unfold b; lia).
  set (r := base mod 281474976710656) in *. assert (Hr : 0 <= r < 281474976710656) by (unfold r; lia).
  clearbody r b c.
  assert (Hu : forall k, -1 <= k <= 1 -> Z.land (u64 (base + k * 281474976710656)) 0xFFFF000000000000 = ((b + k) mod 65536) * 281474976710656).
  { intros k Hk. rewrite land_hi16 by (unfold u64, wrapu; ntp_pow; lia). unfold u64, wrapu. ntp_pow. rewrite Hb0. f_equal.
    assert (C : k = -1 \/ k = 0 \/ k = 1) by lia. destruct C as [->|[->| ->]]; lia. }
  pose proof (Hu (-1) ltac:(lia)) as Hu1. pose proof (Hu 1 ltac:(lia)) as Hu2. clear Hu.
  replace (base - 0x1000000000000) with (base + -1 * 281474976710656) by lia.
  replace (base + 0x1000000000000) with (base + 1 * 281474976710656) by lia.
  rewrite Hu1, Hu2. change (2 ^ 48) with 281474976710656.
  assert (Hl : forall y, Z.lor (y * 281474976710656) m = y * 281474976710656 + m).
  { intros y. apply (lor_add _ _ 48); [lia|ntp_pow; lia|]. change (2^48) with 281474976710656. apply Z.mod_mul; lia. }
  rewrite !Hl, !s64_u64.
  assert (E1 : s64 (b * 281474976710656 + m - base) = m - r) by (rewrite s64_small; lia).
  assert (E2 : s64 ((b + -1) mod 65536 * 281474976710656 + m - base) = m - r - 281474976710656).
  { rewrite (s64_eqm _ (m - r - 281474976710656) (((b + -1) mod 65536 - (b - 1)) / 65536)) by lia. apply s64_small. lia. }
  assert (E3 : s64 ((b + 1) mod 65536 * 281474976710656 + m - base) = m - r + 281474976710656).
  { rewrite (s64_eqm _ (m - r + 281474976710656) (((b + 1) mod 65536 - (b + 1)) / 65536)) by lia. apply s64_small. lia. }
  rewrite E1, E2, E3. clear E1 E2 E3.
  (* the three candidates, against the true position X *)
  assert (HXX : exists k, X = x + k * 18446744073709551616) by (exists (X / 18446744073709551616); lia).
  destruct HXX as [k Hk].
  assert (HE : (c - b + 65536 * k = 0 /\ -140737488355328 < m - r < 140737488355328) \/ (c - b + 65536 * k = -1 /\ 140737488355328 < m - r) \/ (c - b + 65536 * k = 1 /\ m - r < - 140737488355328)) by lia.
  destruct HE as [[HE1 HE2]|[[HE1 HE2]|[HE1 HE2]]].
  - replace ((Z.abs (m - r) <=? Z.abs (m - r - 281474976710656)) && (Z.abs (m - r) <=? Z.abs (m - r + 281474976710656))) with true by lia.
    f_equal. lia.
  - replace ((Z.abs (m - r) <=? Z.abs (m - r - 281474976710656)) && (Z.abs (m - r) <=? Z.abs (m - r + 281474976710656))) with false by lia.
    replace (Z.abs (m - r - 281474976710656) <=? Z.abs (m - r + 281474976710656)) with true by lia.
    f_equal. lia.
  - replace ((Z.abs (m - r) <=? Z.abs (m - r - 281474976710656)) && (Z.abs (m - r) <=? Z.abs (m - r + 281474976710656))) with false by lia.
    replace (Z.abs (m - r - 281474976710656) <=? Z.abs (m - r + 281474976710656)) with false by lia.
    f_equal. lia.
Qed.

(** Clamping. *)
Lemma clamp32_spec v mx : 0 <= v -> v + 32768 < 18446744073709551616 -> 0 <= mx < 281474976710656 ->
  ntp_clamp_32 v mx = Z.min ((v + 32768) / 65536) (mx / 65536) * 65536.
Proof.
  intros Hv Hv2 Hm. unfold ntp_clamp_32. unfold u64, wrapu. change (2 ^ 64) with 18446744073709551616.
  rewrite (Z.mod_small (v + _)) by lia.
  rewrite !land_hi48 by (ntp_pow; lia). ntp_pow. rewrite land_mid32. ntp_pow.
  change (v + 0x8000) with (v + 32768).
  destruct (mx / 65536 * 65536 <? (v + 32768) / 65536 * 65536) eqn:E;
    rewrite Z.div_mul, Z.mod_small by lia; f_equal; lia.
Qed.

Lemma ntp64_rt t : 0 <= t < 18446744073709551616 -> ntp64_get (ntp64_set t) = t.
Proof.
  intros. unfold ntp64_get, ntp64_set, u32, wrapu. cbn [fst snd].
  rewrite Z.shiftr_div_pow2, Z.shiftl_mul_pow2 by lia.
  rewrite (lor_add _ _ 32); ntp_pow; lia.
Qed.
