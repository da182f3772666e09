From Verif Require Import Base Base_lemmas Seqnum_model.

Ltac pow_simpl :=
  change (2 ^ 16) with 65536 in *; change (2 ^ (16 - 1)) with 32768 in *; change (2^15) with 32768 in *;
  change (2 ^ 32) with 4294967296 in *; change (2 ^ (32 - 1)) with 2147483648 in *; change (2^31) with 2147483648 in *.

Lemma s16_of_mod a b x y :
  a = x mod 65536 -> b = y mod 65536 -> - 32768 <= x - y < 32768 -> s16 (a - b) = x - y.
Proof.
  intros -> -> H. unfold s16.
  rewrite (wraps_mod_eq 16 (x mod 65536 - y mod 65536) (x - y)).
  - apply wraps_small; pow_simpl; lia.
  - pow_simpl. rewrite <- Zminus_mod. reflexivity.
Qed.

Lemma s32_of_mod a b x y :
  a = x mod 4294967296 -> b = y mod 4294967296 -> - 2147483648 <= x - y < 2147483648 ->
  s32 (u32 (a - b)) = x - y.
Proof.
  intros -> -> H. unfold s32, u32. rewrite wraps_wrapu by lia.
  rewrite (wraps_mod_eq 32 (x mod 4294967296 - y mod 4294967296) (x - y)).
  - apply wraps_small; pow_simpl; lia.
  - pow_simpl. rewrite <- Zminus_mod. reflexivity.
Qed.

Lemma seqnum_diff_pos x y :
  - 32768 <= x - y < 32768 -> seqnum_diff (x mod 65536) (y mod 65536) = x - y.
Proof. intros. unfold seqnum_diff. apply s16_of_mod; auto. Qed.

Lemma blknum_diff_pos x y :
  - 32768 <= x - y < 32768 -> blknum_diff (x mod 65536) (y mod 65536) = x - y.
Proof. intros. unfold blknum_diff. apply s16_of_mod; auto. Qed.

Lemma stream_timestamp_diff_pos x y :
  - 2147483648 <= x - y < 2147483648 ->
  stream_timestamp_diff (x mod 4294967296) (y mod 4294967296) = x - y.
Proof. intros. unfold stream_timestamp_diff. apply s32_of_mod; auto. Qed.

Lemma s16_antisym d : -65536 < d < 65536 -> d <> 32768 -> d <> -32768 -> s16 (- d) = - s16 d.
Proof.
  intros. unfold s16, wraps. pow_simpl. cbv zeta.
  destruct (Z.ltb_spec (d mod 65536) 32768), (Z.ltb_spec ((-d) mod 65536) 32768); lia.
Qed.

Lemma seqnum_antisym a b :
  0 <= a < 65536 -> 0 <= b < 65536 -> a <> b -> (a - b) mod 65536 <> 32768 ->
  seqnum_lt a b = negb (seqnum_lt b a).
Proof.
  intros Ha Hb Hn Hh. unfold seqnum_lt, seqnum_diff, s16, wraps. pow_simpl. cbv zeta.
  destruct (Z.ltb_spec ((a - b) mod 65536) 32768), (Z.ltb_spec ((b - a) mod 65536) 32768); lia.
Qed.

Lemma stream_timestamp_antisym a b :
  0 <= a < 4294967296 -> 0 <= b < 4294967296 -> a <> b -> (a - b) mod 4294967296 <> 2147483648 ->
  stream_timestamp_lt a b = negb (stream_timestamp_lt b a).
Proof.
  intros Ha Hb Hn Hh. unfold stream_timestamp_lt, stream_timestamp_diff, s32, u32.
  rewrite !wraps_wrapu by lia. unfold wraps. pow_simpl. cbv zeta.
  destruct (Z.ltb_spec ((a - b) mod 4294967296) 2147483648), (Z.ltb_spec ((b - a) mod 4294967296) 2147483648); lia.
Qed.

Lemma seqnum_half_range a b :
  0 <= a < 65536 -> 0 <= b < 65536 -> (a - b) mod 65536 = 32768 ->
  seqnum_lt a b = true /\ seqnum_lt b a = true.
Proof.
  intros Ha Hb Hh. unfold seqnum_lt, seqnum_diff, s16, wraps. pow_simpl. cbv zeta.
  destruct (Z.ltb_spec ((a - b) mod 65536) 32768), (Z.ltb_spec ((b - a) mod 65536) 32768); lia.
Qed.

Lemma seqnum_shift a b k :
  seqnum_diff (u16 (a + k)) (u16 (b + k)) = seqnum_diff a b.
Proof.
  unfold seqnum_diff, s16. apply wraps_mod_eq. unfold u16, wrapu.
  rewrite <- Zminus_mod. f_equal. lia.
Qed.

Lemma stream_timestamp_shift a b k :
  stream_timestamp_diff (u32 (a + k)) (u32 (b + k)) = stream_timestamp_diff a b.
Proof.
  unfold stream_timestamp_diff, s32, u32. rewrite !wraps_wrapu by lia.
  apply wraps_mod_eq. unfold wrapu. rewrite <- Zminus_mod. f_equal. lia.
Qed.

Lemma seqnum_add a k :
  - 32768 <= k < 32768 -> seqnum_diff (u16 (a + k)) (u16 a) = k.
Proof.
  intros. unfold u16, wrapu. pow_simpl. rewrite seqnum_diff_pos; lia.
Qed.

Lemma stream_timestamp_add a k :
  - 2147483648 <= k < 2147483648 -> stream_timestamp_diff (u32 (a + k)) (u32 a) = k.
Proof.
  intros. unfold u32 at 1 2. unfold wrapu. pow_simpl. rewrite stream_timestamp_diff_pos; lia.
Qed.

Lemma rtp_compare_pos x y :
  - 32768 < x - y < 32768 ->
  rtp_compare (x mod 65536) (y mod 65536) = Z.sgn (x - y).
Proof.
  intros H. unfold rtp_compare, seqnum_lt. rewrite seqnum_diff_pos by lia.
  destruct (Z.ltb_spec (x - y) 0). { rewrite Z.sgn_neg; lia. }
  destruct (Z.eqb_spec (x mod 65536) (y mod 65536)) as [E|E].
  - assert (x = y) as ->. { lia. } rewrite Z.sub_diag. reflexivity.
  - assert (x <> y) by congruence. rewrite Z.sgn_pos; lia.
Qed.

Lemma fec_compare_pos x y e f :
  - 32768 < x - y < 32768 -> 0 <= e < 2 ^ 64 -> 0 <= f < 2 ^ 64 ->
  fec_compare (x mod 65536, e) (y mod 65536, f) =
  Z.sgn ((x * 2 ^ 64 + e) - (y * 2 ^ 64 + f)).
Proof.
  intros H He Hf. unfold fec_compare, blknum_lt. cbn [fst snd]. rewrite blknum_diff_pos by lia.
  change (2 ^ 64) with 18446744073709551616 in *.
  destruct (Z.ltb_spec (x - y) 0). { rewrite Z.sgn_neg; lia. }
  destruct (Z.eqb_spec (x mod 65536) (y mod 65536)) as [E|E].
  - assert (x = y) as -> by lia.
    destruct (Z.ltb_spec e f). { rewrite Z.sgn_neg; lia. }
    destruct (Z.eqb_spec e f). { subst. rewrite Z.sgn_null; lia. }
    rewrite Z.sgn_pos; lia.
  - assert (x <> y) by congruence. rewrite Z.sgn_pos; lia.
Qed.
