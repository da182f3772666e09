From Verif Require Import Base Base_lemmas Random_model.

Lemma range_iter_ok range z : 0 < range <= 4294967296 -> 0 <= z < 4294967296 ->
  range_iter range z = Some (z mod range).
Proof.
  intros Hr Hz. unfold range_iter, u64, wrapu. change (2 ^ 64) with 18446744073709551616.
  assert (H : 0 <= z - z mod range < 4294967296).
  { pose proof (Z.mod_pos_bound z range ltac:(lia)).
    pose proof (Z.mod_le z range ltac:(lia) ltac:(lia)). lia. }
  set (q := z mod range) in *. clearbody q.
  rewrite (Z.mod_small (z - q)) by lia.
  assert (E : (- range) mod 18446744073709551616 = 18446744073709551616 - range) by lia.
  rewrite E. replace (_ <? _) with false by lia. reflexivity.
Qed.

Lemma frr_spec from to z zs : 0 <= from <= to -> to < 4294967296 -> 0 <= z < 4294967296 ->
  fast_random_range from to (z :: zs) = Ok (Some (from + z mod (to - from + 1))).
Proof.
  intros Hf Ht Hz. unfold fast_random_range.
  replace (from <=? to) with true by lia. cbn [negb range_loop].
  rewrite range_iter_ok by lia.
  assert (H : 0 <= z mod (to - from + 1) < to - from + 1) by (apply Z.mod_pos_bound; lia).
  set (r := z mod (to - from + 1)) in *. clearbody r.
  unfold u32, wrapu. change (2 ^ 32) with 4294967296.
  rewrite (Z.mod_small r) by lia. rewrite (Z.mod_small (from + r)) by lia.
  replace (from <=? from + r) with true by lia. replace (from + r <=? to) with true by lia. reflexivity.
Qed.

(** The output function is injective on 32-bit values. *)
Lemma testbit_small x n i : 0 <= x < 2 ^ n -> n <= i -> 0 <= n -> Z.testbit x i = false.
Proof.
  intros Hx Hi Hn. destruct (Z.eq_dec x 0) as [->|]; [apply Z.bits_0|].
  apply Z.bits_above_log2; [lia|]. apply Z.log2_lt_pow2; [lia|].
  apply Z.lt_le_trans with (2 ^ n); [lia|]. apply Z.pow_le_mono_r; lia.
Qed.

Lemma xs_inj k x y : 0 < k -> 0 <= x < 2 ^ 32 -> 0 <= y < 2 ^ 32 ->
  Z.lxor x (Z.shiftr x k) = Z.lxor y (Z.shiftr y k) -> x = y.
Proof.
  intros Hk Hx Hy E.
  assert (K : forall m i, 32 - Z.of_nat m <= i -> 0 <= i -> Z.testbit x i = Z.testbit y i).
  { induction m as [|m IH]; intros i Hi H0.
    - rewrite !(testbit_small _ 32) by lia. reflexivity.
    - destruct (Z.ltb_spec i (32 - Z.of_nat m)); [|apply IH; lia].
      assert (B : Z.testbit (Z.lxor x (Z.shiftr x k)) i = Z.testbit (Z.lxor y (Z.shiftr y k)) i) by (rewrite E; reflexivity).
      rewrite !Z.lxor_spec, !Z.shiftr_spec in B by lia.
      rewrite (IH (i + k)) in B by lia.
      destruct (Z.testbit x i), (Z.testbit y i), (Z.testbit y (i + k)); cbn in B; congruence. }
  apply Z.bits_inj'. intros n Hn. destruct (Z.ltb_spec n 32); [apply (K 32%nat); lia|].
  rewrite !(testbit_small _ 32) by lia. reflexivity.
Qed.

Lemma xs_range k x : 0 < k -> 0 <= x < 2 ^ 32 -> 0 <= Z.lxor x (Z.shiftr x k) < 2 ^ 32.
Proof.
  intros Hk Hx.
  assert (S : 0 <= Z.shiftr x k < 2 ^ 32).
  { rewrite Z.shiftr_div_pow2 by lia. assert (0 < 2 ^ k) by (apply Z.pow_pos_nonneg; lia).
    split; [apply Z.div_pos; lia|]. apply Z.le_lt_trans with x; [|lia].
    apply Z.div_le_upper_bound; [lia|]. nia. }
  assert (N : 0 <= Z.lxor x (Z.shiftr x k)) by (apply Z.lxor_nonneg; lia).
  split; [exact N|].
  destruct (Z.eq_dec (Z.lxor x (Z.shiftr x k)) 0) as [->|Hz]; [lia|].
  apply Z.log2_lt_pow2; [lia|].
  apply Z.le_lt_trans with (Z.max (Z.log2 x) (Z.log2 (Z.shiftr x k))).
  - apply Z.log2_lxor; lia.
  - assert (L : forall a, 0 <= a < 2 ^ 32 -> Z.log2 a < 32).
    { intros a Ha. destruct (Z.eq_dec a 0) as [->|]; [cbn; lia|]. apply Z.log2_lt_pow2; lia. }
    pose proof (L x Hx). pose proof (L _ S). lia.
Qed.

Lemma mul_inj c d x y : (c * d) mod 4294967296 = 1 -> 0 <= x < 4294967296 -> 0 <= y < 4294967296 ->
  u32 (x * c) = u32 (y * c) -> x = y.
Proof.
  intros Hcd Hx Hy E. unfold u32, wrapu in E. change (2 ^ 32) with 4294967296 in E.
  assert (E2 : ((x * c) mod 4294967296 * d) mod 4294967296 = ((y * c) mod 4294967296 * d) mod 4294967296) by (rewrite E; reflexivity).
  rewrite !Zmult_mod_idemp_l, <- !Z.mul_assoc in E2.
  rewrite <- (Zmult_mod_idemp_r (c * d) x), <- (Zmult_mod_idemp_r (c * d) y), Hcd, !Z.mul_1_r in E2.
  rewrite !Z.mod_small in E2 by lia. exact E2.
Qed.

Lemma u32_range x : 0 <= u32 x < 2 ^ 32.
Proof. unfold u32, wrapu. apply Z.mod_pos_bound. lia. Qed.

Lemma mix_range z : 0 <= z < 2 ^ 32 -> 0 <= mix z < 2 ^ 32.
Proof. intros. unfold mix. apply xs_range; [lia|]. apply u32_range. Qed.

Lemma mix_inj x y : 0 <= x < 2 ^ 32 -> 0 <= y < 2 ^ 32 -> mix x = mix y -> x = y.
Proof.
  intros Hx Hy E. unfold mix in E.
  apply xs_inj in E; [|lia|apply u32_range|apply u32_range].
  assert (R : forall a, 0 <= a < 2 ^ 32 -> 0 <= a < 4294967296) by (intros; lia).
  apply (mul_inj _ 2534613543) in E; [|reflexivity|apply R, xs_range; [lia|apply u32_range]|apply R, xs_range; [lia|apply u32_range]].
  apply xs_inj in E; [|lia|apply u32_range|apply u32_range].
  apply (mul_inj _ 859588901) in E; [|reflexivity|apply R, xs_range; lia|apply R, xs_range; lia].
  apply xs_inj in E; [|lia|lia|lia]. exact E.
Qed.

(** The i-th state is start + i * gamma. *)
Lemma draws_nth : forall n st i, 0 <= st < 4294967296 ->
  (forall j, (j < n)%nat -> (st + Z.of_nat j * 0x9E3779B9) mod 4294967296 <> 0) ->
  (i < n)%nat ->
  nth_error (draws n st) i = Some (mix ((st + Z.of_nat i * 0x9E3779B9) mod 4294967296)).
Proof.
  induction n as [|n IH]; intros st i Hst Hnz Hi; [lia|].
  cbn [draws fast_random].
  assert (Hst0 : (st =? 0) = false).
  { apply Z.eqb_neq. intros ->. apply (Hnz 0%nat); [lia|]. reflexivity. }
  unfold fast_random. rewrite Hst0.
  destruct i as [|i]; cbn [nth_error].
  - rewrite Z.mul_0_l, Z.add_0_r, Z.mod_small by lia. reflexivity.
  - rewrite IH.
    + f_equal. f_equal. unfold u32, wrapu. change (2 ^ 32) with 4294967296.
      rewrite Zplus_mod_idemp_l. f_equal. lia.
    + apply u32_range.
    + intros j Hj. unfold u32, wrapu. change (2 ^ 32) with 4294967296. rewrite Zplus_mod_idemp_l.
      specialize (Hnz (S j) ltac:(lia)). replace (st + 2654435769 + Z.of_nat j * 2654435769) with (st + Z.of_nat (S j) * 2654435769) by lia.
      exact Hnz.
    + lia.
Qed.

Lemma draws_distinct n st i j x : 0 <= st < 4294967296 -> Z.of_nat n <= 4294967296 ->
  (forall j, (j < n)%nat -> (st + Z.of_nat j * 0x9E3779B9) mod 4294967296 <> 0) ->
  (i < n)%nat -> (j < n)%nat -> i <> j ->
  nth_error (draws n st) i = Some x -> nth_error (draws n st) j <> Some x.
Proof.
  intros Hst Hn Hnz Hi Hj Hij H1 H2.
  rewrite draws_nth in H1, H2 by auto.
  assert (E : mix ((st + Z.of_nat i * 0x9E3779B9) mod 4294967296) = mix ((st + Z.of_nat j * 0x9E3779B9) mod 4294967296)) by congruence.
  apply mix_inj in E; [|apply (Z.mod_pos_bound _ 4294967296); lia|apply (Z.mod_pos_bound _ 4294967296); lia].
  apply Hij. apply Nat2Z.inj.
  apply (mul_inj 0x9E3779B9 340573321); [reflexivity|lia|lia|].
  unfold u32, wrapu. change (2 ^ 32) with 4294967296.
  assert (E2 : (((st + Z.of_nat i * 0x9E3779B9) mod 4294967296) - st) mod 4294967296 = (((st + Z.of_nat j * 0x9E3779B9) mod 4294967296) - st) mod 4294967296) by (rewrite E; reflexivity).
  rewrite !Zminus_mod_idemp_l in E2.
  replace (st + Z.of_nat i * 2654435769 - st) with (Z.of_nat i * 2654435769) in E2 by lia.
  replace (st + Z.of_nat j * 2654435769 - st) with (Z.of_nat j * 2654435769) in E2 by lia.
  exact E2.
Qed.
