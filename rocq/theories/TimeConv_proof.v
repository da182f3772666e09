From Coq Require Import Reals ZArith List Bool Lia Lra Psatz.
From Flocq Require Import Core.Core IEEE754.BinarySingleNaN.
From Flocq Require Relative.
From Verif Require Import Base Float32 TimeConv_model.
Local Open Scope Z_scope.

Lemma rnd32_mono x y : (x <= y)%R -> (rnd32 x <= rnd32 y)%R.
Proof. intros H. unfold rnd32. apply round_le; auto with typeclass_instances. apply (fexp_correct 24 128 eq_refl). Qed.

Lemma rnd32_gen x : generic_format radix2 (SpecFloat.fexp 24 128) x -> rnd32 x = x.
Proof. intros H. unfold rnd32. apply round_generic; auto with typeclass_instances. Qed.

Lemma rnd32_Z z : Z.abs z <= 2 ^ 24 -> rnd32 (IZR z) = IZR z.
Proof.
  intros H. apply rnd32_gen. replace (IZR z) with (F2R (Float radix2 z 0)).
  - apply gf32; lia.
  - unfold F2R. cbn [Fnum Fexp]. change (bpow radix2 0) with 1%R. lra.
Qed.

Lemma gen_pow k : -100 <= k <= 120 -> generic_format radix2 (SpecFloat.fexp 24 128) (bpow radix2 k).
Proof.
  intros H. replace (bpow radix2 k) with (F2R (Float radix2 1 k)).
  - apply gf32; lia.
  - unfold F2R. cbn [Fnum Fexp]. lra.
Qed.

Lemma rnd32_pow k : -100 <= k <= 120 -> rnd32 (bpow radix2 k) = bpow radix2 k.
Proof. intros H. apply rnd32_gen, gen_pow, H. Qed.

Lemma rnd32_opp x : rnd32 (- x) = (- rnd32 x)%R.
Proof. unfold rnd32. apply round_NE_opp. Qed.

Lemma rnd32_0 : rnd32 0 = 0%R.
Proof. unfold rnd32. apply round_0. auto with typeclass_instances. Qed.

Lemma rnd32_abs_le x k : -100 <= k <= 120 -> (Rabs x <= bpow radix2 k)%R -> (Rabs (rnd32 x) <= bpow radix2 k)%R.
Proof.
  intros Hk H. unfold rnd32. apply abs_round_le_generic; auto with typeclass_instances.
  - apply (fexp_correct 24 128 eq_refl).
  - apply gen_pow, Hk.
Qed.

(* relative error of one rounding *)
Definition u32 : R := bpow radix2 (-24).

Lemma rnd32_rel x : (x = 0 \/ bpow radix2 (-100) <= Rabs x)%R ->
  exists e, (Rabs e <= u32)%R /\ rnd32 x = (x * (1 + e))%R.
Proof.
  intros [->|H].
  - exists 0%R. split. rewrite Rabs_R0. apply bpow_ge_0. rewrite rnd32_0. lra.
  - destruct (Relative.relative_error_N_FLT_ex radix2 (-149) 24 eq_refl (fun x => negb (Z.even x)) x) as (e & He & E).
    + apply Rle_trans with (2 := H). apply bpow_le. lia.
    + exists e. split.
      * apply Rle_trans with (1 := He). unfold u32. rewrite (bpow_plus radix2 (- (24)) 1).
        change (bpow radix2 1) with 2%R. change (- (24)) with (-24). lra.
      * exact E.
Qed.

(* values of the operations, when nothing is too large *)
Lemma lt128 r k : -100 <= k <= 120 -> (Rabs r <= bpow radix2 k)%R -> Rlt_bool (Rabs (rnd32 r)) (bpow radix2 128) = true.
Proof.
  intros Hk H. apply Rlt_bool_true. apply Rle_lt_trans with (bpow radix2 k).
  - now apply rnd32_abs_le.
  - apply bpow_lt. lia.
Qed.

Lemma of_Z_val z : Z.abs z <= 2 ^ 64 -> f32_val (f32_of_Z z) = rnd32 (IZR z) /\ f32_fin (f32_of_Z z) = true.
Proof.
  intros Hz. pose proof (binary_normalize_correct 24 128 _ _ mode_NE z 0 false) as H. cbv zeta in H.
  assert (E : F2R (Float radix2 z 0) = IZR z) by (unfold F2R; cbn [Fnum Fexp]; change (bpow radix2 0) with 1%R; lra).
  rewrite E in H. change (round radix2 (SpecFloat.fexp 24 128) (round_mode mode_NE) (IZR z)) with (rnd32 (IZR z)) in H.
  rewrite (lt128 _ 64) in H; [|lia|].
  - destruct H as (H1 & H2 & _). split; [exact H1|exact H2].
  - rewrite <- abs_IZR. change (bpow radix2 64) with (IZR (2 ^ 64)). now apply IZR_le.
Qed.

Lemma div_val x y k : -100 <= k <= 120 -> f32_val y <> 0%R -> f32_fin x = true ->
  (Rabs (f32_val x / f32_val y) <= bpow radix2 k)%R ->
  f32_val (f32_div x y) = rnd32 (f32_val x / f32_val y) /\ f32_fin (f32_div x y) = true.
Proof.
  intros Hk Hy Fx H. pose proof (Bdiv_correct 24 128 _ _ mode_NE x y Hy) as D.
  change (round radix2 (SpecFloat.fexp 24 128) (round_mode mode_NE) (B2R x / B2R y)) with (rnd32 (f32_val x / f32_val y)) in D.
  rewrite (lt128 _ k Hk H) in D. destruct D as (D1 & D2 & _). split; [exact D1|].
  unfold f32_fin, f32_div in *. congruence.
Qed.

Lemma mul_val x y k : -100 <= k <= 120 -> f32_fin x = true -> f32_fin y = true ->
  (Rabs (f32_val x * f32_val y) <= bpow radix2 k)%R ->
  f32_val (f32_mul x y) = rnd32 (f32_val x * f32_val y) /\ f32_fin (f32_mul x y) = true.
Proof.
  intros Hk Fx Fy H. pose proof (Bmult_correct 24 128 _ _ mode_NE x y) as D.
  change (round radix2 (SpecFloat.fexp 24 128) (round_mode mode_NE) (B2R x * B2R y)) with (rnd32 (f32_val x * f32_val y)) in D.
  rewrite (lt128 _ k Hk H) in D. destruct D as (D1 & D2 & _). split; [exact D1|].
  unfold f32_fin, f32_mul in *. rewrite D2, Fx, Fy. reflexivity.
Qed.

Lemma FIX0_round (rn : R -> Z) x : round radix2 (FIX_exp 0) rn x = IZR (rn x).
Proof.
  unfold round, scaled_mantissa, cexp, FIX_exp, F2R. cbn [Fnum Fexp].
  change (bpow radix2 (- 0)) with 1%R. change (bpow radix2 0) with 1%R. rewrite !Rmult_1_r. reflexivity.
Qed.

Lemma round_val x : f32_fin x = true ->
  f32_val (f32_round x) = IZR (ZnearestA (f32_val x)) /\ f32_fin (f32_round x) = true.
Proof.
  intros F. destruct (Bnearbyint_correct 24 128 _ mode_NA x) as (H1 & H2 & _).
  split.
  - unfold f32_val, f32_round. rewrite H1, FIX0_round. reflexivity.
  - unfold f32_fin, f32_round in *. congruence.
Qed.

Lemma trunc_val x n : f32_val x = IZR n -> Btrunc x = n.
Proof.
  intros H. apply eq_IZR. rewrite (Btrunc_correct 24 128 _ x), FIX0_round.
  unfold f32_val in H. rewrite H, Ztrunc_IZR. reflexivity.
Qed.

Lemma le_spec x y : f32_fin x = true -> f32_fin y = true -> f32_le x y = true <-> (f32_val x <= f32_val y)%R.
Proof.
  intros Fx Fy. unfold f32_le. rewrite Bleb_correct by assumption. fold (f32_val x) (f32_val y).
  destruct (Rle_bool_spec (f32_val x) (f32_val y)) as [H|H]; split; intros; auto; try discriminate. exfalso. lra.
Qed.
Lemma le_false x y : f32_fin x = true -> f32_fin y = true -> f32_le x y = false <-> (f32_val y < f32_val x)%R.
Proof.
  intros Fx Fy. unfold f32_le. rewrite Bleb_correct by assumption. fold (f32_val x) (f32_val y).
  destruct (Rle_bool_spec (f32_val x) (f32_val y)) as [H|H]; split; intros; auto; try discriminate. exfalso. lra.
Qed.

Lemma near_mono x y : (x <= y)%R -> ZnearestA x <= ZnearestA y.
Proof. intros. apply Zrnd_le; auto with typeclass_instances. Qed.

Lemma near_err x : (Rabs (IZR (ZnearestA x) - x) <= / 2)%R.
Proof. rewrite <- Rabs_Ropp, Ropp_minus_distr. apply Znearest_half. Qed.

Lemma near_int x n : (Rabs (x - IZR n) < / 2)%R -> ZnearestA x = n.
Proof. intros H. now apply Znearest_imp. Qed.

(* the number that ns_2_fract_samples computes *)
Definition fract (ns rate : Z) : R :=
  rnd32 (rnd32 (rnd32 (IZR ns) / IZR second) * rnd32 (IZR rate)).
Definition nsamp (ns rate : Z) : Z := ZnearestA (fract ns rate).
(* the number that nsamples_2_ns computes *)
Definition durat (x : R) (rate : Z) : R :=
  rnd32 (rnd32 (x / rnd32 (IZR rate)) * IZR second).
Definition nns (x : R) (rate : Z) : Z := ZnearestA (durat x rate).

Lemma second_val : f32_val (f32_of_Z second) = IZR second /\ f32_fin (f32_of_Z second) = true.
Proof.
  assert (E : f32_of_Z second = f32_make 1953125 9) by (apply B2SF_inj; vm_compute; reflexivity).
  rewrite E. destruct (f32_make_exact 1953125 9) as [A B]; [lia|lia|]. split; [|exact B].
  rewrite A. change (bpow radix2 9) with 512%R. unfold second. lra.
Qed.

Lemma abs_le_pow r k : Z.abs r <= 2 ^ k -> 0 <= k -> (Rabs (IZR r) <= bpow radix2 k)%R.
Proof. intros H K. rewrite <- abs_IZR. rewrite <- IZR_Zpower by lia. apply IZR_le. exact H. Qed.

Lemma fract_ok ns rate : Z.abs ns <= 2 ^ 63 -> 0 <= rate <= 2 ^ 64 ->
  f32_val (ns_2_fract_samples ns rate) = IZR (nsamp ns rate) /\ f32_fin (ns_2_fract_samples ns rate) = true /\
  (Rabs (IZR (nsamp ns rate)) <= bpow radix2 98)%R.
Proof.
  intros Hn Hr. destruct (of_Z_val ns) as [A1 A2]; [lia|]. destruct (of_Z_val rate) as [B1 B2]; [lia|].
  destruct second_val as [C1 C2]. unfold ns_2_fract_samples.
  assert (N1 : (Rabs (rnd32 (IZR ns)) <= bpow radix2 63)%R) by (apply rnd32_abs_le; [lia|]; apply abs_le_pow; lia).
  assert (R1 : (Rabs (rnd32 (IZR rate)) <= bpow radix2 64)%R) by (apply rnd32_abs_le; [lia|]; apply abs_le_pow; lia).
  assert (Q1 : (Rabs (rnd32 (IZR ns) / IZR second) <= bpow radix2 34)%R).
  { unfold Rdiv. rewrite Rabs_mult, (Rabs_right (/ IZR second)) by (unfold second; lra).
    apply Rle_trans with (bpow radix2 63 * / IZR second)%R.
    - apply Rmult_le_compat_r; [unfold second; lra|exact N1].
    - change (bpow radix2 63) with (IZR (2 ^ 63)). change (bpow radix2 34) with (IZR (2 ^ 34)). unfold second. cbn. lra. }
  destruct (div_val (f32_of_Z ns) (f32_of_Z second) 34) as [D1 D2]; try lia; auto.
  { rewrite C1. unfold second. lra. }
  { rewrite A1, C1. exact Q1. }
  rewrite A1, C1 in D1.
  assert (Q2 : (Rabs (rnd32 (rnd32 (IZR ns) / IZR second) * rnd32 (IZR rate)) <= bpow radix2 98)%R).
  { rewrite Rabs_mult. change 98 with (34 + 64). rewrite bpow_plus. apply Rmult_le_compat; try apply Rabs_pos; auto.
    apply rnd32_abs_le; [lia|exact Q1]. }
  destruct (mul_val (f32_div (f32_of_Z ns) (f32_of_Z second)) (f32_of_Z rate) 98) as [E1 E2]; try lia; auto.
  { rewrite D1, B1. exact Q2. }
  rewrite D1, B1 in E1. destruct (round_val _ E2) as [F1 F2].
  rewrite E1 in F1. split; [exact F1|]. split; [exact F2|].
  change (rnd32 (rnd32 (rnd32 (IZR ns) / IZR second) * rnd32 (IZR rate))) with (fract ns rate) in *.
  assert (G : (Rabs (fract ns rate) <= bpow radix2 98)%R) by (apply rnd32_abs_le; [lia|exact Q2]).
  change (bpow radix2 98) with (IZR (2 ^ 98)) in *. apply Rabs_le. apply Rabs_le_inv in G. destruct G as [G1 G2].
  unfold nsamp. rewrite <- opp_IZR in *. split; apply IZR_le.
  - rewrite <- (Zrnd_IZR ZnearestA (- 2 ^ 98)). now apply near_mono.
  - rewrite <- (Zrnd_IZR ZnearestA (2 ^ 98)). now apply near_mono.
Qed.

Lemma durat_ok x rate : f32_fin x = true -> (Rabs (f32_val x) <= bpow radix2 64)%R -> 1 <= rate <= 2 ^ 64 ->
  let v := f32_round (f32_mul (f32_div x (f32_of_Z rate)) (f32_of_Z second)) in
  f32_val v = IZR (nns (f32_val x) rate) /\ f32_fin v = true.
Proof.
  intros Fx Hx Hr. destruct (of_Z_val rate) as [B1 B2]; [lia|].
  destruct second_val as [C1 C2].
  assert (R1 : (1 <= rnd32 (IZR rate))%R).
  { replace 1%R with (rnd32 (IZR 1)) by (apply rnd32_Z; lia). apply rnd32_mono, IZR_le. lia. }
  assert (Q1 : (Rabs (f32_val x / rnd32 (IZR rate)) <= bpow radix2 64)%R).
  { unfold Rdiv. rewrite Rabs_mult, (Rabs_right (/ rnd32 (IZR rate))) by (left; apply Rinv_0_lt_compat; lra).
    rewrite <- (Rmult_1_r (bpow radix2 64)). apply Rmult_le_compat; auto; try apply Rabs_pos.
    - left. apply Rinv_0_lt_compat. lra.
    - rewrite <- Rinv_1. apply Rinv_le; lra. }
  destruct (div_val x (f32_of_Z rate) 64) as [D1 D2]; try lia; auto.
  { rewrite B1. lra. }
  { rewrite B1. exact Q1. }
  rewrite B1 in D1.
  destruct (mul_val (f32_div x (f32_of_Z rate)) (f32_of_Z second) 94) as [E1 E2]; try lia; auto.
  { rewrite D1, C1, Rabs_mult. change 94 with (64 + 30). rewrite bpow_plus. apply Rmult_le_compat; try apply Rabs_pos.
    - apply rnd32_abs_le; [lia|exact Q1].
    - change (bpow radix2 30) with (IZR (2 ^ 30)). rewrite Rabs_right; unfold second; [apply IZR_le; lia|lra]. }
  rewrite D1, C1 in E1. cbv zeta. destruct (round_val _ E2) as [F1 F2]. rewrite E1 in F1. split; auto.
Qed.

(* the integer types of the code *)
Inductive std_ty : ity -> Z -> Prop :=
| std_size : std_ty size_ty 64
| std_ts : std_ty ts_ty 32
| std_diff : std_ty diff_ty 31
| std_ns : std_ty ns_ty 63.

Lemma std_max t k : std_ty t k -> t_max t = 2 ^ k - 1 /\ 31 <= k <= 64 /\ (t_min t = 0 \/ t_min t = - 2 ^ k).
Proof. intros []; cbn; lia. Qed.

Lemma of_max t k : std_ty t k -> f32_val (f32_of_Z (t_max t)) = bpow radix2 k /\ f32_fin (f32_of_Z (t_max t)) = true.
Proof.
  intros H. assert (E : f32_of_Z (t_max t) = f32_make 1 k) by (apply B2SF_inj; destruct H; vm_compute; reflexivity).
  rewrite E. destruct (f32_make_exact 1 k) as [A B]; [lia|destruct H; lia|]. split; [rewrite A; lra|exact B].
Qed.

Lemma of_min t k : std_ty t k -> f32_val (f32_of_Z (t_min t)) = IZR (t_min t) /\ f32_fin (f32_of_Z (t_min t)) = true.
Proof.
  intros H. destruct (std_max _ _ H) as (_ & K & [M|M]).
  - rewrite M. apply f32_of_Z_exact. lia.
  - rewrite M. assert (E : f32_of_Z (- 2 ^ k) = f32_make (-1) k).
    { apply B2SF_inj; destruct H; try (vm_compute; reflexivity); exfalso; cbn in M; lia. }
    rewrite E. destruct (f32_make_exact (-1) k) as [A B]; [lia|lia|]. split; [|exact B].
    rewrite A, opp_IZR, <- IZR_Zpower by lia. change (IZR (radix_val radix2 ^ k)) with (IZR (2 ^ k)). lra.
Qed.

Lemma pow_IZR k : 0 <= k -> bpow radix2 k = IZR (2 ^ k).
Proof. intros. now rewrite <- IZR_Zpower. Qed.

Lemma rnd_min t k : std_ty t k -> rnd32 (IZR (t_min t)) = IZR (t_min t).
Proof.
  intros H. destruct (of_Z_val (t_min t)) as [A _]. destruct H; cbn; lia.
  rewrite <- A. now apply (of_min t k).
Qed.
Lemma rnd_pow t k : std_ty t k -> rnd32 (bpow radix2 k) = bpow radix2 k.
Proof. intros H. apply rnd32_pow. destruct H; lia. Qed.

(* if the float is strictly within the range, so is the number it came from *)
Lemma within t k x : std_ty t k ->
  (IZR (t_min t) < rnd32 x)%R -> (rnd32 x < bpow radix2 k)%R -> (IZR (t_min t) < x /\ x < bpow radix2 k)%R.
Proof.
  intros H A B. split; apply Rnot_le_lt; intros C.
  - apply rnd32_mono in C. rewrite (rnd_min t k H) in C. lra.
  - apply rnd32_mono in C. rewrite (rnd_pow t k H) in C. lra.
Qed.

(* what the saturating conversion gives *)
Definition sat_of (t : ity) (k N mul r : Z) : Prop :=
  (rnd32 (IZR (N * mul)) <= IZR (t_min t) /\ (r = Z.quot (t_min t) mul * mul)%Z)%R \/
  (IZR (t_min t) < rnd32 (IZR (N * mul)) /\ bpow radix2 k <= rnd32 (IZR (N * mul)) /\ (r = Z.quot (t_max t) mul * mul)%Z)%R \/
  (IZR (t_min t) < rnd32 (IZR (N * mul)) /\ rnd32 (IZR (N * mul)) < bpow radix2 k /\
   (t_min t < N * mul <= t_max t)%Z /\ (r = N * mul)%Z)%R.

Lemma ns_int t k ns rate mul : std_ty t k -> Z.abs ns <= 2 ^ 63 -> 0 <= rate <= 2 ^ 64 -> 1 <= mul <= 1024 ->
  exists r, ns_2_int_samples t ns rate mul = Ok r /\ sat_of t k (nsamp ns rate) mul r.
Proof.
  intros T Hn Hr Hm. destruct (fract_ok ns rate Hn Hr) as (A & B & C).
  destruct (of_Z_val mul) as [M1 M2]; [lia|]. rewrite rnd32_Z in M1 by lia.
  destruct (mul_val (ns_2_fract_samples ns rate) (f32_of_Z mul) 108) as [D1 D2]; try lia; auto.
  { rewrite A, M1, Rabs_mult. change 108 with (98 + 10). rewrite bpow_plus. apply Rmult_le_compat; try apply Rabs_pos; auto.
    apply abs_le_pow; lia. }
  rewrite A, M1, <- mult_IZR in D1. destruct (of_min t k T) as [E1 E2]. destruct (of_max t k T) as [F1 F2].
  destruct (std_max t k T) as (X1 & X2 & X3).
  unfold ns_2_int_samples. cbv zeta. unfold sat_of. set (N := nsamp ns rate) in *.
  destruct (f32_le (f32_mul (ns_2_fract_samples ns rate) (f32_of_Z mul)) (f32_of_Z (t_min t))) eqn:L1.
  { apply le_spec in L1; auto. rewrite D1, E1 in L1. eexists. split; [reflexivity|]. left. auto. }
  apply le_false in L1; auto. rewrite D1, E1 in L1.
  destruct (f32_le (f32_of_Z (t_max t)) (f32_mul (ns_2_fract_samples ns rate) (f32_of_Z mul))) eqn:L2.
  { apply le_spec in L2; auto. rewrite D1, F1 in L2. eexists. split; [reflexivity|]. right. left. auto. }
  apply le_false in L2; auto. rewrite D1, F1 in L2.
  destruct (within t k _ T L1 L2) as [W1 W2]. apply lt_IZR in W1. rewrite pow_IZR in W2 by lia. apply lt_IZR in W2.
  assert (I1 : t_min t <= N) by (clear -X3 W1 Hm; assert (0 < 2 ^ k \/ t_min t = 0) by lia; nia).
  assert (I2 : N <= t_max t) by (rewrite X1; clear -W2 Hm; nia).
  exists (N * mul). split.
  - unfold to_int. rewrite B, (trunc_val _ N A).
    rewrite (proj2 (Z.leb_le _ _) I1), (proj2 (Z.leb_le _ _) I2). cbn [andb bind].
    unfold int_mul. rewrite (proj2 (Z.leb_le (t_min t) (N * mul))) by lia.
    rewrite (proj2 (Z.leb_le (N * mul) (t_max t))) by lia. reflexivity.
  - right. right. repeat split; auto; lia.
Qed.

Lemma ns_samples x rate : f32_fin x = true -> (Rabs (f32_val x) <= bpow radix2 64)%R -> 1 <= rate <= 2 ^ 64 ->
  exists r, nsamples_2_ns x rate = Ok r /\ 
   ((IZR (nns (f32_val x) rate) <= IZR (- 2 ^ 63) /\ (r = - 2 ^ 63)%Z)%R \/
    (IZR (2 ^ 63) <= IZR (nns (f32_val x) rate) /\ (r = 2 ^ 63 - 1)%Z)%R \/
    ((- 2 ^ 63 < nns (f32_val x) rate < 2 ^ 63)%Z /\ (r = nns (f32_val x) rate)%Z)%R).
Proof.
  intros Fx Hx Hr. destruct (durat_ok x rate Fx Hx Hr) as [A B].
  destruct (of_min ns_ty 63 std_ns) as [E1 E2]. destruct (of_max ns_ty 63 std_ns) as [F1 F2].
  unfold nsamples_2_ns. cbv zeta in *.
  set (v := f32_round _) in *. set (N := nns (f32_val x) rate) in *.
  rewrite pow_IZR in F1 by lia.
  destruct (f32_le v (f32_of_Z (t_min ns_ty))) eqn:L1.
  { apply le_spec in L1; auto. rewrite A, E1 in L1. eexists. split; [reflexivity|]. left. auto. }
  apply le_false in L1; auto. rewrite A, E1 in L1.
  destruct (f32_le (f32_of_Z (t_max ns_ty)) v) eqn:L2.
  { apply le_spec in L2; auto. rewrite A, F1 in L2. eexists. split; [reflexivity|]. right. left. auto. }
  apply le_false in L2; auto. rewrite A, F1 in L2.
  apply lt_IZR in L1. apply lt_IZR in L2. cbn [t_min ns_ty] in L1.
  exists N. split.
  - unfold to_int. rewrite B, (trunc_val _ N A).
    rewrite (proj2 (Z.leb_le (t_min ns_ty) N)) by (cbn [t_min ns_ty]; lia).
    rewrite (proj2 (Z.leb_le N (t_max ns_ty))) by (cbn [t_max ns_ty]; lia). reflexivity.
  - right. right. split; auto; lia.
Qed.

(* monotonicity *)
Lemma nsamp_mono a b rate : a <= b -> 0 <= rate -> nsamp a rate <= nsamp b rate.
Proof.
  intros H Hr. unfold nsamp, fract. apply near_mono, rnd32_mono. apply Rmult_le_compat_r.
  - rewrite <- rnd32_0. apply rnd32_mono. now apply (IZR_le 0).
  - apply rnd32_mono. unfold Rdiv. apply Rmult_le_compat_r; [unfold second; lra|]. apply rnd32_mono, IZR_le, H.
Qed.

Lemma sat_mono t k N N' mul r r' : std_ty t k -> 1 <= mul -> N <= N' ->
  sat_of t k N mul r -> sat_of t k N' mul r' -> r <= r'.
Proof.
  intros T Hm HN S1 S2. destruct (std_max t k T) as (X1 & X2 & X3).
  assert (G : (rnd32 (IZR (N * mul)) <= rnd32 (IZR (N' * mul)))%R) by (apply rnd32_mono, IZR_le, Z.mul_le_mono_nonneg_r; lia).
  assert (Q1 : forall M, t_min t < M * mul -> Z.quot (t_min t) mul * mul <= M * mul).
  { intros M HM. apply Z.mul_le_mono_nonneg_r; [lia|]. destruct X3 as [E|E]; rewrite E in *.
    - rewrite Z.quot_0_l by lia. clear -HM Hm. nia.
    - rewrite Z.quot_opp_l by lia. pose proof (Z.quot_div_nonneg (2 ^ k) mul) as Q. rewrite Q by lia.
      assert (- M <= 2 ^ k / mul); [|lia]. apply Z.div_le_lower_bound; [lia|]. clear -HM. lia. }
  assert (Q2 : forall M, M * mul <= t_max t -> M * mul <= Z.quot (t_max t) mul * mul).
  { intros M HM. apply Z.mul_le_mono_nonneg_r; [lia|]. rewrite Z.quot_div_nonneg by lia.
    apply Z.div_le_lower_bound; lia. }
  assert (Q3 : Z.quot (t_min t) mul * mul <= Z.quot (t_max t) mul * mul).
  { apply Z.mul_le_mono_nonneg_r; [lia|]. apply Z.quot_le_mono; lia. }
  destruct S1 as [(A1 & ->)|[(A1 & A2 & ->)|(A1 & A2 & A3 & ->)]];
  destruct S2 as [(B1 & ->)|[(B1 & B2 & ->)|(B1 & B2 & B3 & ->)]]; try lia; try (exfalso; lra).
  - apply Q1. lia.
  - apply Q2. lia.
  - apply Z.mul_le_mono_nonneg_r; lia.
Qed.

(* accuracy *)
Lemma u32_val : u32 = (/ 16777216)%R.
Proof. unfold u32. cbn. lra. Qed.

Lemma comp a b e f : (Rabs e <= a)%R -> (Rabs f <= b)%R ->
  exists g, (Rabs g <= a + b + a * b)%R /\ ((1 + e) * (1 + f) = 1 + g)%R.
Proof.
  intros He Hf. exists (e + f + e * f)%R. split; [|lra].
  apply Rle_trans with (Rabs e + Rabs f + Rabs e * Rabs f)%R.
  - rewrite <- Rabs_mult. eapply Rle_trans; [apply Rabs_triang|]. apply Rplus_le_compat_r, Rabs_triang.
  - pose proof (Rabs_pos e). pose proof (Rabs_pos f). nra.
Qed.

Definition c2 : R := (u32 + u32 + u32 * u32)%R.
Definition c3 : R := (c2 + u32 + c2 * u32)%R.

Lemma c_bounds : (0 < u32 /\ c2 < 3 * u32 /\ 0 < c2 /\ 0 < c3 /\ c3 < 4 * u32)%R.
Proof. unfold c3, c2. rewrite u32_val. lra. Qed.

Lemma big_enough x : (bpow radix2 (-100) <= / 1267650600228229401496703205376)%R ->
  (/ 1267650600228229401496703205376 <= Rabs x)%R -> (x = 0 \/ bpow radix2 (-100) <= Rabs x)%R.
Proof. intros. right. lra. Qed.

Lemma pow100 : (bpow radix2 (-100) = / 1267650600228229401496703205376)%R.
Proof. cbn. lra. Qed.

Lemma rnd_Z_ge1 n : n <> 0 -> (1 <= Rabs (rnd32 (IZR n)))%R.
Proof.
  intros H. destruct (Z_lt_le_dec 0 n).
  - assert ((1 <= rnd32 (IZR n))%R).
    { replace 1%R with (rnd32 (IZR 1)) by (apply rnd32_Z; lia). apply rnd32_mono, IZR_le. lia. }
    rewrite Rabs_right; lra.
  - assert ((rnd32 (IZR n) <= -1)%R).
    { replace (-1)%R with (rnd32 (IZR (-1))) by (rewrite rnd32_Z by lia; lra). apply rnd32_mono, IZR_le. lia. }
    rewrite Rabs_left; lra.
Qed.

(* a product or quotient of numbers of moderate size is rounded with relative error *)
Lemma rnd_Z_rel n : exists e, (Rabs e <= u32)%R /\ rnd32 (IZR n) = (IZR n * (1 + e))%R.
Proof.
  apply rnd32_rel. destruct (Z.eq_dec n 0) as [->|H]; auto. right.
  apply Rle_trans with 1%R. change 1%R with (bpow radix2 0). apply bpow_le; lia.
  rewrite <- abs_IZR. apply IZR_le. lia.
Qed.

Lemma half_bound x e : (Rabs e <= u32)%R -> (Rabs x / 2 <= Rabs (x * (1 + e)))%R.
Proof.
  intros H. rewrite Rabs_mult. assert (/ 2 <= Rabs (1 + e))%R.
  { apply Rabs_le_inv in H. pose proof u32_val. rewrite Rabs_right; lra. }
  pose proof (Rabs_pos x). nra.
Qed.

Lemma fract_rel ns rate : Z.abs ns <= 2 ^ 63 -> 1 <= rate <= 2 ^ 24 ->
  exists g, (Rabs g <= c3)%R /\ fract ns rate = (IZR ns * IZR rate / IZR second * (1 + g))%R.
Proof.
  intros Hn Hr. unfold fract. rewrite (rnd32_Z rate) by lia.
  destruct (Z.eq_dec ns 0) as [->|N0].
  { exists 0%R. split. rewrite Rabs_R0. apply Rlt_le, c_bounds.
    rewrite rnd32_0. unfold Rdiv. rewrite Rmult_0_l, rnd32_0, Rmult_0_l, rnd32_0. lra. }
  destruct (rnd_Z_rel ns) as (e1 & H1 & E1). pose proof (rnd_Z_ge1 ns N0) as G1.
  assert (R1 : (1 <= IZR rate)%R) by (apply IZR_le; lia).
  assert (G2 : (/ 1000000000 <= Rabs (rnd32 (IZR ns) / IZR second))%R).
  { unfold Rdiv. rewrite Rabs_mult, (Rabs_right (/ IZR second)) by (unfold second; lra). unfold second. lra. }
  destruct (rnd32_rel (rnd32 (IZR ns) / IZR second)) as (e2 & H2 & E2).
  { apply big_enough; rewrite ?pow100; lra. }
  pose proof (half_bound (rnd32 (IZR ns) / IZR second) _ H2) as G3. rewrite <- E2 in G3.
  destruct (rnd32_rel (rnd32 (rnd32 (IZR ns) / IZR second) * IZR rate)) as (e3 & H3 & E3).
  { apply big_enough; rewrite ?pow100; [lra|]. rewrite Rabs_mult, (Rabs_right (IZR rate)) by lra. nra. }
  destruct (comp _ _ _ _ H1 H2) as (g2 & K2 & L2). fold c2 in K2.
  destruct (comp _ _ _ _ K2 H3) as (g3 & K3 & L3). fold c3 in K3.
  exists g3. split; auto. rewrite E3, E2, E1, <- L3, <- L2. unfold Rdiv. ring.
Qed.

Lemma durat_rel x X rate a : 1 <= rate <= 2 ^ 24 -> (0 <= a)%R ->
  (exists g, (Rabs g <= a)%R /\ x = (X * (1 + g))%R) -> (x = 0 \/ bpow radix2 (-20) <= Rabs x)%R ->
  exists g, (Rabs g <= a + c2 + a * c2)%R /\ durat x rate = (X * IZR second / IZR rate * (1 + g))%R.
Proof.
  intros Hr Ha (g & Hg & Eg) Hx. unfold durat. rewrite (rnd32_Z rate) by lia.
  assert (R1 : (1 <= IZR rate)%R) by (apply IZR_le; lia).
  assert (R2 : (IZR rate <= 16777216)%R) by (apply IZR_le; lia).
  assert (D1 : exists e, (Rabs e <= u32)%R /\ rnd32 (x / IZR rate) = (x / IZR rate * (1 + e))%R).
  { apply rnd32_rel. destruct Hx as [->|Hx]; [left; lra|]. right.
    unfold Rdiv. rewrite Rabs_mult, (Rabs_right (/ IZR rate)) by (left; apply Rinv_0_lt_compat; lra).
    apply Rle_trans with (bpow radix2 (-20) * bpow radix2 (-24))%R.
    - rewrite <- bpow_plus. apply bpow_le. lia.
    - apply Rmult_le_compat; auto; try apply bpow_ge_0. change (bpow radix2 (-24)) with (/ 16777216)%R.
      apply Rinv_le; lra. }
  destruct D1 as (e1 & H1 & E1).
  assert (D2 : exists e, (Rabs e <= u32)%R /\ rnd32 (rnd32 (x / IZR rate) * IZR second) = (rnd32 (x / IZR rate) * IZR second * (1 + e))%R).
  { apply rnd32_rel. destruct Hx as [->|Hx].
    - left. unfold Rdiv. rewrite Rmult_0_l, rnd32_0. lra.
    - right. rewrite Rabs_mult, (Rabs_right (IZR second)) by (unfold second; lra).
      pose proof (half_bound (x / IZR rate) _ H1) as G. rewrite <- E1 in G.
      apply Rle_trans with (bpow radix2 (-44) / 2 * 1)%R.
      + change (bpow radix2 (-44)) with (/ IZR (2 ^ 44))%R. rewrite pow100. cbn. lra.
      + apply Rmult_le_compat; try (unfold second; lra).
        * apply Rmult_le_pos; [apply bpow_ge_0|lra].
        * apply Rle_trans with (2 := G). apply Rmult_le_compat_r; [lra|].
          unfold Rdiv. rewrite Rabs_mult, (Rabs_right (/ IZR rate)) by (left; apply Rinv_0_lt_compat; lra).
          change (-44) with (-20 + -24). rewrite bpow_plus.
          apply Rmult_le_compat; auto; try apply bpow_ge_0. change (bpow radix2 (-24)) with (/ 16777216)%R.
          apply Rinv_le; lra. }
  destruct D2 as (e2 & H2 & E2).
  destruct (comp _ _ _ _ H1 H2) as (g2 & K2 & L2). fold c2 in K2.
  destruct (comp _ _ _ _ Hg K2) as (g3 & K3 & L3).
  exists g3. split; auto. rewrite E2, E1, Eg, <- L3, <- L2. unfold Rdiv. ring.
Qed.

Lemma near_rel X f g a : f = (X * (1 + g))%R -> (Rabs g <= a)%R ->
  (Rabs (IZR (ZnearestA f) - X) <= Rabs X * a + 1 / 2)%R.
Proof.
  intros E H. replace (IZR (ZnearestA f) - X)%R with ((IZR (ZnearestA f) - f) + X * g)%R by (rewrite E; ring).
  eapply Rle_trans; [apply Rabs_triang|]. rewrite Rabs_mult.
  pose proof (near_err f). pose proof (Rabs_pos X). nra.
Qed.

Lemma nsamp_near ns rate : Z.abs ns <= 2 ^ 63 -> 1 <= rate <= 2 ^ 24 ->
  (Rabs (IZR (nsamp ns rate) - IZR ns * IZR rate / 1000000000) <=
   Rabs (IZR ns * IZR rate / 1000000000) * c3 + 1 / 2)%R.
Proof.
  intros Hn Hr. destruct (fract_rel ns rate Hn Hr) as (g & Hg & E). change (IZR second) with 1000000000%R in E.
  exact (near_rel _ _ _ _ E Hg).
Qed.

Lemma nsamp_sign ns rate : 0 <= ns -> 0 <= rate -> 0 <= nsamp ns rate.
Proof.
  intros Hn Hr. assert (E : nsamp 0 rate = 0).
  { unfold nsamp, fract. rewrite rnd32_0. unfold Rdiv. rewrite Rmult_0_l, rnd32_0, Rmult_0_l, rnd32_0.
    change 0%R with (IZR 0). apply Zrnd_IZR. exact (valid_rnd_N _). }
  rewrite <- E. now apply nsamp_mono.
Qed.

(* no saturation: the result is N * mul *)
Lemma sat_inner t k N mul r : std_ty t k -> 1 <= mul -> sat_of t k N mul r ->
  (t_min t = 0 -> 0 <= N) -> (Rabs (IZR (N * mul)) * (1 + u32) < bpow radix2 k)%R -> r = N * mul.
Proof.
  intros T Hm S0 HN HB. destruct (std_max t k T) as (X1 & X2 & X3).
  assert (B : (Rabs (rnd32 (IZR (N * mul))) < bpow radix2 k)%R).
  { destruct (rnd_Z_rel (N * mul)) as (e & He & ->). rewrite Rabs_mult. eapply Rle_lt_trans; [|exact HB].
    apply Rmult_le_compat_l; [apply Rabs_pos|]. eapply Rle_trans; [apply Rabs_triang|].
    rewrite (Rabs_right 1) by lra. lra. }
  apply Rabs_lt_inv in B. destruct S0 as [(A1 & ->)|[(A1 & A2 & ->)|(A1 & A2 & A3 & ->)]]; auto.
  - destruct X3 as [E|E].
    + rewrite E in *. rewrite Z.quot_0_l by lia. specialize (HN eq_refl).
      destruct (Z.eq_dec N 0) as [->|]; [lia|]. exfalso.
      assert (1 <= rnd32 (IZR (N * mul)))%R.
      { replace 1%R with (rnd32 (IZR 1)) by (apply rnd32_Z; lia). apply rnd32_mono, IZR_le. nia. }
      lra.
    + exfalso. rewrite E, opp_IZR, <- pow_IZR in A1 by lia. lra.
  - exfalso. lra.
Qed.

Lemma samples_close t k ns rate mul r : std_ty t k -> Z.abs ns <= 2 ^ 63 -> 1 <= rate <= 2 ^ 24 -> 1 <= mul <= 1024 ->
  (t_min t = 0 -> 0 <= ns) ->
  (Rabs (IZR ns * IZR rate / 1000000000) * IZR mul <= bpow radix2 k * (1 - / 1048576))%R ->
  ns_2_int_samples t ns rate mul = Ok r ->
  r = nsamp ns rate * mul.
Proof.
  intros T Hn Hr Hm Hs HX H.
  destruct (ns_int t k ns rate mul T Hn) as (r' & E & S0); try lia.
  assert (r' = r) by congruence. subst r'.
  eapply sat_inner; eauto; try lia.
  - intros Z0. apply nsamp_sign; [auto|lia].
  - pose proof (nsamp_near ns rate Hn Hr) as G. pose proof c_bounds as (C1 & C2 & C3 & C4 & C5).
    rewrite mult_IZR, Rabs_mult. set (X := (IZR ns * IZR rate / 1000000000)%R) in *.
    assert (M1 : (1 <= IZR mul <= 1024)%R) by (split; apply IZR_le; lia).
    rewrite (Rabs_right (IZR mul)) by lra.
    assert (A : (Rabs (IZR (nsamp ns rate)) <= Rabs X * (1 + c3) + 1 / 2)%R).
    { replace (IZR (nsamp ns rate)) with ((IZR (nsamp ns rate) - X) + X)%R by ring.
      eapply Rle_trans; [apply Rabs_triang|]. lra. }
    pose proof (Rabs_pos X) as P. destruct (std_max t k T) as (_ & K & _).
    assert (P1 : (2147483648 <= bpow radix2 k)%R) by (change 2147483648%R with (bpow radix2 31); apply bpow_le; lia).
    set (B := bpow radix2 k) in *. set (Y := (Rabs X * IZR mul)%R) in *.
    assert (A2 : (Rabs (IZR (nsamp ns rate)) * IZR mul <= Y * (1 + c3) + 512)%R).
    { apply Rle_trans with ((Rabs X * (1 + c3) + 1 / 2) * IZR mul)%R.
      - apply Rmult_le_compat_r; lra.
      - unfold Y. nra. }
    assert (A3 : (Rabs (IZR (nsamp ns rate)) * IZR mul <= B * (1 - / 1048576) * (1 + 4 * u32) + 512)%R).
    { assert (0 <= Y)%R by (apply Rmult_le_pos; lra). nra. }
    rewrite u32_val in *. nra.
Qed.

Lemma samples_accurate t k ns rate mul r : std_ty t k -> Z.abs ns <= 2 ^ 63 -> 1 <= rate <= 2 ^ 24 -> 1 <= mul <= 1024 ->
  (t_min t = 0 -> 0 <= ns) ->
  (Rabs (IZR ns * IZR rate / 1000000000) * IZR mul <= bpow radix2 k * (1 - / 1048576))%R ->
  ns_2_int_samples t ns rate mul = Ok r ->
  exists n, r = n * mul /\ (Rabs (IZR n - IZR ns * IZR rate / 1000000000) <= Rabs (IZR ns * IZR rate / 1000000000) * c3 + 1 / 2)%R.
Proof.
  intros. exists (nsamp ns rate). split. eapply samples_close; eauto. now apply nsamp_near.
Qed.

Lemma nns_near x X rate a : 1 <= rate <= 2 ^ 24 -> (0 <= a)%R ->
  (exists g, (Rabs g <= a)%R /\ x = (X * (1 + g))%R) -> (x = 0 \/ bpow radix2 (-20) <= Rabs x)%R ->
  (Rabs (IZR (nns x rate) - X * 1000000000 / IZR rate) <= Rabs (X * 1000000000 / IZR rate) * (a + c2 + a * c2) + 1 / 2)%R.
Proof.
  intros Hr Ha Hg Hx. destruct (durat_rel x X rate a Hr Ha Hg Hx) as (g & Hg' & E).
  change (IZR second) with 1000000000%R in E. exact (near_rel _ _ _ _ E Hg').
Qed.

Lemma nns_mono x y rate : 1 <= rate -> (x <= y)%R -> nns x rate <= nns y rate.
Proof.
  intros Hr H. assert (P : (0 < rnd32 (IZR rate))%R).
  { apply Rlt_le_trans with 1%R; [lra|]. replace 1%R with (rnd32 (IZR 1)) by (apply rnd32_Z; lia). apply rnd32_mono, IZR_le, Hr. }
  unfold nns, durat. apply near_mono, rnd32_mono. apply Rmult_le_compat_r; [unfold second; lra|].
  apply rnd32_mono. unfold Rdiv. apply Rmult_le_compat_r; auto. left. now apply Rinv_0_lt_compat.
Qed.

Lemma of_Z_bound n : Z.abs n <= 2 ^ 64 -> f32_fin (f32_of_Z n) = true /\ (Rabs (f32_val (f32_of_Z n)) <= bpow radix2 64)%R /\
  f32_val (f32_of_Z n) = rnd32 (IZR n).
Proof.
  intros H. destruct (of_Z_val n) as [A B]; [lia|]. repeat split; auto. rewrite A.
  apply rnd32_abs_le; [lia|]. change (bpow radix2 64) with (IZR (2 ^ 64)). rewrite <- abs_IZR. now apply IZR_le.
Qed.

Lemma chans_bound n c : 0 <= n < 2 ^ 64 -> 1 <= c <= 1024 ->
  let x := f32_div (f32_of_Z n) (f32_of_Z c) in
  f32_fin x = true /\ (Rabs (f32_val x) <= bpow radix2 64)%R /\ f32_val x = rnd32 (rnd32 (IZR n) / IZR c).
Proof.
  intros Hn Hc. destruct (of_Z_bound n) as (A1 & A2 & A3); [lia|]. destruct (of_Z_val c) as [B1 B2]; [lia|].
  rewrite rnd32_Z in B1 by lia. assert (C1 : (1 <= IZR c)%R) by (apply IZR_le; lia).
  cbv zeta. destruct (div_val (f32_of_Z n) (f32_of_Z c) 64) as [D1 D2]; auto; try lia.
  - rewrite B1; lra.
  - rewrite B1. unfold Rdiv. rewrite Rabs_mult, (Rabs_right (/ IZR c)) by (apply Rle_ge; left; apply Rinv_0_lt_compat; lra).
    apply Rle_trans with (bpow radix2 64 * 1)%R; [|lra]. apply Rmult_le_compat; auto; try apply Rabs_pos.
    + left; apply Rinv_0_lt_compat; lra.
    + rewrite <- Rinv_1. apply Rinv_le; lra.
  - repeat split; auto.
    + rewrite D1, A3, B1. apply rnd32_abs_le; [lia|].
      unfold Rdiv. rewrite Rabs_mult, (Rabs_right (/ IZR c)) by (apply Rle_ge; left; apply Rinv_0_lt_compat; lra).
      apply Rle_trans with (bpow radix2 64 * 1)%R; [|lra]. rewrite <- A3. apply Rmult_le_compat; auto; try apply Rabs_pos.
      * left; apply Rinv_0_lt_compat; lra.
      * rewrite <- Rinv_1. apply Rinv_le; lra.
    + rewrite D1, A3, B1. reflexivity.
Qed.

Lemma exact_n_ge n : n = 0 \/ (1 <= Rabs (IZR n))%R.
Proof. destruct (Z.eq_dec n 0); auto. right. rewrite <- abs_IZR. apply IZR_le. lia. Qed.

Lemma rnd_ge20 x : (x = 0 \/ bpow radix2 (-19) <= Rabs x)%R -> (rnd32 x = 0 \/ bpow radix2 (-20) <= Rabs (rnd32 x))%R.
Proof.
  intros [->|H]. left; apply rnd32_0. right.
  destruct (rnd32_rel x) as (e & He & ->).
  { right. apply Rle_trans with (2 := H). apply bpow_le. lia. }
  apply Rle_trans with (2 := half_bound x e He). change (-20) with (-19 + -1). rewrite bpow_plus.
  change (bpow radix2 (-1)) with (/ 2)%R. unfold Rdiv. apply Rmult_le_compat_r; lra.
Qed.

(* the general statement about nsamples_2_ns *)
Lemma ns_close x X rate a r : f32_fin x = true -> (Rabs (f32_val x) <= bpow radix2 64)%R -> 1 <= rate <= 2 ^ 24 ->
  (0 <= a <= 4 * u32)%R -> (exists g, (Rabs g <= a)%R /\ f32_val x = (X * (1 + g))%R) ->
  (f32_val x = 0 \/ bpow radix2 (-20) <= Rabs (f32_val x))%R ->
  (Rabs (X * 1000000000 / IZR rate) <= bpow radix2 62)%R ->
  nsamples_2_ns x rate = Ok r ->
  r = nns (f32_val x) rate /\
  (Rabs (IZR r - X * 1000000000 / IZR rate) <= Rabs (X * 1000000000 / IZR rate) * (a + c2 + a * c2) + 1 / 2)%R.
Proof.
  intros Fx Bx Hr Ha Hg Hx HX H. pose proof (nns_near _ _ rate a Hr (proj1 Ha) Hg Hx) as G.
  destruct (ns_samples x rate Fx Bx) as (r' & E & S0); [lia|]. assert (r' = r) by congruence. subst r'.
  assert (K : r = nns (f32_val x) rate); [|split; auto; rewrite K; exact G].
  pose proof c_bounds as (C1 & C2 & C3 & C4 & C5).
  assert (B : (Rabs (IZR (nns (f32_val x) rate)) < IZR (2 ^ 63))%R).
  { set (N := IZR (nns (f32_val x) rate)) in *. set (Y := (X * 1000000000 / IZR rate)%R) in *.
    replace N with ((N - Y) + Y)%R by ring. eapply Rle_lt_trans; [apply Rabs_triang|].
    change (bpow radix2 62) with 4611686018427387904%R in HX. change (IZR (2 ^ 63)) with 9223372036854775808%R.
    assert (a + c2 + a * c2 <= / 1024)%R.
    { rewrite u32_val in *. assert (a * c2 <= a * 1)%R by (apply Rmult_le_compat_l; lra). lra. }
    pose proof (Rabs_pos Y). nra. }
  rewrite <- abs_IZR in B. apply lt_IZR in B.
  destruct S0 as [(A1 & _)|[(A1 & _)|(_ & A)]]; auto; exfalso; apply le_IZR in A1; lia.
Qed.

Lemma int_close n rate r : Z.abs n <= 2 ^ 64 -> 1 <= rate <= 2 ^ 24 ->
  (Rabs (IZR n * 1000000000 / IZR rate) <= bpow radix2 62)%R ->
  nsamples_2_ns (f32_of_Z n) rate = Ok r ->
  (Rabs (IZR r - IZR n * 1000000000 / IZR rate) <= Rabs (IZR n * 1000000000 / IZR rate) * (u32 + c2 + u32 * c2) + 1 / 2)%R.
Proof.
  intros Hn Hr HX H. destruct (of_Z_bound n Hn) as (A1 & A2 & A3).
  pose proof c_bounds as (C1 & C2 & C3 & C4 & C5).
  eapply ns_close; eauto.
  - lra.
  - rewrite A3. apply rnd_Z_rel.
  - rewrite A3. destruct (exact_n_ge n) as [->|G]; [left; apply rnd32_0|].
    apply rnd_ge20. right. apply Rle_trans with (2 := G). change 1%R with (bpow radix2 0). apply bpow_le. lia.
Qed.

Lemma near_exact f n : (Rabs (f - IZR n) < 1 / 2)%R -> ZnearestA f = n.
Proof.
  intros H. pose proof (near_err f) as G.
  assert (B : (Rabs (IZR (ZnearestA f - n)) < 1)%R).
  { rewrite minus_IZR. replace (IZR (ZnearestA f) - IZR n)%R with ((IZR (ZnearestA f) - f) + (f - IZR n))%R by ring.
    eapply Rle_lt_trans; [apply Rabs_triang|]. lra. }
  rewrite <- abs_IZR in B. apply lt_IZR in B. lia.
Qed.

Lemma round_trip n rate m : Z.abs n <= 1500000 -> 1 <= rate <= 2 ^ 24 ->
  nsamples_2_ns (f32_of_Z n) rate = Ok m ->
  nsamp m rate = n /\ Z.abs m <= 2 ^ 63 /\ (0 <= n -> 0 <= m).
Proof.
  intros Hn Hr H. destruct (of_Z_bound n) as (A1 & A2 & A3); [lia|].
  rewrite rnd32_Z in A3 by lia. pose proof c_bounds as (C1 & C2 & C3 & C4 & C5).
  assert (R1 : (1 <= IZR rate)%R) by (apply IZR_le; lia).
  assert (R2 : (IZR rate <= 16777216)%R) by (apply IZR_le; lia).
  assert (N1 : (Rabs (IZR n) <= 1500000)%R) by (rewrite <- abs_IZR; apply IZR_le; lia).
  set (Y := (IZR n * 1000000000 / IZR rate)%R).
  assert (YB : (Rabs Y <= 1500000000000000)%R).
  { unfold Y, Rdiv. rewrite Rabs_mult, (Rabs_right (/ IZR rate)) by (apply Rle_ge; left; apply Rinv_0_lt_compat; lra).
    rewrite Rabs_mult, (Rabs_right 1000000000) by lra.
    apply Rle_trans with (1500000 * 1000000000 * 1)%R; [|lra]. apply Rmult_le_compat.
    - apply Rmult_le_pos; [apply Rabs_pos|lra].
    - left; apply Rinv_0_lt_compat; lra.
    - apply Rmult_le_compat_r; lra.
    - rewrite <- Rinv_1. apply Rinv_le; lra. }
  destruct (ns_close (f32_of_Z n) (IZR n) rate 0 m) as [K G]; auto.
  - lra.
  - exists 0%R. split; [rewrite Rabs_R0; lra|]. rewrite A3. ring.
  - rewrite A3. destruct (exact_n_ge n) as [->|Q]; [now left|]. right. apply Rle_trans with (2 := Q).
    change 1%R with (bpow radix2 0). apply bpow_le. lia.
  - fold Y. change (bpow radix2 62) with 4611686018427387904%R. lra.
  - fold Y in G. rewrite Rmult_0_l, Rplus_0_r, Rplus_0_l in G.
    assert (MB : (Rabs (IZR m) <= 4000000000000000)%R).
    { replace (IZR m) with ((IZR m - Y) + Y)%R by ring. eapply Rle_trans; [apply Rabs_triang|].
      rewrite u32_val in *. pose proof (Rabs_pos Y). nra. }
    assert (MZ : Z.abs m <= 2 ^ 63).
    { rewrite <- abs_IZR in MB. apply le_IZR in MB. lia. }
    split; [|split; auto].
    + apply near_exact. destruct (fract_rel m rate MZ Hr) as (g & Hg & E). rewrite E. change (IZR second) with 1000000000%R.
      set (W := (IZR m * IZR rate / 1000000000)%R).
      assert (WD : (Rabs (W - IZR n) <= Rabs (IZR n) * c2 + IZR rate / 2000000000)%R).
      { replace (W - IZR n)%R with ((IZR m - Y) * (IZR rate / 1000000000))%R.
        2:{ unfold W, Y. field. lra. }
        rewrite Rabs_mult, (Rabs_right (IZR rate / 1000000000)) by lra.
        assert (YN : (Rabs Y * (IZR rate / 1000000000) = Rabs (IZR n))%R).
        { rewrite <- (Rabs_right (IZR rate / 1000000000)) by lra. rewrite <- Rabs_mult. f_equal. unfold Y. field. lra. }
        apply Rle_trans with ((Rabs Y * c2 + 1 / 2) * (IZR rate / 1000000000))%R.
        - apply Rmult_le_compat_r; lra.
        - rewrite Rmult_plus_distr_r. replace (Rabs Y * c2 * (IZR rate / 1000000000))%R with (Rabs Y * (IZR rate / 1000000000) * c2)%R by ring.
          rewrite YN. lra. }
      assert (WB : (Rabs W <= 1500001)%R).
      { replace W with ((W - IZR n) + IZR n)%R by ring. eapply Rle_trans; [apply Rabs_triang|].
        rewrite u32_val in *. pose proof (Rabs_pos (IZR n)). nra. }
      replace (W * (1 + g) - IZR n)%R with ((W - IZR n) + W * g)%R by ring.
      eapply Rle_lt_trans; [apply Rabs_triang|]. rewrite Rabs_mult.
      assert (W3 : (Rabs W * Rabs g <= 1500001 * c3)%R).
      { apply Rmult_le_compat; auto; apply Rabs_pos. }
      assert (W4 : (Rabs (IZR n) * c2 <= 1500000 * c2)%R) by (apply Rmult_le_compat_r; lra).
      assert (CC : (1500000 * c2 + 1500001 * c3 < 45 / 100)%R).
      { unfold c3, c2. rewrite u32_val. lra. }
      lra.
    + intros P. rewrite K, A3. assert (E0 : nns 0 rate = 0).
      { unfold nns, durat. unfold Rdiv. rewrite Rmult_0_l, rnd32_0, Rmult_0_l, rnd32_0.
        change 0%R with (IZR 0). apply Zrnd_IZR. exact (valid_rnd_N _). }
      rewrite <- E0. apply nns_mono; [lia|]. now apply (IZR_le 0).
Qed.

Lemma round_trip_int t k n rate m : std_ty t k -> (t_min t = 0 -> 0 <= n) -> Z.abs n <= 1500000 -> 1 <= rate <= 2 ^ 24 ->
  nsamples_2_ns (f32_of_Z n) rate = Ok m -> ns_2_int_samples t m rate 1 = Ok n.
Proof.
  intros T Hs Hn Hr H. destruct (round_trip n rate m Hn Hr H) as (A & B & C).
  destruct (ns_int t k m rate 1 T B) as (r & E & S0); try lia. rewrite E. f_equal.
  rewrite A in S0. rewrite (sat_inner t k n 1 r T ltac:(lia) S0 Hs); [lia|].
  rewrite Z.mul_1_r, <- abs_IZR. destruct (std_max t k T) as (_ & K & _).
  apply Rlt_le_trans with (bpow radix2 31); [|apply bpow_le; lia]. change (bpow radix2 31) with 2147483648%R.
  assert ((IZR (Z.abs n) <= 1500000)%R) by (apply IZR_le; lia).
  assert ((0 <= IZR (Z.abs n))%R) by (apply IZR_le; lia). rewrite u32_val. nra.
Qed.

(* roc_packet/units.cpp *)
Lemma val_gen x : rnd32 (f32_val x) = f32_val x.
Proof. apply rnd32_gen. apply (generic_format_B2R 24 128 x). Qed.

Lemma lt_false x y : f32_fin x = true -> f32_fin y = true -> f32_lt x y = false -> (f32_val y <= f32_val x)%R.
Proof.
  intros Fx Fy H. destruct (Rle_lt_dec (f32_val y) (f32_val x)); auto.
  apply (f32_lt_spec x y Fx Fy) in r. congruence.
Qed.

Lemma min_val x y : f32_fin x = true -> f32_fin y = true ->
  f32_val (f32_min x y) = Rmin (f32_val x) (f32_val y) /\ f32_fin (f32_min x y) = true.
Proof.
  intros Fx Fy. unfold f32_min. destruct (f32_lt y x) eqn:E; split; auto.
  - apply f32_lt_spec in E; auto. rewrite Rmin_right; lra.
  - apply lt_false in E; auto. rewrite Rmin_left; lra.
Qed.
Lemma max_val x y : f32_fin x = true -> f32_fin y = true ->
  f32_val (f32_max x y) = Rmax (f32_val x) (f32_val y) /\ f32_fin (f32_max x y) = true.
Proof.
  intros Fx Fy. unfold f32_max. destruct (f32_lt x y) eqn:E; split; auto.
  - apply f32_lt_spec in E; auto. rewrite Rmax_right; lra.
  - apply lt_false in E; auto. rewrite Rmax_left; lra.
Qed.

Lemma clamp_int t k ns rate : std_ty t k -> Z.abs ns <= 2 ^ 63 -> 1 <= rate <= 2 ^ 64 ->
  let c := to_int t (f32_max (f32_min (ns_2_fract_samples ns rate) (f32_of_Z (t_max t))) (f32_of_Z (t_min t))) in
  (2 ^ k <= nsamp ns rate /\ c = UB /\ ns_2_int_samples t ns rate 1 = Ok (t_max t)) \/
  (nsamp ns rate < t_max t /\ c = Ok (Z.max (nsamp ns rate) (t_min t)) /\ ns_2_int_samples t ns rate 1 = Ok (Z.max (nsamp ns rate) (t_min t))).
Proof.
  intros T Hn Hr. destruct (fract_ok ns rate Hn) as (A & B & C); [lia|].
  destruct (of_min t k T) as [E1 E2]. destruct (of_max t k T) as [F1 F2].
  destruct (std_max t k T) as (X1 & X2 & X3). assert (PK : 2 ^ 31 <= 2 ^ k) by (apply Z.pow_le_mono_r; lia).
  destruct (ns_int t k ns rate 1 T Hn) as (r & E & S0); try lia.
  destruct (min_val _ _ B F2) as [M1 M2]. destruct (max_val _ _ M2 E2) as [M3 M4].
  pose proof (val_gen (ns_2_fract_samples ns rate)) as VG. rewrite A in VG.
  rewrite M1, A, F1, E1 in M3. set (N := nsamp ns rate) in *. rewrite pow_IZR in * by lia.
  unfold sat_of in S0. rewrite Z.mul_1_r, VG, pow_IZR, !Z.quot_1_r, !Z.mul_1_r in S0 by lia.
  cbv zeta. set (y := f32_max _ _) in *.
  destruct (Z_lt_le_dec N (2 ^ k)) as [L|L].
  - right.
    assert (NM : N <> t_max t).
    { intros Q. rewrite Q in VG. pose proof (of_max t k T) as [W _]. destruct (of_Z_val (t_max t)) as [W2 _].
      { rewrite X1. assert (2 ^ k <= 2 ^ 64) by (apply Z.pow_le_mono_r; lia). lia. }
      rewrite W2, VG, pow_IZR in W by lia. apply eq_IZR in W. lia. }
    split; [lia|]. 
    assert (Y : f32_val y = IZR (Z.max N (t_min t))).
    { rewrite M3. rewrite Rmin_left by (apply IZR_le; lia).
      destruct (Z.max_spec N (t_min t)) as [[Q ->]|[Q ->]]; [rewrite Rmax_right|rewrite Rmax_left]; auto; apply IZR_le; lia. }
    split.
    + unfold to_int. rewrite M4, (trunc_val _ _ Y).
      rewrite (proj2 (Z.leb_le (t_min t) _)), (proj2 (Z.leb_le _ (t_max t))) by lia. reflexivity.
    + rewrite E. f_equal. destruct S0 as [(A1 & ->)|[(A1 & A2 & ->)|(A1 & A2 & A3 & ->)]].
      * apply le_IZR in A1. lia.
      * apply le_IZR in A2. lia.
      * lia.
  - left. split; auto.
    assert (Y : f32_val y = IZR (2 ^ k)).
    { rewrite M3. rewrite Rmin_right by (apply IZR_le; lia). rewrite Rmax_left; auto. apply IZR_le; lia. }
    split.
    + unfold to_int. rewrite M4, (trunc_val _ _ Y).
      rewrite (proj2 (Z.leb_gt (2 ^ k) (t_max t))) by lia. rewrite andb_false_r. reflexivity.
    + rewrite E. f_equal. destruct S0 as [(A1 & ->)|[(A1 & A2 & ->)|(A1 & A2 & A3 & ->)]]; auto.
      * apply le_IZR in A1. lia.
      * lia.
Qed.

Lemma saturates t k ns rate mul r : std_ty t k -> 0 <= ns <= 2 ^ 63 -> 1 <= rate <= 2 ^ 24 -> 1 <= mul <= 1024 ->
  (bpow radix2 k * (1 + / 1048576) <= IZR ns * IZR rate / 1000000000 * IZR mul)%R ->
  ns_2_int_samples t ns rate mul = Ok r -> r = t_max t / mul * mul.
Proof.
  intros T Hn Hr Hm HX H.
  destruct (ns_int t k ns rate mul T) as (r' & E & S0); try lia. assert (r' = r) by congruence. subst r'.
  assert (HA : Z.abs ns <= 2 ^ 63) by lia.
  pose proof (nsamp_near ns rate HA Hr) as G. pose proof c_bounds as (C1 & C2 & C3 & C4 & C5).
  destruct (std_max t k T) as (X1 & X2 & X3).
  assert (P1 : (2147483648 <= bpow radix2 k)%R) by (change 2147483648%R with (bpow radix2 31); apply bpow_le; lia).
  assert (M1 : (1 <= IZR mul <= 1024)%R) by (split; apply IZR_le; lia).
  assert (B : (bpow radix2 k <= IZR (nsamp ns rate * mul))%R).
  { rewrite mult_IZR. set (X := (IZR ns * IZR rate / 1000000000)%R) in *.
    assert (P : (0 <= X)%R). { unfold X. assert (0 <= IZR ns)%R by (apply (IZR_le 0); lia). assert (0 <= IZR rate)%R by (apply (IZR_le 0); lia). nra. }
    rewrite (Rabs_right X) in G by lra. apply Rabs_le_inv in G.
    assert (A : (X * (1 - c3) - 1 / 2 <= IZR (nsamp ns rate))%R) by lra.
    apply Rle_trans with ((X * (1 - c3) - 1 / 2) * IZR mul)%R; [|apply Rmult_le_compat_r; lra].
    set (Bk := bpow radix2 k) in *.
    assert (A3 : (X * IZR mul * (1 - 4 * u32) - 512 <= (X * (1 - c3) - 1 / 2) * IZR mul)%R).
    { assert (0 <= X * IZR mul)%R by (apply Rmult_le_pos; lra). nra. }
    apply Rle_trans with (2 := A3). rewrite u32_val in *. nra. }
  apply rnd32_mono in B. rewrite (rnd_pow t k T) in B.
  destruct S0 as [(A1 & ->)|[(A1 & A2 & ->)|(A1 & A2 & A3 & ->)]].
  - exfalso. assert ((IZR (t_min t) <= 0)%R). { apply (IZR_le _ 0). destruct X3 as [->| ->]; [lia|]. pose proof (Z.pow_nonneg 2 k). lia. } lra.
  - rewrite Z.quot_div_nonneg; try lia; rewrite X1; pose proof (Z.pow_pos_nonneg 2 k); lia.
  - exfalso. lra.
Qed.

Lemma units_ns ts rate : Z.abs ts <= 2 ^ 32 -> 1 <= rate < 2 ^ 64 ->
  u_stream_timestamp_2_ns ts rate = nsamples_2_ns (f32_of_Z ts) rate.
Proof.
  intros Ht Hr. destruct (of_Z_bound ts) as (A1 & A2 & A3); [lia|].
  destruct (durat_ok (f32_of_Z ts) rate A1 A2) as [A B]; [lia|]. cbv zeta in A, B.
  destruct (of_min ns_ty 63 std_ns) as [E1 E2]. destruct (of_max ns_ty 63 std_ns) as [F1 F2].
  assert (N : Z.abs (nns (f32_val (f32_of_Z ts)) rate) <= 2 ^ 62).
  { assert (R1 : (1 <= rnd32 (IZR rate))%R).
    { replace 1%R with (rnd32 (IZR 1)) by (apply rnd32_Z; lia). apply rnd32_mono, IZR_le. lia. }
    assert (V : (Rabs (durat (f32_val (f32_of_Z ts)) rate) <= bpow radix2 62)%R).
    { unfold durat. apply rnd32_abs_le; [lia|]. rewrite Rabs_mult, (Rabs_right (IZR second)) by (unfold second; lra).
      change 62 with (32 + 30). rewrite bpow_plus. apply Rmult_le_compat; try apply Rabs_pos; try (unfold second; lra).
      - apply rnd32_abs_le; [lia|]. unfold Rdiv. rewrite Rabs_mult.
        rewrite (Rabs_right (/ _)) by (apply Rle_ge; left; apply Rinv_0_lt_compat; lra).
        apply Rle_trans with (bpow radix2 32 * 1)%R; [|lra]. apply Rmult_le_compat; try apply Rabs_pos.
        + left; apply Rinv_0_lt_compat; lra.
        + rewrite A3. apply rnd32_abs_le; [lia|]. change (bpow radix2 32) with (IZR (2 ^ 32)). rewrite <- abs_IZR. now apply IZR_le.
        + rewrite <- Rinv_1. apply Rinv_le; lra.
      - change (bpow radix2 30) with 1073741824%R. unfold second. lra. }
    apply Rabs_le_inv in V. unfold nns. change (bpow radix2 62) with (IZR (2 ^ 62)) in V. rewrite <- opp_IZR in V.
    destruct V as [V1 V2]. apply near_mono in V1. apply near_mono in V2.
    assert (Q : forall z, ZnearestA (IZR z) = z) by (intros z; apply near_int; rewrite Rminus_diag_eq, Rabs_R0 by reflexivity; lra).
    rewrite Q in V1, V2. lia. }
  unfold u_stream_timestamp_2_ns, nsamples_2_ns. rewrite (proj2 (Z.eqb_neq rate 0)) by lia. cbv zeta.
  set (v := f32_round _) in *.
  destruct (f32_le v (f32_of_Z (t_min ns_ty))) eqn:L1.
  { exfalso. apply le_spec in L1; auto. rewrite A, E1 in L1. apply le_IZR in L1. cbn [t_min ns_ty] in L1. lia. }
  destruct (f32_le (f32_of_Z (t_max ns_ty)) v) eqn:L2; auto.
  exfalso. apply le_spec in L2; auto. rewrite A, F1, pow_IZR in L2 by lia. apply le_IZR in L2. lia.
Qed.
