(** Single and double precision arithmetic as used by the C++ code, taken from Flocq
    (IEEE 754, round to nearest even). NaN payloads are not distinguished. *)
From Coq Require Import Reals ZArith Bool Lia Lra.
From Flocq Require Import Core.Core IEEE754.BinarySingleNaN.
Open Scope Z_scope.

Global Instance prec32 : Prec_gt_0 24 := eq_refl.
Global Instance emax32 : Prec_lt_emax 24 128 := eq_refl.
Global Instance prec64 : Prec_gt_0 53 := eq_refl.
Global Instance emax64 : Prec_lt_emax 53 1024 := eq_refl.

(** C++ float and double. *)
Definition f32 := binary_float 24 128.
Definition f64 := binary_float 53 1024.

Definition f32_add (x y : f32) : f32 := Bplus mode_NE x y.
Definition f32_mul (x y : f32) : f32 := Bmult mode_NE x y.
Definition f32_div (x y : f32) : f32 := Bdiv mode_NE x y.
Definition f32_lt (x y : f32) : bool := Bltb x y.
(** [m * 2 ^ e], rounded. *)
Definition f32_make (m e : Z) : f32 := binary_normalize 24 128 _ _ mode_NE m e false.
Definition f32_of_Z (m : Z) : f32 := f32_make m 0.
Definition f32_zero : f32 := B754_zero false.
Definition f32_val (x : f32) : R := B2R x.
Definition f32_fin (x : f32) : bool := is_finite x.
Definition f32_nan (x : f32) : bool := is_nan x.

Definition f64_add (x y : f64) : f64 := Bplus mode_NE x y.
Definition f64_mul (x y : f64) : f64 := Bmult mode_NE x y.
Definition f64_div (x y : f64) : f64 := Bdiv mode_NE x y.
Definition f64_lt (x y : f64) : bool := Bltb x y.
Definition f64_make (m e : Z) : f64 := binary_normalize 53 1024 _ _ mode_NE m e false.
Definition f64_of_Z (m : Z) : f64 := f64_make m 0.
Definition f64_val (x : f64) : R := B2R x.
Definition f64_fin (x : f64) : bool := is_finite x.

(** Nearest single precision number to a real. *)
Definition rnd32 (r : R) : R := round radix2 (SpecFloat.fexp 24 128) ZnearestE r.
Definition rnd64 (r : R) : R := round radix2 (SpecFloat.fexp 53 1024) ZnearestE r.

Lemma f32_lt_spec x y : f32_fin x = true -> f32_fin y = true -> f32_lt x y = true <-> (f32_val x < f32_val y)%R.
Proof.
  intros Fx Fy. unfold f32_lt. rewrite Bltb_correct by assumption. fold (f32_val x) (f32_val y).
  destruct (Rlt_bool_spec (f32_val x) (f32_val y)) as [H|H]; split; intros; auto; try discriminate. exfalso. lra.
Qed.

Lemma gf32 (z e : Z) : Z.abs z <= 2 ^ 24 -> -149 <= e -> generic_format radix2 (SpecFloat.fexp 24 128) (F2R (Float radix2 z e)).
Proof.
  intros Hz He.
  assert (C : (Rabs (F2R (Float radix2 z e)) <= bpow radix2 (24 + e))%R).
  { rewrite <- F2R_Zabs. rewrite bpow_plus. unfold F2R. simpl Fnum. simpl Fexp. apply Rmult_le_compat_r; [apply bpow_ge_0|].
    apply IZR_le in Hz. change (bpow radix2 24) with (IZR (2 ^ 24)). exact Hz. }
  destruct (Z.eq_dec (Z.abs z) (2 ^ 24)) as [E|E].
  - (* a power of two *)
    assert (exists s, (s = 1 \/ s = -1) /\ F2R (Float radix2 z e) = (IZR s * bpow radix2 (24 + e))%R) as (s & Hs & Es).
    { exists (Z.sgn z). split; [lia|]. unfold F2R. simpl Fnum. simpl Fexp. rewrite bpow_plus. rewrite <- Rmult_assoc. f_equal.
      change (bpow radix2 24) with (IZR (2 ^ 24)). rewrite <- mult_IZR. f_equal. lia. }
    rewrite Es. replace (IZR s * bpow radix2 (24 + e))%R with (F2R (Float radix2 s (24 + e))) by reflexivity.
    apply generic_format_F2R. intros Hs0. unfold cexp. rewrite mag_F2R by assumption.
    assert (M : (mag radix2 (IZR s) : Z) = 1).
    { destruct Hs as [-> | ->]; [apply mag_1|]. rewrite <- (mag_opp radix2 (-1)). replace (- -1)%R with 1%R by lra. apply mag_1. }
    rewrite M. unfold SpecFloat.fexp, SpecFloat.emin. lia.
  - apply generic_format_F2R. intros Hz0. unfold cexp. rewrite mag_F2R by assumption.
    assert (M : (mag radix2 (IZR z) <= 24)).
    { apply mag_le_bpow; [now apply IZR_neq|]. rewrite <- abs_IZR. change (bpow radix2 24) with (IZR (2 ^ 24)). apply IZR_lt. lia. }
    unfold SpecFloat.fexp, SpecFloat.emin. lia.
Qed.

(** Making a number that fits is exact. *)
Lemma f32_make_exact z e : Z.abs z <= 2 ^ 24 -> -149 <= e <= 64 ->
  f32_val (f32_make z e) = (IZR z * bpow radix2 e)%R /\ f32_fin (f32_make z e) = true.
Proof.
  intros Hz He. pose proof (binary_normalize_correct 24 128 _ _ mode_NE z e false) as H. cbv zeta in H.
  rewrite round_generic in H; [|apply valid_rnd_round_mode|apply gf32; lia].
  rewrite Rlt_bool_true in H.
  - destruct H as (H1 & H2 & _). split; [exact H1|exact H2].
  - rewrite <- F2R_Zabs. unfold F2R. simpl Fnum. simpl Fexp.
    apply Rle_lt_trans with (bpow radix2 (24 + e)).
    + rewrite bpow_plus. apply Rmult_le_compat_r; [apply bpow_ge_0|]. apply IZR_le in Hz. change (bpow radix2 24) with (IZR (2 ^ 24)). exact Hz.
    + apply bpow_lt. lia.
Qed.
Lemma f32_of_Z_exact z : Z.abs z <= 2 ^ 24 -> f32_val (f32_of_Z z) = IZR z /\ f32_fin (f32_of_Z z) = true.
Proof. intros H. destruct (f32_make_exact z 0 H) as [A B]; [lia|]. split; [|exact B]. unfold f32_of_Z. rewrite A. simpl. lra. Qed.
