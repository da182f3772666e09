(** Floating point facts used for PCM coding. *)
From Coq Require Import Reals Lra.
From Flocq Require Import Core.Core IEEE754.BinarySingleNaN.
From Flocq Require IEEE754.Binary IEEE754.Bits.
From Verif Require Import Base Base_lemmas Float32 Pcm_model Pcm_spec.
Open Scope Z_scope.

Lemma gf64 (z e : Z) : Z.abs z < 2 ^ 53 -> -1074 <= e -> generic_format radix2 (SpecFloat.fexp 53 1024) (F2R (Float radix2 z e)).
Proof.
  intros Hz He. apply generic_format_F2R. intros Hz0. unfold cexp. rewrite mag_F2R by assumption.
  assert (M : (mag radix2 (IZR z) <= 53)).
  { apply mag_le_bpow; [now apply IZR_neq|]. rewrite <- abs_IZR. change (bpow radix2 53) with (IZR (2 ^ 53)). apply IZR_lt. lia. }
  unfold SpecFloat.fexp, SpecFloat.emin. lia.
Qed.

Lemma f64_make_exact z e : Z.abs z < 2 ^ 53 -> -1074 <= e <= 512 ->
  f64_val (f64_make z e) = (IZR z * bpow radix2 e)%R /\ f64_fin (f64_make z e) = true.
Proof.
  intros Hz He. pose proof (binary_normalize_correct 53 1024 _ _ mode_NE z e false) as H. cbv zeta in H.
  rewrite round_generic in H; [|apply valid_rnd_round_mode|apply gf64; lia].
  rewrite Rlt_bool_true in H.
  - destruct H as (H1 & H2 & _). split; [exact H1|exact H2].
  - rewrite <- F2R_Zabs. unfold F2R. simpl Fnum. simpl Fexp.
    apply Rlt_le_trans with (bpow radix2 (53 + e)).
    + rewrite bpow_plus. apply Rmult_lt_compat_r; [apply bpow_gt_0|]. apply IZR_lt in Hz. change (bpow radix2 53) with (IZR (2 ^ 53)). exact Hz.
    + apply bpow_le. lia.
Qed.

(** The code's (double)max + 1.0 is the power of two it looks like. *)
Lemma scale_val c : c_int c = true -> f64_val (scale c) = bpow radix2 (c_w c - 1) /\ f64_fin (scale c) = true.
Proof.
  intros Hi.
  assert (E : scale c = f64_make 1 (c_w c - 1)).
  { apply B2SF_inj. destruct c; try discriminate; vm_compute; reflexivity. }
  rewrite E. destruct (f64_make_exact 1 (c_w c - 1)) as [A B]; [reflexivity|destruct c; cbn; lia|].
  split; [rewrite A; lra|exact B].
Qed.
Lemma inv_scale_val c : c_int c = true ->
  f64_val (f64_div (f64_of_Z 1) (scale c)) = bpow radix2 (1 - c_w c) /\ f64_fin (f64_div (f64_of_Z 1) (scale c)) = true.
Proof.
  intros Hi.
  assert (E : f64_div (f64_of_Z 1) (scale c) = f64_make 1 (1 - c_w c)).
  { apply B2SF_inj. destruct c; try discriminate; vm_compute; reflexivity. }
  rewrite E. destruct (f64_make_exact 1 (1 - c_w c)) as [A B]; [reflexivity|destruct c; cbn; lia|].
  split; [rewrite A; lra|exact B].
Qed.
Lemma smin_val c : c_int c = true -> f64_val (f64_of_Z (smin c)) = (- bpow radix2 (c_w c - 1))%R /\ f64_fin (f64_of_Z (smin c)) = true.
Proof.
  intros Hi.
  assert (E : f64_of_Z (smin c) = f64_make (-1) (c_w c - 1)).
  { apply B2SF_inj. destruct c; try discriminate; vm_compute; reflexivity. }
  rewrite E. destruct (f64_make_exact (-1) (c_w c - 1)) as [A B]; [reflexivity|destruct c; cbn; lia|].
  split; [rewrite A; lra|exact B].
Qed.

(** Shape of a finite number. *)
Lemma bounded32 m e : SpecFloat.bounded 24 128 m e = true -> Z.pos m < 2 ^ 24 /\ -149 <= e <= 104.
Proof.
  intros B. unfold SpecFloat.bounded, SpecFloat.canonical_mantissa in B. apply andb_prop in B. destruct B as [B1 B2].
  apply Zeq_bool_eq in B1. apply Zle_bool_imp_le in B2. unfold SpecFloat.fexp, SpecFloat.emin in B1.
  assert (D : (Z.pos (SpecFloat.digits2_pos m) <= 24)) by lia.
  split; [|lia]. rewrite Digits.Zpos_digits2_pos in D. pose proof (Digits.Zdigits_correct radix2 (Zpos m)) as [_ H].
  rewrite Z.abs_eq in H by lia. eapply Z.lt_le_trans; [exact H|]. apply (Zpower_le radix2). exact D.
Qed.
Lemma bounded64 m e : SpecFloat.bounded 53 1024 m e = true -> Z.pos m < 2 ^ 53 /\ -1074 <= e <= 971.
Proof.
  intros B. unfold SpecFloat.bounded, SpecFloat.canonical_mantissa in B. apply andb_prop in B. destruct B as [B1 B2].
  apply Zeq_bool_eq in B1. apply Zle_bool_imp_le in B2. unfold SpecFloat.fexp, SpecFloat.emin in B1.
  assert (D : (Z.pos (SpecFloat.digits2_pos m) <= 53)) by lia.
  split; [|lia]. rewrite Digits.Zpos_digits2_pos in D. pose proof (Digits.Zdigits_correct radix2 (Zpos m)) as [_ H].
  rewrite Z.abs_eq in H by lia. eapply Z.lt_le_trans; [exact H|]. apply (Zpower_le radix2). exact D.
Qed.
Lemma f32_shape (x : f32) : f32_fin x = true ->
  exists z e, Z.abs z < 2 ^ 24 /\ -149 <= e <= 104 /\ f32_val x = (IZR z * bpow radix2 e)%R.
Proof.
  destruct x as [s|s| |s m e B]; intros F; try discriminate.
  - exists 0, 0. split; [lia|]. split; [lia|]. unfold f32_val. cbn [B2R]. lra.
  - exists (cond_Zopp s (Zpos m)), e. destruct (bounded32 m e B) as [Hm He].
    split; [destruct s; cbn [cond_Zopp]; lia|]. split; [lia|]. unfold f32_val, B2R, F2R. cbn [Fnum Fexp]. reflexivity.
Qed.
Lemma f64_shape (x : f64) : f64_fin x = true ->
  exists z e, Z.abs z < 2 ^ 53 /\ -1074 <= e <= 971 /\ f64_val x = (IZR z * bpow radix2 e)%R.
Proof.
  destruct x as [s|s| |s m e B]; intros F; try discriminate.
  - exists 0, 0. split; [lia|]. split; [lia|]. unfold f64_val. cbn [B2R]. lra.
  - exists (cond_Zopp s (Zpos m)), e. destruct (bounded64 m e B) as [Hm He].
    split; [destruct s; cbn [cond_Zopp]; lia|]. split; [lia|]. unfold f64_val, B2R, F2R. cbn [Fnum Fexp]. reflexivity.
Qed.

(** float -> double is exact. *)
Lemma f64_of_f32_val x : f32_fin x = true -> f64_val (f64_of_f32 x) = f32_val x /\ f64_fin (f64_of_f32 x) = true.
Proof.
  intros F. destruct x as [s|s| |s m e B]; try discriminate.
  - split; reflexivity.
  - unfold f64_of_f32.
    destruct (bounded32 m e B) as [Hm He].
    pose proof (binary_normalize_correct 53 1024 _ _ mode_NE (cond_Zopp s (Z.pos m)) e s) as H. cbv zeta in H.
    assert (Hz : Z.abs (cond_Zopp s (Z.pos m)) < 2 ^ 24) by (destruct s; cbn [cond_Zopp]; lia).
    rewrite round_generic in H; [|apply valid_rnd_round_mode|apply gf64; lia].
    rewrite Rlt_bool_true in H.
    + destruct H as (H1 & H2 & _). split; [exact H1|exact H2].
    + rewrite <- F2R_Zabs. unfold F2R. simpl Fnum. simpl Fexp.
      apply Rlt_le_trans with (bpow radix2 (53 + e)).
      * rewrite bpow_plus. apply Rmult_lt_compat_r; [apply bpow_gt_0|]. change (bpow radix2 53) with (IZR (2 ^ 53)). apply IZR_lt. lia.
      * apply bpow_le. lia.
Qed.

(** double -> float rounds. *)
Lemma f32_of_f64_val y : f64_fin y = true -> (Rabs (f64_val y) <= 1)%R ->
  f32_val (f32_of_f64 y) = rnd32 (f64_val y) /\ f32_fin (f32_of_f64 y) = true.
Proof.
  intros F H1. destruct y as [s|s| |s m e B]; try discriminate.
  - split; [|reflexivity]. cbn [f32_of_f64]. unfold f32_val, f64_val, rnd32. cbn [B2R]. now rewrite round_0 by typeclasses eauto.
  - unfold f32_of_f64.
    pose proof (binary_normalize_correct 24 128 _ _ mode_NE (cond_Zopp s (Z.pos m)) e s) as H. cbv zeta in H.
    change (F2R (Float radix2 (cond_Zopp s (Z.pos m)) e)) with (f64_val (B754_finite s m e B)) in H.
    rewrite Rlt_bool_true in H.
    + destruct H as (H3 & H2 & _). split; [exact H3|exact H2].
    + apply Rle_lt_trans with 1%R; [|change 1%R with (bpow radix2 0); apply bpow_lt; lia].
      apply abs_round_le_generic; try typeclasses eauto; [|exact H1].
      change 1%R with (bpow radix2 0). apply generic_format_bpow. unfold SpecFloat.fexp, SpecFloat.emin. lia.
Qed.

(** Multiplying by a power of two in range is exact. *)
Lemma f64_mul_pow y p k : f64_fin y = true -> f64_fin p = true -> f64_val p = bpow radix2 k ->
  (exists z e, Z.abs z < 2 ^ 53 /\ f64_val y = (IZR z * bpow radix2 e)%R /\ -1074 <= e + k <= 512) ->
  f64_val (f64_mul y p) = (f64_val y * bpow radix2 k)%R /\ f64_fin (f64_mul y p) = true.
Proof.
  intros Fy Fp Vp (z & e & Hz & Vy & He).
  pose proof (Bmult_correct 53 1024 _ _ mode_NE y p) as H.
  fold (f64_val y) (f64_val p) in H. rewrite Vp in H.
  assert (E : (f64_val y * bpow radix2 k)%R = F2R (Float radix2 z (e + k))).
  { rewrite Vy. unfold F2R. cbn [Fnum Fexp]. rewrite bpow_plus. ring. }
  rewrite E in H. rewrite round_generic in H; [|apply valid_rnd_round_mode|apply gf64; lia].
  rewrite Rlt_bool_true in H.
  - destruct H as (H1 & H2 & _). split; [rewrite E; exact H1|].
    unfold f64_fin, f64_mul. rewrite H2. unfold f64_fin in Fy, Fp. rewrite Fy, Fp. reflexivity.
  - rewrite <- F2R_Zabs. unfold F2R. cbn [Fnum Fexp].
    apply Rlt_le_trans with (bpow radix2 (53 + (e + k))).
    + rewrite (bpow_plus _ 53). apply Rmult_lt_compat_r; [apply bpow_gt_0|]. change (bpow radix2 53) with (IZR (2 ^ 53)). apply IZR_lt. lia.
    + apply bpow_le. lia.
Qed.

(** int -> double rounds. *)
Lemma f64_of_Z_val v : Z.abs v <= 2 ^ 63 -> f64_val (f64_of_Z v) = rnd64 (IZR v) /\ f64_fin (f64_of_Z v) = true /\
  exists z e, Z.abs z < 2 ^ 53 /\ 0 <= e <= 100 /\ f64_val (f64_of_Z v) = (IZR z * bpow radix2 e)%R.
Proof.
  intros Hv.
  assert (A : f64_val (f64_of_Z v) = rnd64 (IZR v) /\ f64_fin (f64_of_Z v) = true).
  { pose proof (binary_normalize_correct 53 1024 _ _ mode_NE v 0 false) as H. cbv zeta in H.
    assert (E : F2R (Float radix2 v 0) = IZR v) by (unfold F2R; cbn [Fnum Fexp]; change (bpow radix2 0) with 1%R; ring).
    rewrite E in H. rewrite Rlt_bool_true in H.
    - destruct H as (H1 & H2 & _). split; [exact H1|exact H2].
    - apply Rle_lt_trans with (bpow radix2 63); [|apply bpow_lt; lia].
      apply abs_round_le_generic; try typeclasses eauto.
      + apply generic_format_bpow. unfold SpecFloat.fexp, SpecFloat.emin. lia.
      + rewrite <- abs_IZR. change (bpow radix2 63) with (IZR (2 ^ 63)). apply IZR_le. exact Hv. }
  split; [apply A|]. split; [apply A|]. rewrite (proj1 A).
  destruct (Z.ltb_spec (Z.abs v) (2 ^ 53)) as [L|L].
  - exists v, 0. split; [exact L|]. split; [lia|]. unfold rnd64. rewrite round_generic; [change (bpow radix2 0) with 1%R; ring|typeclasses eauto|].
    replace (IZR v) with (F2R (Float radix2 v 0)) by (unfold F2R; cbn [Fnum Fexp]; change (bpow radix2 0) with 1%R; ring). apply gf64; lia.
  - (* large: the rounded value is a multiple of a positive power of two *)
    unfold rnd64.
    assert (Hm : 53 < mag radix2 (IZR v) <= 64).
    { assert (N : IZR v <> 0%R) by (apply IZR_neq; lia). split.
      - assert (B : (bpow radix2 (54 - 1) <= Rabs (IZR v))%R).
        { rewrite <- abs_IZR. change (bpow radix2 (54 - 1)) with (IZR (2 ^ 53)). apply IZR_le. exact L. }
        apply mag_ge_bpow in B. lia.
      - apply mag_le_bpow; [exact N|]. rewrite <- abs_IZR. change (bpow radix2 64) with (IZR (2 ^ 64)). apply IZR_lt. lia. }
    set (x := IZR v) in *.
    assert (C : cexp radix2 (SpecFloat.fexp 53 1024) x = mag radix2 x - 53).
    { unfold cexp, SpecFloat.fexp, SpecFloat.emin. lia. }
    unfold round, F2R. cbn [Fnum Fexp]. rewrite C.
    set (k := ZnearestE (scaled_mantissa radix2 (SpecFloat.fexp 53 1024) x)).
    assert (K : Z.abs k <= 2 ^ 53).
    { assert (Hs : (Rabs (scaled_mantissa radix2 (SpecFloat.fexp 53 1024) x) <= IZR (2 ^ 53))%R).
      { unfold scaled_mantissa. rewrite C. rewrite Rabs_mult. rewrite (Rabs_pos_eq (bpow _ _)) by apply bpow_ge_0.
        apply Rle_trans with (bpow radix2 (mag radix2 x) * bpow radix2 (- (mag radix2 x - 53)))%R.
        - apply Rmult_le_compat_r; [apply bpow_ge_0|]. apply Rlt_le. apply bpow_mag_gt.
        - rewrite <- bpow_plus. replace (mag radix2 x + - (mag radix2 x - 53)) with 53 by lia. apply Rle_refl. }
      apply Rabs_le_inv in Hs.
      assert (ZnearestE (IZR (- 2 ^ 53)) <= k <= ZnearestE (IZR (2 ^ 53))) as HK.
      { split; apply Zrnd_le; try typeclasses eauto; [rewrite opp_IZR|]; apply Hs. }
      rewrite !Zrnd_IZR in HK by typeclasses eauto. lia. }
    destruct (Z.eq_dec (Z.abs k) (2 ^ 53)) as [E|E].
    + exists (Z.sgn k), (mag radix2 x). split; [lia|]. split; [lia|].
      replace (mag radix2 x : Z) with (53 + (mag radix2 x - 53)) at 2 by lia. rewrite bpow_plus.
      change (bpow radix2 53) with (IZR (2 ^ 53)). rewrite <- Rmult_assoc, <- mult_IZR. f_equal. f_equal. lia.
    + exists k, (mag radix2 x - 53). split; [lia|]. split; [lia|]. reflexivity.
Qed.

(** ** The conversions of the code *)
Lemma f64_lt_spec x y : f64_fin x = true -> f64_fin y = true -> f64_lt x y = true <-> (f64_val x < f64_val y)%R.
Proof.
  intros Fx Fy. unfold f64_lt. rewrite Bltb_correct by assumption. fold (f64_val x) (f64_val y).
  destruct (Rlt_bool_spec (f64_val x) (f64_val y)) as [H|H]; split; intros; auto; try discriminate. exfalso. lra.
Qed.
Lemma f64_le_spec x y : f64_fin x = true -> f64_fin y = true -> Bleb x y = true <-> (f64_val x <= f64_val y)%R.
Proof.
  intros Fx Fy. rewrite Bleb_correct by assumption. fold (f64_val x) (f64_val y).
  destruct (Rle_bool_spec (f64_val x) (f64_val y)) as [H|H]; split; intros; auto; try discriminate. exfalso. lra.
Qed.

Lemma w_range c : 8 <= c_w c <= 64.
Proof. destruct c; cbn; lia. Qed.
Lemma bpow_w c : bpow radix2 (c_w c - 1) = IZR (2 ^ (c_w c - 1)).
Proof. pose proof (w_range c). rewrite <- (IZR_Zpower radix2) by lia. reflexivity. Qed.
Lemma pow_w_pos c : (0 < IZR (2 ^ (c_w c - 1)))%R.
Proof. rewrite <- bpow_w. apply bpow_gt_0. Qed.

(** The general case: a finite double whose scaled value is exact. *)
Lemma float_to_int_val c y : c_int c = true -> f64_fin y = true ->
  (exists z e, Z.abs z < 2 ^ 53 /\ f64_val y = (IZR z * bpow radix2 e)%R /\ -1074 <= e + (c_w c - 1) <= 512) ->
  exists k, float_to_int c y = Ok k /\ level_of (c_w c) (f64_val y) k.
Proof.
  intros Hi Fy Sy. destruct (scale_val c Hi) as [Vs Fs]. destruct (smin_val c Hi) as [Vm Fm].
  destruct (f64_mul_pow y (scale c) _ Fy Fs Vs Sy) as [Vd Fd].
  unfold float_to_int. set (d := f64_mul y (scale c)) in *. cbv zeta.
  pose proof (pow_w_pos c) as P. rewrite bpow_w in Vd, Vs, Vm. set (B := IZR (2 ^ (c_w c - 1))) in *.
  pose proof (f64_lt_spec d _ Fd Fm) as L. rewrite Vd, Vm in L.
  pose proof (f64_le_spec _ d Fs Fd) as G. rewrite Vd, Vs in G.
  destruct (f64_lt d (f64_of_Z (smin c))).
  - pose proof (proj1 L eq_refl) as L'. assert (f64_val y < -1)%R by nra.
    eexists. split; [reflexivity|]. split; [reflexivity|]. split; intros; exfalso; lra.
  - assert (L' : (- B <= f64_val y * B)%R) by (apply Rnot_lt_le; intro; apply L in H; discriminate).
    assert (-1 <= f64_val y)%R by nra.
    destruct (Bleb (scale c) d).
    + pose proof (proj1 G eq_refl) as G'. assert (1 <= f64_val y)%R by nra.
      eexists. split; [reflexivity|]. split; [intros; exfalso; lra|]. split; [intros; reflexivity|intros; exfalso; lra].
    + assert (G' : (f64_val y * B < B)%R) by (apply Rnot_le_lt; intro; apply G in H0; discriminate).
      assert (f64_val y < 1)%R by nra.
      unfold f64_fin in Fd. rewrite Fd. eexists. split; [reflexivity|].
      split; [intros; exfalso; lra|]. split; [intros; exfalso; lra|]. intros _.
      pose proof (Btrunc_correct 53 1024 _ d) as T. fold (f64_val d) in T. rewrite Vd in T. fold B.
      apply eq_IZR. rewrite T by typeclasses eauto.
      unfold round, F2R, scaled_mantissa, cexp, FIX_exp. cbn [Fnum Fexp]. change (bpow radix2 (- 0)) with 1%R. change (bpow radix2 0) with 1%R.
      rewrite !Rmult_1_r. reflexivity.
Qed.
Lemma f32_to_int_val c x : c_int c = true -> f32_fin x = true ->
  exists k, float_to_int c (f64_of_f32 x) = Ok k /\ level_of (c_w c) (f32_val x) k.
Proof.
  intros Hi Fx. destruct (f64_of_f32_val x Fx) as [V F]. rewrite <- V. apply float_to_int_val; auto.
  rewrite V. destruct (f32_shape x Fx) as (z & e & Hz & He & E). exists z, e. pose proof (w_range c). split; [lia|]. split; [exact E|lia].
Qed.

(** Integer to single. *)
Lemma int_to_f32_val c v : c_int c = true -> Z.abs v <= 2 ^ (c_w c - 1) ->
  f32_val (f32_of_f64 (int_to_float c v)) = rnd32 (rnd64 (IZR v) / IZR (2 ^ (c_w c - 1))) /\
  f32_fin (f32_of_f64 (int_to_float c v)) = true.
Proof.
  intros Hi Hv. pose proof (w_range c) as W.
  assert (Hv' : Z.abs v <= 2 ^ 63) by (eapply Z.le_trans; [exact Hv|apply Z.pow_le_mono_r; lia]).
  destruct (f64_of_Z_val v Hv') as (V & F & z & e & Hz & He & E).
  destruct (inv_scale_val c Hi) as [Vi Fi].
  destruct (f64_mul_pow (f64_of_Z v) _ _ F Fi Vi) as [Vd Fd].
  { exists z, e. split; [exact Hz|]. split; [exact E|lia]. }
  fold (int_to_float c v) in Vd, Fd.
  assert (Q : (f64_val (int_to_float c v) = rnd64 (IZR v) / IZR (2 ^ (c_w c - 1)))%R).
  { rewrite Vd, V. unfold Rdiv. f_equal. rewrite <- bpow_w. rewrite <- bpow_opp. f_equal. lia. }
  rewrite <- Q. apply f32_of_f64_val; [exact Fd|]. rewrite Vd, V. rewrite Rabs_mult. rewrite (Rabs_pos_eq (bpow _ _)) by apply bpow_ge_0.
  replace 1%R with (bpow radix2 (c_w c - 1) * bpow radix2 (1 - c_w c))%R.
  2:{ rewrite <- bpow_plus. replace (c_w c - 1 + (1 - c_w c)) with 0 by lia. reflexivity. }
  apply Rmult_le_compat_r; [apply bpow_ge_0|].
  apply abs_round_le_generic; try typeclasses eauto.
  - apply generic_format_bpow. unfold SpecFloat.fexp, SpecFloat.emin. lia.
  - rewrite <- abs_IZR, bpow_w. apply IZR_le. exact Hv.
Qed.

(** If the amplitude of a level is a single, it is produced exactly. *)
Lemma int_to_f32_exact c v x : c_int c = true -> Z.abs v <= 2 ^ (c_w c - 1) ->
  f32_fin x = true -> f32_val x = amplitude (c_w c) v ->
  f32_val (f32_of_f64 (int_to_float c v)) = f32_val x.
Proof.
  intros Hi Hv Fx Vx. destruct (int_to_f32_val c v Hi Hv) as [V _]. rewrite V.
  pose proof (pow_w_pos c) as P. pose proof (w_range c) as W.
  assert (E : IZR v = (f32_val x * bpow radix2 (c_w c - 1))%R).
  { rewrite Vx, bpow_w. unfold amplitude. field. lra. }
  assert (R : rnd64 (IZR v) = IZR v).
  { destruct (f32_shape x Fx) as (z & e & Hz & He & Ex). unfold rnd64. apply round_generic; [typeclasses eauto|].
    rewrite E, Ex. replace (IZR z * bpow radix2 e * bpow radix2 (c_w c - 1))%R with (F2R (Float radix2 z (e + (c_w c - 1)))).
    - apply gf64; lia.
    - unfold F2R. cbn [Fnum Fexp]. rewrite bpow_plus. ring. }
  rewrite R. fold (amplitude (c_w c) v). rewrite <- Vx. unfold rnd32. apply round_generic; [typeclasses eauto|].
  apply generic_format_B2R.
Qed.

(** Up to 24 bits every amplitude is a single. *)
Lemma amp_single c v : c_int c = true -> c_w c <= 24 -> Z.abs v <= 2 ^ (c_w c - 1) ->
  f32_val (f32_make v (1 - c_w c)) = amplitude (c_w c) v /\ f32_fin (f32_make v (1 - c_w c)) = true.
Proof.
  intros Hi Hw Hv. pose proof (w_range c) as W.
  assert (2 ^ (c_w c - 1) <= 2 ^ 24) by (apply Z.pow_le_mono_r; lia).
  destruct (f32_make_exact v (1 - c_w c)) as [A B]; [lia|lia|]. split; [|exact B]. rewrite A.
  unfold amplitude, Rdiv. f_equal. rewrite <- bpow_w, <- bpow_opp. f_equal. lia.
Qed.

(** ** Bit patterns *)
Lemma f32_bits_id x : f32_of_bits (bits_of_f32 x) = x.
Proof.
  unfold f32_of_bits, bits_of_f32, Bits.b32_of_bits, Bits.bits_of_b32.
  rewrite Bits.binary_float_of_bits_of_binary_float. apply Binary.B2BSN_BSN2B.
Qed.
Lemma f64_bits_id x : f64_of_bits (bits_of_f64 x) = x.
Proof.
  unfold f64_of_bits, bits_of_f64, Bits.b64_of_bits, Bits.bits_of_b64.
  rewrite Bits.binary_float_of_bits_of_binary_float. apply Binary.B2BSN_BSN2B.
Qed.
Lemma bits32_range x : 0 <= bits_of_f32 x < 2 ^ 32.
Proof. unfold bits_of_f32, Bits.bits_of_b32. apply (Bits.bits_of_binary_float_range 23 8); reflexivity. Qed.
Lemma bits64_range x : 0 <= bits_of_f64 x < 2 ^ 64.
Proof. unfold bits_of_f64, Bits.bits_of_b64. apply (Bits.bits_of_binary_float_range 52 11); reflexivity. Qed.
