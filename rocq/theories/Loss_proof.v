From Coq Require Import Reals ZArith List Bool Lia Lra.
From Flocq Require Import Core.Core IEEE754.BinarySingleNaN.
From Verif Require Import Base Float32 TimeConv_model TimeConv_proof Loss_model.
Local Open Scope Z_scope.
Local Open Scope res_scope.

Lemma one_val : f32_val (f32_of_Z 1) = 1%R /\ f32_fin (f32_of_Z 1) = true.
Proof. destruct (of_Z_val 1) as [A B]; [lia|]. split; [|exact B]. rewrite A. apply rnd32_Z. lia. Qed.
Lemma v256 : f32_val (f32_of_Z 256) = 256%R /\ f32_fin (f32_of_Z 256) = true.
Proof. destruct (of_Z_val 256) as [A B]; [lia|]. split; [|exact B]. rewrite A. apply rnd32_Z. lia. Qed.
Lemma zero_val : f32_val f32_zero = 0%R /\ f32_fin f32_zero = true.
Proof. split; reflexivity. Qed.

Lemma zle_R a b : a <= b -> (IZR a <= IZR b)%R. Proof. apply IZR_le. Qed.

(* multiplication by 256 is exact *)
Lemma rnd_256 x : generic_format radix2 (SpecFloat.fexp 24 128) x -> (x = 0 \/ bpow radix2 (-100) <= Rabs x)%R ->
  rnd32 (x * 256) = (x * 256)%R.
Proof.
  intros G B. apply rnd32_gen. destruct (Req_dec x 0) as [->|NZ]; [rewrite Rmult_0_l; apply generic_format_0|].
  destruct B as [B|B]; [contradiction|].
  change 256%R with (bpow radix2 8).
  unfold generic_format, scaled_mantissa, cexp in *. rewrite mag_mult_bpow by exact NZ.
  assert (MG : -99 <= mag radix2 x).
  { assert (Q : (bpow radix2 (-99 - 1) <= Rabs x)%R) by exact B. apply mag_ge_bpow in Q. lia. }
  assert (F : forall m, -99 <= m -> SpecFloat.fexp 24 128 m = m - 24).
  { intros m Hm. unfold SpecFloat.fexp, SpecFloat.emin. lia. }
  rewrite F in G by lia. rewrite F by lia.
  assert (S : (x * bpow radix2 8 * bpow radix2 (- (mag radix2 x + 8 - 24)) = x * bpow radix2 (- (mag radix2 x - 24)))%R).
  { rewrite Rmult_assoc, <- bpow_plus. f_equal. f_equal. lia. }
  rewrite S. rewrite G at 1. unfold F2R. cbn [Fnum Fexp]. rewrite Rmult_assoc, <- bpow_plus. f_equal. f_equal. lia.
Qed.

Lemma code_val fl : f32_fin fl = true -> (0 <= f32_val fl)%R -> (f32_val fl = 0 \/ bpow radix2 (-100) <= f32_val fl)%R ->
  fract_code fl = Ok (Z.min 255 (Zfloor (256 * f32_val fl))).
Proof.
  intros F P B. unfold fract_code. destruct one_val as [O1 O2]. destruct v256 as [W1 W2]. destruct zero_val as [Z1 Z2].
  set (y := if f32_lt (f32_of_Z 1) fl then f32_of_Z 1 else fl).
  assert (HY : f32_fin y = true /\ (f32_val y = Rmin 1 (f32_val fl))%R).
  { unfold y. destruct (f32_lt (f32_of_Z 1) fl) eqn:E.
    - apply f32_lt_spec in E; auto. rewrite O1 in *. split; auto. symmetry. apply Rmin_left. lra.
    - split; auto. symmetry. apply Rmin_right. destruct (Rle_lt_dec (f32_val fl) 1) as [L|L]; auto.
      rewrite <- O1 in L. apply f32_lt_spec in L; auto. congruence. }
  destruct HY as [FY VY]. clearbody y.
  assert (N : f32_lt y f32_zero = false).
  { destruct (f32_lt y f32_zero) eqn:E; auto. apply f32_lt_spec in E; auto. rewrite Z1, VY in E.
    assert (0 <= Rmin 1 (f32_val fl))%R by (apply Rmin_glb; lra). lra. }
  rewrite N. assert (RB : (0 <= Rmin 1 (f32_val fl) <= 1)%R) by (split; [apply Rmin_glb; lra|apply Rmin_l]).
  destruct (mul_val y (f32_of_Z 256) 8) as [M1 M2]; auto; try lia.
  { rewrite W1, VY, Rabs_right by lra. change (bpow radix2 8) with 256%R. lra. }
  assert (GY : generic_format radix2 (SpecFloat.fexp 24 128) (f32_val y)) by (unfold f32_val; apply generic_format_B2R).
  rewrite W1, rnd_256 in M1; [|exact GY|].
  2:{ rewrite VY. destruct (Rle_lt_dec (f32_val fl) 1) as [L|L].
      - rewrite Rmin_right by exact L. rewrite Rabs_right by lra. exact B.
      - rewrite Rmin_left by lra. right. rewrite Rabs_right by lra. change 1%R with (bpow radix2 0). apply bpow_le. lia. }
  rewrite VY in M1.
  assert (T : Btrunc (f32_mul y (f32_of_Z 256)) = Zfloor (Rmin 1 (f32_val fl) * 256)).
  { apply eq_IZR. rewrite (Btrunc_correct 24 128 _), FIX0_round. unfold f32_val in M1. rewrite M1. f_equal. apply Ztrunc_floor.
    apply Rmult_le_pos; [exact (proj1 RB)|lra]. }
  unfold to_int. rewrite M2, T. cbn [andb].
  assert (FB : 0 <= Zfloor (Rmin 1 (f32_val fl) * 256) <= 256).
  { split; [apply Zfloor_lub; simpl; lra|]. apply le_IZR. apply Rle_trans with (1 := Zfloor_lb _). simpl. lra. }
  change (t_min ts_ty) with 0. change (t_max ts_ty) with 4294967295.
  rewrite (proj2 (Z.leb_le 0 _)) by lia. rewrite (proj2 (Z.leb_le _ 4294967295)) by lia. cbn [andb bind].
  f_equal. destruct (Rle_lt_dec (f32_val fl) 1) as [L|L].
  - rewrite Rmin_right by exact L. rewrite (Rmult_comm 256). destruct (Z.ltb_spec 255 (Zfloor (f32_val fl * 256))); lia.
  - rewrite Rmin_left by lra. rewrite Rmult_1_l. rewrite Zfloor_IZR. cbn.
    assert (256 <= Zfloor (256 * f32_val fl)) by (apply Zfloor_lub; simpl; lra). lia.
Qed.

(* the float computed for a positive number of lost packets *)
Definition ratio (a b : Z) : R := rnd32 (rnd32 (IZR a) / rnd32 (IZR b)).

Lemma rnd_pos n : 1 <= n -> (1 <= rnd32 (IZR n))%R.
Proof. intros H. rewrite <- (rnd32_Z 1) by lia. apply rnd32_mono. apply IZR_le. exact H. Qed.
Lemma rnd_le_pow n k : 0 <= k <= 100 -> n <= 2 ^ k -> (rnd32 (IZR n) <= bpow radix2 k)%R.
Proof. intros Hk H. rewrite <- (rnd32_pow k) by lia. apply rnd32_mono. rewrite pow_IZR by lia. apply IZR_le. exact H. Qed.

Lemma quo_bounds a b : 1 <= a <= 2 ^ 63 -> 1 <= b <= 2 ^ 64 ->
  (bpow radix2 (-64) <= rnd32 (IZR a) / rnd32 (IZR b) <= bpow radix2 63)%R.
Proof.
  intros Ha Hb. pose proof (rnd_pos a ltac:(lia)) as A1. pose proof (rnd_pos b ltac:(lia)) as B1.
  pose proof (rnd_le_pow a 63 ltac:(lia) ltac:(lia)) as A2. pose proof (rnd_le_pow b 64 ltac:(lia) ltac:(lia)) as B2.
  split.
  - rewrite (bpow_opp radix2 64 : bpow radix2 (-64) = _). apply Rle_trans with (1 / rnd32 (IZR b))%R.
    + unfold Rdiv. rewrite Rmult_1_l. apply Rinv_le; lra.
    + unfold Rdiv. apply Rmult_le_compat_r; [left; apply Rinv_0_lt_compat; lra|exact A1].
  - apply Rle_trans with (rnd32 (IZR a) / 1)%R.
    + unfold Rdiv. apply Rmult_le_compat_l; [lra|]. apply Rinv_le; lra.
    + unfold Rdiv. rewrite Rinv_1, Rmult_1_r. exact A2.
Qed.

Lemma ratio_bounds a b : 1 <= a <= 2 ^ 63 -> 1 <= b <= 2 ^ 64 -> (bpow radix2 (-64) <= ratio a b)%R.
Proof.
  intros Ha Hb. destruct (quo_bounds a b Ha Hb) as [H _]. unfold ratio. rewrite <- (rnd32_pow (-64)) by lia. apply rnd32_mono. exact H.
Qed.

Lemma update_val st total lost : let '(pt, pl) := st in
  0 <= pt < 2 ^ 64 -> 0 <= total < 2 ^ 64 -> - 2 ^ 62 <= pl < 2 ^ 62 -> - 2 ^ 62 <= lost < 2 ^ 62 ->
  exists fl, loss_update st total lost = Ok (fl, (total, lost)) /\ f32_fin fl = true /\
    f32_val fl = (if (pt <? total) && (pl <? lost) then ratio (lost - pl) (total - pt) else 0)%R.
Proof.
  destruct st as [pt pl]. intros H1 H2 H3 H4. unfold loss_update. destruct zero_val as [Z1 Z2].
  destruct (Z.ltb_spec pt total) as [L|L]; cbn [bind andb].
  2:{ replace (f32_lt f32_zero f32_zero) with false by reflexivity. eexists. split; [reflexivity|]. split; auto. }
  replace ((- 2 ^ 63 <=? lost - pl) && (lost - pl <? 2 ^ 63)) with true by (symmetry; apply andb_true_intro; split; [apply Z.leb_le|apply Z.ltb_lt]; lia).
  cbn [bind].
  destruct (of_Z_val (total - pt)) as [B1 B2]; [lia|]. destruct (of_Z_val (lost - pl)) as [A1 A2]; [lia|].
  pose proof (rnd_pos (total - pt) ltac:(lia)) as BP.
  destruct (div_val (f32_of_Z (lost - pl)) (f32_of_Z (total - pt)) 63) as [D1 D2]; auto; try lia.
  { rewrite B1. lra. }
  { rewrite A1, B1. unfold Rdiv. rewrite Rabs_mult, (Rabs_right (/ _)) by (left; apply Rinv_0_lt_compat; lra).
    apply Rle_trans with (bpow radix2 63 * 1)%R; [|lra]. apply Rmult_le_compat; [apply Rabs_pos|left; apply Rinv_0_lt_compat; lra| |].
    - apply rnd32_abs_le; [lia|]. apply abs_le_pow; lia.
    - rewrite <- Rinv_1. apply Rinv_le; lra. }
  rewrite A1, B1 in D1. fold (ratio (lost - pl) (total - pt)) in D1.
  set (q := f32_div (f32_of_Z (lost - pl)) (f32_of_Z (total - pt))) in *. clearbody q.
  destruct (Z.ltb_spec pl lost) as [P|P].
  - pose proof (ratio_bounds (lost - pl) (total - pt) ltac:(lia) ltac:(lia)) as RB. pose proof (bpow_gt_0 radix2 (-64)) as BG.
    assert (E : f32_lt q f32_zero = false).
    { destruct (f32_lt q f32_zero) eqn:E; auto. apply f32_lt_spec in E; auto. rewrite D1, Z1 in E. lra. }
    rewrite E. eexists. split; [reflexivity|]. auto.
  - assert (RN : (ratio (lost - pl) (total - pt) <= 0)%R).
    { unfold ratio. rewrite <- rnd32_0. apply rnd32_mono. unfold Rdiv.
      assert (rnd32 (IZR (lost - pl)) <= 0)%R by (rewrite <- rnd32_0; apply rnd32_mono; apply IZR_le; lia).
      assert (0 < / rnd32 (IZR (total - pt)))%R by (apply Rinv_0_lt_compat; lra). nra. }
    destruct (f32_lt q f32_zero) eqn:E.
    + eexists. split; [reflexivity|]. auto.
    + eexists. split; [reflexivity|]. split; [exact D2|]. rewrite D1. apply Rle_antisym; [exact RN|].
      rewrite <- D1. destruct (Rle_lt_dec 0 (f32_val q)) as [L0|L0]; auto. rewrite <- Z1 in L0. apply f32_lt_spec in L0; auto. congruence.
Qed.

Lemma report_val pt pl total lost :
  0 <= pt < 2 ^ 64 -> 0 <= total < 2 ^ 64 -> - 2 ^ 62 <= pl < 2 ^ 62 -> - 2 ^ 62 <= lost < 2 ^ 62 ->
  report_loss (pt, pl) total lost =
    Ok (if (pt <? total) && (pl <? lost) then Z.min 255 (Zfloor (256 * ratio (lost - pl) (total - pt))) else 0, (total, lost)).
Proof.
  intros H1 H2 H3 H4. unfold report_loss. destruct (update_val (pt, pl) total lost H1 H2 H3 H4) as (fl & E & F & V).
  rewrite E. cbn [bind fst snd]. destruct ((pt <? total) && (pl <? lost)) eqn:C.
  - apply andb_prop in C. destruct C as [C1 C2]. apply Z.ltb_lt in C1, C2.
    pose proof (ratio_bounds (lost - pl) (total - pt) ltac:(lia) ltac:(lia)) as RB.
    pose proof (bpow_gt_0 radix2 (-64)) as BG. pose proof (bpow_le radix2 (-100) (-64) ltac:(lia)) as BL.
    rewrite code_val; auto; [|rewrite V; lra|right; rewrite V; lra]. cbn [bind]. rewrite V. reflexivity.
  - rewrite code_val; auto; [|rewrite V; lra]. cbn [bind]. rewrite V, Rmult_0_r. rewrite Zfloor_IZR. reflexivity.
Qed.

(* relative error *)
Lemma ratio_rel a b : 1 <= a <= 2 ^ 63 -> 1 <= b <= 2 ^ 64 ->
  exists g, (Rabs g <= / 4194304)%R /\ ratio a b = (IZR a / IZR b * (1 + g))%R.
Proof.
  intros Ha Hb. destruct (rnd_Z_rel a) as (e1 & E1 & R1). destruct (rnd_Z_rel b) as (e2 & E2 & R2).
  destruct (quo_bounds a b Ha Hb) as [Q1 _].
  pose proof (bpow_gt_0 radix2 (-64)) as BG. pose proof (bpow_le radix2 (-100) (-64) ltac:(lia)) as BL.
  destruct (rnd32_rel (rnd32 (IZR a) / rnd32 (IZR b))) as (e3 & E3 & R3).
  { right. rewrite Rabs_right by lra. lra. }
  unfold ratio. rewrite R3, R1, R2. clear Q1 R3.
  pose proof u32_val as U. rewrite U in *. apply Rabs_le_inv in E1, E2, E3.
  assert (B : (1 <= IZR b)%R) by (apply IZR_le; lia).
  exists ((1 + e1) / (1 + e2) * (1 + e3) - 1)%R. split.
  - assert (X : ((1 + e1) / (1 + e2) = 1 + (e1 - e2) / (1 + e2))%R) by (field; lra). rewrite X.
    assert (I : (0 < / (1 + e2) <= 1 + / 8388608)%R).
    { split; [apply Rinv_0_lt_compat; lra|]. apply Rmult_le_reg_r with (1 + e2)%R; [lra|]. rewrite Rinv_l by lra. nra. }
    unfold Rdiv. set (w := (/ (1 + e2))%R) in *. clearbody w. apply Rabs_le. 
    assert (J : (- / 8388608 * (1 + / 8388608) <= (e1 - e2) * w <= / 8388608 * (1 + / 8388608))%R) by nra.
    set (z := ((e1 - e2) * w)%R) in *. clearbody z. nra.
  - field. split; lra.
Qed.

Lemma ratio_exact a b : 1 <= a <= 16777216 -> 1 <= b <= 65536 ->
  Z.min 255 (Zfloor (256 * ratio a b)) = Z.min 255 (256 * a / b).
Proof.
  intros Ha Hb. unfold ratio. rewrite (rnd32_Z a), (rnd32_Z b) by lia.
  assert (B : (0 < IZR b)%R) by (apply IZR_lt; lia). assert (BI : (0 < / IZR b)%R) by now apply Rinv_0_lt_compat.
  assert (A : (0 < IZR a)%R) by (apply IZR_lt; lia).
  pose proof (Z.div_mod (256 * a) b ltac:(lia)) as DM. pose proof (Z.mod_pos_bound (256 * a) b ltac:(lia)) as MB.
  set (m := 256 * a / b) in *. set (r := (256 * a) mod b) in *. clearbody r.
  assert (M0 : 0 <= m) by (unfold m; apply Z.div_pos; lia). clearbody m.
  assert (LE : forall c, 0 <= c <= 256 -> c * b <= 256 * a -> (IZR c / 256 <= rnd32 (IZR a / IZR b))%R).
  { intros c Hc H. assert (G : rnd32 (IZR c / 256) = (IZR c / 256)%R).
    { apply rnd32_gen. replace (IZR c / 256)%R with (F2R (Float radix2 c (-8))).
      - apply gf32; lia.
      - unfold F2R. cbn [Fnum Fexp]. reflexivity. }
    rewrite <- G. apply rnd32_mono. apply Rmult_le_reg_r with (IZR b * 256)%R; [lra|].
    replace (IZR c / 256 * (IZR b * 256))%R with (IZR c * IZR b)%R by field.
    replace (IZR a / IZR b * (IZR b * 256))%R with (256 * IZR a)%R by (field; lra).
    rewrite <- !mult_IZR. apply IZR_le. exact H. }
  destruct (Z_lt_le_dec m 256) as [C|C].
  - f_equal. apply Zfloor_imp. split.
    + pose proof (LE m ltac:(lia) ltac:(lia)). lra.
    + rewrite plus_IZR.
      assert (UP : (IZR a / IZR b <= (IZR m + 1) / 256 - / (256 * IZR b))%R).
      { apply Rmult_le_reg_r with (IZR b * 256)%R; [lra|].
        replace (IZR a / IZR b * (IZR b * 256))%R with (256 * IZR a)%R by (field; lra).
        replace (((IZR m + 1) / 256 - / (256 * IZR b)) * (IZR b * 256))%R with (IZR m * IZR b + IZR b - 1)%R by (field; lra).
        rewrite <- !mult_IZR, <- plus_IZR, <- minus_IZR. apply IZR_le. lia. }
      assert (GAP : (/ 16777216 <= / (256 * IZR b))%R).
      { apply Rinv_le; [lra|]. assert (IZR b <= 65536)%R by (apply IZR_le; lia). lra. }
      assert (X1 : (IZR a / IZR b < 1)%R).
      { apply Rmult_lt_reg_r with (IZR b); [lra|]. replace (IZR a / IZR b * IZR b)%R with (IZR a) by (field; lra).
        rewrite Rmult_1_l. apply IZR_lt. nia. }
      assert (X0 : (0 < IZR a / IZR b)%R) by (unfold Rdiv; apply Rmult_lt_0_compat; lra).
      destruct (rnd32_rel (IZR a / IZR b)) as (e & E & R).
      { right. rewrite Rabs_right by lra. pose proof (bpow_le radix2 (-100) (-16) ltac:(lia)) as BL.
        apply Rle_trans with (1 := BL). change (bpow radix2 (-16)) with (/ 65536)%R.
        apply Rle_trans with (/ IZR b)%R; [apply Rinv_le; [lra|apply IZR_le; lia]|].
        unfold Rdiv. rewrite <- (Rmult_1_l (/ IZR b)) at 1. apply Rmult_le_compat_r; [lra|]. apply IZR_le. lia. }
      rewrite R. rewrite u32_val in E. apply Rabs_le_inv in E.
      set (x := (IZR a / IZR b)%R) in *. set (g := (/ (256 * IZR b))%R) in *. clearbody x g.
      assert (x * e < / 16777216)%R by nra. lra.
  - rewrite (Z.min_l 255 m) by lia. apply Z.min_l.
    pose proof (LE 256 ltac:(lia) ltac:(nia)) as L. apply Z.le_trans with 256; [lia|]. apply Zfloor_lub. simpl. lra.
Qed.

Lemma code_bounds a b : 1 <= a <= 2 ^ 63 -> 1 <= b <= 2 ^ 64 ->
  0 <= Z.min 255 (Zfloor (256 * ratio a b)) <= 255 /\
  (Rmin 1 (IZR a / IZR b) * (1 - / 4194304) - / 256 <= IZR (Z.min 255 (Zfloor (256 * ratio a b))) / 256 <= IZR a / IZR b * (1 + / 4194304))%R.
Proof.
  intros Ha Hb. pose proof (ratio_bounds a b Ha Hb) as RB. pose proof (bpow_gt_0 radix2 (-64)) as BG.
  destruct (ratio_rel a b Ha Hb) as (g & G & R). apply Rabs_le_inv in G.
  assert (X : (0 < IZR a / IZR b)%R).
  { unfold Rdiv. apply Rmult_lt_0_compat; [apply IZR_lt; lia|]. apply Rinv_0_lt_compat. apply IZR_lt. lia. }
  set (x := (IZR a / IZR b)%R) in *. set (q := ratio a b) in *. clearbody x q.
  pose proof (Zfloor_lb (256 * q)) as L. pose proof (Zfloor_ub (256 * q)) as U.
  assert (F0 : 0 <= Zfloor (256 * q)) by (apply Zfloor_lub; simpl; lra).
  split; [lia|].
  pose proof (Rmin_l 1 x) as M1. pose proof (Rmin_r 1 x) as M2.
  assert (QU : (q <= x * (1 + / 4194304))%R) by (rewrite R; nra).
  assert (QL : (x * (1 - / 4194304) <= q)%R) by (rewrite R; nra).
  destruct (Z_le_gt_dec (Zfloor (256 * q)) 255) as [C|C].
  - rewrite Z.min_r by lia. nra.
  - rewrite Z.min_l by lia. assert (256 <= IZR (Zfloor (256 * q)))%R by (apply IZR_le; lia). nra.
Qed.

Lemma decode k : 0 <= k <= 255 -> f32_fin (fract_loss k) = true /\ f32_val (fract_loss k) = (IZR k / 256)%R.
Proof.
  intros H. unfold fract_loss. destruct v256 as [W1 W2]. destruct (of_Z_val k) as [A B]; [lia|]. rewrite rnd32_Z in A by lia.
  destruct (div_val (f32_of_Z k) (f32_of_Z 256) 8) as [D1 D2]; auto; try lia.
  - rewrite W1. lra.
  - rewrite A, W1. assert (0 <= IZR k <= 255)%R by (split; apply IZR_le; lia). rewrite Rabs_right by lra. change (bpow radix2 8) with 256%R. lra.
  - split; [exact D2|]. rewrite D1, A, W1. apply rnd32_gen. replace (IZR k / 256)%R with (F2R (Float radix2 k (-8))).
    + apply gf32; lia.
    + unfold F2R. cbn [Fnum Fexp]. reflexivity.
Qed.
