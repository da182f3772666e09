From Coq Require Import Reals ZArith List Bool Lia Lra.
From Flocq Require Import Core.Core IEEE754.BinarySingleNaN.
From Verif Require Import Base Float32 TimeConv_model TimeConv_proof Resampler_model Resampler_spec Resampler_proof.
Import ListNotations.
Local Open Scope Z_scope.
Local Open Scope res_scope.

Lemma bpow20 : bpow radix2 20 = 1048576%R. Proof. reflexivity. Qed.
Lemma rnd_20 x : generic_format radix2 (SpecFloat.fexp 24 128) x -> (bpow radix2 (-100) <= Rabs x)%R ->
  rnd32 (x * 1048576) = (x * 1048576)%R.
Proof.
  intros G B. apply rnd32_gen. destruct (Req_dec x 0) as [->|NZ]; [rewrite Rmult_0_l; apply generic_format_0|].
  rewrite <- bpow20.
  unfold generic_format, scaled_mantissa, cexp in *. rewrite mag_mult_bpow by exact NZ.
  assert (MG : -99 <= mag radix2 x).
  { assert (Q : (bpow radix2 (-99 - 1) <= Rabs x)%R) by exact B. apply mag_ge_bpow in Q. lia. }
  assert (F : forall m, -99 <= m -> SpecFloat.fexp 24 128 m = m - 24).
  { intros m Hm. unfold SpecFloat.fexp, SpecFloat.emin. lia. }
  rewrite F in G by lia. rewrite F by lia.
  assert (S : (x * bpow radix2 20 * bpow radix2 (- (mag radix2 x + 20 - 24)) = x * bpow radix2 (- (mag radix2 x - 24)))%R).
  { rewrite Rmult_assoc, <- bpow_plus. f_equal. f_equal. lia. }
  rewrite S. rewrite G at 1. unfold F2R. cbn [Fnum Fexp]. rewrite Rmult_assoc, <- bpow_plus. f_equal. f_equal. lia.
Qed.
Lemma one_val20 : f32_val (f32_of_Z qt_one) = 1048576%R /\ f32_fin (f32_of_Z qt_one) = true.
Proof. change qt_one with 1048576. apply f32_of_Z_exact. lia. Qed.

(* the conversion to fixed point rounds down *)
Lemma to_fixed_val x : f32_fin x = true -> (0 <= f32_val x <= 4095)%R ->
  to_fixed x = Ok (Zfloor (f32_val x * 1048576)).
Proof.
  intros F B. destruct one_val20 as [V W].
  destruct (mul_val x (f32_of_Z qt_one) 40 ltac:(lia) F W) as [M1 M2].
  { rewrite V, pow_IZR by lia. rewrite Rabs_right by lra. change (2 ^ 40) with 1099511627776. lra. }
  rewrite V in M1.
  assert (T : Btrunc (f32_mul x (f32_of_Z qt_one)) = Zfloor (f32_val x * 1048576)).
  { apply eq_IZR. rewrite (Btrunc_correct 24 128 _), FIX0_round. unfold f32_val in M1 at 1. rewrite M1. f_equal.
    destruct (Rle_lt_dec (bpow radix2 (-100)) (f32_val x)) as [L|L].
    - rewrite rnd_20; [| apply generic_format_B2R | rewrite Rabs_right by lra; exact L]. apply Ztrunc_floor. lra.
    - assert (S : (f32_val x * 1048576 <= bpow radix2 (-80))%R).
      { replace (bpow radix2 (-80)) with (bpow radix2 (-100) * 1048576)%R by (rewrite <- bpow20, <- bpow_plus; reflexivity). lra. }
      assert (R0 : (0 <= rnd32 (f32_val x * 1048576))%R) by (rewrite <- rnd32_0; apply rnd32_mono; lra).
      assert (R1 : (rnd32 (f32_val x * 1048576) <= bpow radix2 (-80))%R) by (rewrite <- (rnd32_pow (-80)) by lia; apply rnd32_mono; exact S).
      assert (S80 : (bpow radix2 (-80) < 1)%R) by (change 1%R with (bpow radix2 0); apply bpow_lt; lia).
      rewrite Ztrunc_floor by exact R0. rewrite !(Zfloor_imp 0); [reflexivity| simpl; lra | simpl; lra]. }
  unfold to_fixed, to_int. rewrite M2, T. cbn [andb].
  assert (FB : 0 <= Zfloor (f32_val x * 1048576) <= 4293918720).
  { split; [apply Zfloor_lub; simpl; lra|]. apply le_IZR. apply Rle_trans with (1 := Zfloor_lb _). lra. }
  change (t_min ts_ty) with 0. change (t_max ts_ty) with 4294967295.
  rewrite (proj2 (Z.leb_le 0 _)) by lia. rewrite (proj2 (Z.leb_le _ 4294967295)) by lia. reflexivity.
Qed.

Lemma mul_fin x y : f32_fin x = true -> f32_fin y = true ->
  (f32_fin (f32_mul x y) = true /\ f32_val (f32_mul x y) = rnd32 (f32_val x * f32_val y)) \/ f32_mul x y = B754_infinity (xorb (Bsign x) (Bsign y)).
Proof.
  intros Fx Fy. pose proof (Bmult_correct 24 128 _ _ mode_NE x y) as D.
  destruct (Rlt_bool _ _) in D.
  - left. destruct D as (D1 & D2 & _). unfold f32_fin, f32_mul in *. rewrite D2, Fx, Fy. split; [reflexivity|exact D1].
  - right. unfold f32_mul. set (z := Bmult mode_NE x y) in *. cbn in D. destruct z; cbn in D; try discriminate D. f_equal. congruence.
Qed.

Lemma window_cases c : c_window c = 16 \/ c_window c = 32 \/ c_window c = 64.
Proof. unfold c_window. destruct (c_prof c); cbn; auto. Qed.

Definition frame_ok (c : cfg) : Prop := 10 * c_window c < 9 * c_frame c /\ c_frame c <= 2048.

Lemma cutoff_val : (f32_val cutoff = 15099494 / 16777216)%R /\ f32_fin cutoff = true.
Proof.
  destruct (f32_make_exact 15099494 (-24) ltac:(lia) ltac:(lia)) as [A B]. split; [|exact B]. unfold cutoff. rewrite A.
  unfold F2R. cbn [Fnum Fexp]. rewrite (bpow_opp radix2 24 : bpow radix2 (-24) = _). change (bpow radix2 24) with 16777216%R. reflexivity.
Qed.

Lemma prod3 a b c : (- / 16777216 <= a <= / 16777216 -> - / 16777216 <= b <= / 16777216 -> - / 16777216 <= c <= / 16777216 ->
  (1 + a) * (1 + b) * (1 + c) <= 1 + / 4000000)%R.
Proof.
  intros A B C. apply Rle_trans with ((1 + / 16777216) * (1 + / 16777216) * (1 + / 16777216))%R; [|lra].
  apply Rmult_le_compat; [|lra| |lra].
  - apply Rmult_le_pos; lra.
  - apply Rmult_le_compat; lra.
Qed.

Lemma scaling_ok c i o m : frame_ok c -> f32_nan (f32_mul (f32_div (f32_of_Z i) (f32_of_Z o)) m) = false ->
  exists r, set_scaling c i o m = Ok r /\
    forall p, r = Some p -> par_ok c p /\ f32_fin (f32_mul (f32_div (f32_of_Z i) (f32_of_Z o)) m) = true /\
      (0 < f32_val (f32_mul (f32_div (f32_of_Z i) (f32_of_Z o)) m) <= 128)%R /\
      p_dt p = Zfloor (f32_val (f32_mul (f32_div (f32_of_Z i) (f32_of_Z o)) m) * 1048576).
Proof.
  intros FO NN. unfold set_scaling. cbv zeta.
  set (ns := f32_mul (f32_div (f32_of_Z i) (f32_of_Z o)) m) in *. clearbody ns.
  destruct ((i =? 0) || (o =? 0)); [exists None; split; [reflexivity|intros p E; discriminate E]|].
  destruct (f32_le ns f32_zero) eqn:LE; [exists None; split; [reflexivity|intros p E; discriminate E]|].
  destruct (f32_lt (f32_of_Z (c_frame c - 1)) (f32_mul (f32_of_Z (c_window c)) ns)) eqn:LT; [exists None; split; [reflexivity|intros p E; discriminate E]|].
  pose proof (window_cases c) as WC. destruct FO as [FO1 FO2].
  destruct (f32_of_Z_exact (c_frame c - 1) ltac:(lia)) as [FV FF].
  destruct (f32_of_Z_exact (c_window c) ltac:(lia)) as [WV WF].
  assert (WR : (16 <= IZR (c_window c) <= 64)%R) by (destruct WC as [->|[->| ->]]; lra).
  (* ns is a positive number *)
  assert (NF : f32_fin ns = true).
  { destruct ns as [s|s| |s mm e pf]; try reflexivity; try discriminate NN.
    destruct s; [discriminate LE|]. exfalso. revert LT.
    destruct WC as [->|[->| ->]]; (destruct (f32_of_Z (c_frame c - 1)) as [b|b| |b mm e pf]; try discriminate FF; destruct b; vm_compute; discriminate). }
  assert (NP : (0 < f32_val ns)%R) by (apply le_false in LE; [exact LE|exact NF|reflexivity]).
  assert (NB : (IZR (c_window c) * f32_val ns <= IZR (c_frame c))%R).
  { destruct (mul_fin (f32_of_Z (c_window c)) ns WF NF) as [[M1 M2]|M].
    - apply lt_false in LT; auto. rewrite M2, FV, WV in LT. apply Rnot_lt_le. intros G. apply Rlt_le, rnd32_mono in G. rewrite rnd32_Z in G by lia.
      assert (IZR (c_frame c - 1) < IZR (c_frame c))%R by (apply IZR_lt; lia). lra.
    - exfalso. rewrite M in LT. revert LT.
      assert (SN : Bsign ns = false).
      { destruct ns as [s|s| |s mm e pf]; try discriminate NF; cbn in NP |- *; [lra|]. destruct s; [|reflexivity]. exfalso.
        revert NP. unfold f32_val, B2R. intros NP. apply (Rlt_not_le _ _ NP). apply F2R_le_0. cbn. lia. }
      rewrite SN. destruct WC as [->|[->| ->]]; (destruct (f32_of_Z (c_frame c - 1)) as [b|b| |b mm e pf]; try discriminate FF; destruct b; vm_compute; discriminate). }
  assert (FR : (IZR (c_frame c) <= 2048)%R) by (apply IZR_le; lia).
  assert (N128 : (f32_val ns <= 128)%R) by nra.
  assert (DT : to_fixed ns = Ok (Zfloor (f32_val ns * 1048576))) by (apply to_fixed_val; [exact NF|lra]).
  assert (DB : 0 <= Zfloor (f32_val ns * 1048576) <= c_frame c * 65536).
  { split; [apply Zfloor_lub; simpl; lra|]. apply le_IZR. apply Rle_trans with (1 := Zfloor_lb _). rewrite mult_IZR.
    apply Rle_trans with (IZR (c_window c) * f32_val ns * 65536)%R; [|nra]. nra. }
  destruct cutoff_val as [CV CF].
  destruct (f32_lt (f32_of_Z 1) ns) eqn:L1.
  - apply f32_lt_spec in L1; [|reflexivity|exact NF]. rewrite (proj1 (f32_of_Z_exact 1 ltac:(lia))) in L1.
    (* half of the window *)
    assert (Q1 : (17 <= IZR (c_window c) / f32_val cutoff <= 72)%R) by (rewrite CV; destruct WC as [->|[->| ->]]; lra).
    destruct (div_val (f32_of_Z (c_window c)) cutoff 10 ltac:(lia) ltac:(rewrite CV; lra) WF) as [D1 D2].
    { rewrite WV. rewrite pow_IZR by lia. change (2 ^ 10) with 1024. rewrite Rabs_right; lra. }
    rewrite WV in D1.
    assert (P100 : (bpow radix2 (-100) <= 1 / 1000000)%R) by (rewrite pow100; lra).
    destruct (rnd32_rel (IZR (c_window c) / f32_val cutoff)) as (e1 & E1 & R1).
    { right. rewrite Rabs_right by lra. lra. }
    set (h1 := f32_div (f32_of_Z (c_window c)) cutoff) in *.
    assert (U : u32 = (/ 16777216)%R) by apply u32_val.
    apply Rabs_le_inv in E1. rewrite U in E1.
    assert (H1B : (16 <= f32_val h1 <= 73)%R) by (rewrite D1, R1; nra).
    assert (P2 : (16 <= f32_val h1 * f32_val ns <= 73 * 128)%R) by nra.
    destruct (mul_val h1 ns 20 ltac:(lia) D2 NF) as [M1 M2].
    { rewrite pow_IZR by lia. change (2 ^ 20) with 1048576. rewrite Rabs_right; lra. }
    destruct (rnd32_rel (f32_val h1 * f32_val ns)) as (e2 & E2 & R2).
    { right. rewrite Rabs_right by lra. lra. }
    apply Rabs_le_inv in E2. rewrite U in E2.
    set (h2 := f32_mul h1 ns) in *.
    assert (H2U : (f32_val h2 <= 2277)%R).
    { rewrite M1, R2, D1, R1, CV.
      replace (IZR (c_window c) / (15099494 / 16777216) * (1 + e1) * f32_val ns * (1 + e2))%R
        with ((IZR (c_window c) * f32_val ns) * ((1 + e1) * (1 + e2)) * (16777216 / 15099494))%R by field.
      assert (E12 : (0 <= (1 + e1) * (1 + e2) <= 1 + / 4000000)%R) by nra.
      assert (A : (IZR (c_window c) * f32_val ns * ((1 + e1) * (1 + e2)) <= 2048 * (1 + / 4000000))%R) by nra. lra. }
    assert (H2L : (15 <= f32_val h2)%R) by (rewrite M1, R2; nra).
    rewrite (to_fixed_val h2) by (auto; lra). cbn [bind].
    set (half := Zfloor (f32_val h2 * 1048576)).
    assert (HH : (IZR half <= f32_val h2 * 1048576)%R) by apply Zfloor_lb.
    assert (HL : 1048576 * 15 <= half) by (apply Zfloor_lub; rewrite mult_IZR; lra).
    destruct ((c_frame c <? fixed_size (qceil (Base.u32 (qt_frame c - half)))) || (c_frame c <? fixed_size (qfloor half) + 1)) eqn:CH.
    { exists None; split; [reflexivity|intros p E; discriminate E]. }
    apply orb_false_iff in CH. destruct CH as [_ CH]. apply Z.ltb_ge in CH.
    assert (HU : half < 4294967296) by (apply lt_IZR; lra).
    rewrite qfloor_eq in CH by lia. rewrite fixed_size_eq, Z.div_mul in CH by lia.
    (* step *)
    assert (Q3 : (1 / 200 <= f32_val cutoff / f32_val ns <= 1)%R).
    { rewrite CV. split.
      - apply Rmult_le_reg_r with (f32_val ns); [lra|]. replace (15099494 / 16777216 / f32_val ns * f32_val ns)%R with (15099494 / 16777216)%R by (field; lra). lra.
      - apply Rmult_le_reg_r with (f32_val ns); [lra|]. replace (15099494 / 16777216 / f32_val ns * f32_val ns)%R with (15099494 / 16777216)%R by (field; lra). lra. }
    destruct (div_val cutoff ns 10 ltac:(lia) ltac:(lra) CF) as [D3 D4].
    { rewrite pow_IZR by lia. change (2 ^ 10) with 1024. rewrite Rabs_right; lra. }
    destruct (rnd32_rel (f32_val cutoff / f32_val ns)) as (e3 & E3 & R3).
    { right. rewrite Rabs_right by lra. lra. }
    apply Rabs_le_inv in E3. rewrite U in E3.
    assert (S1 : (f32_val (f32_div cutoff ns) <= 1)%R) by (rewrite D3; rewrite <- (rnd32_Z 1) by lia; apply rnd32_mono; lra).
    assert (S0 : (1 / 201 <= f32_val (f32_div cutoff ns))%R) by (rewrite D3, R3; nra).
    rewrite (to_fixed_val (f32_div cutoff ns)) by (auto; lra). rewrite DT. cbn [bind].
    eexists. split; [reflexivity|]. intros p E. assert (EP : p = mkPar half (Zfloor (f32_val (f32_div cutoff ns) * 1048576)) (Zfloor (f32_val ns * 1048576))) by congruence.
    subst p. clear E. cbn [p_half p_step p_dt]. split; [|repeat split; auto; lra].
    set (step := Zfloor (f32_val (f32_div cutoff ns) * 1048576)).
    assert (SH : (IZR step <= f32_val (f32_div cutoff ns) * 1048576)%R) by apply Zfloor_lb.
    assert (SL : 1 <= step) by (apply Zfloor_lub; lra).
    assert (SU : step <= 1048576) by (apply le_IZR; lra).
    unfold par_ok. cbn [p_half p_step p_dt]. repeat split; try lia.
    (* argument in the table *)
    assert (HS : (IZR (half * step) <= IZR (c_window c) * (1099511627776 + 500000))%R).
    { rewrite mult_IZR. apply IZR_le in SL. assert (0 <= IZR half)%R by (apply IZR_le; lia).
      apply Rle_trans with ((f32_val h2 * 1048576) * (f32_val (f32_div cutoff ns) * 1048576))%R.
      { apply Rmult_le_compat; lra. }
      rewrite M1, R2, D3, R3, D1, R1.
      replace (IZR (c_window c) / f32_val cutoff * (1 + e1) * f32_val ns * (1 + e2) * 1048576 * (f32_val cutoff / f32_val ns * (1 + e3) * 1048576))%R
        with (IZR (c_window c) * ((1 + e1) * (1 + e2) * (1 + e3)) * 1099511627776)%R by (rewrite CV; field; lra).
      pose proof (prod3 e1 e2 e3 E1 E2 E3). nra. }
    assert (HZ : half * step <= c_window c * (1099511627776 + 500000)) by (apply le_IZR; rewrite (mult_IZR (c_window c)); rewrite plus_IZR; exact HS).
    unfold arg_max. clear - HZ. apply Z.div_lt_upper_bound; [lia|].
    unfold c_window in *. destruct (c_prof c); cbn [window_size window_interp_bits] in *.
    + change (2 ^ (20 - 6)) with 16384. lia.
    + change (2 ^ (20 - 7)) with 8192. lia.
    + change (2 ^ (20 - 9)) with 2048. lia.
  - assert (TC : to_fixed cutoff = Ok 943718) by (vm_compute; reflexivity). rewrite TC. cbn [bind].
    assert (TH : exists h, to_fixed (f32_div (f32_of_Z (c_window c)) cutoff) = Ok h /\ 1048576 <= h /\ h / 1048576 + 1 <= c_frame c /\ (h * 943718 + 1048575) / 1048576 < arg_max c).
    { unfold arg_max, c_window in *. destruct (c_prof c); cbn [window_size window_interp_bits] in *.
      - exists 18641352. split; [vm_compute; reflexivity|]. split; [lia|]. split; [lia|]. vm_compute. reflexivity.
      - exists 37282704. split; [vm_compute; reflexivity|]. split; [lia|]. split; [lia|]. vm_compute. reflexivity.
      - exists 74565408. split; [vm_compute; reflexivity|]. split; [lia|]. split; [lia|]. vm_compute. reflexivity. }
    destruct TH as (h & TH & H1 & H2 & H3). rewrite TH, DT. cbn [bind]. eexists. split; [reflexivity|].
    intros p E. assert (EP : p = mkPar h 943718 (Zfloor (f32_val ns * 1048576))) by congruence. subst p. clear E.
    cbn [p_half p_step p_dt]. split; [|repeat split; auto; lra].
    unfold par_ok. cbn [p_half p_step p_dt]. repeat split; lia.
Qed.
