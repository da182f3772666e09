(** Facts about the parsing of durations and sizes. *)
From Coq Require Import Reals Lra Lia.
From Flocq Require Import Core.Core IEEE754.BinarySingleNaN.
From Flocq Require Relative.
From Verif Require Import Base Base_lemmas Float32 PcmFloat_proof ParseUnits_model ParseUnits_spec.
Local Open Scope Z_scope.

Definition sg (neg : bool) : Z := if neg then -1 else 1.

Lemma ratio_val neg p q : (Rabs (IZR (Zpos p) / IZR (Zpos q)) <= bpow radix2 63)%R ->
  f64_val (ratio neg p q) = rnd64 (IZR (sg neg * Zpos p) / IZR (Zpos q)) /\ f64_fin (ratio neg p q) = true.
Proof.
  intros B. unfold ratio. set (P := Bdiv_correct_aux 53 1024 eq_refl eq_refl mode_NE neg p 0 false q 0).
  unfold f64_val, f64_fin. rewrite B2R_SF2B, is_finite_SF2B.
  pose proof (proj2 P) as H. 
  assert (E : (F2R (Float radix2 (SpecFloat.cond_Zopp neg (Zpos p)) 0) / F2R (Float radix2 (SpecFloat.cond_Zopp false (Zpos q)) 0))%R
    = (IZR (sg neg * Zpos p) / IZR (Zpos q))%R).
  { unfold F2R. cbn [Fnum Fexp]. change (bpow radix2 0) with 1%R. rewrite !Rmult_1_r. destruct neg; reflexivity. }
  rewrite E in H. rewrite Rlt_bool_true in H.
  - destruct H as (H1 & H2 & _). split; [exact H1|exact H2].
  - apply Rle_lt_trans with (bpow radix2 63); [|apply bpow_lt; lia].
    apply abs_round_le_generic; try typeclasses eauto.
    + apply generic_format_bpow. unfold SpecFloat.fexp, SpecFloat.emin. lia.
    + assert (A : (Rabs (IZR (sg neg * Z.pos p) / IZR (Z.pos q)) = Rabs (IZR (Z.pos p) / IZR (Z.pos q)))%R).
      { unfold Rdiv. rewrite !Rabs_mult. f_equal. rewrite <- !abs_IZR. f_equal. destruct neg; unfold sg; lia. }
      rewrite A. exact B.
Qed.

(** A decimal number with [k] digits after the point. *)
Lemma decimal_val neg m k : 0 <= m -> 0 <= k -> (IZR m / IZR (10 ^ k) <= bpow radix2 63)%R ->
  f64_val (power_value neg m 10 (0 - k)) = rnd64 (IZR (sg neg * m) / IZR (10 ^ k)) /\
  f64_fin (power_value neg m 10 (0 - k)) = true.
Proof.
  intros Hm Hk B. assert (T : 0 < 10 ^ k) by (apply Z.pow_pos_nonneg; lia).
  destruct m as [|p|p]; [|unfold power_value|lia].
  - cbn [power_value]. split; [|reflexivity]. rewrite Z.mul_0_r. unfold Rdiv. rewrite Rmult_0_l.
    unfold rnd64. rewrite round_0 by typeclasses eauto. reflexivity.
  - replace (Z.max (0 - k) 0) with 0 by lia. replace (Z.max (- (0 - k)) 0) with k by lia.
    change (10 ^ 0) with 1. rewrite Z.mul_1_r. cbn [Z.to_pos].
    rewrite <- (Z2Pos.id (10 ^ k)) at 2 by exact T. apply ratio_val. rewrite Z2Pos.id by exact T.
    rewrite Rabs_pos_eq; [exact B|]. apply Rmult_le_pos; [apply IZR_le; lia|]. apply Rlt_le, Rinv_0_lt_compat, IZR_lt, T.
Qed.

Lemma rnd64_err x : exists e t, (Rabs e <= bpow radix2 (-53))%R /\ (Rabs t <= bpow radix2 (-1075))%R /\ rnd64 x = (x * (1 + e) + t)%R.
Proof.
  destruct (Relative.error_N_FLT radix2 (-1074) 53 eq_refl (fun x => negb (Z.even x)) x) as (e & t & He & Ht & _ & E).
  exists e, t. split; [|split; [|exact E]].
  - eapply Rle_trans; [exact He|]. change (/ 2)%R with (bpow radix2 (-1)). rewrite <- bpow_plus. apply bpow_le. lia.
  - eapply Rle_trans; [exact Ht|]. change (/ 2)%R with (bpow radix2 (-1)). rewrite <- bpow_plus. apply bpow_le. lia.
Qed.

Lemma rnd64_int z : Z.abs z < 2 ^ 53 -> rnd64 (IZR z) = IZR z.
Proof.
  intros H. unfold rnd64. apply round_generic; [typeclasses eauto|].
  replace (IZR z) with (F2R (Float radix2 z 0)) by (unfold F2R; cbn [Fnum Fexp]; change (bpow radix2 0) with 1%R; ring). apply gf64; lia.
Qed.

Lemma mul_val x m : f64_fin x = true -> 1 <= m < 2 ^ 53 -> (Rabs (f64_val x * IZR m) <= bpow radix2 64)%R ->
  f64_val (f64_mul x (f64_of_Z m)) = rnd64 (f64_val x * IZR m) /\ f64_fin (f64_mul x (f64_of_Z m)) = true.
Proof.
  intros Fx Hm B. destruct (f64_make_exact m 0) as [Vm Fm]; [lia|lia|]. fold (f64_of_Z m) in Vm, Fm.
  change (bpow radix2 0) with 1%R in Vm. rewrite Rmult_1_r in Vm.
  pose proof (Bmult_correct 53 1024 _ _ mode_NE x (f64_of_Z m)) as H.
  fold (f64_val x) (f64_val (f64_of_Z m)) in H. rewrite Vm in H. rewrite Rlt_bool_true in H.
  - destruct H as (H1 & H2 & _). split; [exact H1|]. unfold f64_fin, f64_mul. rewrite H2. unfold f64_fin in Fx, Fm. rewrite Fx, Fm. reflexivity.
  - apply Rle_lt_trans with (bpow radix2 64); [|apply bpow_lt; lia].
    apply abs_round_le_generic; try typeclasses eauto; [|exact B].
    apply generic_format_bpow. unfold SpecFloat.fexp, SpecFloat.emin. lia.
Qed.

(** round() and the cast. *)
Lemma round_val x : f64_fin x = true -> f64_val (f64_round x) = IZR (ZnearestA (f64_val x)) /\ f64_fin (f64_round x) = true /\
  Btrunc (f64_round x) = ZnearestA (f64_val x).
Proof.
  intros F. destruct (Bnearbyint_correct 53 1024 eq_refl mode_NA x) as (V & G & _).
  rewrite round_FIX_IZR in V. cbn [round_mode] in V. unfold f64_fin, f64_val, f64_round. split; [exact V|]. split; [etransitivity; [exact G|exact F]|].
  pose proof (Btrunc_correct 53 1024 eq_refl (Bnearbyint mode_NA x)) as T. rewrite round_FIX_IZR in T.
  apply eq_IZR in T. etransitivity; [exact T|]. etransitivity; [apply f_equal; exact V|]. apply Ztrunc_IZR.
Qed.


Lemma big_val s e : Z.abs s <= 1 -> 0 <= e <= 512 -> f64_val (f64_of_Z (s * 2 ^ e)) = IZR (s * 2 ^ e) /\ f64_fin (f64_of_Z (s * 2 ^ e)) = true.
Proof.
  intros Hs He. pose proof (binary_normalize_correct 53 1024 _ _ mode_NE (s * 2 ^ e) 0 false) as H. cbv zeta in H.
  assert (E : F2R (Float radix2 (s * 2 ^ e) 0) = F2R (Float radix2 s e)).
  { unfold F2R. cbn [Fnum Fexp]. change (bpow radix2 0) with 1%R. rewrite Rmult_1_r, mult_IZR. f_equal. rewrite <- (IZR_Zpower radix2) by lia. reflexivity. }
  assert (E2 : F2R (Float radix2 s e) = IZR (s * 2 ^ e)).
  { rewrite <- E. unfold F2R. cbn [Fnum Fexp]. change (bpow radix2 0) with 1%R. apply Rmult_1_r. }
  rewrite E in H. rewrite round_generic in H; [|apply valid_rnd_round_mode|apply gf64; lia].
  rewrite Rlt_bool_true in H.
  - destruct H as (H1 & H2 & _). split; [rewrite <- E2; exact H1|exact H2].
  - rewrite E2, <- abs_IZR. apply Rle_lt_trans with (IZR (2 ^ 512)).
    + apply IZR_le. rewrite Z.abs_mul. assert (2 ^ e <= 2 ^ 512) by (apply Z.pow_le_mono_r; lia). assert (0 < 2 ^ e) by (apply Z.pow_pos_nonneg; lia).
      rewrite (Z.abs_eq (2 ^ e)) by lia. nia.
    + change (2 ^ 512) with (radix2 ^ 512). rewrite IZR_Zpower by lia. apply bpow_lt. lia.
Qed.

Lemma nearest_err x : (Rabs (IZR (ZnearestA x) - x) <= / 2)%R.
Proof. rewrite <- Rabs_Ropp, Ropp_minus_distr. apply Znearest_half. Qed.

(** The whole computation on a number of [m / 10 ^ k] with a multiplier. *)
Definition result (neg : bool) (m k mult : Z) : f64 := f64_round (f64_mul (power_value neg m 10 (0 - k)) (f64_of_Z mult)).

Lemma result_val neg m k mult : 0 <= m -> 0 <= k -> 1 <= mult < 2 ^ 53 ->
  (IZR m / IZR (10 ^ k) * IZR mult <= bpow radix2 62)%R ->
  exists r, f64_val (result neg m k mult) = IZR r /\ f64_fin (result neg m k mult) = true /\ Btrunc (result neg m k mult) = r /\
    (Rabs (IZR r - IZR (sg neg) * (IZR m / IZR (10 ^ k) * IZR mult)) <= 501 / 1000 + IZR m / IZR (10 ^ k) * IZR mult / IZR (2 ^ 51))%R /\
    Z.abs r < 2 ^ 63 /\ (neg = false -> 0 <= r) /\
    (k = 0 -> m * mult < 2 ^ 53 -> r = sg neg * (m * mult)).
Proof.
  intros Hm Hk Hu B. assert (T : 0 < 10 ^ k) by (apply Z.pow_pos_nonneg; lia).
  set (X := (IZR m / IZR (10 ^ k))%R) in *.
  assert (X0 : (0 <= X)%R) by (apply Rmult_le_pos; [apply IZR_le; lia|]; apply Rlt_le, Rinv_0_lt_compat, IZR_lt, T).
  assert (M1 : (1 <= IZR mult)%R) by (apply IZR_le; lia).
  assert (M2 : (IZR mult <= IZR (2 ^ 53))%R) by (apply IZR_le; lia).
  assert (BX : (X <= bpow radix2 62)%R) by nra.
  assert (BX3 : (bpow radix2 62 <= bpow radix2 63)%R) by (apply bpow_le; lia).
  destruct (decimal_val neg m k Hm Hk) as [V F]; [fold X; lra|].
  assert (SX : (IZR (sg neg * m) / IZR (10 ^ k) = IZR (sg neg) * X)%R) by (rewrite mult_IZR; unfold X, Rdiv; ring).
  rewrite SX in V. set (s := IZR (sg neg)) in *.
  assert (S1 : (s = 1 \/ s = -1)%R) by (unfold s; destruct neg; [right|left]; reflexivity).
  destruct (rnd64_err (s * X)) as (e & t & He & Ht & E1).
  assert (Q1 : (Rabs e <= / IZR (2 ^ 53))%R) by (eapply Rle_trans; [exact He|apply Req_le; reflexivity]).
  assert (Q2 : (Rabs t <= / IZR (2 ^ 70))%R).
  { eapply Rle_trans; [exact Ht|]. change (/ IZR (2 ^ 70))%R with (bpow radix2 (-70)). apply bpow_le. lia. }
  clear He Ht. apply Rabs_le_inv in Q1, Q2.
  set (W := (X * IZR mult)%R) in *. assert (W0 : (0 <= W)%R) by (unfold W; nra).
  change (bpow radix2 62) with (IZR (2 ^ 62)) in *.
  assert (P1 : exists e1 t1, (- / IZR (2 ^ 53) <= e1 <= / IZR (2 ^ 53))%R /\ (- / IZR (2 ^ 17) <= t1 <= / IZR (2 ^ 17))%R /\
     (rnd64 (s * X) * IZR mult = s * W * (1 + e1) + t1)%R).
  { exists e, (t * IZR mult)%R. split; [exact Q1|]. split.
    - assert (Y : (/ IZR (2 ^ 70) * IZR (2 ^ 53) = / IZR (2 ^ 17))%R) by (vm_compute IZR; field). nra.
    - rewrite E1. unfold W. ring. }
  destruct P1 as (e1 & t1 & Qe & Qt & E2).
  assert (N53 : (/ IZR (2 ^ 53) <= / 1000)%R) by (apply Rinv_le; [lra|apply IZR_le; lia]).
  assert (N53p : (0 < / IZR (2 ^ 53))%R) by (apply Rinv_0_lt_compat, IZR_lt; lia).
  assert (N17 : (/ IZR (2 ^ 17) <= / 10000)%R) by (apply Rinv_le; [lra|apply IZR_le; lia]).
  assert (B2 : (Rabs (rnd64 (s * X) * IZR mult) <= bpow radix2 64)%R).
  { rewrite E2. change (bpow radix2 64) with (IZR (2 ^ 64)). assert (L : (IZR (2 ^ 62) * 4 = IZR (2 ^ 64))%R) by (rewrite <- mult_IZR; reflexivity).
    assert (L1 : (1 <= IZR (2 ^ 62))%R) by (apply IZR_le; lia). apply Rabs_le. destruct S1 as [-> | ->]; nra. }
  destruct (mul_val _ mult F Hu) as [V2 F2]; [rewrite V; exact B2|]. rewrite V in V2.
  destruct (round_val _ F2) as (V3 & F3 & T3). rewrite V2 in V3, T3.
  set (y := rnd64 (rnd64 (s * X) * IZR mult)) in *.
  exists (ZnearestA y). split; [exact V3|]. split; [exact F3|]. split; [exact T3|].
  destruct (rnd64_err (rnd64 (s * X) * IZR mult)) as (e' & t' & He' & Ht' & E1').
  assert (Q1' : (Rabs e' <= / IZR (2 ^ 53))%R) by (eapply Rle_trans; [exact He'|apply Req_le; reflexivity]).
  assert (Q2' : (Rabs t' <= / IZR (2 ^ 17))%R).
  { eapply Rle_trans; [exact Ht'|]. change (/ IZR (2 ^ 17))%R with (bpow radix2 (-17)). apply bpow_le. lia. }
  clear He' Ht'. apply Rabs_le_inv in Q1', Q2'. fold y in E1'. rewrite E2 in E1'.
  assert (N51 : (W / IZR (2 ^ 51) = 4 * (W * / IZR (2 ^ 53)))%R) by (vm_compute IZR; field).
  assert (Ey : (Rabs (y - s * W) <= / 1000 + W / IZR (2 ^ 51))%R).
  { rewrite N51, E1'. set (u := (/ IZR (2 ^ 53))%R) in *.
    replace ((s * W * (1 + e1) + t1) * (1 + e') + t' - s * W)%R with (s * (W * (e1 + e' + e1 * e')) + t1 * (1 + e') + t')%R by ring.
    assert (A1 : (- (3 * u) <= e1 + e' + e1 * e' <= 3 * u)%R) by nra.
    assert (A2 : (- (3 * (W * u)) <= W * (e1 + e' + e1 * e') <= 3 * (W * u))%R) by nra.
    assert (A3 : (- (/ 2000) <= t1 * (1 + e') <= / 2000)%R) by nra.
    assert (A4 : (0 <= W * u)%R) by nra.
    apply Rabs_le. destruct S1 as [-> | ->]; lra. }
  pose proof (nearest_err y) as En.
  assert (Er : (Rabs (IZR (ZnearestA y) - s * W) <= 501 / 1000 + W / IZR (2 ^ 51))%R).
  { replace (IZR (ZnearestA y) - s * W)%R with ((IZR (ZnearestA y) - y) + (y - s * W))%R by ring.
    eapply Rle_trans; [apply Rabs_triang|]. lra. }
  split; [exact Er|]. split.
  - apply lt_IZR. rewrite abs_IZR. apply Rabs_le_inv in Er.
    assert (L : (IZR (2 ^ 62) * 2 = IZR (2 ^ 63))%R) by (rewrite <- mult_IZR; reflexivity).
    assert (L1 : (1000 <= IZR (2 ^ 62))%R) by (apply IZR_le; lia).
    assert (W / IZR (2 ^ 51) <= IZR (2 ^ 62) / 4)%R by (rewrite N51; nra).
    apply Rabs_lt. destruct S1 as [S1 | S1]; rewrite S1 in Er; lra.
  - split.
    + intros ->. unfold s in *. cbn [sg] in *.
      assert (Y0 : (0 <= y)%R).
      { unfold y, rnd64. apply round_ge_generic; try typeclasses eauto; [apply generic_format_0|].
        apply Rmult_le_pos; [|lra]. apply round_ge_generic; try typeclasses eauto; [apply generic_format_0|]. lra. }
      assert (Z0 : ZnearestA (IZR 0) <= ZnearestA y) by (apply Zrnd_le; [typeclasses eauto|exact Y0]).
      rewrite Zrnd_IZR in Z0 by typeclasses eauto. exact Z0.
    + intros K0 L. subst k. change (10 ^ 0) with 1 in *.
      assert (XE : X = IZR m) by (unfold X, Rdiv; field). unfold y, s. rewrite XE, <- mult_IZR.
      assert (Ls : Z.abs (sg neg) = 1) by (destruct neg; reflexivity).
      rewrite rnd64_int by nia. rewrite <- mult_IZR, rnd64_int by nia. rewrite Zrnd_IZR by typeclasses eauto. ring.
Qed.

(** ** Reading the text *)
Lemma span_digits ds r : digits ds -> match r with c :: _ => is_digit c = false | [] => True end -> span is_digit (ds ++ r) = (ds, r).
Proof.
  intros D R. induction D as [|c t C D IH]; cbn [app span].
  - destruct r as [|c r]; cbn [span]; [reflexivity|]. rewrite R. reflexivity.
  - replace (is_digit c) with true by (unfold is_digit; lia). rewrite IH. reflexivity.
Qed.
Lemma number_of_acc ds a : digits ds -> fold_left (fun acc c => acc * 10 + digit_val c) ds a = a * 10 ^ Z.of_nat (length ds) + dec_value ds.
Proof.
  intros D. revert a. induction D as [|c t C D IH]; intros a; cbn [fold_left dec_value length].
  - change (10 ^ Z.of_nat 0) with 1. lia.
  - rewrite IH. unfold digit_val. replace (is_digit c) with true by (unfold is_digit; lia).
    rewrite Nat2Z.inj_succ, Z.pow_succ_r by lia. nia.
Qed.
Lemma number_of_dec ds : digits ds -> number_of 10 ds = dec_value ds.
Proof. intros D. unfold number_of. rewrite number_of_acc by exact D. lia. Qed.
Lemma dec_value_pos ds : digits ds -> 0 <= dec_value ds.
Proof. intros D. induction D as [|c t C D IH]; cbn [dec_value]; [lia|]. assert (0 <= 10 ^ Z.of_nat (length t)) by lia. nia. Qed.

Lemma digit_cases c : 48 <= c <= 57 -> In c [48; 49; 50; 51; 52; 53; 54; 55; 56; 57].
Proof. intros H. assert (C : c = 48 \/ c = 49 \/ c = 50 \/ c = 51 \/ c = 52 \/ c = 53 \/ c = 54 \/ c = 55 \/ c = 56 \/ c = 57) by lia. cbn. intuition. Qed.

Lemma after_digit w ws c t : 48 <= c <= 57 -> 97 <= w -> after (w :: ws) (c :: t) = None.
Proof. intros C W. cbn [after]. unfold lower. replace ((65 <=? c) && (c <=? 90)) with false by lia. replace (c =? w) with false by lia. reflexivity. Qed.
Lemma after_hex c ds r : digits (c :: ds) -> match r with x :: _ => (lower x =? 120) = false | [] => True end -> after [48; 120] ((c :: ds) ++ r) = None.
Proof.
  intros D R. apply Forall_cons_iff in D as [C D]. cbn [app after]. destruct (lower c =? 48); [|reflexivity].
  destruct D as [|d t Hd _]; cbn [app].
  - destruct r as [|x r]; [reflexivity|]. rewrite R. reflexivity.
  - unfold lower. replace ((65 <=? d) && (d <=? 90)) with false by lia. replace (d =? 120) with false by lia. reflexivity.
Qed.

Lemma unsign_digit c t : 48 <= c <= 57 -> unsign (c :: t) = (false, c :: t).
Proof. intros C. unfold unsign. replace (c =? 43) with false by lia. replace (c =? 45) with false by lia. reflexivity. Qed.
Definition neg_of (s : sign) : bool := match s with Minus => true | _ => false end.
Lemma unsign_text s c t : 48 <= c <= 57 -> unsign (sign_text s ++ c :: t) = (neg_of s, c :: t).
Proof. intros C. destruct s; [apply (unsign_digit c t C)|reflexivity|reflexivity]. Qed.
Lemma sg_sign s : sg (neg_of s) = sign_of s.
Proof. destruct s; reflexivity. Qed.

(** What can follow a number. *)
Definition stops (r : list Z) : Prop :=
  match r with
  | c :: _ => is_digit c = false /\ (lower c =? 120) = false /\ (lower c =? 101) = false /\ (c =? 46) = false
  | [] => True
  end.
Lemma unit_stops u : stops (unit_text u).
Proof. destruct u; repeat split. Qed.
Lemma sunit_stops u : stops (sunit_text u).
Proof. destruct u; repeat split. Qed.
Lemma exponent_stops r : stops r -> exponent 101 r = (0, r).
Proof. destruct r as [|c r]; [reflexivity|]. intros (_ & _ & E & _). unfold exponent. rewrite E. reflexivity. Qed.

Lemma strtod_whole s c ds r : digits (c :: ds) -> stops r ->
  strtod (sign_text s ++ (c :: ds) ++ r) = Some (power_value (neg_of s) (dec_value (c :: ds)) 10 (0 - 0), r).
Proof.
  intros D R. pose proof D as D'. apply Forall_cons_iff in D' as [C _]. unfold strtod.
  change ((c :: ds) ++ r) with (c :: (ds ++ r)). rewrite unsign_text by exact C.
  rewrite !after_digit by (exact C || lia). change (c :: (ds ++ r)) with ((c :: ds) ++ r).
  rewrite after_hex by (exact D || (destruct r; [exact I|apply R])).
  unfold mantissa. rewrite span_digits by (exact D || (destruct r; [exact I|apply R])).
  assert (E : match r with c :: t => if c =? 46 then span is_digit t else ([], r) | [] => ([], r) end = (@nil Z, r)).
  { destruct r as [|x r]; [reflexivity|]. destruct R as (_ & _ & _ & R). rewrite R. reflexivity. }
  rewrite E, app_nil_r. rewrite exponent_stops by exact R. rewrite number_of_dec by exact D. reflexivity.
Qed.

Lemma strtod_point s c ds d2 r : digits (c :: ds) -> digits d2 -> stops r ->
  strtod (sign_text s ++ (c :: ds) ++ 46 :: d2 ++ r)
  = Some (power_value (neg_of s) (dec_value ((c :: ds) ++ d2)) 10 (0 - Z.of_nat (length d2)), r).
Proof.
  intros D D2 R. pose proof D as D'. apply Forall_cons_iff in D' as [C _]. unfold strtod.
  change ((c :: ds) ++ 46 :: d2 ++ r) with (c :: (ds ++ 46 :: d2 ++ r)). rewrite unsign_text by exact C.
  rewrite !after_digit by (exact C || lia). change (c :: (ds ++ 46 :: d2 ++ r)) with ((c :: ds) ++ 46 :: d2 ++ r).
  rewrite after_hex by (exact D || reflexivity).
  unfold mantissa. rewrite span_digits by (exact D || reflexivity). cbv iota. change (46 =? 46) with true. cbv iota.
  rewrite span_digits by (exact D2 || (destruct r; [exact I|apply R])).
  change ((c :: ds) ++ d2) with (c :: (ds ++ d2)) at 1. cbv iota.
  rewrite exponent_stops by exact R. change (c :: ds ++ d2) with ((c :: ds) ++ d2).
  rewrite number_of_dec by (apply Forall_app; split; assumption). reflexivity.
Qed.

Lemma ends_app b w suf : (length suf <= length w)%nat -> ends_with (b ++ w) suf = ends_with w suf.
Proof.
  intros L. unfold ends_with. rewrite skipn_app, app_length.
  rewrite (skipn_all2 b) by lia. cbn [app].
  replace (length b + length w - length suf - length b)%nat with (length w - length suf)%nat by lia. reflexivity.
Qed.
Lemma unit_found b x u : In x [48; 49; 50; 51; 52; 53; 54; 55; 56; 57; 46] ->
  duration_unit (b ++ x :: unit_text u) = Some (unit_text u, unit_ns u).
Proof.
  intros X. unfold duration_unit. rewrite !ends_app by (destruct u; cbn; lia).
  cbn [In] in X. repeat (destruct X as [<-|X]; [destruct u; vm_compute; reflexivity|]). destruct X.
Qed.
Lemma size_found b x u : In x [48; 49; 50; 51; 52; 53; 54; 55; 56; 57; 46] ->
  size_unit (b ++ x :: sunit_text u) = (sunit_text u, sunit_bytes u).
Proof.
  intros X. unfold size_unit. rewrite !ends_app by (destruct u; cbn; lia).
  cbn [In] in X. repeat (destruct X as [<-|X]; [destruct u; vm_compute; reflexivity|]). destruct X.
Qed.

(** ** What is accepted *)
Definition made (s r : list Z) : Prop := exists p, s = p ++ r /\ Forall number_char p.
Lemma made_refl s : made s s.
Proof. exists []. split; [reflexivity|constructor]. Qed.
Lemma made_trans a b c : made a b -> made b c -> made a c.
Proof. intros (p & -> & P) (q & -> & Q). exists (p ++ q). split; [apply app_assoc|]. apply Forall_app. split; assumption. Qed.
Lemma made_cons c s r : number_char c -> made s r -> made (c :: s) r.
Proof. intros C (p & -> & P). exists (c :: p). split; [reflexivity|]. constructor; assumption. Qed.

Lemma span_made f s a b : (forall c, f c = true -> number_char c) -> span f s = (a, b) -> made s b.
Proof.
  intros F. revert a. induction s as [|c t IH]; intros a E; cbn [span] in E.
  - assert (b = []) by congruence. subst. apply made_refl.
  - destruct (f c) eqn:Fc.
    + destruct (span f t) as [a' b'] eqn:S. assert (b' = b) by congruence. subst. apply made_cons; [apply F, Fc|]. eapply IH. reflexivity.
    + assert (b = c :: t) by congruence. subst. apply made_refl.
Qed.
Lemma digit_char c : is_digit c = true -> number_char c.
Proof. unfold is_digit, number_char. lia. Qed.
Lemma hex_char c : is_hex c = true -> number_char c.
Proof. unfold is_hex, is_digit, lower, number_char. destruct ((65 <=? c) && (c <=? 90)) eqn:E; lia. Qed.
Lemma nan_char c : (is_digit c || ((97 <=? lower c) && (lower c <=? 122)) || (c =? 95)) = true -> number_char c.
Proof. unfold is_digit, lower, number_char. destruct ((65 <=? c) && (c <=? 90)) eqn:E; lia. Qed.
Lemma after_made w s v : Forall (fun x => 48 <= x <= 57 \/ 97 <= x <= 122) w -> after w s = Some v -> made s v.
Proof.
  intros W. revert s. induction W as [|x w X W IH]; intros s E; cbn [after] in E.
  - assert (s = v) by congruence. subst. apply made_refl.
  - destruct s as [|c t]; [congruence|]. destruct (lower c =? x) eqn:L; [|congruence]. apply made_cons; [|apply IH, E].
    unfold lower in L. unfold number_char. destruct ((65 <=? c) && (c <=? 90)) eqn:K; lia.
Qed.
Lemma unsign_made s n u : unsign s = (n, u) -> made s u.
Proof.
  destruct s as [|c t]; unfold unsign; intros E.
  - assert (u = []) by congruence. subst. apply made_refl.
  - destruct (c =? 43) eqn:A; [|destruct (c =? 45) eqn:B].
    + assert (u = t) by congruence. subst. apply made_cons; [unfold number_char; lia|apply made_refl].
    + assert (u = t) by congruence. subst. apply made_cons; [unfold number_char; lia|apply made_refl].
    + assert (u = c :: t) by congruence. subst. apply made_refl.
Qed.
Lemma exponent_made l s e r : 97 <= l <= 122 -> exponent l s = (e, r) -> made s r.
Proof.
  intros Hl E. destruct s as [|c t]; unfold exponent in E.
  - assert (r = []) by congruence. subst. apply made_refl.
  - destruct (lower c =? l) eqn:L; [|assert (r = c :: t) by congruence; subst; apply made_refl].
    destruct (unsign t) as [n u] eqn:U. destruct (span is_digit u) as [ds v] eqn:S.
    destruct ds as [|d ds]; [assert (r = c :: t) by congruence; subst; apply made_refl|].
    assert (r = v) by congruence. subst. apply made_cons.
    + unfold lower in L. unfold number_char. destruct ((65 <=? c) && (c <=? 90)) eqn:K; lia.
    + eapply made_trans; [eapply unsign_made, U|]. eapply span_made; [apply digit_char|exact S].
Qed.
Lemma mantissa_made f base s m k r : (forall c, f c = true -> number_char c) -> mantissa f base s = Some (m, k, r) -> made s r.
Proof.
  intros F E. unfold mantissa in E. destruct (span f s) as [d1 s1] eqn:S1.
  assert (M1 : made s s1) by (eapply span_made; eauto). eapply made_trans; [exact M1|].
  destruct s1 as [|c t].
  - destruct (d1 ++ []); [congruence|]. assert (r = []) by congruence. subst. apply made_refl.
  - destruct (c =? 46) eqn:P.
    + destruct (span f t) as [d2 s2] eqn:S2. destruct (d1 ++ d2); [congruence|]. assert (r = s2) by congruence. subst.
      apply made_cons; [unfold number_char; lia|]. eapply span_made; eauto.
    + destruct (d1 ++ []); [congruence|]. assert (r = c :: t) by congruence. subst. apply made_refl.
Qed.
Lemma strtod_made s x r : strtod s = Some (x, r) -> made s r.
Proof.
  unfold strtod. intros E. destruct (unsign s) as [n u] eqn:U. eapply made_trans; [eapply unsign_made, U|]. clear U s.
  destruct (after [105; 110; 102] u) as [v|] eqn:A1.
  { assert (Q : match after [105; 110; 105; 116; 121] v with Some w => w | None => v end = r) by congruence. clear E. subst r.
    eapply made_trans; [eapply after_made; [|exact A1]; repeat constructor; lia|].
    destruct (after [105; 110; 105; 116; 121] v) as [w|] eqn:A2; [|apply made_refl]. eapply after_made; [|exact A2]; repeat constructor; lia. }
  destruct (after [110; 97; 110] u) as [v|] eqn:A2.
  { eapply made_trans; [eapply after_made; [|exact A2]; repeat constructor; lia|]. clear A1 A2.
    destruct v as [|c w]; [assert (r = []) by congruence; subst; apply made_refl|].
    destruct (c =? 40) eqn:C; [|assert (r = c :: w) by congruence; subst; apply made_refl].
    match type of E with context [span ?f w] => destruct (span f w) as [ds v] eqn:S end.
    destruct v as [|d y]; [assert (r = c :: w) by congruence; subst; apply made_refl|].
    destruct (d =? 41) eqn:D; [|assert (r = c :: w) by congruence; subst; apply made_refl].
    assert (r = y) by congruence. subst. apply made_cons; [unfold number_char; lia|].
    eapply made_trans; [eapply span_made; [|exact S]; apply nan_char|]. apply made_cons; [unfold number_char; lia|apply made_refl]. }
  destruct (match after [48; 120] u with Some v => mantissa is_hex 16 v | None => None end) as [[[m k] v]|] eqn:A3.
  { destruct (after [48; 120] u) as [v'|] eqn:A4; [|congruence]. destruct (exponent 112 v) as [e w] eqn:X.
    assert (r = w) by congruence. subst. eapply made_trans; [eapply after_made; [|exact A4]; repeat constructor; lia|].
    eapply made_trans; [eapply mantissa_made; [apply hex_char|exact A3]|]. eapply exponent_made; [|exact X]. lia. }
  destruct (mantissa is_digit 10 u) as [[[m k] v]|] eqn:A4; [|congruence]. destruct (exponent 101 v) as [e w] eqn:X.
  assert (r = w) by congruence. subst. eapply made_trans; [eapply mantissa_made; [apply digit_char|exact A4]|]. eapply exponent_made; [|exact X]. lia.
Qed.
Lemma ends_split s suf r p : ends_with s suf = true -> s = p ++ r -> length r = length suf -> r = suf.
Proof.
  unfold ends_with. intros E -> L. destruct (list_eq_dec Z.eq_dec _ _) as [Q|]; [|discriminate].
  rewrite app_length, L, skipn_app in Q. rewrite skipn_all2 in Q by lia.
  replace (length p + length suf - length suf - length p)%nat with 0%nat in Q by lia. exact Q.
Qed.
Lemma unit_ends s suf m : duration_unit s = Some (suf, m) -> exists u, suf = unit_text u /\ m = unit_ns u /\ ends_with s suf = true.
Proof.
  unfold duration_unit. intros E.
  destruct (ends_with s [110; 115]) eqn:A1; [exists Ns; split; [|split]; cbn; congruence|].
  destruct (ends_with s [117; 115]) eqn:A2; [exists Us; split; [|split]; cbn; congruence|].
  destruct (ends_with s [109; 115]) eqn:A3; [exists Ms; split; [|split]; cbn; congruence|].
  destruct (ends_with s [115]) eqn:A4; [exists Sec; split; [|split]; cbn; congruence|].
  destruct (ends_with s [109]) eqn:A5; [exists Minute; split; [|split]; cbn; congruence|].
  destruct (ends_with s [104]) eqn:A6; [exists Hour; split; [|split]; cbn; congruence|]. congruence.
Qed.
Lemma size_ends s : exists u, size_unit s = (sunit_text u, sunit_bytes u) /\ ends_with s (sunit_text u) = true.
Proof.
  unfold size_unit.
  destruct (ends_with s [71]) eqn:A1; [exists Gib; split; [reflexivity|exact A1]|].
  destruct (ends_with s [77]) eqn:A2; [exists Mib; split; [reflexivity|exact A2]|].
  destruct (ends_with s [75]) eqn:A3; [exists Kib; split; [reflexivity|exact A3]|].
  exists Byte. split; [reflexivity|]. unfold ends_with. cbn [sunit_text length]. rewrite Nat.sub_0_r, skipn_all. reflexivity.
Qed.

(** ** Numbers that are too large *)
Lemma ratio_any neg p q : (f64_val (ratio neg p q) = rnd64 (IZR (sg neg * Zpos p) / IZR (Zpos q)) /\ f64_fin (ratio neg p q) = true /\ Bsign (ratio neg p q) = neg) \/
  ratio neg p q = B754_infinity neg.
Proof.
  unfold ratio. set (P := Bdiv_correct_aux 53 1024 eq_refl eq_refl mode_NE neg p 0 false q 0).
  pose proof (proj2 P) as H.
  assert (E : (F2R (Float radix2 (SpecFloat.cond_Zopp neg (Zpos p)) 0) / F2R (Float radix2 (SpecFloat.cond_Zopp false (Zpos q)) 0))%R
    = (IZR (sg neg * Zpos p) / IZR (Zpos q))%R).
  { unfold F2R. cbn [Fnum Fexp]. change (bpow radix2 0) with 1%R. rewrite !Rmult_1_r. destruct neg; reflexivity. }
  rewrite E in H. destruct (Rlt_bool _ _) in H.
  - left. destruct H as (H1 & H2 & H3). unfold f64_val, f64_fin. rewrite B2R_SF2B, is_finite_SF2B, Bsign_SF2B.
    split; [exact H1|]. split; [exact H2|]. etransitivity; [exact H3|]. destruct neg; reflexivity.
  - right. apply B2SF_inj. rewrite B2SF_SF2B. etransitivity; [exact H|]. destruct neg; reflexivity.
Qed.

Lemma huge neg m mult B : 0 < m -> 1 <= mult < 2 ^ 53 -> 1000 <= B -> 2 * B <= m * mult ->
  (forall s, f64_mul (B754_infinity s) (f64_of_Z mult) = B754_infinity s) -> Bsign (f64_of_Z mult) = false ->
  result neg m 0 mult = B754_infinity neg \/
  exists r, f64_val (result neg m 0 mult) = IZR r /\ f64_fin (result neg m 0 mult) = true /\ (if neg then r < - B else B < r).
Proof.
  intros Hm Hu HB L Hinf Hs. unfold result. destruct m as [|p|p]; [lia| |lia].
  unfold power_value. change (Z.max (0 - 0) 0) with 0. change (Z.max (- (0 - 0)) 0) with 0. change (10 ^ 0) with 1. rewrite Z.mul_1_r. cbn [Z.to_pos].
  destruct (ratio_any neg p 1) as [(V & F & G)|I].
  2:{ left. rewrite I, Hinf. destruct neg; reflexivity. }
  set (x := ratio neg p 1) in *.
  destruct (f64_make_exact mult 0) as [Vm Fm]; [lia|lia|]. fold (f64_of_Z mult) in Vm, Fm.
  change (bpow radix2 0) with 1%R in Vm. rewrite Rmult_1_r in Vm.
  pose proof (Bmult_correct 53 1024 _ _ mode_NE x (f64_of_Z mult)) as H.
  fold (f64_val x) (f64_val (f64_of_Z mult)) in H. rewrite Vm in H.
  destruct (Rlt_bool _ _) in H.
  2:{ left. rewrite G, Hs in H. assert (Q : f64_mul x (f64_of_Z mult) = B754_infinity neg).
      { apply B2SF_inj. etransitivity; [exact H|]. destruct neg; reflexivity. }
      rewrite Q. destruct neg; reflexivity. }
  right. destruct H as (H1 & H2 & _).
  assert (F2 : f64_fin (f64_mul x (f64_of_Z mult)) = true) by (unfold f64_fin, f64_mul in *; rewrite H2, F, Fm; reflexivity).
  destruct (round_val _ F2) as (V3 & F3 & _). eexists. split; [exact V3|]. split; [exact F3|].
  change (f64_val (f64_mul x (f64_of_Z mult)) = rnd64 (f64_val x * IZR mult)) in H1. rewrite H1, V.
  assert (SX : (IZR (sg neg * Z.pos p) / 1 = IZR (sg neg) * IZR (Z.pos p))%R) by (rewrite mult_IZR; field). rewrite SX.
  set (s := IZR (sg neg)). set (X := IZR (Z.pos p)).
  assert (X0 : (1 <= X)%R) by (apply IZR_le; lia).
  assert (M1 : (1 <= IZR mult)%R) by (apply IZR_le; lia).
  assert (M2 : (IZR mult <= IZR (2 ^ 53))%R) by (apply IZR_le; lia).
  destruct (rnd64_err (s * X)) as (e & t & He & Ht & E1).
  destruct (rnd64_err (rnd64 (s * X) * IZR mult)) as (e' & t' & He' & Ht' & E1').
  set (y := rnd64 (rnd64 (s * X) * IZR mult)) in *.
  assert (N : forall a, (Rabs a <= bpow radix2 (-53))%R -> (- / 1000 <= a <= / 1000)%R).
  { intros a A. apply Rabs_le_inv. eapply Rle_trans; [exact A|]. change (bpow radix2 (-53)) with (/ IZR (2 ^ 53))%R. apply Rinv_le; [lra|apply IZR_le; lia]. }
  apply N in He, He'.
  assert (N2 : forall a, (Rabs a <= bpow radix2 (-1075))%R -> (- / IZR (2 ^ 70) <= a <= / IZR (2 ^ 70))%R).
  { intros a A. apply Rabs_le_inv. eapply Rle_trans; [exact A|]. change (/ IZR (2 ^ 70))%R with (bpow radix2 (-70)). apply bpow_le. lia. }
  apply N2 in Ht, Ht'.
  assert (N17 : (/ IZR (2 ^ 70) * IZR (2 ^ 53) <= / 10000)%R).
  { replace (/ IZR (2 ^ 70) * IZR (2 ^ 53))%R with (/ IZR (2 ^ 17))%R by (vm_compute IZR; field). apply Rinv_le; [lra|apply IZR_le; lia]. }
  assert (T1 : (- / 10000 <= t * IZR mult <= / 10000)%R) by nra.
  assert (T2 : (- / 10000 <= t' <= / 10000)%R).
  { assert (/ IZR (2 ^ 70) <= / 10000)%R by (apply Rinv_le; [lra|apply IZR_le; lia]). lra. }
  assert (W2 : (2 * IZR B <= X * IZR mult)%R) by (unfold X; rewrite <- !mult_IZR; apply IZR_le; exact L).
  assert (B0 : (1000 <= IZR B)%R) by (apply IZR_le; exact HB).
  set (W := (X * IZR mult)%R) in *. set (t1 := (t * IZR mult)%R) in *.
  assert (E2 : y = ((s * (W * (1 + e)) + t1) * (1 + e') + t')%R) by (rewrite E1', E1; unfold W, t1; ring).
  assert (A1 : (999 / 1000 * W <= W * (1 + e))%R) by nra.
  pose proof (nearest_err y) as En. apply Rabs_le_inv in En.
  set (A := (W * (1 + e))%R) in *.
  unfold s in E2. destruct neg; cbn [sg] in E2; apply lt_IZR; rewrite ?opp_IZR.
  - assert (y <= - (99 / 100 * A) + 1)%R by (rewrite E2; nra). lra.
  - assert (99 / 100 * A - 1 <= y)%R by (rewrite E2; nra). lra.
Qed.
Lemma huge_over (neg : bool) m mult e : 0 < m -> 1 <= mult < 2 ^ 53 -> 63 <= e <= 64 -> 2 * 2 ^ e <= m * mult ->
  (forall s, f64_mul (B754_infinity s) (f64_of_Z mult) = B754_infinity s) -> Bsign (f64_of_Z mult) = false ->
  if neg then f64_lt (result neg m 0 mult) (f64_of_Z (- 2 ^ e)) = true else f64_lt (f64_of_Z (2 ^ e)) (result neg m 0 mult) = true.
Proof.
  intros Hm Hu He L Hi Hs. assert (P : 2 ^ 63 <= 2 ^ e) by (apply Z.pow_le_mono_r; lia).
  destruct (huge neg m mult (2 ^ e) Hm Hu) as [I|(r & V & F & R)]; [lia|exact L|exact Hi|exact Hs| |].
  - rewrite I. assert (e = 63 \/ e = 64) as [-> | ->] by lia; destruct neg; vm_compute; reflexivity.
  - destruct (big_val 1 e) as [V1 F1]; [lia|lia|]. destruct (big_val (-1) e) as [V2 F2]; [lia|lia|].
    rewrite Z.mul_1_l in *. replace (-1 * 2 ^ e) with (- 2 ^ e) in * by lia.
    destruct neg; apply f64_lt_spec; try assumption; rewrite V, ?V1, ?V2; apply IZR_lt; exact R.
Qed.
