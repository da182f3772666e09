(** Facts about all forms of numbers in durations and sizes. *)
From Coq Require Import Reals Lra Lia.
From Flocq Require Import Core.Core IEEE754.BinarySingleNaN.
From Verif Require Import Base Base_lemmas Float32 PcmFloat_proof ParseUnits_model ParseUnits_spec ParseUnits_proof ParseUnits2_spec.
Local Open Scope Z_scope.

Lemma result_gen x neg X mult : f64_fin x = true -> f64_val x = rnd64 (IZR (sg neg) * X) -> (0 <= X)%R -> 1 <= mult < 2 ^ 53 ->
  (X * IZR mult <= bpow radix2 62)%R ->
  let y := f64_round (f64_mul x (f64_of_Z mult)) in
  exists r, f64_val y = IZR r /\ f64_fin y = true /\ Btrunc y = r /\
    (Rabs (IZR r - IZR (sg neg) * (X * IZR mult)) <= 501 / 1000 + X * IZR mult / IZR (2 ^ 51))%R /\
    Z.abs r < 2 ^ 63 /\ (neg = false -> 0 <= r) /\
    (forall n, X = IZR n -> n * mult < 2 ^ 53 -> r = sg neg * (n * mult)).
Proof.
  intros F V X0 Hu B.
  assert (M1 : (1 <= IZR mult)%R) by (apply IZR_le; lia).
  assert (M2 : (IZR mult <= IZR (2 ^ 53))%R) by (apply IZR_le; lia).
  assert (BX : (X <= bpow radix2 62)%R) by nra.
  set (s := IZR (sg neg)) in *.
  assert (S1 : (s = 1 \/ s = -1)%R) by (unfold s; destruct neg; [right|left]; reflexivity).
  cbv zeta.
  destruct (rnd64_err (s * X)) as (e & t & He & Ht & E1).
  assert (Q1 : (Rabs e <= / IZR (2 ^ 53))%R) by (eapply Rle_trans; [exact He|apply Req_le; reflexivity]).
  assert (Q2 : (Rabs t <= / IZR (2 ^ 70))%R).
  { eapply Rle_trans; [exact Ht|]. change (/ IZR (2 ^ 70))%R with (bpow radix2 (-70)). apply bpow_le. lia. }
  clear He Ht. apply Rabs_le_inv in Q1, Q2.
  set (W := (X * IZR mult)%R) in *. assert (W0 : (0 <= W)%R) by (unfold W; nra).
  change (bpow radix2 62) with (IZR (2 ^ 62)) in *.
  assert (P1 : exists e1 t1, (- / IZR (2 ^ 53) <= e1 <= / IZR (2 ^ 53))%R /\ (- / IZR (2 ^ 17) <= t1 <= / IZR (2 ^ 17))%R /\
     (rnd64 (s * X) * IZR mult = s * W * (1 + e1) + t1)%R).
  { exists e, (t * IZR mult)%R. split; [exact Q1|]. split.
    - assert (Y : (/ IZR (2 ^ 70) * IZR (2 ^ 53) = / IZR (2 ^ 17))%R) by (vm_compute IZR; field). nra.
    - rewrite E1. unfold W. ring. }
  destruct P1 as (e1 & t1 & Qe & Qt & E2).
  assert (N53 : (/ IZR (2 ^ 53) <= / 1000)%R) by (apply Rinv_le; [lra|apply IZR_le; lia]).
  assert (N53p : (0 < / IZR (2 ^ 53))%R) by (apply Rinv_0_lt_compat, IZR_lt; lia).
  assert (N17 : (/ IZR (2 ^ 17) <= / 10000)%R) by (apply Rinv_le; [lra|apply IZR_le; lia]).
  assert (B2 : (Rabs (rnd64 (s * X) * IZR mult) <= bpow radix2 64)%R).
  { rewrite E2. change (bpow radix2 64) with (IZR (2 ^ 64)). assert (L : (IZR (2 ^ 62) * 4 = IZR (2 ^ 64))%R) by (rewrite <- mult_IZR; reflexivity).
    assert (L1 : (1 <= IZR (2 ^ 62))%R) by (apply IZR_le; lia). apply Rabs_le. destruct S1 as [-> | ->]; nra. }
  destruct (mul_val _ mult F Hu) as [V2 F2]; [rewrite V; exact B2|]. rewrite V in V2.
  destruct (round_val _ F2) as (V3 & F3 & T3). rewrite V2 in V3, T3.
  set (y := rnd64 (rnd64 (s * X) * IZR mult)) in *.
  exists (ZnearestA y). split; [exact V3|]. split; [exact F3|]. split; [exact T3|].
  destruct (rnd64_err (rnd64 (s * X) * IZR mult)) as (e' & t' & He' & Ht' & E1').
  assert (Q1' : (Rabs e' <= / IZR (2 ^ 53))%R) by (eapply Rle_trans; [exact He'|apply Req_le; reflexivity]).
  assert (Q2' : (Rabs t' <= / IZR (2 ^ 17))%R).
  { eapply Rle_trans; [exact Ht'|]. change (/ IZR (2 ^ 17))%R with (bpow radix2 (-17)). apply bpow_le. lia. }
  clear He' Ht'. apply Rabs_le_inv in Q1', Q2'. fold y in E1'. rewrite E2 in E1'.
  assert (N51 : (W / IZR (2 ^ 51) = 4 * (W * / IZR (2 ^ 53)))%R) by (vm_compute IZR; field).
  assert (Ey : (Rabs (y - s * W) <= / 1000 + W / IZR (2 ^ 51))%R).
  { rewrite N51, E1'. set (u := (/ IZR (2 ^ 53))%R) in *.
    replace ((s * W * (1 + e1) + t1) * (1 + e') + t' - s * W)%R with (s * (W * (e1 + e' + e1 * e')) + t1 * (1 + e') + t')%R by ring.
    assert (A1 : (- (3 * u) <= e1 + e' + e1 * e' <= 3 * u)%R) by nra.
    assert (A2 : (- (3 * (W * u)) <= W * (e1 + e' + e1 * e') <= 3 * (W * u))%R) by nra.
    assert (A3 : (- (/ 2000) <= t1 * (1 + e') <= / 2000)%R) by nra.
    assert (A4 : (0 <= W * u)%R) by nra.
    apply Rabs_le. destruct S1 as [-> | ->]; lra. }
  pose proof (nearest_err y) as En.
  assert (Er : (Rabs (IZR (ZnearestA y) - s * W) <= 501 / 1000 + W / IZR (2 ^ 51))%R).
  { replace (IZR (ZnearestA y) - s * W)%R with ((IZR (ZnearestA y) - y) + (y - s * W))%R by ring.
    eapply Rle_trans; [apply Rabs_triang|]. lra. }
  split; [exact Er|]. split.
  - apply lt_IZR. rewrite abs_IZR. apply Rabs_le_inv in Er.
    assert (L : (IZR (2 ^ 62) * 2 = IZR (2 ^ 63))%R) by (rewrite <- mult_IZR; reflexivity).
    assert (L1 : (1000 <= IZR (2 ^ 62))%R) by (apply IZR_le; lia).
    assert (W / IZR (2 ^ 51) <= IZR (2 ^ 62) / 4)%R by (rewrite N51; nra).
    apply Rabs_lt. destruct S1 as [S1 | S1]; rewrite S1 in Er; lra.
  - split.
    + intros ->. unfold s in *. cbn [sg] in *.
      assert (Y0 : (0 <= y)%R).
      { unfold y, rnd64. apply round_ge_generic; try typeclasses eauto; [apply generic_format_0|].
        apply Rmult_le_pos; [|lra]. apply round_ge_generic; try typeclasses eauto; [apply generic_format_0|]. lra. }
      assert (Z0 : ZnearestA (IZR 0) <= ZnearestA y) by (apply Zrnd_le; [typeclasses eauto|exact Y0]).
      rewrite Zrnd_IZR in Z0 by typeclasses eauto. exact Z0.
    + intros n XE L. assert (N0 : 0 <= n) by (apply le_IZR; rewrite <- XE; exact X0). unfold y, s. rewrite XE, <- mult_IZR.
      assert (Ls : Z.abs (sg neg) = 1) by (destruct neg; reflexivity).
      rewrite rnd64_int by nia. rewrite <- mult_IZR, rnd64_int by nia. rewrite Zrnd_IZR by typeclasses eauto. ring.
Qed.

Lemma power_value_val neg m b e : 0 <= m -> 1 < b -> (scaled m b e <= bpow radix2 63)%R ->
  (0 <= scaled m b e)%R /\
  f64_val (power_value neg m b e) = rnd64 (IZR (sg neg) * scaled m b e) /\ f64_fin (power_value neg m b e) = true.
Proof.
  intros Hm Hb B.
  assert (E : scaled m b e = (IZR (m * b ^ Z.max e 0) / IZR (b ^ Z.max (- e) 0))%R).
  { unfold scaled. destruct (Z.ltb_spec e 0).
    - replace (Z.max e 0) with 0 by lia. replace (Z.max (- e) 0) with (- e) by lia. rewrite Z.pow_0_r, Z.mul_1_r. reflexivity.
    - replace (Z.max e 0) with e by lia. replace (Z.max (- e) 0) with 0 by lia. rewrite Z.pow_0_r. field. }
  rewrite E in *.
  assert (T : 0 < b ^ Z.max (- e) 0) by (apply Z.pow_pos_nonneg; lia).
  assert (T2 : 0 < b ^ Z.max e 0) by (apply Z.pow_pos_nonneg; lia).
  assert (P0 : (0 <= IZR (m * b ^ Z.max e 0) / IZR (b ^ Z.max (- e) 0))%R).
  { apply Rmult_le_pos; [apply IZR_le; nia|]. apply Rlt_le, Rinv_0_lt_compat, IZR_lt, T. }
  split; [exact P0|]. destruct m as [|p|p]; [|unfold power_value|lia].
  - cbn [power_value]. split; [|reflexivity]. rewrite Z.mul_0_l. unfold Rdiv. rewrite Rmult_0_l, Rmult_0_r.
    unfold rnd64. rewrite round_0 by typeclasses eauto. reflexivity.
  - set (N := Z.pos p * b ^ Z.max e 0) in *. set (D := b ^ Z.max (- e) 0) in *. assert (HN : 0 < N) by (unfold N; nia).
    assert (G : (IZR (sg neg) * (IZR N / IZR D) = IZR (sg neg * Z.pos (Z.to_pos N)) / IZR (Z.pos (Z.to_pos D)))%R).
    { rewrite !Z2Pos.id by assumption. rewrite mult_IZR. unfold Rdiv. ring. }
    rewrite G. apply ratio_val. rewrite !Z2Pos.id by assumption. rewrite Rabs_pos_eq by exact P0. exact B.
Qed.

(** ** Reading the text *)
Lemma span_all f ds r : Forall (fun c => f c = true) ds -> match r with c :: _ => f c = false | [] => True end -> span f (ds ++ r) = (ds, r).
Proof.
  intros D R. induction D as [|c t C D IH]; cbn [app span].
  - destruct r as [|c r]; cbn [span]; [reflexivity|]. rewrite R. reflexivity.
  - rewrite C, IH. reflexivity.
Qed.
Lemma digits_all ds : digits ds -> Forall (fun c => is_digit c = true) ds.
Proof. apply Forall_impl. unfold is_digit. intros. lia. Qed.
Lemma hex_is c : hexdigit c -> is_hex c = true.
Proof. unfold hexdigit, is_hex, is_digit, lower. intros H. destruct ((65 <=? c) && (c <=? 90)) eqn:E; lia. Qed.
Lemma hex_digit_val c : hexdigit c -> digit_val c = hexdigit_value c.
Proof.
  unfold hexdigit, digit_val, hexdigit_value, is_digit, lower. intros H.
  destruct ((65 <=? c) && (c <=? 90)) eqn:E; destruct ((48 <=? c) && (c <=? 57)) eqn:E2; destruct (Z.leb_spec c 57); destruct (Z.leb_spec c 70); lia.
Qed.
Lemma hex_acc hs a : Forall hexdigit hs -> fold_left (fun acc c => acc * 16 + digit_val c) hs a = a * 16 ^ Z.of_nat (length hs) + hex_value hs.
Proof.
  intros D. revert a. induction D as [|c t C D IH]; intros a; cbn [fold_left hex_value length].
  - change (16 ^ Z.of_nat 0) with 1. lia.
  - rewrite IH, hex_digit_val by exact C. rewrite Nat2Z.inj_succ, Z.pow_succ_r by lia. nia.
Qed.
Lemma number_of_hex hs : Forall hexdigit hs -> number_of 16 hs = hex_value hs.
Proof. intros D. unfold number_of. rewrite hex_acc by exact D. lia. Qed.
Lemma hex_value_pos hs : Forall hexdigit hs -> 0 <= hex_value hs.
Proof.
  intros D. induction D as [|c t C D IH]; cbn [hex_value]; [lia|]. assert (0 <= 16 ^ Z.of_nat (length t)) by lia.
  assert (0 <= hexdigit_value c) by (unfold hexdigit, hexdigit_value in *; destruct (Z.leb_spec c 57); destruct (Z.leb_spec c 70); lia). nia.
Qed.

Lemma mantissa_text f base ds p r : f 46 = false -> Forall (fun c => f c = true) (ds ++ fraction_digits p) -> ds ++ fraction_digits p <> [] ->
  match r with c :: _ => f c = false /\ (c =? 46) = false | [] => True end ->
  mantissa f base (ds ++ fraction_text p ++ r) = Some (number_of base (ds ++ fraction_digits p), Z.of_nat (length (fraction_digits p)), r).
Proof.
  intros F D N R. apply Forall_app in D as [D1 D2]. unfold mantissa. destruct p as [d2|]; cbn [fraction_text fraction_digits app] in *.
  - rewrite span_all by (exact D1 || exact F). change (46 =? 46) with true. cbv iota.
    rewrite span_all by (exact D2 || (destruct r; [exact I|apply R])). destruct (ds ++ d2); [congruence|reflexivity].
  - rewrite span_all by (exact D1 || (destruct r; [exact I|apply R])).
    assert (E : match r with c :: t => if c =? 46 then span f t else ([], r) | [] => ([], r) end = (@nil Z, r)).
    { destruct r as [|x r]; [reflexivity|]. destruct R as [_ R]. rewrite R. reflexivity. }
    rewrite E. destruct (ds ++ []); [congruence|reflexivity].
Qed.

Lemma exponent_text l e r : 97 <= l <= 122 -> power_ok e ->
  match r with c :: _ => is_digit c = false /\ (lower c =? l) = false | [] => True end ->
  exponent l (power_text l e ++ r) = (power_number e, r).
Proof.
  intros L O R. destruct e as [|up s ds]; cbn [power_text power_number app].
  - destruct r as [|c r]; [reflexivity|]. unfold exponent. destruct R as [_ R]. rewrite R. reflexivity.
  - destruct O as [D N]. unfold exponent.
    assert (E : lower (if up then l - 32 else l) = l).
    { unfold lower. destruct up; [replace ((65 <=? l - 32) && (l - 32 <=? 90)) with true by lia; lia|].
      replace ((65 <=? l) && (l <=? 90)) with false by lia. reflexivity. }
    rewrite E, Z.eqb_refl. destruct ds as [|d ds]; [congruence|].
    rewrite <- app_assoc. cbn [app]. rewrite unsign_text by (apply Forall_inv in D; exact D).
    change (d :: ds ++ r) with ((d :: ds) ++ r). rewrite span_digits by (exact D || (destruct r; [exact I|apply R])).
    rewrite number_of_dec by exact D. destruct s; cbn [neg_of sign_of]; f_equal; lia.
Qed.

(** What follows the number. *)
Definition stop2 (r : list Z) : Prop :=
  match r with
  | c :: _ => is_hex c = false /\ (lower c =? 120) = false /\ (lower c =? 101) = false /\ (lower c =? 112) = false /\ (c =? 46) = false
  | [] => True
  end.
Lemma unit_stop2 u : stop2 (unit_text u).
Proof. destruct u; repeat split. Qed.
Lemma sunit_stop2 u : stop2 (sunit_text u).
Proof. destruct u; repeat split. Qed.
Lemma not_hex_digit c : is_hex c = false -> is_digit c = false.
Proof. unfold is_hex. destruct (is_digit c); [discriminate|reflexivity]. Qed.

Definition base_of (n : numeral) : Z := match n with Dec _ _ _ => 10 | Hex _ _ _ _ => 2 end.
Definition mant_of (n : numeral) : Z :=
  match n with Dec ds p _ => dec_value (ds ++ fraction_digits p) | Hex _ hs p _ => hex_value (hs ++ fraction_digits p) end.
Definition exp_of (n : numeral) : Z :=
  match n with
  | Dec _ p e => power_number e - Z.of_nat (length (fraction_digits p))
  | Hex _ _ p e => power_number e - 4 * Z.of_nat (length (fraction_digits p))
  end.
Lemma value_of n : numeral_value n = scaled (mant_of n) (base_of n) (exp_of n).
Proof. destruct n; reflexivity. Qed.
Lemma mant_pos n : numeral_ok n -> 0 <= mant_of n.
Proof. destruct n; intros (D & _ & _); [apply dec_value_pos, D|apply hex_value_pos, D]. Qed.

Lemma unsign_any s c t : c <> 43 -> c <> 45 -> unsign (sign_text s ++ c :: t) = (neg_of s, c :: t).
Proof.
  intros A B. destruct s; [|reflexivity|reflexivity]. cbn [sign_text app neg_of unsign].
  replace (c =? 43) with false by lia. replace (c =? 45) with false by lia. reflexivity.
Qed.
Lemma after_low w ws c t : c < 65 -> 97 <= w -> after (w :: ws) (c :: t) = None.
Proof. intros C W. cbn [after]. unfold lower. replace ((65 <=? c) && (c <=? 90)) with false by lia. replace (c =? w) with false by lia. reflexivity. Qed.

Lemma strtod_numeral s n r : numeral_ok n -> stop2 r ->
  strtod (sign_text s ++ numeral_text n ++ r) = Some (power_value (neg_of s) (mant_of n) (base_of n) (exp_of n), r).
Proof.
  intros O R. destruct n as [ds p e|up hs p e]; cbn [numeral_text mant_of base_of exp_of]; destruct O as (D & N & P).
  - rewrite <- !app_assoc.
    set (tl := power_text 101 e ++ r).
    assert (T : match tl with c :: _ => is_digit c = false /\ (c =? 46) = false /\ (lower c =? 120) = false | [] => True end).
    { unfold tl. destruct e as [|u es eds]; cbn [power_text app]; [|destruct u; repeat split].
      destruct r as [|c r]; [exact I|]. destruct R as (R1 & R2 & _ & _ & R5). split; [apply not_hex_digit, R1|]. split; assumption. }
    assert (H : exists c t, ds ++ fraction_text p ++ tl = c :: t /\ c < 65 /\ c <> 43 /\ c <> 45).
    { destruct ds as [|c ds].
      - destruct p as [d2|]; [|cbn [fraction_digits app] in N; congruence]. cbn [fraction_text app]. eexists; eexists; split; [reflexivity|]. lia.
      - apply Forall_inv in D. cbn [app]. eexists; eexists; split; [reflexivity|]. lia. }
    destruct H as (c & t & E & C1 & C2 & C3). unfold strtod. rewrite E, unsign_any by assumption.
    rewrite !after_low by (assumption || lia).
    assert (X : after [48; 120] (c :: t) = None).
    { rewrite <- E. destruct ds as [|d ds].
      - destruct p as [d2|]; [|cbn [fraction_digits app] in N; congruence]. reflexivity.
      - apply after_hex; [apply Forall_app in D; apply D|]. destruct p as [d2|]; cbn [fraction_text app]; [reflexivity|]. destruct tl; [exact I|apply T]. }
    rewrite X, <- E. rewrite mantissa_text; [|reflexivity|apply digits_all, D|exact N|destruct tl; [exact I|split; apply T]].
    unfold tl. rewrite exponent_text; [|lia|exact P|destruct r as [|x r]; [exact I|split; [apply not_hex_digit, R|apply R]]].
    rewrite number_of_dec by exact D. reflexivity.
  - change ((48 :: (if up then 88 else 120) :: hs ++ fraction_text p ++ power_text 112 e) ++ r)
      with (48 :: (if up then 88 else 120) :: (hs ++ fraction_text p ++ power_text 112 e) ++ r).
    rewrite <- !app_assoc. set (tl := power_text 112 e ++ r). unfold strtod. rewrite unsign_any by lia.
    rewrite !after_low by lia.
    assert (X : after [48; 120] (48 :: (if up then 88 else 120) :: hs ++ fraction_text p ++ tl) = Some (hs ++ fraction_text p ++ tl)) by (destruct up; reflexivity).
    rewrite X. rewrite mantissa_text; [|reflexivity|eapply Forall_impl; [|exact D]; intros a Ha; apply hex_is, Ha|exact N|].
    2:{ unfold tl. destruct e as [|u es eds]; cbn [power_text app]; [|destruct u; split; reflexivity].
        destruct r as [|x r]; [exact I|]. split; apply R. }
    unfold tl. rewrite exponent_text; [|lia|exact P|destruct r as [|x r]; [exact I|split; [apply not_hex_digit, R|apply R]]].
    rewrite number_of_hex by exact D. reflexivity.
Qed.

(** The last character of a number. *)
Definition tail_char (x : Z) : Prop := hexdigit x \/ x = 46.
Lemma last_char t a : t <> [] -> Forall tail_char t -> exists b x, a ++ t = b ++ [x] /\ tail_char x.
Proof.
  intros N T. destruct (exists_last N) as (b & x & E). exists (a ++ b), x. subst t. split; [apply app_assoc|].
  apply Forall_app in T as [_ T]. apply Forall_inv in T. exact T.
Qed.
Lemma digits_tail ds : digits ds -> Forall tail_char ds.
Proof. apply Forall_impl. intros c C. left. left. exact C. Qed.
Lemma numeral_last n a : numeral_ok n -> exists b x, a ++ numeral_text n = b ++ [x] /\ tail_char x.
Proof.
  assert (G : forall l ds p e a, Forall tail_char (ds ++ fraction_digits p) -> ds ++ fraction_digits p <> [] -> power_ok e ->
    exists b x, a ++ ds ++ fraction_text p ++ power_text l e = b ++ [x] /\ tail_char x).
  { intros l ds p e a' D N P. destruct e as [|up s es]; cbn [power_text].
    - rewrite app_nil_r. apply last_char.
      + destruct ds; [|discriminate]. destruct p; [discriminate|]. exact N.
      + apply Forall_app in D as [D1 D2]. apply Forall_app. split; [exact D1|]. destruct p; [constructor; [right; reflexivity|exact D2]|constructor].
    - destruct P as [D' N']. destruct (last_char es (a' ++ ds ++ fraction_text p ++ (if up then l - 32 else l) :: sign_text s) N' (digits_tail _ D')) as (b & x & E & X).
      exists b, x. split; [|exact X]. rewrite <- E. rewrite <- !app_assoc. reflexivity. }
  intros O. destruct n as [ds p e|up hs p e]; destruct O as (D & N & P); cbn [numeral_text].
  - apply G; [apply digits_tail, D|exact N|exact P].
  - assert (D' : Forall tail_char (hs ++ fraction_digits p)) by (eapply Forall_impl; [|exact D]; intros c C; left; exact C).
    destruct (G 112 hs p e (a ++ [48; if up then 88 else 120]) D' N P) as (b & x & E & X). exists b, x. split; [|exact X].
    rewrite <- E, <- app_assoc. reflexivity.
Qed.
Lemma tail_cases x : tail_char x -> In x [48; 49; 50; 51; 52; 53; 54; 55; 56; 57; 65; 66; 67; 68; 69; 70; 97; 98; 99; 100; 101; 102; 46].
Proof.
  intros [[H|[H|H]]| ->].
  - assert (x = 48 \/ x = 49 \/ x = 50 \/ x = 51 \/ x = 52 \/ x = 53 \/ x = 54 \/ x = 55 \/ x = 56 \/ x = 57) by lia. cbn. intuition.
  - assert (x = 65 \/ x = 66 \/ x = 67 \/ x = 68 \/ x = 69 \/ x = 70) by lia. cbn. intuition.
  - assert (x = 97 \/ x = 98 \/ x = 99 \/ x = 100 \/ x = 101 \/ x = 102) by lia. cbn. intuition.
  - cbn. intuition.
Qed.
Lemma unit_found2 b x u : tail_char x -> duration_unit ((b ++ [x]) ++ unit_text u) = Some (unit_text u, unit_ns u).
Proof.
  intros X. apply tail_cases in X. rewrite <- app_assoc. cbn [app]. unfold duration_unit. rewrite !ends_app by (destruct u; cbn; lia).
  cbn [In] in X. repeat (destruct X as [<-|X]; [destruct u; vm_compute; reflexivity|]). destruct X.
Qed.
Lemma size_found2 b x u : tail_char x -> size_unit ((b ++ [x]) ++ sunit_text u) = (sunit_text u, sunit_bytes u).
Proof.
  intros X. apply tail_cases in X. rewrite <- app_assoc. cbn [app]. unfold size_unit. rewrite !ends_app by (destruct u; cbn; lia).
  cbn [In] in X. repeat (destruct X as [<-|X]; [destruct u; vm_compute; reflexivity|]). destruct X.
Qed.
Lemma numeral_first n : numeral_ok n -> digit_first n -> exists c t, numeral_text n = c :: t /\ is_digit c = true.
Proof.
  intros O F. destruct n as [[|c ds] p e|up hs p e]; [destruct F| |].
  - destruct O as (D & _). apply Forall_inv in D. cbn [numeral_text app]. eexists; eexists; split; [reflexivity|]. unfold is_digit. lia.
  - eexists; eexists; split; reflexivity.
Qed.
