(** C74, for all forms of numbers: fractions, exponents, hexadecimal. *)
From Coq Require Import Reals Lra Lia.
From Coq Require String Ascii.
Import String.StringSyntax.
From Flocq Require Import Core.Core IEEE754.BinarySingleNaN.
From Verif Require Import Base Base_lemmas Float32 PcmFloat_proof ParseUnits_model ParseUnits_spec ParseUnits_proof ParseUnits2_spec ParseUnits2_proof ParseUnits_props.
Local Open Scope Z_scope.

(** Every form of number gives the nearest duration, apart from a relative error of 2^-51,
    and exactly the right one if the number is whole and the duration less than 2^53 ns. *)
Theorem C74_any_durations : forall s n u, numeral_ok n -> s <> No_sign \/ digit_first n ->
  let v := (numeral_value n * IZR (unit_ns u))%R in
  (v <= IZR (2 ^ 62))%R ->
  exists r, parse_duration (sign_text s ++ numeral_text n ++ unit_text u) = Ok (Some r) /\
    (Rabs (IZR r - IZR (sign_of s) * v) <= 501 / 1000 + v / IZR (2 ^ 51))%R /\
    (forall z, numeral_value n = IZR z -> z * unit_ns u < 2 ^ 53 -> r = sign_of s * (z * unit_ns u)).
Proof.
  intros s n u O F v B. assert (Pu : 1 <= unit_ns u < 2 ^ 53) by (destruct u; cbn; lia).
  assert (Mu : (1 <= IZR (unit_ns u))%R) by (apply IZR_le; lia).
  destruct (power_value_val (neg_of s) (mant_of n) (base_of n) (exp_of n)) as (X0 & V & Fi).
  { apply mant_pos, O. } { destruct n; cbn; lia. }
  { rewrite <- value_of. change (bpow radix2 63) with (IZR (2 ^ 63)). assert (IZR (2 ^ 62) <= IZR (2 ^ 63))%R by (apply IZR_le; lia).
    assert (0 <= IZR (2 ^ 63))%R by (apply IZR_le; lia). unfold v in B. destruct (Rle_dec (numeral_value n) 0); [lra|nra]. }
  rewrite <- value_of in *.
  destruct (result_gen _ (neg_of s) (numeral_value n) (unit_ns u) Fi V X0 Pu) as (r & Vr & Fr & T & Er & Lr & _ & Ex); [exact B|].
  rewrite sg_sign in Er, Ex. exists r. split; [|split; [exact Er|exact Ex]].
  destruct (numeral_last n (sign_text s) O) as (b & x & Eb & X).
  unfold parse_duration.
  assert (U : duration_unit (sign_text s ++ numeral_text n ++ unit_text u) = Some (unit_text u, unit_ns u)).
  { rewrite app_assoc, Eb. apply unit_found2, X. }
  rewrite U. rewrite strtod_numeral by (exact O || apply unit_stop2). 
  replace (Nat.eqb (length (sign_text s ++ numeral_text n ++ unit_text u)) (length (unit_text u))) with false.
  2:{ symmetry. apply Nat.eqb_neq. rewrite app_assoc, Eb, !app_length. cbn [length]. lia. }
  assert (Q : exists c t, sign_text s ++ numeral_text n ++ unit_text u = c :: t /\ (negb (is_digit c) && negb (c =? 43) && negb (c =? 45)) = false).
  { destruct s; [|eexists; eexists; split; reflexivity|eexists; eexists; split; reflexivity].
    destruct F as [F|F]; [congruence|]. destruct (numeral_first n O F) as (c & t & E & D). rewrite E. cbn [sign_text app].
    eexists; eexists; split; [reflexivity|]. rewrite D. reflexivity. }
  destruct Q as (c & t & E & D). rewrite E, D. rewrite Nat.eqb_refl. cbn [negb]. cbv zeta.
  destruct (bounds_pass r _ Vr Fr Lr) as (B1 & B2 & _). rewrite B1, B2. cbn [orb].
  rewrite (cast_ok _ _ r) by (exact T || exact Fr || lia). reflexivity.
Qed.
Example any_durations_ok :
  parse_duration (text "-1.25e3us") = Ok (Some (- 1250000)) /\ text "1.25e3" = numeral_text (Dec (text "1") (Some (text "25")) (Power false No_sign (text "3"))) /\
  parse_duration (text "0X1f.8P+1ms") = Ok (Some 63000000) /\ text "0X1f.8P+1" = numeral_text (Hex true (text "1f") (Some (text "8")) (Power true Plus (text "1"))) /\
  parse_duration (text "+.5E-1s") = Ok (Some 50000000) /\ parse_duration (text "0xaBh") = Ok (Some (171 * 3600 * 10 ^ 9)).
Proof. vm_compute. repeat split. Qed.
Example any_durations_meets : let n := Hex true (text "1f") (Some (text "8")) (Power true Plus (text "1")) in numeral_ok n /\ numeral_value n = 63%R.
Proof.
  cbv zeta. split.
  - cbn [numeral_ok]. split; [|split; [discriminate|split; [|discriminate]]].
    + repeat constructor; vm_compute; intuition congruence.
    + repeat constructor; vm_compute; congruence.
  - vm_compute numeral_value. unfold scaled. vm_compute Z.ltb. cbv iota. vm_compute Z.pow. lra.
Qed.

Theorem C74_any_sizes : forall n u, numeral_ok n -> digit_first n ->
  let v := (numeral_value n * IZR (sunit_bytes u))%R in
  (v <= IZR (2 ^ 62))%R ->
  exists r, parse_size (numeral_text n ++ sunit_text u) = Ok (Some r) /\
    (Rabs (IZR r - v) <= 501 / 1000 + v / IZR (2 ^ 51))%R /\
    (forall z, numeral_value n = IZR z -> z * sunit_bytes u < 2 ^ 53 -> r = z * sunit_bytes u).
Proof.
  intros n u O F v B. assert (Pu : 1 <= sunit_bytes u < 2 ^ 53) by (destruct u; cbn; lia).
  assert (Mu : (1 <= IZR (sunit_bytes u))%R) by (apply IZR_le; lia).
  destruct (power_value_val false (mant_of n) (base_of n) (exp_of n)) as (X0 & V & Fi).
  { apply mant_pos, O. } { destruct n; cbn; lia. }
  { rewrite <- value_of. change (bpow radix2 63) with (IZR (2 ^ 63)). assert (IZR (2 ^ 62) <= IZR (2 ^ 63))%R by (apply IZR_le; lia).
    assert (0 <= IZR (2 ^ 63))%R by (apply IZR_le; lia). unfold v in B. destruct (Rle_dec (numeral_value n) 0); [lra|nra]. }
  rewrite <- value_of in *.
  destruct (result_gen _ false (numeral_value n) (sunit_bytes u) Fi V X0 Pu) as (r & Vr & Fr & T & Er & Lr & Pr & Ex); [exact B|].
  specialize (Pr eq_refl). cbn [sg] in Er, Ex. rewrite Rmult_1_l in Er. exists r. split; [|split; [exact Er|intros z Hz L; rewrite (Ex z Hz L); lia]].
  destruct (numeral_last n [] O) as (b & x & Eb & X). cbn [app] in Eb.
  unfold parse_size.
  assert (U : size_unit (numeral_text n ++ sunit_text u) = (sunit_text u, sunit_bytes u)) by (rewrite Eb; apply size_found2, X).
  rewrite U. pose proof (strtod_numeral No_sign n (sunit_text u) O (sunit_stop2 u)) as S. cbn [sign_text app neg_of] in S. rewrite S.
  destruct (numeral_first n O F) as (c & t & E & D). rewrite E. cbn [app]. rewrite D, Nat.eqb_refl. cbn [negb]. cbv zeta.
  destruct (bounds_pass r _ Vr Fr Lr) as (_ & _ & B3). rewrite B3.
  rewrite (cast_ok _ _ r) by (exact T || exact Fr || lia). reflexivity.
Qed.
Example any_sizes_ok : parse_size (text "1e3K") = Ok (Some 1024000) /\ parse_size (text "0x1.8p4") = Ok (Some 24) /\ parse_size (text "1e-3G") = Ok (Some 1073742).
Proof. vm_compute. repeat split. Qed.

(** Infinity, in any spelling, is refused. *)
Definition spelled (w word : list Z) : Prop := Forall2 (fun c l => c = l \/ c = l - 32) w word.
Lemma spelled_after w word r : spelled w word -> Forall (fun l => 97 <= l <= 122) word -> after word (w ++ r) = Some r.
Proof.
  intros S. induction S as [|c l w word C S IH]; intros L; cbn [app after]; [reflexivity|].
  apply Forall_cons_iff in L as [L1 L]. assert (E : lower c = l).
  { unfold lower. destruct C as [-> | ->]; [replace ((65 <=? l) && (l <=? 90)) with false by lia; reflexivity|].
    replace ((65 <=? l - 32) && (l - 32 <=? 90)) with true by lia. lia. }
  rewrite E, Z.eqb_refl. apply IH, L.
Qed.
Theorem C74_infinity_refused : forall s w u, s <> No_sign -> spelled w (text "inf") \/ spelled w (text "infinity") ->
  parse_duration (sign_text s ++ w ++ unit_text u) = Ok None.
Proof.
  intros s w u Ns Hw.
  assert (St : strtod (sign_text s ++ w ++ unit_text u) = Some (B754_infinity (neg_of s), unit_text u)).
  { unfold strtod. assert (E : unsign (sign_text s ++ w ++ unit_text u) = (neg_of s, w ++ unit_text u)) by (destruct s; [congruence|reflexivity|reflexivity]).
    rewrite E. destruct Hw as [Hw|Hw].
    - pose proof (spelled_after w _ (unit_text u) Hw) as A. change (text "inf") with [105; 110; 102] in A.
      rewrite A by (repeat constructor; lia). destruct u; reflexivity.
    - change (text "infinity") with ([105; 110; 102] ++ [105; 110; 105; 116; 121]) in Hw. apply Forall2_app_inv_r in Hw as (w1 & w2 & H1 & H2 & ->).
      rewrite <- app_assoc. rewrite (spelled_after w1) by (exact H1 || (repeat constructor; lia)).
      rewrite (spelled_after w2) by (exact H2 || (repeat constructor; lia)). reflexivity. }
  unfold parse_duration. rewrite St. destruct (duration_unit _) as [[suf m]|] eqn:U; [|reflexivity].
  destruct (Nat.eqb _ _); [reflexivity|]. destruct (sign_text s ++ w ++ unit_text u); [reflexivity|].
  destruct (_ && _); [reflexivity|]. destruct (negb _); [reflexivity|]. cbv zeta.
  apply unit_ends in U as (u' & _ & -> & _).
  assert (I : f64_round (f64_mul (B754_infinity (neg_of s)) (f64_of_Z (unit_ns u'))) = B754_infinity (neg_of s)) by (destruct s, u'; vm_compute; reflexivity).
  rewrite I. destruct s; vm_compute; reflexivity.
Qed.
Example infinity_ok : spelled (text "INFinity") (text "infinity") /\ parse_duration (text "-INFinitys") = Ok None.
Proof.
  split; [|vm_compute; reflexivity]. vm_compute. repeat (apply Forall2_cons; [(left; reflexivity) || (right; reflexivity)|]). apply Forall2_nil.
Qed.

Print Assumptions C74_any_durations.
Print Assumptions C74_any_sizes.
Print Assumptions C74_infinity_refused.
