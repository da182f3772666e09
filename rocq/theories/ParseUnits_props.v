(** C74: what text becomes a duration or a size, and which one. *)
From Coq Require Import Reals Lra Lia.
From Coq Require String Ascii.
Import String.StringSyntax.
From Flocq Require Import Core.Core IEEE754.BinarySingleNaN.
From Verif Require Import Base Base_lemmas Float32 PcmFloat_proof ParseUnits_model ParseUnits_spec ParseUnits_proof.
Local Open Scope Z_scope.

(** Text as codes, for the examples. *)
Definition text (s : String.string) : list Z := map (fun c => Z.of_nat (Ascii.nat_of_ascii c)) (String.list_ascii_of_string s).
Arguments text s%string_scope.

Lemma bounds_pass r y : f64_val y = IZR r -> f64_fin y = true -> Z.abs r < 2 ^ 63 ->
  f64_lt (f64_of_Z (2 ^ 63)) y = false /\ f64_lt y (f64_of_Z (- 2 ^ 63)) = false /\ f64_lt (f64_of_Z (2 ^ 64)) y = false.
Proof.
  intros V F L.
  destruct (big_val 1 63) as [V1 F1]; [lia|lia|]. destruct (big_val (-1) 63) as [V2 F2]; [lia|lia|]. destruct (big_val 1 64) as [V3 F3]; [lia|lia|].
  rewrite Z.mul_1_l in *. replace (-1 * 2 ^ 63) with (- 2 ^ 63) in * by lia.
  repeat split; apply not_true_is_false; intros H; apply f64_lt_spec in H; try assumption; rewrite ?V, ?V1, ?V2, ?V3 in H; apply lt_IZR in H; lia.
Qed.
Lemma cast_ok lo hi r y : Btrunc y = r -> f64_fin y = true -> lo <= r < hi -> f64_to lo hi y = Ok r.
Proof. intros T F L. unfold f64_to. unfold f64_fin in F. rewrite F, T. replace (lo <=? r) with true by lia. replace (r <? hi) with true by lia. reflexivity. Qed.

Lemma first_char s c t : 48 <= c <= 57 -> exists x y, sign_text s ++ c :: t = x :: y /\ (negb (is_digit x) && negb (x =? 43) && negb (x =? 45)) = false.
Proof.
  intros C. destruct s; cbn [sign_text app]; (eexists; eexists; split; [reflexivity|]); [|reflexivity|reflexivity].
  unfold is_digit. replace (48 <=? c) with true by lia. replace (c <=? 57) with true by lia. reflexivity.
Qed.

Lemma duration_core s body c t u m k : body ++ unit_text u = sign_text s ++ c :: t -> 48 <= c <= 57 ->
  duration_unit (body ++ unit_text u) = Some (unit_text u, unit_ns u) -> body <> [] -> 0 <= m -> 0 <= k ->
  strtod (body ++ unit_text u) = Some (power_value (neg_of s) m 10 (0 - k), unit_text u) ->
  (IZR m / IZR (10 ^ k) * IZR (unit_ns u) <= IZR (2 ^ 62))%R ->
  exists r, parse_duration (body ++ unit_text u) = Ok (Some r) /\
    (Rabs (IZR r - IZR (sign_of s) * (IZR m / IZR (10 ^ k) * IZR (unit_ns u))) <= 501 / 1000 + IZR m / IZR (10 ^ k) * IZR (unit_ns u) / IZR (2 ^ 51))%R /\
    (k = 0 -> m * unit_ns u < 2 ^ 53 -> r = sign_of s * (m * unit_ns u)).
Proof.
  intros Eb C U Nb Hm Hk ST B.
  destruct (result_val (neg_of s) m k (unit_ns u) Hm Hk) as (r & V & F & T & Er & Lr & _ & Ex); [destruct u; cbn; lia|exact B|].
  rewrite sg_sign in Er, Ex. exists r. split; [|split; assumption].
  unfold parse_duration. rewrite U. 
  replace (Nat.eqb (length (body ++ unit_text u)) (length (unit_text u))) with false.
  2:{ symmetry. apply Nat.eqb_neq. rewrite app_length. destruct body; [congruence|cbn [length]; lia]. }
  destruct (first_char s c t C) as (x & y & Ex1 & Fx). rewrite ST. rewrite Eb, Ex1, Fx.
  rewrite Nat.eqb_refl. cbn [negb]. fold (result (neg_of s) m k (unit_ns u)). cbv zeta.
  destruct (bounds_pass r _ V F Lr) as (B1 & B2 & _). rewrite B1, B2. cbn [orb].
  rewrite (cast_ok _ _ r) by (exact T || exact F || lia). reflexivity.
Qed.

(** A whole number, with or without a sign, and a unit give exactly that duration when it
    is less than 2^53 ns, which is 104 days. *)
Theorem C74_whole_durations : forall s ds u, digits ds -> ds <> [] -> dec_value ds * unit_ns u < 2 ^ 53 ->
  parse_duration (sign_text s ++ ds ++ unit_text u) = Ok (Some (sign_of s * (dec_value ds * unit_ns u))).
Proof.
  intros s ds u D N L. destruct ds as [|c ds]; [congruence|]. pose proof D as D'. apply Forall_cons_iff in D' as [C _].
  pose proof (dec_value_pos _ D) as P.
  destruct (duration_core s (sign_text s ++ c :: ds) c (ds ++ unit_text u) u (dec_value (c :: ds)) 0) as (r & E & _ & X).
  - rewrite <- app_assoc. reflexivity.
  - exact C.
  - destruct (@exists_last _ (c :: ds)) as (b & x & Eb); [congruence|]. rewrite Eb.
    replace ((sign_text s ++ b ++ [x]) ++ unit_text u) with ((sign_text s ++ b) ++ x :: unit_text u) by (rewrite <- !app_assoc; reflexivity).
    apply unit_found. rewrite Eb in D. apply Forall_app in D as [_ Dx]. apply Forall_inv in Dx.
    change ([48; 49; 50; 51; 52; 53; 54; 55; 56; 57; 46]) with ([48; 49; 50; 51; 52; 53; 54; 55; 56; 57] ++ [46]). apply in_or_app. left. apply digit_cases. exact Dx.
  - destruct s; discriminate.
  - exact P.
  - lia.
  - rewrite <- app_assoc. apply strtod_whole; [exact D|apply unit_stops].
  - change (10 ^ 0) with 1. unfold Rdiv. rewrite Rinv_1, Rmult_1_r, <- mult_IZR. apply IZR_le. lia.
  - rewrite <- app_assoc in E. rewrite E, X by (reflexivity || exact L). reflexivity.
Qed.
Example whole_durations_ok : parse_duration (text "-90m") = Ok (Some (- (90 * 60 * 10 ^ 9))) /\ digits (text "90") /\ dec_value (text "90") = 90.
Proof. split; [vm_compute; reflexivity|]. split; [|reflexivity]. repeat constructor; vm_compute; congruence. Qed.

(** A decimal fraction gives the nearest duration, apart from the relative error of the
    two roundings of binary floating point. *)
Theorem C74_decimal_durations : forall s d1 d2 u, digits d1 -> d1 <> [] -> digits d2 ->
  let v := (IZR (dec_value (d1 ++ d2)) / IZR (10 ^ Z.of_nat (length d2)) * IZR (unit_ns u))%R in
  (v <= IZR (2 ^ 62))%R ->
  exists r, parse_duration (sign_text s ++ d1 ++ [46] ++ d2 ++ unit_text u) = Ok (Some r) /\
    (Rabs (IZR r - IZR (sign_of s) * v) <= 501 / 1000 + v / IZR (2 ^ 51))%R.
Proof.
  intros s d1 d2 u D N D2 v B. destruct d1 as [|c ds]; [congruence|]. pose proof D as D'. apply Forall_cons_iff in D' as [C _].
  assert (P : 0 <= dec_value ((c :: ds) ++ d2)) by (apply dec_value_pos, Forall_app; split; assumption).
  destruct (duration_core s (sign_text s ++ (c :: ds) ++ 46 :: d2) c (ds ++ 46 :: d2 ++ unit_text u) u (dec_value ((c :: ds) ++ d2)) (Z.of_nat (length d2))) as (r & E & X & _).
  - rewrite <- !app_assoc. reflexivity.
  - exact C.
  - destruct (@exists_last _ (46 :: d2)) as (b & x & Eb); [congruence|]. rewrite Eb.
    replace ((sign_text s ++ (c :: ds) ++ b ++ [x]) ++ unit_text u) with ((sign_text s ++ (c :: ds) ++ b) ++ x :: unit_text u) by (rewrite <- !app_assoc; reflexivity).
    apply unit_found.
    change ([48; 49; 50; 51; 52; 53; 54; 55; 56; 57; 46]) with ([48; 49; 50; 51; 52; 53; 54; 55; 56; 57] ++ [46]). apply in_or_app.
    assert (I : In x (46 :: d2)) by (rewrite Eb; apply in_or_app; right; left; reflexivity). destruct I as [<-|I]; [right; left; reflexivity|].
    left. apply digit_cases. unfold digits in D2. rewrite Forall_forall in D2. apply (D2 x I).
  - destruct s; discriminate.
  - exact P.
  - lia.
  - replace ((sign_text s ++ (c :: ds) ++ 46 :: d2) ++ unit_text u) with (sign_text s ++ (c :: ds) ++ 46 :: d2 ++ unit_text u) by (rewrite <- !app_assoc; reflexivity).
    apply strtod_point; [exact D|exact D2|apply unit_stops].
  - exact B.
  - exists r. split; [|exact X]. rewrite <- E. f_equal. rewrite <- !app_assoc. reflexivity.
Qed.
Example decimal_durations_ok : parse_duration (text "0.1ms") = Ok (Some 100000) /\ parse_duration (text "-2.5h") = Ok (Some (- 9000 * 10 ^ 9)) /\
  parse_duration (text "1.2345678901s") = Ok (Some 1234567890).
Proof. vm_compute. auto. Qed.

Lemma size_core body c t u m k : body ++ sunit_text u = c :: t -> 48 <= c <= 57 ->
  size_unit (body ++ sunit_text u) = (sunit_text u, sunit_bytes u) -> 0 <= m -> 0 <= k ->
  strtod (body ++ sunit_text u) = Some (power_value false m 10 (0 - k), sunit_text u) ->
  (IZR m / IZR (10 ^ k) * IZR (sunit_bytes u) <= IZR (2 ^ 62))%R ->
  exists r, parse_size (body ++ sunit_text u) = Ok (Some r) /\
    (Rabs (IZR r - IZR m / IZR (10 ^ k) * IZR (sunit_bytes u)) <= 501 / 1000 + IZR m / IZR (10 ^ k) * IZR (sunit_bytes u) / IZR (2 ^ 51))%R /\
    (k = 0 -> m * sunit_bytes u < 2 ^ 53 -> r = m * sunit_bytes u).
Proof.
  intros Eb C U Hm Hk ST B.
  destruct (result_val false m k (sunit_bytes u) Hm Hk) as (r & V & F & T & Er & Lr & Pr & Ex); [destruct u; cbn; lia|exact B|].
  specialize (Pr eq_refl). cbn [sg] in Er, Ex. rewrite Rmult_1_l in Er. exists r. split; [|split; [exact Er|intros K L; rewrite (Ex K L); lia]].
  unfold parse_size. rewrite U, ST, Eb.
  assert (Dc : is_digit c = true) by (unfold is_digit; lia). rewrite Dc. cbn [negb].
  rewrite Nat.eqb_refl. cbn [negb]. fold (result false m k (sunit_bytes u)). cbv zeta.
  destruct (bounds_pass r _ V F Lr) as (_ & _ & B3). rewrite B3.
  rewrite (cast_ok _ _ r) by (exact T || exact F || lia). reflexivity.
Qed.

(** A whole number with K, M, G or nothing gives exactly that many bytes below 2^53. *)
Theorem C74_whole_sizes : forall ds u, digits ds -> ds <> [] -> dec_value ds * sunit_bytes u < 2 ^ 53 ->
  parse_size (ds ++ sunit_text u) = Ok (Some (dec_value ds * sunit_bytes u)).
Proof.
  intros ds u D N L. destruct ds as [|c ds]; [congruence|]. pose proof D as D'. apply Forall_cons_iff in D' as [C _].
  pose proof (dec_value_pos _ D) as P.
  destruct (size_core (c :: ds) c (ds ++ sunit_text u) u (dec_value (c :: ds)) 0) as (r & E & _ & X).
  - reflexivity.
  - exact C.
  - destruct (@exists_last _ (c :: ds)) as (b & x & Eb); [congruence|]. rewrite Eb.
    replace ((b ++ [x]) ++ sunit_text u) with (b ++ x :: sunit_text u) by (rewrite <- !app_assoc; reflexivity).
    apply size_found. rewrite Eb in D. apply Forall_app in D as [_ Dx]. apply Forall_inv in Dx.
    change ([48; 49; 50; 51; 52; 53; 54; 55; 56; 57; 46]) with ([48; 49; 50; 51; 52; 53; 54; 55; 56; 57] ++ [46]). apply in_or_app. left. apply digit_cases. exact Dx.
  - exact P.
  - lia.
  - apply (strtod_whole No_sign c ds); [exact D|apply sunit_stops].
  - change (10 ^ 0) with 1. unfold Rdiv. rewrite Rinv_1, Rmult_1_r, <- mult_IZR. apply IZR_le. lia.
  - rewrite E, X by (reflexivity || exact L). reflexivity.
Qed.
Example whole_sizes_ok : parse_size (text "16M") = Ok (Some (16 * 2 ^ 20)) /\ parse_size (text "007") = Ok (Some 7).
Proof. vm_compute. auto. Qed.

Theorem C74_decimal_sizes : forall d1 d2 u, digits d1 -> d1 <> [] -> digits d2 ->
  let v := (IZR (dec_value (d1 ++ d2)) / IZR (10 ^ Z.of_nat (length d2)) * IZR (sunit_bytes u))%R in
  (v <= IZR (2 ^ 62))%R ->
  exists r, parse_size (d1 ++ [46] ++ d2 ++ sunit_text u) = Ok (Some r) /\ (Rabs (IZR r - v) <= 501 / 1000 + v / IZR (2 ^ 51))%R.
Proof.
  intros d1 d2 u D N D2 v B. destruct d1 as [|c ds]; [congruence|]. pose proof D as D'. apply Forall_cons_iff in D' as [C _].
  assert (P : 0 <= dec_value ((c :: ds) ++ d2)) by (apply dec_value_pos, Forall_app; split; assumption).
  destruct (size_core ((c :: ds) ++ 46 :: d2) c (ds ++ 46 :: d2 ++ sunit_text u) u (dec_value ((c :: ds) ++ d2)) (Z.of_nat (length d2))) as (r & E & X & _).
  - rewrite <- !app_assoc. reflexivity.
  - exact C.
  - destruct (@exists_last _ (46 :: d2)) as (b & x & Eb); [congruence|]. rewrite Eb.
    replace (((c :: ds) ++ b ++ [x]) ++ sunit_text u) with (((c :: ds) ++ b) ++ x :: sunit_text u) by (rewrite <- !app_assoc; reflexivity).
    apply size_found.
    change ([48; 49; 50; 51; 52; 53; 54; 55; 56; 57; 46]) with ([48; 49; 50; 51; 52; 53; 54; 55; 56; 57] ++ [46]). apply in_or_app.
    assert (I : In x (46 :: d2)) by (rewrite Eb; apply in_or_app; right; left; reflexivity). destruct I as [<-|I]; [right; left; reflexivity|].
    left. apply digit_cases. unfold digits in D2. rewrite Forall_forall in D2. apply (D2 x I).
  - exact P.
  - lia.
  - replace (((c :: ds) ++ 46 :: d2) ++ sunit_text u) with (sign_text No_sign ++ (c :: ds) ++ 46 :: d2 ++ sunit_text u) by (cbn [sign_text app]; rewrite <- !app_assoc; reflexivity).
    apply (strtod_point No_sign); [exact D|exact D2|apply sunit_stops].
  - exact B.
  - exists r. split; [|exact X]. rewrite <- E. f_equal. rewrite <- !app_assoc. reflexivity.
Qed.
Example decimal_sizes_ok : parse_size (text "1.5K") = Ok (Some 1536) /\ parse_size (text "0.1G") = Ok (Some 107374182).
Proof. vm_compute. auto. Qed.

(** Whatever is not refused is a number and a unit, with nothing before, between or after. *)
Theorem C74_duration_form : forall t, parse_duration t <> Ok None ->
  exists body u, t = body ++ unit_text u /\ Forall number_char body /\
    exists c rest, body = c :: rest /\ (48 <= c <= 57 \/ c = 43 \/ c = 45).
Proof.
  intros t H. unfold parse_duration in H. destruct (duration_unit t) as [[suf m]|] eqn:U; [|congruence].
  destruct (unit_ends _ _ _ U) as (u & -> & _ & En).
  destruct (Nat.eqb (length t) (length (unit_text u))) eqn:L; [congruence|].
  destruct t as [|c t']; [congruence|].
  destruct (negb (is_digit c) && negb (c =? 43) && negb (c =? 45)) eqn:F; [congruence|].
  destruct (strtod (c :: t')) as [[x r]|] eqn:S; [|congruence].
  destruct (Nat.eqb (length r) (length (unit_text u))) eqn:R; [|cbn [negb] in H; congruence].
  apply strtod_made in S as (p & E & P). apply Nat.eqb_eq in R. apply Nat.eqb_neq in L.
  assert (r = unit_text u) by (eapply ends_split; eauto). subst r. exists p, u. split; [exact E|]. split; [exact P|].
  destruct p as [|d p]; [cbn [app] in E; rewrite E in L; congruence|]. exists d, p. split; [reflexivity|].
  assert (c = d) by (cbn [app] in E; congruence). subst d. unfold is_digit in F. lia.
Qed.
Example duration_form_ok : parse_duration (text "1.5e3us") = Ok (Some 1500000) /\ parse_duration (text "15") = Ok None /\
  parse_duration (text "1 s") = Ok None /\ parse_duration (text " 1s") = Ok None /\ parse_duration (text "1sec") = Ok None.
Proof. vm_compute. repeat split. Qed.
Theorem C74_size_form : forall t, parse_size t <> Ok None ->
  exists body u, t = body ++ sunit_text u /\ Forall number_char body /\ exists c rest, t = c :: rest /\ 48 <= c <= 57.
Proof.
  intros t H. unfold parse_size in H. destruct (size_ends t) as (u & U & En). rewrite U in H.
  destruct t as [|c t']; [congruence|]. destruct (is_digit c) eqn:F; [|cbn [negb] in H; congruence]. cbn [negb] in H.
  destruct (strtod (c :: t')) as [[x r]|] eqn:S; [|congruence].
  destruct (Nat.eqb (length r) (length (sunit_text u))) eqn:R; [|cbn [negb] in H; congruence].
  apply strtod_made in S as (p & E & P). apply Nat.eqb_eq in R.
  assert (r = sunit_text u) by (eapply ends_split; eauto). subst r. exists p, u. split; [exact E|]. split; [exact P|].
  exists c, t'. split; [reflexivity|]. unfold is_digit in F. lia.
Qed.
Example size_form_ok : parse_size (text "0x10K") = Ok (Some 16384) /\ parse_size (text "-1K") = Ok None /\ parse_size (text "1 K") = Ok None /\
  parse_size (text "1KB") = Ok None /\ parse_size (text "") = Ok None.
Proof. vm_compute. repeat split. Qed.

(** A whole number that is far out of range is refused, never wrapped. *)
Theorem C74_too_large_refused : 
  (forall s ds u, digits ds -> 2 ^ 64 <= dec_value ds * unit_ns u -> parse_duration (sign_text s ++ ds ++ unit_text u) = Ok None) /\
  (forall ds u, digits ds -> 2 ^ 65 <= dec_value ds * sunit_bytes u -> parse_size (ds ++ sunit_text u) = Ok None).
Proof.
  split.
  - intros s ds u D L. destruct ds as [|c ds]; [cbn [dec_value] in L; lia|]. pose proof D as D'. apply Forall_cons_iff in D' as [C _].
    assert (U : duration_unit (sign_text s ++ (c :: ds) ++ unit_text u) = Some (unit_text u, unit_ns u)).
    { destruct (@exists_last _ (c :: ds)) as (b & x & Eb); [congruence|]. rewrite Eb.
      replace (sign_text s ++ (b ++ [x]) ++ unit_text u) with ((sign_text s ++ b) ++ x :: unit_text u) by (rewrite <- !app_assoc; reflexivity).
      apply unit_found. rewrite Eb in D. apply Forall_app in D as [_ Dx]. apply Forall_inv in Dx.
      change ([48; 49; 50; 51; 52; 53; 54; 55; 56; 57; 46]) with ([48; 49; 50; 51; 52; 53; 54; 55; 56; 57] ++ [46]). apply in_or_app. left. apply digit_cases. exact Dx. }
    unfold parse_duration. rewrite U. destruct (Nat.eqb _ _); [reflexivity|].
    rewrite strtod_whole by (exact D || apply unit_stops). rewrite Nat.eqb_refl. cbn [negb]. cbv zeta.
    fold (result (neg_of s) (dec_value (c :: ds)) 0 (unit_ns u)).
    assert (Pu : 1 <= unit_ns u < 2 ^ 53) by (destruct u; cbn; lia).
    pose proof (huge_over (neg_of s) (dec_value (c :: ds)) (unit_ns u) 63) as H. 
    assert (K : f64_lt (f64_of_Z (2 ^ 63)) (result (neg_of s) (dec_value (c :: ds)) 0 (unit_ns u))
        || f64_lt (result (neg_of s) (dec_value (c :: ds)) 0 (unit_ns u)) (f64_of_Z (- 2 ^ 63)) = true).
    { apply orb_true_iff. destruct (neg_of s); [right|left]; (apply H; [nia|exact Pu|lia|lia| |]; [intros b; destruct b, u; vm_compute; reflexivity|destruct u; vm_compute; reflexivity]). }
    rewrite K. destruct (sign_text s ++ (c :: ds) ++ unit_text u); [reflexivity|]. destruct (_ && _); reflexivity.
  - intros ds u D L. destruct ds as [|c ds]; [cbn [dec_value] in L; lia|]. pose proof D as D'. apply Forall_cons_iff in D' as [C _].
    assert (U : size_unit ((c :: ds) ++ sunit_text u) = (sunit_text u, sunit_bytes u)).
    { destruct (@exists_last _ (c :: ds)) as (b & x & Eb); [congruence|]. rewrite Eb.
      replace ((b ++ [x]) ++ sunit_text u) with (b ++ x :: sunit_text u) by (rewrite <- !app_assoc; reflexivity).
      apply size_found. rewrite Eb in D. apply Forall_app in D as [_ Dx]. apply Forall_inv in Dx.
      change ([48; 49; 50; 51; 52; 53; 54; 55; 56; 57; 46]) with ([48; 49; 50; 51; 52; 53; 54; 55; 56; 57] ++ [46]). apply in_or_app. left. apply digit_cases. exact Dx. }
    unfold parse_size. rewrite U.
    pose proof (strtod_whole No_sign c ds (sunit_text u) D (sunit_stops u)) as S. change (sign_text No_sign ++ (c :: ds) ++ sunit_text u) with ((c :: ds) ++ sunit_text u) in S.
    rewrite S. rewrite Nat.eqb_refl. cbn [negb neg_of]. cbv zeta.
    fold (result false (dec_value (c :: ds)) 0 (sunit_bytes u)).
    assert (Pu : 1 <= sunit_bytes u < 2 ^ 53) by (destruct u; cbn; lia).
    pose proof (huge_over false (dec_value (c :: ds)) (sunit_bytes u) 64) as H. cbv iota in H.
    rewrite H; [|nia|exact Pu|lia|lia|intros b; destruct b, u; vm_compute; reflexivity|destruct u; vm_compute; reflexivity].
    destruct ((c :: ds) ++ sunit_text u); [reflexivity|]. destruct (negb _); reflexivity.
Qed.
Example too_large_ok : parse_duration (text "-6000000h") = Ok None /\ 2 ^ 64 <= dec_value (text "6000000") * unit_ns Hour /\
  parse_size (text "99999999999999G") = Ok None /\ 2 ^ 65 <= dec_value (text "99999999999999") * sunit_bytes Gib.
Proof. split; [vm_compute; reflexivity|]. split; [vm_compute; congruence|]. split; [vm_compute; reflexivity|vm_compute; congruence]. Qed.

(** Above 2^53 ns whole numbers are not kept. *)
Theorem C74_large_whole_refuted :
  ~ forall ds u, digits ds -> ds <> [] -> dec_value ds * unit_ns u < 2 ^ 63 ->
      parse_duration (ds ++ unit_text u) = Ok (Some (dec_value ds * unit_ns u)).
Proof.
  intros H. specialize (H (text "9007199254740993") Ns).
  assert (E : Ok (Some 9007199254740992) = Ok (Some 9007199254740993) :> res (option Z)).
  { etransitivity; [|etransitivity; [apply H|]].
    - vm_compute; reflexivity.
    - repeat constructor; vm_compute; congruence.
    - vm_compute; congruence.
    - vm_compute; reflexivity.
    - vm_compute; reflexivity. }
  congruence.
Qed.
(** The range check does not keep every value that the integer type cannot hold from the
    conversion, which is undefined behaviour then. *)
Theorem C74_no_undefined_refuted :
  (~ forall t, parse_duration t <> UB) /\ (~ forall t, parse_size t <> UB) /\
  parse_duration (text "9223372036854775807ns") = UB /\ parse_duration (text "-nanms") = UB /\ parse_size (text "18446744073709551615") = UB.
Proof.
  assert (A : parse_duration (text "-nanms") = UB) by (vm_compute; reflexivity).
  assert (B : parse_size (text "18446744073709551615") = UB) by (vm_compute; reflexivity).
  split; [intros H; exact (H _ A)|]. split; [intros H; exact (H _ B)|]. split; [vm_compute; reflexivity|]. split; assumption.
Qed.

Print Assumptions C74_whole_durations.
Print Assumptions C74_decimal_durations.
Print Assumptions C74_whole_sizes.
Print Assumptions C74_decimal_sizes.
Print Assumptions C74_duration_form.
Print Assumptions C74_size_form.
Print Assumptions C74_too_large_refused.
Print Assumptions C74_large_whole_refuted.
Print Assumptions C74_no_undefined_refuted.
