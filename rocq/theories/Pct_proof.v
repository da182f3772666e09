From Verif Require Import Base Base_lemmas Pct_model Pct_spec.

Lemma isx_hex c : isxdigit c = true <-> hex_digit c (from_hex1 c).
Proof. unfold isxdigit, hex_digit, from_hex1, tolower, isdigit. repeat match goal with |- context [if ?b then _ else _] => destruct b eqn:? end; lia. Qed.

Lemma hex_det c v w : hex_digit c v -> hex_digit c w -> v = w.
Proof. unfold hex_digit. lia. Qed.

Lemma hex_range c v : hex_digit c v -> 0 <= v < 16.
Proof. unfold hex_digit. lia. Qed.

Lemma from_hex_eq h l a b : hex_digit h a -> hex_digit l b -> from_hex h l = a * 16 + b.
Proof.
  intros Hh Hl. pose proof (hex_range _ _ Hh). pose proof (hex_range _ _ Hl).
  assert (from_hex1 h = a) by (apply (hex_det h); [apply isx_hex; unfold isxdigit, isdigit; unfold hex_digit in Hh; lia|exact Hh]).
  assert (from_hex1 l = b) by (apply (hex_det l); [apply isx_hex; unfold isxdigit, isdigit; unfold hex_digit in Hl; lia|exact Hl]).
  unfold from_hex. rewrite H1, H2. rewrite lor_shiftl_add by lia. change (2 ^ 4) with 16.
  unfold u8, wrapu. change (2 ^ 8) with 256. apply Z.mod_small. lia.
Qed.

Lemma decode_eq c s : pct_decode (c :: s) =
  if c =? 0 then None
  else if c =? 37 then
    match s with
    | h :: l :: s3 => if negb (isxdigit h) || negb (isxdigit l) then None
                      else if from_hex h l =? 0 then None else option_map (cons (from_hex h l)) (pct_decode s3)
    | _ => None
    end
  else option_map (cons c) (pct_decode s).
Proof. reflexivity. Qed.

Lemma isx_of c v : hex_digit c v -> isxdigit c = true.
Proof. unfold hex_digit, isxdigit, isdigit. lia. Qed.

Lemma decode_complete s t : encodes s t -> pct_decode s = Some t.
Proof.
  induction 1.
  - reflexivity.
  - rewrite decode_eq. replace (c =? 0) with false by lia. replace (c =? 37) with false by lia. rewrite IHencodes. reflexivity.
  - rewrite decode_eq. change (37 =? 0) with false. change (37 =? 37) with true. cbv iota.
    rewrite (isx_of h a H), (isx_of l b H0). cbn [negb orb]. rewrite (from_hex_eq h l a b H H0).
    replace (a * 16 + b =? 0) with false by lia. rewrite IHencodes. reflexivity.
Qed.

Lemma decode_sound : forall n s t, (length s <= n)%nat -> pct_decode s = Some t -> encodes s t.
Proof.
  induction n as [|n IH]; intros s t L E.
  - destruct s; [|cbn in L; lia]. injection E as <-. constructor.
  - destruct s as [|c s]; [injection E as <-; constructor|].
    rewrite decode_eq in E. cbn [length] in L.
    destruct (Z.eqb_spec c 0); [discriminate|]. destruct (Z.eqb_spec c 37) as [->|].
    + destruct s as [|h [|l s]]; try discriminate.
      destruct (isxdigit h) eqn:Hh; [|discriminate]. destruct (isxdigit l) eqn:Hl; [|discriminate]. cbn [negb orb] in E.
      apply isx_hex in Hh, Hl. rewrite (from_hex_eq h l _ _ Hh Hl) in E.
      destruct (Z.eqb_spec (from_hex1 h * 16 + from_hex1 l) 0); [discriminate|].
      destruct (pct_decode s) as [t'|] eqn:E2; [|discriminate]. injection E as <-.
      constructor; auto. apply IH; [cbn [length] in L; lia|exact E2].
    + destruct (pct_decode s) as [t'|] eqn:E2; [|discriminate]. injection E as <-.
      constructor; auto. apply IH; [lia|exact E2].
Qed.

Lemma to_hex_digit v : 0 <= v < 16 -> hex_digit (to_hex v) v.
Proof.
  intros H. assert (In v [0;1;2;3;4;5;6;7;8;9;10;11;12;13;14;15]) as Hin by (cbn; lia).
  unfold hex_digit. cbn [In] in Hin.
  repeat match type of Hin with _ \/ _ => destruct Hin as [<-|Hin] end; try contradiction;
  match goal with |- context [to_hex ?x] => let y := eval vm_compute in (to_hex x) in change (to_hex x) with y end; lia.
Qed.

Lemma to_hex_land v : to_hex (Z.land v 15) = to_hex v.
Proof. unfold to_hex. rewrite <- Z.land_assoc. reflexivity. Qed.

Lemma land_15 c : Z.land c 15 = c mod 16.
Proof. change 15 with (Z.ones 4). rewrite Z.land_ones by lia. reflexivity. Qed.

Lemma to_hex_range v : 48 <= to_hex v <= 57 \/ 65 <= to_hex v <= 70.
Proof.
  rewrite <- to_hex_land, land_15. pose proof (Z.mod_pos_bound v 16 eq_refl).
  pose proof (to_hex_digit (v mod 16) H) as D. assert (In (v mod 16) [0;1;2;3;4;5;6;7;8;9;10;11;12;13;14;15]) as Hin by (cbn; lia).
  clear H D. revert Hin. generalize (v mod 16). clear v. intros v Hin. cbn [In] in Hin.
  repeat match type of Hin with _ \/ _ => destruct Hin as [<-|Hin] end; try contradiction; vm_compute; intuition congruence.
Qed.

Lemma encode_units c : 0 < c < 256 ->
  hex_digit (to_hex (Z.shiftr c 4)) (c / 16) /\ hex_digit (to_hex (Z.land c 15)) (c mod 16).
Proof.
  intros H. rewrite Z.shiftr_div_pow2 by lia. change (2 ^ 4) with 16. rewrite land_15.
  split; apply to_hex_digit; lia.
Qed.

Lemma skip_not_pct m : skip_encoding m 37 = false.
Proof. destruct m; reflexivity. Qed.

Lemma encode_spec m : forall s, Forall (fun c => 0 < c < 256) s ->
  exists e, pct_encode m s = Some e /\ encodes e s /\
    Forall (fun c => skip_encoding m c = true \/ c = 37 \/ (48 <= c <= 57 \/ 65 <= c <= 70)) e /\
    (length s <= length e <= 3 * length s)%nat.
Proof.
  induction s as [|c s IH]; intros F; cbn [pct_encode].
  - exists []. repeat split; try constructor; cbn; lia.
  - rewrite Forall_cons_iff in F. destruct F as [Hc F]. destruct (IH F) as (e & -> & He & Hf & Hl).
    replace (c =? 0) with false by lia. cbn [option_map].
    destruct (skip_encoding m c) eqn:Sk.
    + exists (c :: e). split; [reflexivity|]. split.
      { constructor; [lia| |exact He]. intros ->. rewrite skip_not_pct in Sk. discriminate. }
      split; [constructor; auto|cbn [length]; lia].
    + destruct (encode_units c Hc) as [H1 H2]. eexists; split; [reflexivity|]. split.
      { replace (c :: s) with (c / 16 * 16 + c mod 16 :: s) by (f_equal; lia). constructor; auto. lia. }
      split; [|cbn [length]; lia].
      constructor; [auto|]. constructor.
      { right. right. apply to_hex_range. }
      constructor; [|exact Hf].
      { right. right. apply to_hex_range. }
Qed.
