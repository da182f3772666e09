(** All forms of numbers in durations and sizes. Nothing here refers to the model. *)
From Coq Require Import Reals.
From Verif Require Import Base ParseUnits_spec.
Local Open Scope Z_scope.

Definition hexdigit (c : Z) : Prop := 48 <= c <= 57 \/ 65 <= c <= 70 \/ 97 <= c <= 102.
Definition hexdigit_value (c : Z) : Z := if c <=? 57 then c - 48 else if c <=? 70 then c - 65 + 10 else c - 97 + 10.
Fixpoint hex_value (hs : list Z) : Z :=
  match hs with
  | [] => 0
  | c :: t => hexdigit_value c * 16 ^ Z.of_nat (length t) + hex_value t
  end.

(** What is after the point, if there is one; the exponent, if there is one, and whether
    its letter is in upper case. *)
Definition fraction := option (list Z).
Definition fraction_text (p : fraction) : list Z := match p with None => [] | Some ds => 46 :: ds end.
Definition fraction_digits (p : fraction) : list Z := match p with None => [] | Some ds => ds end.
Inductive power := No_power | Power (upper : bool) (s : sign) (ds : list Z).
Definition power_text (letter : Z) (e : power) : list Z :=
  match e with
  | No_power => []
  | Power upper s ds => (if upper then letter - 32 else letter) :: sign_text s ++ ds
  end.
Definition power_ok (e : power) : Prop := match e with No_power => True | Power _ _ ds => digits ds /\ ds <> [] end.
Definition power_number (e : power) : Z := match e with No_power => 0 | Power _ s ds => sign_of s * dec_value ds end.

(** 12.5e3, or 0x1f.8p3 *)
Inductive numeral :=
| Dec (ds : list Z) (p : fraction) (e : power)
| Hex (upper : bool) (hs : list Z) (p : fraction) (e : power).
Definition numeral_text (n : numeral) : list Z :=
  match n with
  | Dec ds p e => ds ++ fraction_text p ++ power_text 101 e
  | Hex upper hs p e => 48 :: (if upper then 88 else 120) :: hs ++ fraction_text p ++ power_text 112 e
  end.
Definition numeral_ok (n : numeral) : Prop :=
  match n with
  | Dec ds p e => digits (ds ++ fraction_digits p) /\ ds ++ fraction_digits p <> [] /\ power_ok e
  | Hex _ hs p e => Forall hexdigit (hs ++ fraction_digits p) /\ hs ++ fraction_digits p <> [] /\ power_ok e
  end.
(** [m * b ^ e] *)
Definition scaled (m b e : Z) : R := if e <? 0 then (IZR m / IZR (b ^ (- e)))%R else IZR (m * b ^ e).
Definition numeral_value (n : numeral) : R :=
  match n with
  | Dec ds p e => scaled (dec_value (ds ++ fraction_digits p)) 10 (power_number e - Z.of_nat (length (fraction_digits p)))
  | Hex _ hs p e => scaled (hex_value (hs ++ fraction_digits p)) 2 (power_number e - 4 * Z.of_nat (length (fraction_digits p)))
  end.
(** Text that begins with a digit. *)
Definition digit_first (n : numeral) : Prop := match n with Dec [] _ _ => False | _ => True end.
