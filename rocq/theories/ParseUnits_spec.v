(** What text means a duration or a size. Nothing here refers to the model. *)
From Coq Require Import Reals.
From Verif Require Import Base.
Local Open Scope Z_scope.

(** Characters are ASCII codes. *)
Inductive tunit := Ns | Us | Ms | Sec | Minute | Hour.
Definition unit_text (u : tunit) : list Z :=
  match u with
  | Ns => [110; 115] | Us => [117; 115] | Ms => [109; 115]
  | Sec => [115] | Minute => [109] | Hour => [104]
  end.
Definition unit_ns (u : tunit) : Z :=
  match u with
  | Ns => 1 | Us => 1000 | Ms => 1000 * 1000 | Sec => 1000 * 1000 * 1000
  | Minute => 60 * (1000 * 1000 * 1000) | Hour => 60 * 60 * (1000 * 1000 * 1000)
  end.

Inductive sunit := Byte | Kib | Mib | Gib.
Definition sunit_text (u : sunit) : list Z :=
  match u with Byte => [] | Kib => [75] | Mib => [77] | Gib => [71] end.
Definition sunit_bytes (u : sunit) : Z :=
  match u with Byte => 1 | Kib => 2 ^ 10 | Mib => 2 ^ 20 | Gib => 2 ^ 30 end.

Definition digits (ds : list Z) : Prop := Forall (fun c => 48 <= c <= 57) ds.
(** The number that digits write. *)
Fixpoint dec_value (ds : list Z) : Z :=
  match ds with
  | [] => 0
  | c :: t => (c - 48) * 10 ^ Z.of_nat (length t) + dec_value t
  end.

Inductive sign := No_sign | Plus | Minus.
Definition sign_text (s : sign) : list Z := match s with No_sign => [] | Plus => [43] | Minus => [45] end.
Definition sign_of (s : sign) : Z := match s with Minus => -1 | _ => 1 end.

(** Characters that can be in a number: letters, digits, + - . ( ) _ *)
Definition number_char (c : Z) : Prop :=
  48 <= c <= 57 \/ 65 <= c <= 90 \/ 97 <= c <= 122 \/ c = 43 \/ c = 45 \/ c = 46 \/ c = 40 \/ c = 41 \/ c = 95.
