(** Specification of the string builder: the text is what was appended since
    the last assignment. *)
From Verif Require Import Base StrBuilder_model.

Fixpoint text (acc : list Z) (ops : list sb_op) : list Z :=
  match ops with
  | [] => acc
  | SbAssign s :: ops' => text s ops'
  | SbAppend s :: ops' => text (acc ++ s) ops'
  end.

Fixpoint dtext (acc : list Z) (ops : list db_op) : list Z :=
  match ops with
  | [] => acc
  | DbAssign s _ :: ops' => dtext s ops'
  | DbAppend s _ _ :: ops' => dtext (acc ++ s) ops'
  end.

(** Value of a digit string in a base; '0'-'9', 'A'-'F'. *)
Definition char_digit (c : Z) : Z := if c <=? 57 then c - 48 else c - 55.
Definition value (base : Z) (s : list Z) : Z := fold_left (fun v c => v * base + char_digit c) s 0.
