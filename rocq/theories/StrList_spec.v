(** Specification of the string list: the strings whose push succeeded. *)
From Verif Require Import Base.

Fixpoint pushed (ops : list (list Z * bool)) : list (list Z) :=
  match ops with
  | [] => []
  | (s, true) :: ops' => s :: pushed ops'
  | (_, false) :: ops' => pushed ops'
  end.

(** NUL-free byte strings whose block length fits a uint32. *)
Definition good_str (s : list Z) : Prop :=
  Forall (fun c => 1 <= c < 256) s /\ Z.of_nat (length s) < 4294967280.

(** [t] is a prefix of [s]. *)
Definition prefix (t s : list Z) : Prop := exists r, s = t ++ r.
(** Both strings occupy the same number of 4-byte words including their NUL. *)
Definition same_block (t s : list Z) : Prop := ((length t) / 4 = (length s) / 4)%nat.
