(* What is known about capture times. *)
From Coq Require Import ZArith List Reals.
From Verif Require Import TimeConv_spec.
Import ListNotations.
Local Open Scope Z_scope.

(* the last of the pairs (capture time, stream timestamp) that has a capture time *)
Fixpoint last_known (ps : list (Z * Z)) : option (Z * Z) :=
  match ps with
  | [] => None
  | (c, q) :: ps =>
      match last_known ps with Some x => Some x | None => if 0 <? c then Some (c, q) else None end
  end.

(* [k] is by how many samples timestamp [q] is ahead of [p], both taken modulo
   2^32, if that is less than 2^31 *)
Definition ahead (q p k : Z) : Prop := - 2 ^ 31 <= k < 2 ^ 31 /\ q mod 2 ^ 32 = (p + k) mod 2 ^ 32.

(* the capture time [r] of the packet with timestamp [q] follows from the pair (c, p) *)
Definition follows (rate c p q r : Z) : Prop :=
  exists k d, ahead q p k /\ close d (exact_ns k rate) /\ r = c + d.
