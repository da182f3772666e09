(** What a PCM payload is, independently of the code: a sequence of fixed-size containers,
    each holding an integer of [w] value bits in its low bits, most or least significant
    octet first. *)
From Coq Require Import Reals List ZArith.
From Flocq Require Import Core.Core.
Import ListNotations.
Open Scope Z_scope.

(** The [n] octets of a non-negative number, least significant first. *)
Fixpoint octets (n : nat) (u : Z) : list Z :=
  match n with O => [] | S k => u mod 256 :: octets k (u / 256) end.

(** One container of [n] octets. *)
Definition container (big : bool) (n : nat) (u : Z) : list Z :=
  if big then rev (octets n u) else octets n u.

(** Field value that stands for the signed level [k] in a [w]-bit format: two's complement
    if the format is signed, offset binary if it is not. *)
Definition field (signed : bool) (w k : Z) : Z :=
  if signed then k mod 2 ^ w else k + 2 ^ (w - 1).

(** [k] is the level of the amplitude [r]: full scale is 2^(w-1), fractions are dropped
    towards zero, out of range amplitudes are clipped. *)
Definition level_of (w : Z) (r : R) (k : Z) : Prop :=
  ((r < -1)%R -> k = - 2 ^ (w - 1)) /\
  ((1 <= r)%R -> k = 2 ^ (w - 1) - 1) /\
  ((-1 <= r < 1)%R -> k = Ztrunc (r * IZR (2 ^ (w - 1)))).

(** Amplitude of a level. *)
Definition amplitude (w k : Z) : R := (IZR k / IZR (2 ^ (w - 1)))%R.
