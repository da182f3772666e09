(** Shared vocabulary: machine integers, outcomes, byte lists.
    Nothing here models a particular source file; the C++ integer conversions
    below are those of the two's complement targets roc-toolkit supports. *)
From Coq Require Export List ZArith Lia Bool Arith.
From Coq Require Export ZifyBool ZifyNat ZifyN.
Export ListNotations.
Open Scope Z_scope.

Ltac Zify.zify_post_hook ::= Z.div_mod_to_equations.

(** Conversion of an integer to an unsigned n-bit type. *)
Definition wrapu (n : Z) (x : Z) : Z := x mod 2 ^ n.

(** Conversion of an integer to a signed two's complement n-bit type. *)
Definition wraps (n : Z) (x : Z) : Z :=
  let y := x mod 2 ^ n in if y <? 2 ^ (n - 1) then y else y - 2 ^ n.

Definition u8 := wrapu 8.
Definition u16 := wrapu 16.
Definition u32 := wrapu 32.
Definition u64 := wrapu 64.
Definition s16 := wraps 16.
Definition s32 := wraps 32.
Definition s64 := wraps 64.

(** Outcome of a C++ function: a value, a [roc_panic] (the library aborts the
    process deliberately), or undefined behaviour (out of bounds access, NULL
    dereference, signed overflow). *)
Inductive res (A : Type) : Type :=
| Ok (a : A)
| Panic
| UB.
Arguments Ok {A} a.
Arguments Panic {A}.
Arguments UB {A}.

Definition bind {A B} (r : res A) (f : A -> res B) : res B :=
  match r with Ok a => f a | Panic => Panic | UB => UB end.

Declare Scope res_scope.
Notation "x <- r ;; k" := (bind r (fun x => k))
  (at level 61, r at next level, right associativity) : res_scope.

Definition is_ok {A} (r : res A) : Prop := exists a, r = Ok a.

(** Bytes. *)
Definition byte_ok (b : Z) : Prop := 0 <= b < 256.
Definition bytes_ok (l : list Z) : Prop := Forall byte_ok l.

(** Checked access to element [i] of a buffer: [UB] outside it. *)
Definition rd {A} (l : list A) (i : nat) : res A :=
  match nth_error l i with Some a => Ok a | None => UB end.

(** Replace element [i] (no effect outside; use [wr] for the checked form). *)
Fixpoint upd {A} (l : list A) (i : nat) (x : A) : list A :=
  match l, i with
  | [], _ => []
  | _ :: t, O => x :: t
  | h :: t, S j => h :: upd t j x
  end.

(** Checked store. *)
Definition wr {A} (l : list A) (i : nat) (x : A) : res (list A) :=
  if (i <? length l)%nat then Ok (upd l i x) else UB.

(** Big-endian composition of bytes. *)
Definition be16 (a b : Z) : Z := a * 256 + b.
Definition be32 (a b c d : Z) : Z := ((a * 256 + b) * 256 + c) * 256 + d.
Definition byte_of (x : Z) (k : Z) : Z := (x / 2 ^ (8 * k)) mod 256.
Definition put16 (x : Z) : list Z := [byte_of x 1; byte_of x 0].
Definition put32 (x : Z) : list Z := [byte_of x 3; byte_of x 2; byte_of x 1; byte_of x 0].
