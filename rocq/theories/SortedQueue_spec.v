(** What a jitter buffer must do, over an unordered bag of stored packets whose
    [key] is the ideal (never wrapping) position of a packet in the stream. *)
From Coq Require Import Permutation.
From Verif Require Import Base SortedQueue_model.

Section Spec.
Context {A : Type}.
Variable key : A -> Z.
Variable max : nat.      (* 0 = unlimited *)

(** One call: stored bag before, operation, read results, stored bag after. *)
Inductive jb_step : list A -> sq_op A -> list (option A) -> list A -> Prop :=
| jb_full s p :
    (0 < max)%nat -> length s = max -> jb_step s (SqWrite p) [] s
| jb_dup s p q :
    ~ ((0 < max)%nat /\ length s = max) ->
    In q s -> key q = key p -> jb_step s (SqWrite p) [] s
| jb_store s p s' :
    ~ ((0 < max)%nat /\ length s = max) ->
    (forall q, In q s -> key q <> key p) ->
    Permutation s' (p :: s) -> jb_step s (SqWrite p) [] s'
| jb_empty : jb_step [] SqRead [None] []
| jb_read s p s' :
    Permutation s (p :: s') ->
    (forall q, In q s' -> key p < key q) ->
    jb_step s SqRead [Some p] s'.

Inductive jb_run : list A -> list (sq_op A) -> list (option A) -> list A -> Prop :=
| jb_nil s : jb_run s [] [] s
| jb_cons s o r s1 ops rs s2 :
    jb_step s o r s1 -> jb_run s1 ops rs s2 -> jb_run s (o :: ops) (r ++ rs) s2.

(** Packets written by a history, and packets returned. *)
Fixpoint jb_written (ops : list (sq_op A)) : list A :=
  match ops with
  | [] => []
  | SqWrite p :: t => p :: jb_written t
  | SqRead :: t => jb_written t
  end.
Fixpoint jb_returned (rs : list (option A)) : list A :=
  match rs with [] => [] | Some p :: t => p :: jb_returned t | None :: t => jb_returned t end.

Fixpoint increasing (l : list A) : Prop :=
  match l with
  | [] => True
  | p :: t => (forall q, In q t -> key p < key q) /\ increasing t
  end.
End Spec.
