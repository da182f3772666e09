(** Specification: the stream of written packets is cut into blocks of [n]
    packets; a flush cuts the current block short.  [blocks] returns the closed
    blocks and the packets of the block still open. *)
From Coq Require Import Permutation.
From Verif Require Import Base Interleaver_model.

Section S.
Context {A : Type}.

Fixpoint blocks_from (n : nat) (cur : list A) (ops : list (il_op A))
  : list (list A) * list A :=
  match ops with
  | [] => ([], cur)
  | IlWrite p :: t =>
      if (length (cur ++ [p]) =? n)%nat then
        let (b, r) := blocks_from n [] t in ((cur ++ [p]) :: b, r)
      else blocks_from n (cur ++ [p]) t
  | IlFlush :: t =>
      let (b, r) := blocks_from n [] t in (cur :: b, r)
  end.
Definition blocks (n : nat) (ops : list (il_op A)) := blocks_from n [] ops.

Fixpoint il_written (ops : list (il_op A)) : list A :=
  match ops with [] => [] | IlWrite p :: t => p :: il_written t | IlFlush :: t => il_written t end.
End S.
