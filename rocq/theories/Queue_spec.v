(** FIFO specification by history: the k-th successful read returns the k-th
    packet written; a read fails exactly when all packets written so far have
    been returned. *)
From Verif Require Import Base Queue_model.
Section S.
Context {A : Type}.
Fixpoint q_written (ops : list (q_op A)) : list A :=
  match ops with [] => [] | QWrite p :: t => p :: q_written t | QRead :: t => q_written t end.
Fixpoint q_nreads (ops : list (q_op A)) : nat :=
  match ops with [] => O | QWrite _ :: t => q_nreads t | QRead :: t => S (q_nreads t) end.
Fixpoint q_got (rs : list (option A)) : list A :=
  match rs with [] => [] | Some p :: t => p :: q_got t | None :: t => q_got t end.
End S.
