(** Model of roc_packet/queue.cpp (list front first; null packets excluded). *)
From Verif Require Import Base.
Section Q.
Context {A : Type}.
(** queue.cpp:15-22 *)
Definition q_read (l : list A) : list A * option A :=
  match l with [] => ([], None) | p :: t => (t, Some p) end.
(** queue.cpp:24-30 *)
Definition q_write (l : list A) (p : A) : list A := l ++ [p].

Inductive q_op := QWrite (p : A) | QRead.
Fixpoint q_run (l : list A) (ops : list q_op) : list A * list (option A) :=
  match ops with
  | [] => (l, [])
  | QWrite p :: t => q_run (q_write l p) t
  | QRead :: t =>
      let (l1, r) := q_read l in
      let (l2, rs) := q_run l1 t in (l2, r :: rs)
  end.
End Q.
Arguments q_op A : clear implicits.
