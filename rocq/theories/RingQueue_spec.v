(** A double-ended queue as a list; [None]: popping from an empty queue. *)
From Verif Require Import Base RingQueue_model.
Section S.
Context {A : Type}.
Definition dq_step (l : list A) (o : rq_op A) : option (list A) :=
  match o with
  | RPushFront x => Some (x :: l)
  | RPushBack x => Some (l ++ [x])
  | RPopFront => match l with [] => None | _ :: t => Some t end
  | RPopBack => match l with [] => None | _ => Some (removelast l) end
  end.
Fixpoint dq_run (l : list A) (ops : list (rq_op A)) : option (list A) :=
  match ops with
  | [] => Some l
  | o :: ops' => match dq_step l o with None => None | Some l' => dq_run l' ops' end
  end.
(** The queue never holds more than [m] elements. *)
Fixpoint within (m : nat) (l : list A) (ops : list (rq_op A)) : Prop :=
  (length l <= m)%nat /\
  match ops with
  | [] => True
  | o :: ops' => match dq_step l o with None => True | Some l' => within m l' ops' end
  end.
End S.
