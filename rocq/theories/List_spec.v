(** Lists as mathematical sequences: [s k] is the content of list [k]; an
    element is in at most one list. [None]: the operation is an error that must
    be detected. *)
From Verif Require Import Base List_model.

Definition seqs := list (list nat).
Definition content (s : seqs) (k : nat) : list nat := nth k s [].
Definition member (e : nat) (s : seqs) : bool := existsb (existsb (Nat.eqb e)) s.
Definition in_list (e : nat) (l : list nat) : bool := existsb (Nat.eqb e) l.

Fixpoint put_before (e b : nat) (l : list nat) : list nat :=
  match l with
  | [] => []
  | x :: t => if Nat.eqb x b then e :: x :: t else x :: put_before e b t
  end.
Fixpoint put_after (e a : nat) (l : list nat) : list nat :=
  match l with
  | [] => []
  | x :: t => if Nat.eqb x a then x :: e :: t else x :: put_after e a t
  end.

Definition spec_step (s : seqs) (o : lop) : option seqs :=
  match o with
  | PushFront k e => if member e s then None else Some (upd s k (e :: content s k))
  | PushBack k e => if member e s then None else Some (upd s k (content s k ++ [e]))
  | PopFront k => match content s k with [] => None | _ :: t => Some (upd s k t) end
  | PopBack k => match content s k with [] => None | _ => Some (upd s k (removelast (content s k))) end
  | InsertBefore k e b =>
      if member e s || negb (in_list b (content s k)) then None else Some (upd s k (put_before e b (content s k)))
  | InsertAfter k e a =>
      if member e s || negb (in_list a (content s k)) then None else Some (upd s k (put_after e a (content s k)))
  | Remove k e =>
      if in_list e (content s k) then Some (upd s k (remove Nat.eq_dec e (content s k))) else None
  end.

Fixpoint spec_run (s : seqs) (ops : list lop) : option seqs :=
  match ops with
  | [] => Some s
  | o :: ops' => match spec_step s o with None => None | Some s' => spec_run s' ops' end
  end.

(** The list an operation works on. *)
Definition on (o : lop) : nat :=
  match o with
  | PushFront k _ | PushBack k _ | PopFront k | PopBack k | InsertBefore k _ _ | InsertAfter k _ _ | Remove k _ => k
  end.

(** insert_after is only called with an element of the list. *)
Fixpoint after_ok (s : seqs) (ops : list lop) : Prop :=
  match ops with
  | [] => True
  | o :: ops' =>
      match o with InsertAfter k _ a => In a (content s k) | _ => True end /\
      match spec_step s o with Some s' => after_ok s' ops' | None => True end
  end.
