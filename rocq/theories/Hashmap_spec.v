(** A map from keys to elements: the sequence of its elements in insertion
    order; [keyof] gives the key of an element. *)
From Verif Require Import Base Hashmap_model.
Section S.
Variable keyof : nat -> Z.
Variable other : nat -> bool. (* members of other hashmaps *)

Definition mem (n : nat) (m : list nat) : bool := existsb (Nat.eqb n) m.
Definition lookup (k : Z) (m : list nat) : option nat := List.find (fun n => keyof n =? k) m.

(** Effect of an operation that answered [b]. [None]: it must not return. *)
Definition map_step (m : list nat) (o : hop) (b : bool) : option (list nat) :=
  match o, b with
  | HInsert n ok, true =>
      if mem n m || other n then None
      else match lookup (keyof n) m with Some _ => None | None => Some (m ++ [n]) end
  | HInsert _ ok, false => if ok then None else Some m
  | HRemove n, true => if mem n m then Some (filter (fun x => negb (x =? n)%nat) m) else None
  | HRemove _, false => None
  | HGrow ok, true => Some m
  | HGrow ok, false => if ok then None else Some m
  end.
Fixpoint map_run (m : list nat) (ops : list hop) (bs : list bool) : option (list nat) :=
  match ops, bs with
  | [], [] => Some m
  | o :: ops', b :: bs' => match map_step m o b with Some m' => map_run m' ops' bs' | None => None end
  | _, _ => None
  end.

(** Using an operation against its contract. *)
Definition misuse (m : list nat) (o : hop) : Prop :=
  match o with
  | HInsert n _ => In n m \/ other n = true \/ exists x, In x m /\ keyof x = keyof n
  | HRemove n => ~ In n m
  | HGrow _ => False
  end.
End S.
