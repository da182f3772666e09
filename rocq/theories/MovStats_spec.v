(** Statistics of the last [win] elements of a history. *)
From Verif Require Import Base.
Definition last_n (win : nat) (xs : list Z) : list Z := skipn (length xs - win) xs.
Fixpoint zsum (l : list Z) : Z := match l with [] => 0 | x :: t => x + zsum t end.
Definition mean (l : list Z) : Z := match l with [] => 0 | _ => Z.quot (zsum l) (Z.of_nat (length l)) end.
(** Truncated standard deviation: sqrt ((n * sum x^2 - (sum x)^2) / n^2). *)
Definition deviation (l : list Z) : Z :=
  match l with
  | [] => 0
  | _ => let n := Z.of_nat (length l) in
         Z.sqrt (Z.quot (n * zsum (map (fun x => x * x) l) - zsum l * zsum l) (n * n))
  end.
Definition greatest (m : Z) (l : list Z) : Prop := In m l /\ forall x, In x l -> x <= m.
Definition least (m : Z) (l : list Z) : Prop := In m l /\ forall x, In x l -> m <= x.
