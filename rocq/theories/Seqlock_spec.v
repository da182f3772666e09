(** Observations on a seqlock. *)
From Verif Require Import Base Seqlock_model.

(** The value of the last completed store. *)
Fixpoint committed (v0 : list Z) (outs : list slout) : list Z :=
  match outs with [] => v0 | SStored _ v _ :: outs' => committed v outs' | _ :: outs' => committed v0 outs' end.
Definition stores (outs : list slout) : Z :=
  Z.of_nat (length (filter (fun o => match o with SStored _ _ _ => true | _ => false end) outs)).

(** exclusive_store may only be used if a single thread stores. *)
Definition writer_of (l : sllabel) : option nat := match l with LTry t _ | LExcl t _ => Some t | _ => None end.
Definition permitted (ls : list sllabel) : Prop :=
  (forall t v, ~ In (LExcl t v) ls) \/ (exists w, forall l t, In l ls -> writer_of l = Some t -> t = w).

(** The outputs that end a load attempt of thread [t]. *)
Definition ends_load (t : nat) (o : slout) : Prop :=
  match o with SLoaded u _ _ | SLoadFailed u => u = t | _ => False end.
(** No thread is in the middle of replacing the value. *)
Definition quiet (s : sl) : Prop := forall t v a i, sl_th s t <> TCopy v a i.
(** Whole calls of try_store and of a load attempt by one thread. *)
Definition one_store (t : nat) (v : list Z) : list sllabel := LTry t v :: LStep t :: repeat (LStep t) (S (length v)).
Definition one_load (t : nat) (n : nat) : list sllabel := LBegin t :: repeat (LStep t) (S n).
Fixpoint many (k : nat) (l : list sllabel) : list sllabel := match k with O => [] | S k' => l ++ many k' l end.
