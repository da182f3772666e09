(** Specification by history: each route belongs to the source of the first
    packet that matched it; a packet is delivered to the first route all of
    whose flags it has, if that route is free or belongs to its source. *)
From Verif Require Import Base Router_model.
Open Scope N_scope.

(** All bits of [need] are set in [have]. *)
Definition has_all (need have : N) : Prop := forall b, N.testbit need b = true -> N.testbit have b = true.

(** [i] is the first entry of the flag table matched by the packet. *)
Definition first_match (table : list N) (p : rpkt) (i : nat) : Prop :=
  exists need, nth_error table i = Some need /\ has_all need (rp_flags p) /\
  forall j need', (j < i)%nat -> nth_error table j = Some need' -> ~ has_all need' (rp_flags p).

(** [q] is the earliest packet of [h] matching route [i]. *)
Definition owner (table : list N) (h : list rpkt) (i : nat) (q : rpkt) : Prop :=
  exists a b, h = a ++ q :: b /\ first_match table q i /\
              forall x, In x a -> ~ first_match table x i.

(** Packet [p], arriving after history [h], is delivered to route [i]. *)
Definition delivered (table : list N) (h : list rpkt) (p : rpkt) (i : nat) : Prop :=
  first_match table p i /\
  exists q, owner table (h ++ [p]) i q /\ rp_src q = rp_src p.
