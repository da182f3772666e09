(** Observations. [QLin] marks the moment a push takes effect; it lies between
    the call ([QCall]) and the return ([QRet]) of the push. *)
From Verif Require Import Base Mpsc_model.

Definition queued (outs : list mqout) : list Z := flat_map (fun o => match o with QLin _ x => [x] | _ => [] end) outs.
Definition popped (outs : list mqout) : list Z := flat_map (fun o => match o with QPopped (Some x) => [x] | _ => [] end) outs.

(** What one producer called, got queued, and got back. *)
Definition calls_of (t : nat) (outs : list mqout) : list Z :=
  flat_map (fun o => match o with QCall u x => if Nat.eqb u t then [x] else [] | _ => [] end) outs.
Definition queued_of (t : nat) (outs : list mqout) : list Z :=
  flat_map (fun o => match o with QLin u x => if Nat.eqb u t then [x] else [] | _ => [] end) outs.
Definition returned_of (t : nat) (outs : list mqout) : list Z :=
  flat_map (fun o => match o with QRet u x => if Nat.eqb u t then [x] else [] | _ => [] end) outs.

(** [l1] is an initial part of [l2], shorter by at most one. *)
Definition behind_one (l1 l2 : list Z) : Prop := l2 = l1 \/ exists x, l2 = l1 ++ [x].

Definition called (outs : list mqout) : list Z := flat_map (fun o => match o with QCall _ x => [x] | _ => [] end) outs.

(** A pop that is not interfered with: seven more steps are enough. *)
Definition one_pop (b : bool) : list mqlabel := QPop b :: repeat QCons 7.
