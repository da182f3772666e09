(** Rules of use of shared pointers, and what is observed. *)
From Verif Require Import Base RefCount_model.

(** The variables an operation in progress writes and reads. *)
Definition dest_of (ph : phase) : option place := match ph with Idle => None | PSet p _ _ _ | PAcq p _ _ _ => Some p end.
Definition reads_of (ph : phase) : list place := match ph with Idle => [] | PSet _ _ r _ | PAcq _ _ r _ => r end.

Definition place_eqb (a b : place) : bool :=
  match a, b with PLoc i, PLoc j => Nat.eqb i j | PMem i, PMem j => Nat.eqb i j | _, _ => false end.

(** No operation in progress writes / uses the variable. *)
Definition not_written (s : rc) (p : place) : Prop :=
  Forall (fun th => dest_of (th_ph th) <> Some p) (rc_th s).
Definition not_used (s : rc) (p : place) : Prop :=
  not_written s p /\ Forall (fun th => ~ In p (reads_of (th_ph th))) (rc_th s).

(** What local variable [q] points to. *)
Definition points (s : rc) (q : nat) (v : option nat) : Prop := exists w, nth_error (rc_loc s) q = Some (mkCell v w).

(** An operation may start if there is no data race on variables (written ones
    are not in use, read ones are not being written), dereferenced variables
    are not null, and it is not of the form p = p->member. *)
Definition may_start (s : rc) (o : rop) : Prop :=
  match o with
  | ONew p | OClear p => (exists v, points s p v) /\ not_used s (PLoc p)
  | OAssign p q => (exists v, points s p v) /\ not_used s (PLoc p) /\ (exists v, points s q v) /\ not_written s (PLoc q)
  | OGet p q =>
      p <> q /\ (exists v, points s p v) /\ not_used s (PLoc p) /\ not_written s (PLoc q) /\
      exists x, points s q (Some x) /\ not_written s (PMem x)
  | OPut q p =>
      (exists v, points s p v) /\ not_written s (PLoc p) /\ not_written s (PLoc q) /\
      exists x, points s q (Some x) /\ not_used s (PMem x)
  end.

Fixpoint well_used (s : rc) (ls : list rlabel) : Prop :=
  match ls with
  | [] => True
  | l :: ls' =>
      match rc_step s l with
      | None => well_used s ls'
      | Some r =>
          (match l with RStart _ o => may_start s o | _ => True end) /\
          match r with Ok (_, s') => well_used s' ls' | _ => True end
      end
  end.

(** Objects created and destroyed so far. *)
Definition created (outs : list rout) : list nat := flat_map (fun o => match o with RCreated x => [x] | _ => [] end) outs.
Definition destroyed (outs : list rout) : list nat := flat_map (fun o => match o with RDestroyed x => [x] | _ => [] end) outs.

(** A variable that is not just being assigned holds the object: a local one,
    or the member of an object that has not been destroyed. *)
Definition held (s : rc) (o : nat) : Prop :=
  (exists i, points s i (Some o) /\ not_written s (PLoc i)) \/
  (exists j ob, nth_error (rc_obj s) j = Some ob /\ o_st ob <> Freed /\ c_ptr (o_mem ob) = Some o /\ not_written s (PMem j)).

Definition idle (s : rc) : Prop := Forall (fun th => th = mkTh [] Idle) (rc_th s).

(** Number of variables that point to the object. *)
Definition holders (s : rc) (o : nat) : Z :=
  Z.of_nat (length (filter (fun c => match c_ptr c with Some x => Nat.eqb x o | None => false end) (rc_loc s ++ map o_mem (rc_obj s)))).
(** getref() *)
Definition counter (s : rc) (o : nat) : option Z := match nth_error (rc_obj s) o with Some ob => Some (o_cnt ob) | None => None end.
