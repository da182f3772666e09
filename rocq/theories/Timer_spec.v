(** Specification vocabulary for the deadline timer (C30). *)
From Verif Require Import Base Timer_model.

(** The most recently set deadline; 0 if none was set yet. *)
Fixpoint last_set_from (d : Z) (outs : list tout) : Z :=
  match outs with
  | [] => d
  | TStored _ x :: r => last_set_from x r
  | _ :: r => last_set_from d r
  end.
Definition last_set (outs : list tout) : Z := last_set_from 0 outs.

(** No try_set_deadline() call is in progress. *)
Definition setters_idle (s : timer) : Prop := Forall (fun p => p = SIdle) (tm_set s).

(** The waiting thread is inside wait_deadline(). *)
Definition waiting (s : timer) : Prop := tm_wt s <> WOut.

(** The waiting thread sleeps with this wake-up time ([None]: no wake-up time). *)
Definition asleep (s : timer) (until : option Z) : Prop :=
  tm_sem s = 0%nat /\
  match tm_wt s with
  | WTimed d => until = Some d /\ tm_now s < d
  | WWait _ => until = None
  | _ => False
  end.

Definition is_entered (o : tout) : Prop := o = TEntered.
