(** Requirements on a history of the pipeline loop. *)
From Verif Require Import Base PipeLoop_model.

(** The activity going on after a history: nothing, a task, or a frame. [None]: the history
    started something while something else was going on, or ended what was not going on. *)
Inductive activity := Free | Task (t : nat) | Frame.
Definition next_activity (a : option activity) (e : event) : option activity :=
  match e, a with
  | TaskB t, Some Free => Some (Task t)
  | TaskB _, _ => None
  | TaskE t, Some (Task u) => if Nat.eqb t u then Some Free else None
  | TaskE _, _ => None
  | FrameB, Some Free => Some Frame
  | FrameB, _ => None
  | FrameE _, Some Frame => Some Free
  | FrameE _, _ => None
  | _, _ => a
  end.
Definition activity_after (l : list event) : option activity := fold_left next_activity l (Some Free).

(** How often an event occurs. *)
Definition event_eq_dec : forall a b : event, {a = b} + {a <> b}.
Proof. repeat decide equality. Defined.
Definition times (e : event) (l : list event) : nat := count_occ event_eq_dec l e.

(** [a] happened before [b]. *)
Definition before (a b : event) (l : list event) : Prop := exists l1 l2 l3, l = l1 ++ a :: l2 ++ b :: l3.

(** No call is in progress. *)
Definition quiet (s : state) : Prop := Forall (fun p => p = Idle) (pcs s).

(** Tasks waiting in the queue. *)
Definition waiting (s : state) : list nat := map e_task (queue (sh s)).

(** One call made by thread [i], from its beginning to its end, with nothing in between. *)
Definition call (i : nat) (a : action) (bs : list bool) : list (nat * action) := (i, a) :: map (fun b => (i, AStep b)) bs.

(** States reached by any number of calls (schedule, frames, background processing), made by any
    threads, that do not overlap. *)
Inductive by_calls (c : config) (n : nat) : state -> Prop :=
| calls_none : by_calls c n (loop_new n)
| calls_more s i a bs s' : by_calls c n s -> run c s (call i a bs) = Some s' -> quiet s' -> by_calls c n s'.

(** Only schedule and schedule_and_wait calls are started. *)
Definition sched_only (l : list (nat * action)) : Prop :=
  Forall (fun ia => match snd ia with ASched _ _ | AStep _ => True | _ => False end) l.

(** States reached by rounds. A round is either one call of any kind, or any number of scheduling
    calls made by any threads at the same time, interleaved arbitrarily. *)
Inductive by_rounds (c : config) (n : nat) : state -> Prop :=
| rounds_none : by_rounds c n (loop_new n)
| rounds_call s i a bs s' : by_rounds c n s -> run c s (call i a bs) = Some s' -> quiet s' -> by_rounds c n s'
| rounds_sched s l s' : by_rounds c n s -> sched_only l -> run c s l = Some s' -> quiet s' -> by_rounds c n s'.
