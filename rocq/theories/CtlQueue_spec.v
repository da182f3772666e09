(** What users of the control task queue may do and what they may expect. *)
From Verif Require Import Base CtlQueue_model.

(** The task a client's call in progress is about. *)
Definition subject (p : cpc) : option nat :=
  match p with
  | Idle => None
  | RGuard t _ | RStore1 t _ | RStore2 t _ | RCas t _ | RFlags t _ _ | RXchg t _ _ | RInc t _ _ | RTry t _ _ | RIFlags t _ _ | RIState t _ _ _
  | RISched t _ _ _ | RIK t _ | RIDec t | RIU t _ | RIUnlock t _ | RPush t | RT t _ | RUnguard t
  | MFlag t | MXchg t | MInc t | MPush t | MT t _
  | W0 t | W1 t | W2 t | W3 t | W4 t | W5 t | W6 t | W7 t | W8 t => Some t
  end.
(** The client is inside wait(t). *)
Definition waiting (t : nat) (p : cpc) : bool :=
  match p with W0 u | W1 u | W2 u | W3 u | W4 u | W5 u | W6 u | W7 u | W8 u => Nat.eqb u t | _ => false end.
(** The client is inside schedule(t) or schedule_at(t) and has not queued the task yet. *)
Definition scheduling (t : nat) (p : cpc) : bool :=
  match p with
  | RGuard u d | RStore1 u d | RStore2 u d | RFlags u d _ | RXchg u d _ => Nat.eqb u t && (0 <=? d)
  | _ => false
  end.
Definition nobody (f : cpc -> bool) (st : state) : Prop := Forall (fun p => f p = false) (cl st).

(** Counting events. *)
Definition ev_count (f : event -> bool) (l : list event) : nat := length (filter f l).
Definition is_compl (t : nat) (e : event) : bool := match e with Compl u _ => Nat.eqb u t | _ => false end.
Definition is_end (t : nat) (e : event) : bool := match e with Fin u | Canc u _ => Nat.eqb u t | _ => false end.
(** Every execution that ended and every cancellation has been reported to the completer. *)
Definition notified (hc : nat -> bool) (t : nat) (l : list event) : Prop :=
  hc t = true -> ev_count (is_compl t) l = ev_count (is_end t) l.

(** The contract of the users. Tasks do not pause, and nothing is resumed; two threads never wait
    for the same task; nobody uses a destroyed task. In mode [Apart] nobody schedules a task that
    somebody waits for, and a task may be destroyed once it is completed, its completer has been
    called and all calls about it have returned. *)
Inductive mode := Apart | Overlap.
Definition legal (m : mode) (hc : nat -> bool) (st : state) (l : label) : Prop :=
  match l with
  | Tick _ | Cl _ => True
  | Lp _ r => r <> TPause
  | Call _ o =>
    k_dead (tk (sh st) (op_task o)) = false /\
    match o with
    | Sched t => m = Apart -> nobody (waiting t) st
    | SchedAt t d => 0 <= d /\ (m = Apart -> nobody (waiting t) st)
    | Cancel _ => True
    | Resume _ => False
    | Wait t => nobody (waiting t) st /\ (m = Apart -> nobody (scheduling t) st)
    end
  | Destroy t =>
    m = Apart /\ k_dead (tk (sh st) t) = false /\ k_st (tk (sh st) t) = Completed /\ notified hc t (log (sh st)) /\
    nobody (fun p => match subject p with Some u => Nat.eqb u t | None => false end) st
  end.
Fixpoint legal_run (m : mode) (hc : nat -> bool) (st : state) (ls : list label) : Prop :=
  match ls with
  | [] => True
  | l :: ls' => legal m hc st l /\ forall st', step hc st l = Go st' -> legal_run m hc st' ls'
  end.

(** No thread can move: only the passage of time or a new call can change anything. *)
Definition at_rest (hc : nat -> bool) (st : state) : Prop :=
  (forall i, step hc st (Cl i) = Stuck) /\ (forall b r, step hc st (Lp b r) = Stuck).

(** The last request about a task: its deadline (negative: cancel) and its number. *)
Definition last_request (t : nat) (l : list event) : option (Z * Z) :=
  fold_left (fun o e => match e with Req u d v => if Nat.eqb u t then Some (d, v) else o | _ => o end) l None.
