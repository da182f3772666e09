(** Model of core::Timer, src/internal_modules/roc_core/timer.cpp.

    Any number of threads call try_set_deadline(), one thread calls
    wait_deadline(). One label is one atomic step of one thread.

    Simplifications: the two seqlocks (C29) are modelled as a value and a
    "store in progress" flag, so a store is two steps; try_load() may fail at
    any time (the label says so) and must fail during a store; wait_load()
    waits for a store to finish. Memory is sequentially consistent. The clock
    only moves forward, by [TTick]. timed_wait() returns when the semaphore is
    posted or when the clock has reached its deadline. *)
From Verif Require Import Base.

(** Program counter of try_set_deadline, timer.cpp 22-40. *)
Inductive spc :=
| SIdle
| SStore (d : Z)   (* 23: deadline_.try_store has begun *)
| SLoad (d : Z)    (* 29: next_wakeup_.try_load *)
| SCas             (* 34: sem_post_flag_.compare_exchange *)
| SPost.           (* 35: sem_.post *)

(** Program counter of wait_deadline, timer.cpp 42-63. *)
Inductive wpc :=
| WOut
| WBeg             (* 44: next_wakeup_.exclusive_store(-1) begins *)
| WBeg2            (* 44: ... and ends *)
| WLoad            (* 46: deadline_.wait_load *)
| WCmp (d : Z)     (* 48-52 *)
| WPub (d : Z)     (* 53: next_wakeup_.exclusive_store(deadline) begins *)
| WPub2 (d : Z)    (* 53: ... and ends *)
| WTimed (d : Z)   (* 54: sem_.timed_wait(deadline) *)
| WWait (d : Z)    (* 56: sem_.wait() *)
| WRst             (* 59: sem_post_flag_ = false *)
| WEnd (d : Z)     (* 62: next_wakeup_.exclusive_store(0) begins *)
| WEnd2 (d : Z).   (* 62: ... and ends *)

(** timer.h 45-48. *)
Record timer := mkTimer {
  tm_sem : nat;
  tm_flag : bool;
  tm_dl : Z; tm_dl_busy : bool;
  tm_nw : Z; tm_nw_busy : bool;
  tm_now : Z;
  tm_set : list spc;
  tm_wt : wpc }.

(** Timer::Timer, timer.cpp 15-20, with [n] threads that may set deadlines. *)
Definition tm_new (n : nat) (now : Z) : timer :=
  mkTimer 0 false 0 false 0 false now (repeat SIdle n) WOut.

Inductive tlabel :=
| TSet (i : nat) (d : Z)        (* thread i calls try_set_deadline(d) *)
| TStep (i : nat) (fail : bool) (* next step of that call; fail: try_load fails *)
| TWait                         (* wait_deadline() is called *)
| TWStep (timeout : bool)       (* next step of that call; timeout: timed_wait prefers to time out *)
| TTick (dt : Z).

(** Observable effects. *)
Inductive tout :=
| TNone
| TRefused (i : nat)            (* try_set_deadline returned false *)
| TStored (i : nat) (d : Z)     (* the new deadline took effect *)
| TAccepted (i : nat)           (* try_set_deadline returned true *)
| TEntered                      (* wait_deadline called *)
| TReturned (d : Z).            (* wait_deadline returned; d is the deadline it saw *)

Definition upd_set (s : timer) (i : nat) (p : spc) : timer :=
  mkTimer (tm_sem s) (tm_flag s) (tm_dl s) (tm_dl_busy s) (tm_nw s) (tm_nw_busy s) (tm_now s) (upd (tm_set s) i p) (tm_wt s).
Definition upd_wt (s : timer) (p : wpc) : timer :=
  mkTimer (tm_sem s) (tm_flag s) (tm_dl s) (tm_dl_busy s) (tm_nw s) (tm_nw_busy s) (tm_now s) (tm_set s) p.
Definition upd_sem (s : timer) (n : nat) : timer :=
  mkTimer n (tm_flag s) (tm_dl s) (tm_dl_busy s) (tm_nw s) (tm_nw_busy s) (tm_now s) (tm_set s) (tm_wt s).
Definition upd_flag (s : timer) (b : bool) : timer :=
  mkTimer (tm_sem s) b (tm_dl s) (tm_dl_busy s) (tm_nw s) (tm_nw_busy s) (tm_now s) (tm_set s) (tm_wt s).
Definition upd_dl (s : timer) (d : Z) (b : bool) : timer :=
  mkTimer (tm_sem s) (tm_flag s) d b (tm_nw s) (tm_nw_busy s) (tm_now s) (tm_set s) (tm_wt s).
Definition upd_nw (s : timer) (d : Z) (b : bool) : timer :=
  mkTimer (tm_sem s) (tm_flag s) (tm_dl s) (tm_dl_busy s) d b (tm_now s) (tm_set s) (tm_wt s).

(** Timer::try_set_deadline after its first step, timer.cpp 23-39. *)
Definition set_step (s : timer) (i : nat) (p : spc) (fail : bool) : tout * timer :=
  match p with
  | SIdle => (TNone, s)
  | SStore d => (TStored i d, upd_set (upd_dl s d false) i (SLoad d))
  | SLoad d =>
      let next_wakeup := if fail || tm_nw_busy s then -1 else tm_nw s in
      if (next_wakeup <? 0) || ((0 <=? d) && (d <? next_wakeup)) then (TNone, upd_set s i SCas)
      else (TAccepted i, upd_set s i SIdle)
  | SCas => if tm_flag s then (TAccepted i, upd_set s i SIdle) else (TNone, upd_set (upd_flag s true) i SPost)
  | SPost => (TAccepted i, upd_set (upd_sem s (S (tm_sem s))) i SIdle)
  end.

(** Timer::wait_deadline, timer.cpp 43-62. [None]: the thread is blocked. *)
Definition wait_step (s : timer) (timeout : bool) : option (tout * timer) :=
  match tm_wt s with
  | WOut => None
  | WBeg => Some (TNone, upd_wt (upd_nw s (tm_nw s) true) WBeg2)
  | WBeg2 => Some (TNone, upd_wt (upd_nw s (-1) false) WLoad)
  | WLoad => if tm_dl_busy s then None else Some (TNone, upd_wt s (WCmp (tm_dl s)))
  | WCmp d =>
      if (0 <=? d) && (d <=? tm_now s) then Some (TNone, upd_wt s (WEnd d))
      else if 0 <? d then Some (TNone, upd_wt s (WPub d)) else Some (TNone, upd_wt s (WWait d))
  | WPub d => Some (TNone, upd_wt (upd_nw s (tm_nw s) true) (WPub2 d))
  | WPub2 d => Some (TNone, upd_wt (upd_nw s d false) (WTimed d))
  | WTimed d =>
      if timeout && (d <=? tm_now s) then Some (TNone, upd_wt s WRst)
      else match tm_sem s with
           | S n => Some (TNone, upd_wt (upd_sem s n) WRst)
           | O => if d <=? tm_now s then Some (TNone, upd_wt s WRst) else None
           end
  | WWait _ => match tm_sem s with S n => Some (TNone, upd_wt (upd_sem s n) WRst) | O => None end
  | WRst => Some (TNone, upd_wt (upd_flag s false) WBeg)
  | WEnd d => Some (TNone, upd_wt (upd_nw s (tm_nw s) true) (WEnd2 d))
  | WEnd2 d => Some (TReturned d, upd_wt (upd_nw s 0 false) WOut)
  end.

(** One atomic step; [None] when the thread cannot take it. *)
Definition tm_step (s : timer) (l : tlabel) : option (tout * timer) :=
  match l with
  | TSet i d =>
      match nth_error (tm_set s) i with
      | Some SIdle => if tm_dl_busy s then Some (TRefused i, s) else Some (TNone, upd_set (upd_dl s (tm_dl s) true) i (SStore d))
      | _ => None
      end
  | TStep i fail =>
      match nth_error (tm_set s) i with
      | Some SIdle | None => None
      | Some p => Some (set_step s i p fail)
      end
  | TWait => match tm_wt s with WOut => Some (TEntered, upd_wt s WBeg) | _ => None end
  | TWStep b => wait_step s b
  | TTick dt => if 0 <=? dt then Some (TNone, mkTimer (tm_sem s) (tm_flag s) (tm_dl s) (tm_dl_busy s) (tm_nw s) (tm_nw_busy s) (tm_now s + dt) (tm_set s) (tm_wt s)) else None
  end.

(** A schedule; a step the thread cannot take is skipped. *)
Fixpoint tm_run (s : timer) (ls : list tlabel) : list tout * timer :=
  match ls with
  | [] => ([], s)
  | l :: r =>
      match tm_step s l with
      | None => tm_run s r
      | Some (o, s1) => let '(os, s2) := tm_run s1 r in (o :: os, s2)
      end
  end.
