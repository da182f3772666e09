(** Model of the control task queue, src/internal_modules/roc_ctl/control_task_queue.cpp 30-877
    and control_task.cpp. Tasks are scheduled, rescheduled, cancelled, resumed and waited for from
    any thread; one event loop thread executes them.

    Any number of client threads and one event loop thread run over any number of tasks. One step
    of a thread is one access to a shared atomic variable, together with the accesses to the data
    task_mutex_ protects (sleeping queue, paused queue, effective deadline and version) that follow
    it. Simplifications:
    - atomics and mutexes are sequentially consistent;
    - the ready queue is a list; a push is one step, and a pop may find nothing at any time, which
      covers the pops that meet a push in progress (mpsc_queue.h; see Mpsc_model);
    - versions of the renewed deadline are unbounded integers; the store is two steps and a load
      two reads of the version (seqlock.h; see Seqlock_model);
    - the wakeup timer is the deadline it was last given and the version of its seqlock; setting it
      is three steps (read the version, take it, store), waiting ends once the deadline has come
      (timer.cpp; see Timer_model);
    - the completer of a task is fixed ([hc t]: there is one); executor and function are not
      modelled, the result of an execution is arbitrary;
    - stopping the queue is not modelled, a completer does not call back into the queue. *)
From Verif Require Import Base.

(** ControlTask::State, control_task.h. *)
Inductive tstate := Ready | Sleeping | Cancelling | Processing | Completing | Completed.
Definition st_eqb (a b : tstate) : bool :=
  match a, b with
  | Ready, Ready | Sleeping, Sleeping | Cancelling, Cancelling | Processing, Processing | Completing, Completing | Completed, Completed => true
  | _, _ => false
  end.

(** ControlTask flags: succeeded, cancelled, paused, resumed. *)
Record flags := mkF { f_succ : bool; f_canc : bool; f_paus : bool; f_resu : bool }.
Definition f_eqb (a b : flags) : bool :=
  Bool.eqb (f_succ a) (f_succ b) && Bool.eqb (f_canc a) (f_canc b) && Bool.eqb (f_paus a) (f_paus b) && Bool.eqb (f_resu a) (f_resu b).
Definition no_flags : flags := mkF false false false false.
(** ControlTask::validate_flags, control_task.cpp 44-61. *)
Definition f_valid (f : flags) : bool := negb (f_succ f && f_canc f || f_succ f && f_paus f || f_canc f && f_paus f).

(** ControlTaskResult. *)
Inductive tresult := TSuccess | TFailure | TPause | TContinue.

(** ControlTask, control_task.h. *)
Record task := mkK {
  k_st : tstate;       (* state_ *)
  k_fl : flags;        (* flags_ *)
  k_guard : bool;      (* renew_guard_ *)
  k_ver : Z;           (* renewed_deadline_: version *)
  k_dl : Z;            (* renewed_deadline_: value *)
  k_eff : Z;           (* effective_deadline_ *)
  k_effv : Z;          (* effective_version_ *)
  k_sem : bool;        (* sem_ is not NULL *)
  k_post : Z;          (* value of the semaphore in sem_holder_ *)
  k_wg : bool;         (* wait_guard_ *)
  k_dead : bool        (* destroyed *)
}.

Definition k_set_st k v := mkK v (k_fl k) (k_guard k) (k_ver k) (k_dl k) (k_eff k) (k_effv k) (k_sem k) (k_post k) (k_wg k) (k_dead k).
Definition k_set_fl k v := mkK (k_st k) v (k_guard k) (k_ver k) (k_dl k) (k_eff k) (k_effv k) (k_sem k) (k_post k) (k_wg k) (k_dead k).
Definition k_set_guard k v := mkK (k_st k) (k_fl k) v (k_ver k) (k_dl k) (k_eff k) (k_effv k) (k_sem k) (k_post k) (k_wg k) (k_dead k).
Definition k_set_ren k v d := mkK (k_st k) (k_fl k) (k_guard k) v d (k_eff k) (k_effv k) (k_sem k) (k_post k) (k_wg k) (k_dead k).
Definition k_set_eff k d v := mkK (k_st k) (k_fl k) (k_guard k) (k_ver k) (k_dl k) d v (k_sem k) (k_post k) (k_wg k) (k_dead k).
Definition k_set_sem k v n := mkK (k_st k) (k_fl k) (k_guard k) (k_ver k) (k_dl k) (k_eff k) (k_effv k) v n (k_wg k) (k_dead k).
Definition k_set_wg k v := mkK (k_st k) (k_fl k) (k_guard k) (k_ver k) (k_dl k) (k_eff k) (k_effv k) (k_sem k) (k_post k) v (k_dead k).
Definition k_set_dead k v := mkK (k_st k) (k_fl k) (k_guard k) (k_ver k) (k_dl k) (k_eff k) (k_effv k) (k_sem k) (k_post k) (k_wg k) v.

(** ControlTask constructor, control_task.h: completed, no flags, deadline 0, version 0. *)
Definition task_new : task := mkK Completed no_flags false 0 0 0 0 false 0 false false.

(** Observable events. *)
Inductive event :=
| Req (t : nat) (d v : Z)           (* a request (deadline d, or d = -1: cancel) is recorded; v numbers the requests of a task *)
| Exec (t : nat) (d v now : Z)      (* execution of the task begins, on behalf of request v with deadline d, at time now *)
| Fin (t : nat)                     (* execution ends with success or failure *)
| Canc (t : nat) (v : Z)            (* the task is cancelled by request v *)
| Compl (t : nat) (loop : bool)     (* the completer is called; loop: on the event loop thread *)
| WInv (i : nat) (t : nat)          (* client i calls wait *)
| WRet (i : nat) (t : nat) (done : bool). (* ... which returns; done: the task is completed at this time *)

(** Why the program aborts. *)
Inductive crash := NotReady | CancelledTwice | BadDeadline | BadFlags | Listed | TwoWaits | Freed | NotCompleted.

(** ControlTaskQueue, control_task_queue.h 225-. *)
Record shared := mkSh {
  tk : nat -> task;
  rq : list nat;       (* ready_queue_ *)
  rsize : Z;           (* ready_queue_size_ *)
  sleepq : list nat;   (* sleeping_queue_ *)
  pausedq : list nat;  (* paused_queue_ *)
  mtx : bool;          (* task_mutex_ is locked *)
  fetchr : bool;       (* fetch_ready_ *)
  now : Z;             (* core::timestamp *)
  tdl : Z;             (* wakeup_timer_: deadline *)
  tver : Z;            (* wakeup_timer_: version of the deadline *)
  log : list event     (* history, oldest first *)
}.
Definition set_tk s v := mkSh v (rq s) (rsize s) (sleepq s) (pausedq s) (mtx s) (fetchr s) (now s) (tdl s) (tver s) (log s).
Definition set_rq s v := mkSh (tk s) v (rsize s) (sleepq s) (pausedq s) (mtx s) (fetchr s) (now s) (tdl s) (tver s) (log s).
Definition set_rsize s v := mkSh (tk s) (rq s) v (sleepq s) (pausedq s) (mtx s) (fetchr s) (now s) (tdl s) (tver s) (log s).
Definition set_sleepq s v := mkSh (tk s) (rq s) (rsize s) v (pausedq s) (mtx s) (fetchr s) (now s) (tdl s) (tver s) (log s).
Definition set_pausedq s v := mkSh (tk s) (rq s) (rsize s) (sleepq s) v (mtx s) (fetchr s) (now s) (tdl s) (tver s) (log s).
Definition set_mtx s v := mkSh (tk s) (rq s) (rsize s) (sleepq s) (pausedq s) v (fetchr s) (now s) (tdl s) (tver s) (log s).
Definition set_fetchr s v := mkSh (tk s) (rq s) (rsize s) (sleepq s) (pausedq s) (mtx s) v (now s) (tdl s) (tver s) (log s).
Definition set_now s v := mkSh (tk s) (rq s) (rsize s) (sleepq s) (pausedq s) (mtx s) (fetchr s) v (tdl s) (tver s) (log s).
Definition set_timer s d v := mkSh (tk s) (rq s) (rsize s) (sleepq s) (pausedq s) (mtx s) (fetchr s) (now s) d v (log s).
Definition add_log s l := mkSh (tk s) (rq s) (rsize s) (sleepq s) (pausedq s) (mtx s) (fetchr s) (now s) (tdl s) (tver s) (log s ++ l).

(** Change task [t]. *)
Definition fset {A} (f : nat -> A) (t : nat) (k : A) : nat -> A := fun u => if Nat.eqb u t then k else f u.
Definition put s t k := set_tk s (fset (tk s) t k).
Definition set_st s t v := put s t (k_set_st (tk s t) v).
Definition set_fl s t v := put s t (k_set_fl (tk s t) v).

Definition mem (t : nat) (l : list nat) : bool := existsb (Nat.eqb t) l.
Definition del (t : nat) (l : list nat) : list nat := filter (fun u => negb (Nat.eqb u t)) l.

(** Position in insert_sleeping_task_, control_task_queue.cpp 827-843. *)
Fixpoint insert (e : nat -> Z) (t : nat) (d : Z) (l : list nat) : list nat :=
  match l with
  | [] => [t]
  | u :: l' => if e u >? d then t :: l else u :: insert e t d l'
  end.
Definition eff_of s (t : nat) : Z := k_eff (tk s t).

Inductive out (P : Type) := Blocked | Crash (c : crash) | Next (s : shared) (p : P).
Arguments Blocked {P}. Arguments Crash {P} c. Arguments Next {P} s p.

(** *** complete_task_, 472-522 *)
Inductive kpc := K1 (t : nat) (from : tstate) | K2 (t : nat) | K3 (t : nat) (s : bool) | K3b (t : nat) | K4 (t : nat) (s : bool) | K5 (t : nat).
Definition kstep (hc : nat -> bool) (onloop : bool) (s : shared) (k : kpc) : shared * option kpc :=
  match k with
  | K1 t from => (if st_eqb (k_st (tk s t)) from then set_st s t Completing else s, Some (K2 t))           (* 488 *)
  | K2 t => (put s t (k_set_sem (tk s t) false (k_post (tk s t))), Some (K3 t (k_sem (tk s t))))           (* 490 *)
  | K3 t b => if st_eqb (k_st (tk s t)) Completing then (set_st s t Completed, Some (K4 t b))             (* 492 *)
              else (s, Some (if b then K3b t else K4 t false))
  | K3b t => (put s t (k_set_sem (tk s t) true (k_post (tk s t))), Some (K4 t false))                      (* 500-503 *)
  | K4 t b => (if b then put s t (k_set_sem (tk s t) (k_sem (tk s t)) (k_post (tk s t) + 1)) else s,       (* 510-512 *)
               if hc t then Some (K5 t) else None)
  | K5 t => (add_log s [Compl t onloop], None)                                                            (* 517-519 *)
  end.

(** *** Timer::try_set_deadline, roc_core/timer.cpp, with Seqlock::try_store *)
Inductive tpc := T1 (d : Z) | T2 (d v : Z) | T3 (d : Z).
Definition tstep (s : shared) (x : tpc) : shared * option tpc :=
  match x with
  | T1 d => (s, if Z.odd (tver s) then None else Some (T2 d (tver s)))
  | T2 d v => if tver s =? v then (set_timer s (tdl s) (v + 1), Some (T3 d)) else (s, None)
  | T3 d => (set_timer s d (tver s + 1), None)
  end.

(** *** update_wakeup_timer_, 851-877 *)
Inductive upc := U1 | UT (d : Z) (x : tpc) | U2 (d : Z) | UZ (x : tpc).
(** The deadline to wait for when there are no ready tasks, 856-860. *)
Definition next_deadline (s : shared) : Z := match sleepq s with t :: _ => k_eff (tk s t) | [] => -1 end.
(** Next position, or the returned deadline. *)
Definition ustep (s : shared) (u : upc) : shared * (upc + Z) :=
  match u with
  | U1 => let d := if rsize s =? 0 then next_deadline s else 0 in (s, inl (UT d (T1 d)))                  (* 852-861 *)
  | UT d x => match tstep s x with (s', Some x') => (s', inl (UT d x')) | (s', None) => (s', inl (U2 d)) end (* 866 *)
  | U2 d => (s, if negb (d =? 0) && negb (rsize s =? 0) then inl (UZ (T1 0)) else inr d)                  (* 871 *)
  | UZ x => match tstep s x with (s', Some x') => (s', inl (UZ x')) | (s', None) => (s', inr 0) end       (* 872-873 *)
  end.

(** New state in renew_state_, 306-335. *)
Definition renewed_state (f : flags) (d : Z) : tstate :=
  if f_paus f then if d <? 0 then Cancelling else if f_resu f then Processing else Sleeping
  else if d <? 0 then Cancelling else if d =? 0 then Processing else Sleeping.

(** renew_scheduling_ with reschedule_task_ and cancel_task_ up to complete_task_, 337-443, and
    insert_sleeping_task_, remove_sleeping_task_, 827-849. Result: ready for execution. *)
Definition unlist (s : shared) (t : nat) : out unit :=
  let s := if mem t (pausedq s) then set_pausedq s (del t (pausedq s)) else s in
  if mem t (sleepq s) then if k_eff (tk s t) <=? 0 then Crash BadDeadline else Next (set_sleepq s (del t (sleepq s))) tt else Next s tt.
Definition renew_scheduling (s : shared) (t : nat) (f : flags) (d v : Z) : out bool :=
  if 0 <=? d then
    if f_paus f then Next s (f_resu f)
    else match unlist s t with
         | Next s _ =>
           let s := put s t (k_set_eff (tk s t) d v) in
           if d =? 0 then Next s true
           else if mem t (sleepq s) || mem t (pausedq s) then Crash Listed
           else Next (set_sleepq s (insert (eff_of s) t d (sleepq s))) false
         | Crash c => Crash c | Blocked => Blocked
         end
  else if (k_eff (tk s t) =? -1) && (k_effv (tk s t) =? v) then Crash CancelledTwice
  else match unlist s t with
       | Next s _ =>
         Next (add_log (put s t (k_set_eff (k_set_fl (tk s t) (mkF false true false false)) (-1) v)) [Canc t v]) false
       | Crash c => Crash c | Blocked => Blocked
       end.

(** *** Client threads *)
Inductive op := Sched (t : nat) | SchedAt (t : nat) (d : Z) | Cancel (t : nat) | Resume (t : nat) | Wait (t : nat).
Inductive cpc :=
| Idle
(* request_renew_ *)
| RGuard (t : nat) (d : Z) | RStore1 (t : nat) (d : Z) | RStore2 (t : nat) (d : Z) | RCas (t : nat) (v : Z)
| RFlags (t : nat) (d v : Z) | RXchg (t : nat) (d v : Z) | RInc (t : nat) (d v : Z)
| RTry (t : nat) (d v : Z) | RIFlags (t : nat) (d v : Z) | RIState (t : nat) (d v : Z) (f : flags) | RISched (t : nat) (d v : Z) (f : flags)
| RIK (t : nat) (k : kpc) | RIDec (t : nat) | RIU (t : nat) (u : upc) | RIUnlock (t : nat) (ok : bool)
| RPush (t : nat) | RT (t : nat) (x : tpc) | RUnguard (t : nat)
(* request_resume_ *)
| MFlag (t : nat) | MXchg (t : nat) | MInc (t : nat) | MPush (t : nat) | MT (t : nat) (x : tpc)
(* wait_task_ *)
| W0 (t : nat) | W1 (t : nat) | W2 (t : nat) | W3 (t : nat) | W4 (t : nat) | W5 (t : nat) | W6 (t : nat) | W7 (t : nat) | W8 (t : nat).

(** schedule, schedule_at, resume, async_cancel, wait, 30-92. *)
Definition start (o : op) : cpc :=
  match o with Sched t => RGuard t 0 | SchedAt t d => RGuard t d | Cancel t => RGuard t (-1) | Resume t => MFlag t | Wait t => W0 t end.
Definition op_task (o : op) : nat := match o with Sched t | SchedAt t _ | Cancel t | Resume t | Wait t => t end.

(** schedule_at refuses a negative deadline, 61-63. *)
Definition negative (o : op) : bool := match o with SchedAt _ d => d <? 0 | _ => false end.

(** One step of client [i]. *)
Definition cstep (hc : nat -> bool) (i : nat) (s : shared) (p : cpc) : out cpc :=
  match p with
  | Idle => Blocked
  (* request_renew_, 175-188 *)
  | RGuard t d => if k_guard (tk s t) then Next s Idle else Next (put s t (k_set_guard (tk s t) true)) (RStore1 t d)
  (* request_renew_guarded_, 190-264 *)
  | RStore1 t d => Next (put s t (k_set_ren (tk s t) (k_ver (tk s t) + 1) (k_dl (tk s t)))) (RStore2 t d)  (* 200 *)
  | RStore2 t d => let v := k_ver (tk s t) + 1 in
                   Next (add_log (put s t (k_set_ren (tk s t) v d)) [Req t d v]) (if d <? 0 then RCas t v else RFlags t d v)
  | RCas t v => if st_eqb (k_st (tk s t)) Sleeping then Next (set_st s t Ready) (RInc t (-1) v) else Next s (RUnguard t) (* 209 *)
  | RFlags t d v => if f_valid (k_fl (tk s t)) then Next s (if f_paus (k_fl (tk s t)) then RUnguard t else RXchg t d v) else Crash BadFlags (* 217-224 *)
  | RXchg t d v => Next (set_st s t Ready) (if st_eqb (k_st (tk s t)) Ready then RUnguard t else RInc t d v) (* 227 *)
  | RInc t d v => Next (set_rsize s (rsize s + 1))                                                          (* 250-251 *)
                       (if (rsize s + 1 =? 1) && ((d >? 0) || (d <? 0) && negb (hc t)) then RTry t d v else RPush t)
  (* try_renew_inplace_, 266-304 *)
  | RTry t d v => if mtx s then Next s (RPush t) else Next (set_mtx s true) (RIFlags t d v)                 (* 273 *)
  | RIFlags t d v => let f := k_fl (tk s t) in
                     Next s (if negb (f_paus f) || (d <? 0) && negb (hc t) then RIState t d v f else RIUnlock t false) (* 279-288 *)
  | RIState t d v f => if st_eqb (k_st (tk s t)) Ready then Next (set_st s t (renewed_state f d)) (RISched t d v f) else Crash NotReady (* 294, 329 *)
  | RISched t d v f => match renew_scheduling s t f d v with                                                (* 295 *)
                       | Next s' _ => Next s' (if d <? 0 then RIK t (K1 t Cancelling) else RIDec t)
                       | Crash c => Crash c | Blocked => Blocked
                       end
  | RIK t k => match kstep hc false s k with (s', Some k') => Next s' (RIK t k') | (s', None) => Next s' (RIDec t) end (* 442 *)
  | RIDec t => Next (set_rsize s (rsize s - 1)) (RIU t U1)                                                  (* 297 *)
  | RIU t u => match ustep s u with (s', inl u') => Next s' (RIU t u') | (s', inr _) => Next s' (RIUnlock t true) end (* 298 *)
  | RIUnlock t ok => Next (set_mtx s false) (if ok then RUnguard t else RPush t)                            (* 301 *)
  | RPush t => Next (set_rq s (rq s ++ [t])) (RT t (T1 0))                                                  (* 258 *)
  | RT t x => match tstep s x with (s', Some x') => Next s' (RT t x') | (s', None) => Next s' (RUnguard t) end (* 263 *)
  | RUnguard t => Next (put s t (k_set_guard (tk s t) false)) Idle                                          (* 187 *)
  (* request_resume_, 145-173 *)
  | MFlag t => let f := k_fl (tk s t) in
               if f_valid f then Next (set_fl s t (mkF (f_succ f) (f_canc f) (f_paus f) true)) (if f_resu f then Idle else MXchg t) else Crash BadFlags
  | MXchg t => Next (set_st s t Ready) (if st_eqb (k_st (tk s t)) Ready then Idle else MInc t)
  | MInc t => Next (set_rsize s (rsize s + 1)) (MPush t)
  | MPush t => Next (set_rq s (rq s ++ [t])) (MT t (T1 0))
  | MT t x => match tstep s x with (s', Some x') => Next s' (MT t x') | (s', None) => Next s' Idle end
  (* wait_task_, 524-575 *)
  | W0 t => if st_eqb (k_st (tk s t)) Completed then Next (add_log s [WRet i t true]) Idle else Next s (W1 t)   (* 526 *)
  | W1 t => if k_wg (tk s t) then Crash TwoWaits else Next (put s t (k_set_wg (tk s t) true)) (W2 t)        (* 531 *)
  | W2 t => Next (put s t (k_set_sem (tk s t) true (k_post (tk s t)))) (W3 t)                               (* 541 *)
  | W3 t => if st_eqb (k_st (tk s t)) Completing then Blocked else Next s (W4 t)                            (* 547 *)
  | W4 t => Next s (if st_eqb (k_st (tk s t)) Completed then W5 t else W6 t)                                (* 569 *)
  | W5 t => Next s (if k_sem (tk s t) then W7 t else W6 t)
  | W6 t => if 0 <? k_post (tk s t) then Next (put s t (k_set_sem (tk s t) (k_sem (tk s t)) (k_post (tk s t) - 1))) (W7 t) else Blocked (* 570 *)
  | W7 t => Next (put s t (k_set_sem (tk s t) false (k_post (tk s t)))) (W8 t)                              (* 573 *)
  | W8 t => Next (add_log (put s t (k_set_wg (tk s t) false)) [WRet i t (st_eqb (k_st (tk s t)) Completed)]) Idle (* 574 *)
  end.

(** *** The event loop thread *)
(** Where complete_task_ returns to: fetch_ready_task_ (after a cancellation; [first]: fetch_task_
    tries the ready queue first), execute_task_ (renewed: the task has to be queued again). *)
Inductive kret := KFetch (first : bool) (t : nat) | KExec (t : nat) (renewed : bool).
Inductive lpc :=
| LWait | LLock | LFetch
(* fetch_ready_task_; first: called before fetch_sleeping_task_ *)
| LPop (first : bool) | LFlags (first : bool) (t : nat) | LLd1 (first : bool) (t : nat) (f : flags) | LLd2 (first : bool) (t : nat) (f : flags) (v : Z)
| LReadd (first : bool) (t : nat) | LState (first : bool) (t : nat) (f : flags) (d v : Z)
| LVer (first : bool) (t : nat) (f : flags) (d v : Z) | LFl2 (first : bool) (t : nat) (f : flags) (d v : Z)
| LBack (first : bool) (t : nat) (n : tstate) | LSkip (first : bool)
| LSched (first : bool) (t : nat) (f : flags) (d v : Z) | LDec (first : bool) (t : nat) (ready : bool)
| LK (k : kpc) (r : kret)
(* fetch_sleeping_task_ *)
| LSl (first : bool) | LSlCas (first : bool) (t : nat)
| LU (u : upc) | LUnlock
(* execute_task_ *)
| LExec (t : nat) | LRun (t : nat) | LDone (t : nat) (ok : bool) | LDl1 (t : nat) | LDl2 (t : nat) (v : Z)
| LPa1 (t : nat) | LPa2 (t : nat) | LPa3 (t : nat) | LPa4 (t : nat) (v : Z) | LCont (t : nat)
| LReborn (t : nat) (from : tstate) | LRbInc (t : nat) | LRbPush (t : nat).

(** fetch_ready_task_ and fetch_sleeping_task_ found nothing, 695-719. *)
Definition no_ready (first : bool) : lpc := if first then LSl false else LU U1.
Definition no_sleeping (first : bool) : lpc := if first then LPop false else LU U1.
(** fetch_task_ found a task. *)
Definition found (first : bool) (s : shared) : shared := if first then set_fetchr s (negb (fetchr s)) else s.

(** One step of the event loop; [b]: the pop finds nothing; [r]: the result of the execution. *)
Definition lstep (hc : nat -> bool) (b : bool) (r : tresult) (s : shared) (p : lpc) : out lpc :=
  match p with
  | LWait => if (0 <=? tdl s) && (tdl s <=? now s) then Next s LLock else Blocked                           (* 98 *)
  (* process_tasks_, fetch_task_, 678-719 *)
  | LLock => if mtx s then Blocked else Next (set_mtx s true) LFetch
  | LFetch => Next s (if fetchr s then LPop true else LSl true)
  (* fetch_ready_task_, 721-802 *)
  | LPop first => match rq s with                                                                           (* 726 *)
                  | t :: q => if b then Next s (no_ready first) else Next (set_rq s q) (LFlags first t)
                  | [] => Next s (no_ready first)
                  end
  | LFlags first t => if f_valid (k_fl (tk s t)) then Next s (LLd1 first t (k_fl (tk s t))) else Crash BadFlags (* 733-736 *)
  | LLd1 first t f => Next s (if Z.odd (k_ver (tk s t)) then LReadd first t else LLd2 first t f (k_ver (tk s t))) (* 741 *)
  | LLd2 first t f v => Next s (if k_ver (tk s t) =? v then LState first t f (k_dl (tk s t)) v else LReadd first t)
  | LReadd first t => Next (set_rq s (rq s ++ [t])) (LPop first)                                            (* 749, 770 *)
  | LState first t f d v => if st_eqb (k_st (tk s t)) Ready then Next (set_st s t (renewed_state f d)) (LVer first t f d v) else Crash NotReady (* 755, 329 *)
  | LVer first t f d v => Next s (if k_ver (tk s t) =? v then LFl2 first t f d v else LBack first t (renewed_state f d)) (* 762 *)
  | LFl2 first t f d v => Next s (if f_eqb (k_fl (tk s t)) f then LSched first t f d v else LBack first t (renewed_state f d)) (* 763 *)
  | LBack first t n => if st_eqb (k_st (tk s t)) n then Next (set_st s t Ready) (LReadd first t) else Next s (LSkip first) (* 769 *)
  | LSkip first => Next (set_rsize s (rsize s - 1)) (LPop first)                                            (* 772 *)
  | LSched first t f d v => match renew_scheduling s t f d v with                                           (* 778 *)
                            | Next s' rd => Next s' (if d <? 0 then LK (K1 t Cancelling) (KFetch first t) else LDec first t rd)
                            | Crash c => Crash c | Blocked => Blocked
                            end
  | LDec first t rd => let s' := set_rsize s (rsize s - 1) in                                               (* 784-800 *)
                       if rd then Next (found first s') (LExec t) else Next s' (LPop first)
  | LK k rt => match kstep hc true s k with
               | (s', Some k') => Next s' (LK k' rt)
               | (s', None) => Next s' (match rt with KFetch first t => LDec first t false | KExec t rn => if rn then LReborn t Completed else LFetch end)
               end
  (* fetch_sleeping_task_, 804-825 *)
  | LSl first => match sleepq s with
                 | [] => Next s (no_sleeping first)
                 | t :: _ => if k_eff (tk s t) >? now s then Next s (no_sleeping first)
                             else if k_eff (tk s t) <=? 0 then Crash BadDeadline
                             else Next (set_sleepq s (del t (sleepq s))) (LSlCas first t)
                 end
  | LSlCas first t => if st_eqb (k_st (tk s t)) Sleeping then Next (found first (set_st s t Processing)) (LExec t) else Next s (no_sleeping first)
  | LU u => match ustep s u with (s', inl u') => Next s' (LU u') | (s', inr d) => Next s' (if d =? 0 then LFetch else LUnlock) end (* 685-688 *)
  | LUnlock => Next (set_mtx s false) LWait
  (* execute_task_, 577-676 *)
  | LExec t => let k := tk s t in                                                                           (* 580-597 *)
               if k_eff k <? 0 then Crash BadDeadline
               else if f_valid (mkF false false (f_paus (k_fl k)) false)
               then Next (add_log (set_fl s t (mkF false false (f_paus (k_fl k)) false)) [Exec t (k_eff k) (k_effv k) (now s)]) (LRun t)
               else Crash BadFlags
  | LRun t => match r with                                                                                  (* 600-602 *)
              | TSuccess => Next (add_log s [Fin t]) (LDone t true)
              | TFailure => Next (add_log s [Fin t]) (LDone t false)
              | TPause => Next s (LPa1 t)
              | TContinue => Next s (LCont t)
              end
  | LDone t ok => Next (set_fl s t (mkF ok false false false)) (LDl1 t)                                     (* 606 *)
  | LDl1 t => Next s (if Z.odd (k_ver (tk s t)) then LK (K1 t Processing) (KExec t false) else LDl2 t (k_ver (tk s t))) (* 619-624 *)
  | LDl2 t v => let k := tk s t in
                Next s (LK (K1 t Processing) (KExec t ((k_ver k =? v) && negb (v =? k_effv k) && (0 <=? k_dl k))))
  | LPa1 t => let f := k_fl (tk s t) in                                                                     (* 636 *)
              let f' := mkF (f_succ f) (f_canc f) true (f_resu f) in
              if f_valid f' then Next (set_fl s t f') (LPa2 t) else Crash BadFlags
  | LPa2 t => if mem t (sleepq s) || mem t (pausedq s) then Crash Listed                                    (* 642, 459-470 *)
              else Next (set_pausedq (if st_eqb (k_st (tk s t)) Processing then set_st s t Sleeping else s) (pausedq s ++ [t])) (LPa3 t)
  | LPa3 t => Next s (if Z.odd (k_ver (tk s t)) then LFetch else LPa4 t (k_ver (tk s t)))                   (* 649-650 *)
  | LPa4 t v => Next s (if (k_ver (tk s t) =? v) && (k_dl (tk s t) <? 0) then LReborn t Processing else LFetch) (* 655-657 *)
  | LCont t => let f := k_fl (tk s t) in Next (set_fl s t (mkF (f_succ f) (f_canc f) false (f_resu f))) (LReborn t Processing) (* 662, 670 *)
  (* reborn_task_, 445-457 *)
  | LReborn t from => if st_eqb (k_st (tk s t)) from then Next (set_st s t Ready) (LRbInc t) else Next s LFetch
  | LRbInc t => Next (set_rsize s (rsize s + 1)) (LRbPush t)
  | LRbPush t => Next (set_rq s (rq s ++ [t])) LFetch
  end.

(** The task the next step of a thread accesses: touching a destroyed task is a use after free.
    The last part of complete_task_ touches the task only if there is somebody to notify. *)
Definition k_touch (k : kpc) : option nat :=
  match k with K1 t _ | K2 t | K3 t _ | K3b t | K5 t => Some t | K4 t b => if b then Some t else None end.
Definition c_touch (p : cpc) : option nat :=
  match p with
  | RGuard t _ | RStore1 t _ | RStore2 t _ | RCas t _ | RFlags t _ _ | RXchg t _ _ | RIFlags t _ _ | RIState t _ _ _ | RISched t _ _ _
  | RPush t | RUnguard t | MFlag t | MXchg t | MPush t
  | W0 t | W1 t | W2 t | W3 t | W4 t | W5 t | W6 t | W7 t | W8 t => Some t
  | RIK _ k => k_touch k
  | _ => None
  end.
Definition l_touch (p : lpc) : option nat :=
  match p with
  | LFlags _ t | LLd1 _ t _ | LLd2 _ t _ _ | LReadd _ t | LState _ t _ _ _ | LVer _ t _ _ _ | LFl2 _ t _ _ _ | LBack _ t _ | LSched _ t _ _ _
  | LSlCas _ t | LExec t | LRun t | LDone t _ | LDl1 t | LDl2 t _ | LPa1 t | LPa2 t | LPa3 t | LPa4 t _ | LCont t | LReborn t _ | LRbPush t => Some t
  | LK k _ => k_touch k
  | _ => None
  end.
Definition freed (s : shared) (o : option nat) : bool := match o with Some t => k_dead (tk s t) | None => false end.

(** *** The system *)
Record state := mkSt { sh : shared; lp : lpc; cl : list cpc }.
(** ControlTaskQueue constructor, 16-29, with [n] client threads. *)
Definition queue_new (n : nat) : state :=
  mkSt (mkSh (fun _ => task_new) [] 0 [] [] false true 0 (-1) 0 []) LWait (repeat Idle n).

Inductive label :=
| Tick (d : Z)                  (* time passes *)
| Call (i : nat) (o : op)       (* client i makes a call *)
| Cl (i : nat)                  (* client i makes a step *)
| Lp (b : bool) (r : tresult)   (* the event loop makes a step *)
| Destroy (t : nat).            (* the task is destroyed, control_task.cpp 16-22 and list_node.h 50-54 *)

Inductive outcome := Stuck | Abort (c : crash) | Go (s : state).
Definition step (hc : nat -> bool) (st : state) (l : label) : outcome :=
  let s := sh st in
  match l with
  | Tick d => if d <? 0 then Stuck else Go (mkSt (set_now s (now s + d)) (lp st) (cl st))
  | Call i o => match nth_error (cl st) i with
                | Some Idle => if negative o then Abort BadDeadline
                               else Go (mkSt (match o with Wait t => add_log s [WInv i t] | _ => s end) (lp st) (upd (cl st) i (start o)))
                | _ => Stuck
                end
  | Cl i => match nth_error (cl st) i with
            | Some p => if freed s (c_touch p) then Abort Freed
                        else match cstep hc i s p with Next s' p' => Go (mkSt s' (lp st) (upd (cl st) i p')) | Crash c => Abort c | Blocked => Stuck end
            | None => Stuck
            end
  | Lp b r => if freed s (l_touch (lp st)) then Abort Freed
              else match lstep hc b r s (lp st) with Next s' p' => Go (mkSt s' p' (cl st)) | Crash c => Abort c | Blocked => Stuck end
  | Destroy t => if k_dead (tk s t) then Abort Freed
                 else if negb (st_eqb (k_st (tk s t)) Completed) then Abort NotCompleted
                 else if mem t (sleepq s) || mem t (pausedq s) then Abort Listed
                 else Go (mkSt (put s t (k_set_dead (tk s t) true)) (lp st) (cl st))
  end.
Fixpoint run (hc : nat -> bool) (st : state) (ls : list label) : outcome :=
  match ls with
  | [] => Go st
  | l :: ls' => match step hc st l with Go st' => run hc st' ls' | o => o end
  end.
