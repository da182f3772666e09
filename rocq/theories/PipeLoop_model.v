(** Model of the pipeline loop, src/internal_modules/roc_pipeline/pipeline_loop.cpp 22-487
    and pipeline_task.cpp. The loop executes tasks scheduled from any thread and audio
    frames, one thing at a time.

    Any number of threads run; thread 0 is the one the background scheduler uses to call
    process_tasks(), the others call schedule(), schedule_and_wait() and
    process_subframes_and_tasks(). One step of a thread is one access to a shared variable.
    Simplifications:
    - atomics and mutexes are sequentially consistent;
    - clock readings, the result of process_subframe_imp(), the stats rate limiter and the
      thread-id shortcut in interframe_task_processing_allowed_ are an arbitrary boolean
      attached to each step;
    - the next_frame_deadline_ seqlock is its version counter (stored value: arbitrary); its
      store is two steps, its try_load two reads of the version (seqlock.h; see Seqlock_model);
    - the MPSC queue is a list of entries, a push is two steps (exchange tail, then link), and
      a pop is one step that returns nothing if the first entry is not linked, and may return
      nothing if any entry is not linked (mpsc_queue.h; see Mpsc_model);
    - the scheduler is one flag, "armed": schedule_task_processing sets it,
      cancel_task_processing clears it, and thread 0 may start process_tasks() while it is set,
      which clears it. The requested deadline is not modelled;
    - statistics are not modelled. *)
From Verif Require Import Base.

Inductive proc_state := NotScheduled | Scheduled | Running.

(** Observable events. *)
Inductive event :=
| Inv (t : nat) (w : bool)      (* schedule (w = false) or schedule_and_wait (w = true) called *)
| Ret (t : nat) (w : bool)      (* ... and returned *)
| TaskB (t : nat) | TaskE (t : nat)   (* process_task_imp(t) begins, ends *)
| FrameB | FrameE (ok : bool)   (* process_subframe_imp begins, ends with this result *)
| Compl (t : nat)               (* completer called *)
| Post (t : nat).               (* semaphore of the task posted *)

(** Who executes a task: schedule in place, a frame, process_tasks(). *)
Inductive kind := KClient | KFrame (d pos : Z) (ok : bool) | KBack.
(** Where schedule_async_task_processing_ or cancel_async_task_processing_ returns to. *)
Inductive rto := RClient (t : nat) (w p : bool) | RFrameStart (d : Z) | RFrameEnd | RBack.

Inductive pc :=
| Idle
(* schedule_and_maybe_process_task_ *)
| CInc (t : nat) (w : bool) | CLoad1 (t : nat) (w : bool) | CLoad2 (t : nat) (w : bool) (v : Z)
| CAllow (t : nat) (w : bool) | CPush1 (t : nat) (w a : bool) | CPush2 (t : nat) (w a : bool)
| CFrames (t : nat) (w : bool) | CTry (t : nat) (w : bool) | CNf (t : nat) (w : bool)
| CUnlock (t : nat) (w : bool) (n : Z) | CCheck (t : nat) (w : bool) (n : Z)
| CRet (t : nat) (w p : bool) | CWait (t : nat)
(* process_task_, and the decrement that follows it *)
| ERun (k : kind) (t : nat) (w : bool) | EDec (k : kind) (t : nat) (w : bool)
(* schedule_async_task_processing_ *)
| SLoad1 (r : rto) | SLoad2 (r : rto) (v : Z) | STry (r : rto) | SState (r : rto) | SCall (r : rto)
| SSet (r : rto) | SUnlock (r : rto) | SFrames (r : rto)
(* cancel_async_task_processing_ *)
| XTry (r : rto) | XState (r : rto) | XCall (r : rto) | XSet (r : rto) | XUnlock (r : rto)
(* process_subframes_and_tasks *)
| FInc (d : Z) | FLock (d : Z) | FRun | FUnlock | FDec | FCheck
| PSub (d pos : Z) | PSubRun (d pos : Z) | PStore1 (d pos : Z) (ok : bool) | PStore2 (d pos : Z) (ok : bool)
| PCheck (d pos : Z) (ok : bool) | PPop (d pos : Z) (ok : bool) | PAllow (d pos : Z) (ok : bool)
| PNext (d pos : Z) (ok : bool) | PStats | PStatsTry | PStatsUnlock
(* process_tasks, maybe_process_tasks_ *)
| BLoad1 | BLoad2 (v : Z) | BTry | BRunning | BAllow | BFrames | BPop | BUnlock (n : Z) | BCheck (n : Z) | BSet (need : bool).

Record entry := mkEnt { e_task : nat; e_wait : bool; e_linked : bool }.

Record config := mkCfg { precise : bool; min_samples : Z; max_samples : Z }.

Record shared := mkSh {
  pend : Z;                 (* pending_tasks_ *)
  frames : Z;               (* pending_frames_ *)
  pstate : proc_state;      (* processing_state_ *)
  pmutex : option nat;      (* pipeline_mutex_: owner *)
  smutex : option nat;      (* scheduler_mutex_: owner *)
  ver : Z;                  (* next_frame_deadline_: version *)
  queue : list entry;       (* task_queue_ *)
  armed : bool;             (* process_tasks() will be called *)
  samples : Z;              (* samples_processed_ *)
  enough : bool;            (* enough_samples_to_process_tasks_ *)
  log : list event          (* history, oldest first *)
}.

Record state := mkSt { sh : shared; pcs : list pc }.

Definition set_pend s v := mkSh v (frames s) (pstate s) (pmutex s) (smutex s) (ver s) (queue s) (armed s) (samples s) (enough s) (log s).
Definition set_frames s v := mkSh (pend s) v (pstate s) (pmutex s) (smutex s) (ver s) (queue s) (armed s) (samples s) (enough s) (log s).
Definition set_pstate s v := mkSh (pend s) (frames s) v (pmutex s) (smutex s) (ver s) (queue s) (armed s) (samples s) (enough s) (log s).
Definition set_pm s v := mkSh (pend s) (frames s) (pstate s) v (smutex s) (ver s) (queue s) (armed s) (samples s) (enough s) (log s).
Definition set_sm s v := mkSh (pend s) (frames s) (pstate s) (pmutex s) v (ver s) (queue s) (armed s) (samples s) (enough s) (log s).
Definition set_ver s v := mkSh (pend s) (frames s) (pstate s) (pmutex s) (smutex s) v (queue s) (armed s) (samples s) (enough s) (log s).
Definition set_queue s v := mkSh (pend s) (frames s) (pstate s) (pmutex s) (smutex s) (ver s) v (armed s) (samples s) (enough s) (log s).
Definition set_armed s v := mkSh (pend s) (frames s) (pstate s) (pmutex s) (smutex s) (ver s) (queue s) v (samples s) (enough s) (log s).
Definition set_samples s v e := mkSh (pend s) (frames s) (pstate s) (pmutex s) (smutex s) (ver s) (queue s) (armed s) v e (log s).
Definition add_log s l := mkSh (pend s) (frames s) (pstate s) (pmutex s) (smutex s) (ver s) (queue s) (armed s) (samples s) (enough s) (log s ++ l).

(** PipelineLoop::PipelineLoop, pipeline_loop.cpp 22-42; [n] threads besides the background one. *)
Definition loop_new (n : nat) : state :=
  mkSt (mkSh 0 0 NotScheduled None None 0 [] false 0 false []) (repeat Idle (S n)).

(** Link the entry of task [t] (second half of MpscQueue::push_back). *)
Definition link (t : nat) (q : list entry) : list entry :=
  map (fun e => if Nat.eqb (e_task e) t then mkEnt (e_task e) (e_wait e) true else e) q.

(** MpscQueue::try_pop_front_exclusive; [fail] decides when a push is in progress. *)
Definition try_pop (fail : bool) (q : list entry) : option (entry * list entry) :=
  match q with
  | e :: q' => if e_linked e && (negb fail || forallb e_linked q) then Some (e, q') else None
  | [] => None
  end.

(** Continuation after a called function returns. *)
Definition resume (r : rto) : pc :=
  match r with RClient t w p => CRet t w p | RFrameStart d => FLock d | RFrameEnd => Idle | RBack => Idle end.
Definition after_task (k : kind) (t : nat) (w : bool) : pc :=
  match k with KClient => CNf t w | KFrame d pos ok => PAllow d pos ok | KBack => BAllow end.

(** Notification in process_task_, 339-343: the completer if there is one (schedule), otherwise
    the semaphore if asked to (everything but in place execution). *)
Definition notify (k : kind) (t : nat) (w : bool) : list event :=
  if w then match k with KClient => [] | _ => [Post t] end else [Compl t].

Definition posted (t : nat) (l : list event) : bool :=
  existsb (fun e => match e with Post u => Nat.eqb u t | _ => false end) l.

(** One step of thread [i] at [p]; [b] resolves what is left open. None: cannot move. *)
Definition pstep (c : config) (i : nat) (b : bool) (s : shared) (p : pc) : option (shared * pc) :=
  match p with
  | Idle => None
  (* schedule_and_maybe_process_task_, 93-140 *)
  | CInc t w => Some (set_pend s (pend s + 1), if pend s + 1 =? 1 then CLoad1 t w else CPush1 t w false)   (* 96 *)
  | CLoad1 t w => Some (s, if Z.odd (ver s) then CPush1 t w false else CLoad2 t w (ver s))                 (* 102 *)
  | CLoad2 t w v => Some (s, if ver s =? v then CAllow t w else CPush1 t w false)
  | CAllow t w => Some (s, if precise c && negb b then CPush1 t w true else CTry t w)                      (* 107, 430-460 *)
  | CPush1 t w a => Some (set_queue s (queue s ++ [mkEnt t w false]), CPush2 t w a)                        (* 97, 103, 108, 118 *)
  | CPush2 t w a => Some (set_queue s (link t (queue s)), if a then CFrames t w else CRet t w false)
  | CFrames t w => Some (s, if frames s =? 0 then SLoad1 (RClient t w false) else CRet t w false)          (* 110-114 *)
  | CTry t w => match pmutex s with                                                                        (* 117-122 *)
                | None => Some (add_log (set_pm s (Some i)) [TaskB t], ERun KClient t w)
                | Some _ => Some (s, CPush1 t w false)
                end
  | CNf t w => Some (s, CUnlock t w (frames s))                                                            (* 128 *)
  | CUnlock t w n => Some (set_pm s None, CCheck t w n)                                                    (* 133 *)
  | CCheck t w n => Some (s, if (n =? 0) && negb (pend s =? 0) then SLoad1 (RClient t w true) else CRet t w true)  (* 135-139 *)
  (* schedule 63-71 and schedule_and_wait 73-91: return, or wait for the semaphore *)
  | CRet t w p => if w && negb p then Some (s, CWait t) else Some (add_log s [Ret t w], Idle)
  | CWait t => if posted t (log s) then Some (add_log s [Ret t true], Idle) else None
  (* process_task_, 333-344 *)
  | ERun k t w => Some (add_log s (TaskE t :: notify k t w), EDec k t w)
  | EDec k t w => Some (set_pend s (pend s - 1), after_task k t w)                                         (* 123, 181, 251 *)
  (* schedule_async_task_processing_, 280-316 *)
  | SLoad1 r => Some (s, if Z.odd (ver s) then resume r else SLoad2 r (ver s))
  | SLoad2 r v => Some (s, if ver s =? v then STry r else resume r)
  | STry r => match smutex s with None => Some (set_sm s (Some i), SState r) | Some _ => Some (s, resume r) end
  | SState r => Some (s, match pstate s with NotScheduled => SCall r | _ => SUnlock r end)
  | SCall r => Some (set_armed s true, SSet r)                                                             (* 305 *)
  | SSet r => Some (set_pstate s Scheduled, SUnlock r)                                                     (* 308 *)
  | SUnlock r => Some (set_sm s None, SFrames r)
  | SFrames r => Some (s, if frames s =? 0 then resume r else XTry r)                                      (* 313-315 *)
  (* cancel_async_task_processing_, 318-331 *)
  | XTry r => match smutex s with None => Some (set_sm s (Some i), XState r) | Some _ => Some (s, resume r) end
  | XState r => Some (s, match pstate s with Scheduled => XCall r | _ => XUnlock r end)
  | XCall r => Some (set_armed s false, XSet r)
  | XSet r => Some (set_pstate s NotScheduled, XUnlock r)
  | XUnlock r => Some (set_sm s None, resume r)
  (* process_subframes_and_tasks_simple_ 202-218 and _precise_ 220-278 *)
  | FInc d => Some (set_frames s (frames s + 1), XTry (RFrameStart d))
  | FLock d => match pmutex s with
               | None => if precise c then Some (set_pm s (Some i), PSub d 0)
                         else Some (add_log (set_pm s (Some i)) [FrameB], FRun)
               | Some _ => None
               end
  | FRun => Some (add_log s [FrameE b], FUnlock)
  | FUnlock => Some (set_pm s None, FDec)
  | FDec => Some (set_frames s (frames s - 1), if frames s - 1 =? 0 then FCheck else Idle)                 (* 213, 273 *)
  | FCheck => Some (s, if pend s =? 0 then Idle else SLoad1 RFrameEnd)
  (* process_next_subframe_ 346-387 *)
  | PSub d pos => Some (add_log s [FrameB], PSubRun d pos)
  | PSubRun d pos =>
      let sub := if max_samples c =? 0 then d else Z.min (d - pos) (max_samples c) in
      let n := u32 (samples s + sub) in
      let s1 := if enough s then s else set_samples s n (min_samples c <=? n) in
      Some (add_log s1 [FrameE b], if pos =? 0 then PStore1 d (pos + sub) b else PCheck d (pos + sub) b)
  | PStore1 d pos ok => Some (set_ver s (ver s + 1), PStore2 d pos ok)                                     (* 243-246, 419-428 *)
  | PStore2 d pos ok => Some (set_ver s (ver s + 1), PCheck d pos ok)
  (* start_subframe_task_processing_ 389-402 *)
  | PCheck d pos ok => if (pend s =? 0) || negb (enough s) then Some (s, PNext d pos ok)
                       else Some (set_samples s 0 false, PPop d pos ok)
  | PPop d pos ok => match try_pop b (queue s) with                                                        (* 249-259 *)
                     | Some (e, q) => Some (add_log (set_queue s q) [TaskB (e_task e)], ERun (KFrame d pos ok) (e_task e) (e_wait e))
                     | None => Some (s, PNext d pos ok)
                     end
  | PAllow d pos ok => Some (s, if b then PPop d pos ok else PNext d pos ok)                               (* 256, 404-417 *)
  | PNext d pos ok => Some (s, if negb ok || (pos =? d) then PStats else PSub d pos)                       (* 262-264 *)
  (* report_stats_ 462-487 *)
  | PStats => Some (s, if b then PStatsTry else FUnlock)
  | PStatsTry => match smutex s with None => Some (set_sm s (Some i), PStatsUnlock) | Some _ => Some (s, FUnlock) end
  | PStatsUnlock => Some (set_sm s None, FUnlock)
  (* maybe_process_tasks_ 152-193 *)
  | BLoad1 => Some (s, if Z.odd (ver s) then BSet false else BLoad2 (ver s))
  | BLoad2 v => Some (s, if ver s =? v then BTry else BSet false)
  | BTry => match pmutex s with None => Some (set_pm s (Some i), BRunning) | Some _ => Some (s, BSet false) end
  | BRunning => Some (set_pstate s Running, BAllow)                                                        (* 162 *)
  | BAllow => Some (s, if precise c && negb b then BUnlock 0 else BFrames)                                 (* 167 *)
  | BFrames => Some (s, if frames s =? 0 then BPop else BUnlock (frames s))                                (* 171 *)
  | BPop => match try_pop b (queue s) with                                                                 (* 175-183 *)
            | Some (e, q) => Some (add_log (set_queue s q) [TaskB (e_task e)], ERun KBack (e_task e) (e_wait e))
            | None => Some (s, BUnlock 0)
            end
  | BUnlock n => Some (set_pm s None, BCheck n)                                                            (* 190 *)
  | BCheck n => Some (s, BSet ((n =? 0) && negb (pend s =? 0)))                                            (* 192 *)
  (* process_tasks 142-150 *)
  | BSet need => Some (set_pstate s NotScheduled, if need then SLoad1 RBack else Idle)
  end.

(** What a thread can do next. *)
Inductive action :=
| ASched (t : nat) (w : bool)   (* call schedule / schedule_and_wait with a new task *)
| AFrame (d : Z)                (* call process_subframes_and_tasks with a frame of [d] samples *)
| AFire                         (* the scheduler calls process_tasks() *)
| AStep (b : bool).             (* continue the current call *)

Definition invoked (t : nat) (l : list event) : bool :=
  existsb (fun e => match e with Inv u _ => Nat.eqb u t | _ => false end) l.

Definition step (c : config) (s : state) (i : nat) (a : action) : option state :=
  match nth_error (pcs s) i with
  | None => None
  | Some p =>
    match a with
    | AStep b => match pstep c i b (sh s) p with Some (s', p') => Some (mkSt s' (upd (pcs s) i p')) | None => None end
    (* scheduling a task twice is a caller error that panics (64-66, 74-76) *)
    | ASched t w => match p with
                    | Idle => if Nat.eqb i 0 || invoked t (log (sh s)) then None
                              else Some (mkSt (add_log (sh s) [Inv t w]) (upd (pcs s) i (CInc t w)))
                    | _ => None end
    | AFrame d => match p with
                  | Idle => if Nat.eqb i 0 || (d <? 0) then None else Some (mkSt (sh s) (upd (pcs s) i (FInc d)))
                  | _ => None end
    | AFire => match p with
               | Idle => if Nat.eqb i 0 && armed (sh s) then Some (mkSt (set_armed (sh s) false) (upd (pcs s) i BLoad1)) else None
               | _ => None end
    end
  end.

(** A schedule: which thread does what, in which order. *)
Fixpoint run (c : config) (s : state) (l : list (nat * action)) : option state :=
  match l with
  | [] => Some s
  | (i, a) :: l' => match step c s i a with Some s' => run c s' l' | None => None end
  end.
