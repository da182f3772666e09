(* Model of the loop that moves frames from a source to a sink:
   roc_sndio/pump.cpp:56-169.

   The pump makes one call at a time to its sources, sink and clock and reads the
   stop flag, which another thread may set at any moment; the model is the
   automaton of these calls, with every answer left to the environment.

   Simplifications:
   - the samples of a frame are its number [f_id];
   - stream_timestamp_2_ns() and bytes_2_stream_timestamp() are parameters
     [to_ns] and [to_ts] (SampleSpec is modelled in TimeConv_model.v);
   - n_bufs_ is unbounded (it is a size_t: it would wrap after 2^64 frames);
   - logging. *)
From Coq Require Import ZArith List Bool Lia.
From Verif Require Import Base.
Import ListNotations.
Local Open Scope Z_scope.

Inductive src := Main | Backup.

(* roc_audio/frame.h: samples, num_bytes(), duration() if has_duration(),
   capture_timestamp(), zero if there is none *)
Record frame := mkF { f_id : nat; f_bytes : Z; f_dur : option Z; f_cts : Z }.

(* Calls that the pump makes *)
Inductive call :=
| CStop                        (* stop_ is read *)
| CState                       (* main_source_.state() *)
| CResume                      (* main_source_.resume() *)
| CRestart                     (* backup_source_->restart() *)
| CPause (s : src)             (* pause() *)
| CRead (s : src)              (* read() *)
| CLatency (s : src)           (* has_latency() ? latency() : none *)
| CSinkLatency                 (* the same for the sink *)
| CClock                       (* core::timestamp(ClockUnix) *)
| CWrite (f : frame)           (* sink_.write() *)
| CReclock (s : src) (t : Z).  (* reclock() *)

Inductive ans :=
| ABool (b : bool)             (* stop flag; success of resume, restart; state() is Active *)
| AFrame (f : option frame)    (* None: end of file *)
| ALat (l : option Z)
| ATime (t : Z)
| AUnit.

(* Where the pump is *)
Inductive pc :=
| PTop                                    (* pump.cpp:61 *)
| PState                                  (* 63 *)
| PResume                                 (* 67 *)
| PPauseB                                 (* 69 *)
| PRestart                                (* 83 *)
| PPauseM                                 (* 85 *)
| PRead                                   (* 93, 119 *)
| PLat (f : frame) (d : Z)                (* 137 *)
| PNow (f : frame) (d l : Z)              (* 142 *)
| PWrite (f : frame) (d : Z)              (* 147 *)
| PSink (f : frame) (d : Z)               (* 156 *)
| PNow2 (f : frame) (l : Z)               (* 161 *)
| PReclock (f : frame) (t : Z)            (* 161 *)
| PStop2                                  (* 112 *)
| PEnd (ok : bool).

Record pst := mkP { p_cur : src; p_n : nat; p_pc : pc }.

(* pump.h: backup_source_ is not NULL; oneshot_; sample_spec_ *)
Record pcfg := mkCfg { has_backup : bool; oneshot : bool; to_ns : Z -> Z; to_ts : Z -> Z }.

(* pump.cpp:59-61 *)
Definition p_new : pst := mkP Main 0 PTop.

Definition src_eqb (a b : src) : bool :=
  match a, b with Main, Main | Backup, Backup => true | _, _ => false end.

(* The call that is made now *)
Definition next_call (s : pst) : option call :=
  match p_pc s with
  | PTop => Some CStop
  | PState => Some CState
  | PResume => Some CResume
  | PPauseB => Some (CPause Backup)
  | PRestart => Some CRestart
  | PPauseM => Some (CPause Main)
  | PRead => Some (CRead (p_cur s))
  | PLat _ _ => Some (CLatency (p_cur s))
  | PNow _ _ _ | PNow2 _ _ => Some CClock
  | PWrite f _ => Some (CWrite f)
  | PSink _ _ => Some CSinkLatency
  | PReclock _ t => Some (CReclock (p_cur s) t)
  | PStop2 => Some CStop
  | PEnd _ => None
  end.

Definition at_pc (s : pst) (p : pc) : pst := mkP (p_cur s) (p_n s) p.

(* pump.cpp:123-127: the duration of the frame *)
Definition with_duration (c : pcfg) (f : frame) : frame :=
  match f_dur f with
  | Some _ => f
  | None => mkF (f_id f) (f_bytes f) (Some (to_ts c (f_bytes f))) (f_cts f)
  end.
Definition duration (f : frame) : Z := match f_dur f with Some d => d | None => 0 end.

(* pump.cpp:142 *)
Definition with_cts (f : frame) (t : Z) : frame := mkF (f_id f) (f_bytes f) (f_dur f) t.

(* What happens when the call is answered; None: an answer of the wrong kind *)
Definition next (c : pcfg) (s : pst) (a : ans) : option pst :=
  match p_pc s, a with
  (* 61 *)
  | PTop, ABool stop => Some (at_pc s (if stop then PStop2 else PState))
  (* 63-90 *)
  | PState, ABool true =>
      Some (at_pc s (if src_eqb (p_cur s) Backup then PResume else PRead))
  | PState, ABool false =>
      Some (at_pc s (if oneshot c && negb (Nat.eqb (p_n s) 0) then PStop2
                     else if has_backup c && negb (src_eqb (p_cur s) Backup) then PRestart
                     else PRead))
  (* 67-72 *)
  | PResume, ABool true => Some (mkP Main (p_n s) PPauseB)
  | PResume, ABool false => Some (at_pc s PRead)
  | PPauseB, AUnit => Some (at_pc s PRead)
  (* 83-88 *)
  | PRestart, ABool true => Some (mkP Backup (p_n s) PPauseM)
  | PRestart, ABool false => Some (at_pc s PRead)
  | PPauseM, AUnit => Some (at_pc s PRead)
  (* 93-101 *)
  | PRead, AFrame None =>
      Some (if src_eqb (p_cur s) Backup then mkP Main (p_n s) PTop else at_pc s PStop2)
  (* 119-133 *)
  | PRead, AFrame (Some f) =>
      let f := with_duration c f in
      Some (at_pc s (if f_cts f =? 0 then PLat f (duration f) else PWrite f (duration f)))
  (* 135-142 *)
  | PLat f d, ALat None => Some (at_pc s (PNow f d 0))
  | PLat f d, ALat (Some l) => Some (at_pc s (PNow f d (l + to_ns c d)))
  | PNow f d l, ATime t => Some (at_pc s (PWrite (with_cts f (t - l)) d))
  (* 147 *)
  | PWrite f d, AUnit => Some (at_pc s (PSink f d))
  (* 154-161 *)
  | PSink f d, ALat None => Some (at_pc s (PNow2 f 0))
  | PSink f d, ALat (Some l) => Some (at_pc s (PNow2 f (l - to_ns c d)))
  | PNow2 f l, ATime t => Some (at_pc s (PReclock f (t + l)))
  (* 104-107 *)
  | PReclock f t, AUnit =>
      Some (mkP (p_cur s) (if src_eqb (p_cur s) Main then S (p_n s) else p_n s) PTop)
  (* 112 *)
  | PStop2, ABool stop => Some (at_pc s (PEnd (negb stop)))
  | _, _ => None
  end.
