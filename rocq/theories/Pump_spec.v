(* What the calls of a pump mean, without its code. *)
From Coq Require Import ZArith List Bool Lia.
From Verif Require Import Base Pump_model.
Import ListNotations.
Local Open Scope Z_scope.

(* An execution: calls and answers so far, latest first, and where it led. *)
Inductive runs (c : pcfg) : list (call * ans) -> pst -> Prop :=
| r_new : runs c [] p_new
| r_step : forall tr s k a s',
    runs c tr s -> next_call s = Some k -> next c s a = Some s' -> runs c ((k, a) :: tr) s'.

(* Frames that were read, with their source; frames that were written.  Latest first. *)
Fixpoint frames_read (tr : list (call * ans)) : list (src * frame) :=
  match tr with
  | (CRead s, AFrame (Some f)) :: tr => (s, f) :: frames_read tr
  | _ :: tr => frames_read tr
  | [] => []
  end.
Fixpoint frames_written (tr : list (call * ans)) : list frame :=
  match tr with
  | (CWrite f, AUnit) :: tr => f :: frames_written tr
  | _ :: tr => frames_written tr
  | [] => []
  end.
(* Sources that were told a playback time. *)
Fixpoint reclocked (tr : list (call * ans)) : list src :=
  match tr with
  | (CReclock s _, AUnit) :: tr => s :: reclocked tr
  | _ :: tr => reclocked tr
  | [] => []
  end.

(* The frame that is written is the frame that was read: the same samples; what
   the source said about it is kept, and what it did not say is filled in. *)
Definition same_frame (c : pcfg) (r w : frame) : Prop :=
  f_id w = f_id r /\ f_bytes w = f_bytes r /\
  (forall d, f_dur r = Some d -> f_dur w = Some d) /\
  (f_dur r = None -> f_dur w = Some (to_ts c (f_bytes r))) /\
  (f_cts r <> 0 -> f_cts w = f_cts r).

(* Whether a source is running: what was last asked of it.  The pump is given a
   running main source and a backup source that is not. *)
Fixpoint running (x : src) (tr : list (call * ans)) : bool :=
  match tr with
  | [] => src_eqb x Main
  | (CPause y, _) :: tr => if src_eqb x y then false else running x tr
  | (CResume, ABool true) :: tr => if src_eqb x Main then true else running x tr
  | (CRestart, ABool true) :: tr => if src_eqb x Backup then true else running x tr
  | _ :: tr => running x tr
  end.

(* The last answer of main_source_.state(): was it Active; the last answers of
   resume() and restart() after it. *)
Fixpoint active (tr : list (call * ans)) : bool :=
  match tr with
  | (CState, ABool b) :: _ => b
  | _ :: tr => active tr
  | [] => false
  end.
(* whether the switch that was tried after the last state() failed *)
Fixpoint switch_failed (tr : list (call * ans)) : bool :=
  match tr with
  | (CState, _) :: _ => false
  | (CResume, ABool b) :: _ | (CRestart, ABool b) :: _ => negb b
  | _ :: tr => switch_failed tr
  | [] => false
  end.

(* Whether the stop flag was set when it was last read. *)
Fixpoint stopped (tr : list (call * ans)) : bool :=
  match tr with
  | (CStop, ABool b) :: _ => b
  | _ :: tr => stopped tr
  | [] => false
  end.

(* Frames read since the stop flag was last read. *)
Fixpoint since_stop (tr : list (call * ans)) : nat :=
  match tr with
  | (CStop, _) :: _ => 0
  | (CRead _, _) :: tr => S (since_stop tr)
  | _ :: tr => since_stop tr
  | [] => 0
  end.

(* Whether the backup source reported end of file at some time. *)
Fixpoint backup_ended (tr : list (call * ans)) : bool :=
  match tr with
  | (CRead Backup, AFrame None) :: _ => true
  | _ :: tr => backup_ended tr
  | [] => false
  end.

(* Counters: iterations of the loop, reads that ended with end of file. *)
Fixpoint iterations (tr : list (call * ans)) : nat :=
  match tr with
  | (CState, _) :: tr => S (iterations tr)
  | _ :: tr => iterations tr
  | [] => 0
  end.
Fixpoint ends_of_file (tr : list (call * ans)) : nat :=
  match tr with
  | (CRead _, AFrame None) :: tr => S (ends_of_file tr)
  | _ :: tr => ends_of_file tr
  | [] => 0
  end.
Fixpoint reads (tr : list (call * ans)) : nat :=
  match tr with
  | (CRead _, _) :: tr => S (reads tr)
  | _ :: tr => reads tr
  | [] => 0
  end.

(* Why the pump stops: it was told to; in oneshot mode, the main source became
   inactive after giving a frame; the main source ended. *)
Definition end_reason (c : pcfg) (tr : list (call * ans)) : Prop :=
  match tr with
  | (CStop, ABool true) :: _ => True
  | (CState, ABool false) :: tr => oneshot c = true /\ In Main (reclocked tr)
  | (CRead Main, AFrame None) :: _ => True
  | _ => False
  end.
