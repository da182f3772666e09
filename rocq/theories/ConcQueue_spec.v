(** Observations of the concurrent packet queue. *)
From Verif Require Import Base Mpsc_model Mpsc_spec ConcQueue_model.

(** Steps of the inner queue; [queued (inner outs)] are the packets in the order in which
    they entered it. *)
Definition inner (outs : list cqout) : list mqout :=
  flat_map (fun o => match o with CQ x => [x] | _ => [] end) outs.
(** Packets in the order in which they entered the queue. *)
Definition entered (outs : list cqout) : list Z := queued (inner outs).
(** Packets returned by [read], in order. *)
Definition got (outs : list cqout) : list Z :=
  flat_map (fun o => match o with CGot _ (Some x) => [x] | _ => [] end) outs.
(** Packets whose [write] returned. *)
Definition wrote (outs : list cqout) : list Z :=
  flat_map (fun o => match o with CWrote _ x => [x] | _ => [] end) outs.
(** The same for one writer, and the packets it called [write] with. *)
Definition wrote_by (t : nat) (outs : list cqout) : list Z :=
  flat_map (fun o => match o with CWrote u x => if Nat.eqb u t then [x] else [] | _ => [] end) outs.
Definition called_by (t : nat) (outs : list cqout) : list Z := calls_of t (inner outs).
Definition entered_by (t : nat) (outs : list cqout) : list Z := queued_of t (inner outs).

(** A reader that can not go on until somebody writes. *)
Definition stuck (s : cq) (r : nat) : Prop := c_r s r = RWait /\ c_sem s = O.
(** Nobody is inside [write]. *)
Definition no_writes (s : cq) : Prop := forall t, c_w s t = WIdle.
