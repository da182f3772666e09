(** What the table of remote streams and the index of reports should contain. *)
From Verif Require Import Base Reporter_model.
Local Open Scope Z_scope.

(** *** The table *)
Definition known (r : rep) : list strm := t_streams (r_tab r).
(** Someone reported on this stream at least once *)
Definition reported (s : strm) : bool := s_hasr s || s_hass s.
(** Nothing was heard of this stream since [now - timeout] *)
Definition silent (timeout now : Z) (s : strm) : bool := s_upd s <=? now - timeout.
Definition expired (timeout now : Z) (s : strm) : bool := reported s && silent timeout now s.
(** Streams that never reported do not expire: their time starts anew *)
Definition restarted (timeout now : Z) (s : strm) : strm := if silent timeout now s then set_upd now s else s.
Definition after_timeouts (timeout now : Z) (l : list strm) : list strm :=
  map (restarted timeout now) (filter (fun s => negb (expired timeout now s)) l).
(** What the participant is told about a stream heard of *)
Definition news (sending : bool) (s : strm) : list evt :=
  if s_loop s then []
  else (if s_hasr s && sending then [NotifySend (s_id s)] else []) ++ (if s_hass s then [NotifyRecv (s_id s)] else []).

(** The clock does not go back: every session begins no earlier than the report time of the previous one, [last] *)
Fixpoint on_time (last : Z) (l : list rop) : Prop :=
  match l with
  | [] => True
  | RBeginP _ now _ :: l | RBeginG now _ :: l => last <= now /\ on_time (Z.max now (last + 1)) l
  | _ :: l => on_time last l
  end.

(** Which remote stream a report speaks for *)
Definition speaker (o : rop) : option Z :=
  match o with
  | RCname _ id _ | RSr _ id _ | RReception _ id _ | RDlrr id _ | RRrtr id _ | RMetrics id _ | RBye id => Some id
  | _ => None
  end.
(** Is the report taken into account, given what is known about its stream ? (allocation succeeding) *)
Definition accepted (sending : bool) (local : Z) (s : option strm) (o : rop) : bool :=
  match o, s with
  | RCname _ _ name, Some s => negb (name =? 0) && negb (s_cname s =? name)
  | RCname _ _ name, None => negb (name =? 0)
  | RSr _ _ _, _ => true
  | RReception _ _ about, _ => sending && (about =? local)
  | RDlrr _ about, Some s => (about =? local) && s_hass s
  | RRrtr _ _, Some s => s_hasr s
  | RMetrics _ about, Some s => (about =? local) && s_hasr s
  | _, _ => false
  end.
Definition mem_ok (o : rop) : bool := match o with RCname ok _ _ | RSr ok _ _ | RReception ok _ _ => ok | _ => true end.
(** The operation may make the reporter forget the stream: BYE, or a different canonical name *)
Definition farewell (s : strm) (o : rop) : Prop :=
  o = RBye (s_id s) \/ exists ok name, o = RCname ok (s_id s) name /\ name <> 0 /\ s_cname s <> 0 /\ s_cname s <> name.

(** The operation does not end the stream: no BYE, no canonical name *)
Definition stays (id : Z) (o : rop) : Prop := match o with RBye x | RCname _ x _ => x <> id | _ => True end.
(** The operation is not a report of the stream *)
Definition mute (id : Z) (o : rop) : Prop := speaker o <> Some id.

(** *** The index *)
(** Streams for which a DLRR sub-block is due: remote receivers of our stream of which both a reception block and a RRTR block arrived *)
Definition send_due (s : strm) : bool := negb (s_loop s) && s_hasr s && negb (s_rts s =? 0).
(** Streams for which a reception block is due: in report-back mode, only when the destination is known from a sender report *)
Definition recv_due (c : rcfg) (s : strm) : bool :=
  negb (s_loop s) && (match rc_mode c with ReportBack => s_hass s && negb (s_sts s =? 0) | ToAddress => true end).
Definition dest_of (c : rcfg) (s : strm) : Z := match rc_mode c with ToAddress => rc_addr c | ReportBack => s_addr s end.
(** All blocks due *)
Definition dlrrs_due (c : rcfg) (sending : bool) (l : list strm) : list evt :=
  if sending then map (fun s => Dlrr (dest_of c s) (s_id s)) (filter send_due l) else [].
Definition receptions_due (c : rcfg) (recv : list Z) (l : list strm) : list evt :=
  flat_map (fun id => match find (fun s => s_id s =? id) l with
                      | Some s => if recv_due c s then [Reception (dest_of c s) id id] else []
                      | None => [] end) recv.
(** Destinations: where a block is due, and the configured one when sending *)
Definition dests_due (c : rcfg) (sending : bool) (recv : list Z) (l : list strm) (k : Z) : Prop :=
  (sending = true /\ rc_mode c = ToAddress /\ k = rc_addr c) \/
  (sending = true /\ exists s, In s l /\ send_due s = true /\ dest_of c s = k) \/
  (exists s, In s l /\ In (s_id s) recv /\ recv_due c s = true /\ dest_of c s = k).

(** The participant's answers during a history: it starts sending before the first report and does not stop; its receiving streams are
    distinct, and the list changes only together with its length *)
Fixpoint steady (sending : bool) (last : option (list Z)) (l : list rop) : Prop :=
  match l with
  | [] => True
  | RBeginP _ _ p :: l | RBeginG _ p :: l =>
    p_send p = sending /\ NoDup (p_recv p) /\
    match last with Some x => length x = length (p_recv p) -> x = p_recv p | None => True end /\ steady sending (Some (p_recv p)) l
  | _ :: l => steady sending last l
  end.
(** Reports carry a time *)
Definition dated (o : rop) : Prop := match o with RSr _ _ ts | RRrtr _ ts => ts <> 0 | _ => True end.
(** The first RRTR block of a receiver comes while a rebuild of the index is pending (in the same packet as its first reception block, for example) *)
Definition prompt (r : rep) (o : rop) : Prop :=
  match o with
  | RRrtr id ts => forall s, get (r_tab r) id = Some s -> s_hasr s = true -> s_rts s = 0 -> t_need (r_tab r) = true
  | _ => True
  end.
