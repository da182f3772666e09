(** Model of roc_packet/delayed_reader.cpp.  The upstream reader is a buffer of
    packets [u] plus the status it returns when the buffer is empty
    ([UNoData], or [UErr] for any other non-OK status).  A poll is one call of
    DelayedReader::read; before each poll new packets may have arrived
    upstream.  The nanoseconds-to-samples conversion of the constructor
    (delayed_reader.cpp:28-30) is outside the model: [delay] is delay_. *)
From Verif Require Import Base Seqnum_model SortedQueue_model.

Record dpkt := mkDp { dp_id : Z; dp_seq : Z; dp_ts : Z; dp_dur : Z }.

(** packet.cpp:173-187 for RTP packets *)
Definition dp_cmp (p q : dpkt) : Z := rtp_compare (dp_seq p) (dp_seq q).

Inductive ustatus := UNoData | UErr.
Inductive rres := RPkt (p : dpkt) | RStatus (s : ustatus).

Record dr := mkDr { dr_q : sq dpkt; dr_delay : Z; dr_started : bool }.

(** delayed_reader.cpp:19-36: queue_(0) is unlimited *)
Definition dr_new (delay : Z) : dr := mkDr (sq_new 0) delay false.

(** delayed_reader.cpp:121-137 *)
Definition dr_queue_size (q : sq dpkt) : Z :=
  match sq_tail q, sq_head q with
  | Some t, Some h =>
      let qs := stream_timestamp_diff (u32 (dp_ts t + dp_dur t)) (dp_ts h) in
      if qs <? 0 then 0 else qs
  | _, _ => 0
  end.

(** delayed_reader.cpp:61-90: read upstream until it has no more *)
Definition dr_fetch (s : dr) (u : list dpkt) (st : ustatus) : sq dpkt * option ustatus :=
  let q := fold_left (sq_write dp_cmp) u (dr_q s) in
  match st with
  | UErr => (q, Some UErr)
  | UNoData => if dr_queue_size q <? dr_delay s then (q, Some UNoData) else (q, None)
  end.

(** delayed_reader.cpp:92-119; each iteration removes a packet, so a fuel of
    (queue length + 1) always suffices; [None] = the queue ran empty (NoData). *)
Fixpoint dr_read_queued (fuel : nat) (q : sq dpkt) (delay : Z) : sq dpkt * option dpkt :=
  match fuel with
  | O => (q, None)
  | S f =>
      match sq_read q with
      | (q1, None) => (q1, None)
      | (q1, Some p) =>
          if dr_queue_size q1 <? delay then (q1, Some p)
          else dr_read_queued f q1 delay
      end
  end.

(** delayed_reader.cpp:54-58: started *)
Definition dr_read_started (s : dr) (u : list dpkt) (st : ustatus) : dr * list dpkt * rres :=
  if (length (sq_list (dr_q s)) =? 0)%nat then
    match u with
    | p :: u' => (s, u', RPkt p)
    | [] => (s, [], RStatus st)
    end
  else
    match dr_read_queued (S (length (sq_list (dr_q s)))) (dr_q s) (dr_delay s) with
    | (q, Some p) => (mkDr q (dr_delay s) true, u, RPkt p)
    | (q, None) => (mkDr q (dr_delay s) true, u, RStatus UNoData)
    end.

(** delayed_reader.cpp:42-59 *)
Definition dr_read (s : dr) (u : list dpkt) (st : ustatus) : dr * list dpkt * rres :=
  if dr_started s then dr_read_started s u st
  else
    match dr_fetch s u st with
    | (q, Some e) => (mkDr q (dr_delay s) false, [], RStatus e)
    | (q, None) => dr_read_started (mkDr q (dr_delay s) true) [] st
    end.

(** A schedule: for each poll, the packets that arrived upstream since the last
    poll, and the upstream status. *)
Fixpoint dr_polls (s : dr) (u : list dpkt) (sch : list (list dpkt * ustatus))
  : dr * list dpkt * list rres :=
  match sch with
  | [] => (s, u, [])
  | (b, st) :: t =>
      let '(s1, u1, r) := dr_read s (u ++ b) st in
      let '(s2, u2, rs) := dr_polls s1 u1 t in
      (s2, u2, r :: rs)
  end.
