(* Model of how capture times travel from sender to receiver:
   roc_rtp/timestamp_extractor.cpp and roc_rtp/timestamp_injector.cpp, with the
   calls made by roc_pipeline/sender_session.cpp:309-325 and
   roc_pipeline/receiver_session.cpp:353-364. Logging and the packet I/O around
   it are left out. *)
From Coq Require Import ZArith List Bool Lia.
From Verif Require Import Base Seqnum_model Float32 TimeConv_model.
Import ListNotations.
Local Open Scope Z_scope.
Local Open Scope res_scope.

(* nanoseconds_t arithmetic: signed 64 bits, overflow is undefined *)
Definition ns_arith (x : Z) : res Z := if (- 2 ^ 63 <=? x) && (x <? 2 ^ 63) then Ok x else UB.

(* timestamp_extractor.h:59-66, timestamp_injector.h: has_ts_, capt_ts_, rtp_ts_ *)
Record tsmap := mkMap { m_has : bool; m_capt : Z; m_rtp : Z }.
(* timestamp_extractor.cpp:25-27, timestamp_injector.cpp:25-27 *)
Definition map0 : tsmap := mkMap false 0 0.

(* timestamp_extractor.cpp:35-56: TimestampExtractor::write; a packet is its
   capture timestamp and stream timestamp *)
Definition ex_write (m : tsmap) (p : Z * Z) : res tsmap :=
  let (cts, sts) := p in
  if cts <? 0 then Panic
  else if negb (cts =? 0) then Ok (mkMap true cts sts) else Ok m.

(* timestamp_extractor.cpp:58-60: has_mapping *)
Definition ex_has (m : tsmap) : bool := m_has m.

(* timestamp_extractor.cpp:62-86: get_mapping *)
Definition ex_mapping (s : spec) (m : tsmap) (capture_ts : Z) : res Z :=
  if capture_ts <=? 0 then Panic
  else if negb (m_has m) then Panic
  else d <- ns_arith (capture_ts - m_capt m) ;;
       dn <- ns_2_stream_timestamp_delta s d ;;
       Ok (u32 (m_rtp m + u32 dn)).

(* timestamp_injector.cpp:63-82: update_mapping *)
Definition in_update (m : tsmap) (capture_ts rtp_ts : Z) : tsmap :=
  if capture_ts <=? 0 then m else mkMap true capture_ts rtp_ts.

(* timestamp_injector.cpp:37-61: read, for a packet with the given capture
   timestamp and stream timestamp; the result is its new capture timestamp *)
Definition in_read (s : spec) (m : tsmap) (cts sts : Z) : res Z :=
  if negb (cts =? 0) then Panic
  else if m_has m then
    d <- stream_timestamp_delta_2_ns s (stream_timestamp_diff sts (m_rtp m)) ;;
    ns_arith (m_capt m + d)
  else Ok cts.

(* A sender session: packets pass the extractor *)
Fixpoint ex_run (m : tsmap) (ps : list (Z * Z)) : res tsmap :=
  match ps with
  | [] => Ok m
  | p :: ps => m' <- ex_write m p ;; ex_run m' ps
  end.

(* A receiver session: mappings from reports and packets in any order; packets
   arrive without capture timestamp (the RTP parser sets none) *)
Inductive rev := Mapping (capture_ts rtp_ts : Z) | Packet (sts : Z).
Fixpoint in_run (s : spec) (m : tsmap) (es : list rev) : res (tsmap * list Z) :=
  match es with
  | [] => Ok (m, [])
  | Mapping c q :: es => in_run s (in_update m c q) es
  | Packet q :: es =>
      c <- in_read s m 0 q ;; r <- in_run s m es ;; Ok (fst r, c :: snd r)
  end.
