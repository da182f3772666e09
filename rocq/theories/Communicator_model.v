(** Model of packet generation in roc_rtcp/communicator.cpp (generate_reports, generate_goodbye and
    what they call).

    The builder is that of RtcpBuild_model. The reporter is an environment [env]: what it returns
    between begin_generation() and end_generation() is fixed by then (reporter.cpp:620-877). Memory
    allocation, the composer and the packet writer are an oracle consulted once per packet. Loops
    take a fuel; [None] means that the loop still runs. Processing of received packets is not part
    of this model. *)
From Verif Require Import Base RtcpTrav_model RtcpBuild_model.
Open Scope res_scope.
Local Open Scope nat_scope.

(** *** The reporter *)
(** reporter.h:170-290: the getters used during generation; [e_bye] is need_goodbye() (reporter.cpp:861-866) *)
Record env := mkEnv {
  e_sending : bool; e_receiving : bool; e_dests : nat; e_nsend : nat -> nat; e_nrecv : nat -> nat; e_bye : bool;
  e_ssrc : Z; e_cname : list Z; e_sr : srin; e_ntp : Z;
  e_rep : nat -> nat -> rin; e_dlrr : nat -> nat -> din; e_meas : nat -> nat -> min_; e_delay : nat -> nat -> yin; e_queue : nat -> nat -> qin }.
(** packet.h status codes: success, no memory, no space, any error of the packet writer *)
Inductive status := StOk | StNoMem | StNoSpace | StWriter.
(** One packet: packet and payload buffer are allocated, packet buffer is allocated, composer prepares it, writer accepts it *)
Record io := mkIo { io_alloc : bool; io_buffer : bool; io_prepare : bool; io_write : bool }.
Definition io_good : io := mkIo true true true true.

(** communicator.h:136-166 *)
Record comm := mkComm { k_dn : nat; k_di : nat; k_sn : nat; k_si : nat; k_rn : nat; k_ri : nat; k_max : nat }.
(** communicator.cpp:39-48; headers.h:85 *)
Definition k_new : comm := mkComm 0 0 0 0 0 0 31.
Definition set_max (c : comm) (m : nat) : comm := mkComm (k_dn c) (k_di c) (k_sn c) (k_si c) (k_rn c) (k_ri c) m.

(** *** Streams of one packet *)
(** communicator.cpp:514-530 [next_send_stream_] and 532-543 [next_recv_stream_]: [cur] is the counter
    of the kind of the stream, [other] the other counter; the new value of the counter, if the limit allows *)
Definition next_stream (mx cur other first i : nat) : option nat :=
  let n := Nat.max cur (i - first + 1) in
  if mx <=? n + other then None else Some n.
(** The loops at 697-707, 722-732, 753-763, 775-798: the indices added, and the counter *)
Fixpoint streams (k : nat) (mx cur other first i : nat) : nat * list nat :=
  match k with
  | 0 => (cur, [])
  | S k => match next_stream mx cur other first i with
           | None => (cur, [])
           | Some n => let r := streams k mx n other first (i + 1) in (fst r, i :: snd r)
           end
  end.

(** *** Payload *)
(** communicator.cpp:686-737; counters are (send, recv) *)
Definition standard_report (e : env) (c : comm) (cs cr : nat) : list op * nat :=
  let r := if e_receiving e then streams (k_rn c - k_ri c) (k_max c) cr cs (k_ri c) (k_ri c) else (cr, []) in
  if e_sending e then ([OBeginSr (e_sr e)] ++ map (fun i => OSrReport (e_rep e (k_di c) i)) (snd r) ++ [OEndSr], fst r)
  else ([OBeginRr (e_ssrc e)] ++ map (fun i => ORrReport (e_rep e (k_di c) i)) (snd r) ++ [OEndRr], fst r).
(** communicator.cpp:739-803 *)
Definition extended_report (e : env) (c : comm) (cs cr : nat) : list op * nat * nat :=
  let sends := e_sending e && (k_si c <? k_sn c) in
  if sends || e_receiving e then
    let s := if sends then streams (k_sn c - k_si c) (k_max c) cs cr (k_si c) (k_si c) else (cs, []) in
    let r := if e_receiving e then streams (k_rn c - k_ri c) (k_max c) cr (fst s) (k_ri c) (k_ri c) else (cr, []) in
    ([OBeginXr (e_ssrc e)] ++
     (if sends then [OBeginDlrr] ++ map (fun i => ODlrrReport (e_dlrr e (k_di c) i)) (snd s) ++ [OEndDlrr] else []) ++
     (if e_receiving e then [ORrtr (e_ntp e)] ++ concat (map (fun i => [OMeas (e_meas e (k_di c) i); ODelay (e_delay e (k_di c) i); OQueue (e_queue e (k_di c) i)]) (snd r)) else []) ++
     [OEndXr], fst s, fst r)
  else ([], cs, cr).
(** communicator.cpp:805-811 *)
Definition empty_report (e : env) : list op := [OBeginRr (e_ssrc e); OEndRr].
(** communicator.cpp:813-828; reporter.cpp:654-662 *)
Definition description (e : env) : list op := [OBeginSdes; OBeginChunk (e_ssrc e); OItem 1 (e_cname e); OEndChunk; OEndSdes].
(** communicator.cpp:830-842 *)
Definition goodbye (e : env) : list op := [OBeginBye; OByeSsrc (e_ssrc e); OEndBye].
(** communicator.h:100 *)
Inductive ptype := PtReports | PtGoodbye.
(** communicator.cpp:654-671 *)
Definition reports_payload (cfg : wcfg) (e : env) (c : comm) : list op * nat * nat :=
  let a := if c_srrr cfg then standard_report e c 0 0 else ([], 0) in
  let x := if c_xr cfg then extended_report e c 0 (snd a) else ([], 0, snd a) in
  (fst a ++ fst (fst x) ++ (if c_sdes cfg then description e else []) ++ (if e_bye e then goodbye e else []), snd (fst x), snd x).
(** communicator.cpp:673-684 *)
Definition goodbye_payload (cfg : wcfg) (e : env) : list op * nat * nat :=
  ((if c_srrr cfg then empty_report e else []) ++ (if c_sdes cfg then description e else []) ++ goodbye e, 0, 0).
Definition payload_of (t : ptype) (cfg : wcfg) (e : env) (c : comm) : list op * nat * nat :=
  match t with PtReports => reports_payload cfg e c | PtGoodbye => goodbye_payload cfg e end.
(** communicator.cpp:605-652, with a buffer of [cap] bytes; the builder is destroyed at the end of each
    iteration. None in the pair is StatusNoSpace. *)
Fixpoint packet_payload (fuel : nat) (t : ptype) (cfg : wcfg) (cap : nat) (e : env) (c : comm) : res (option (comm * option (list Z))) :=
  match fuel with
  | 0 => Ok None
  | S fuel =>
    let p := payload_of t cfg e c in
    let cs := snd (fst p) in let cr := snd p in
    b <- w_run (w_new cfg cap) (fst (fst p)) ;;
    u <- w_destroy b ;;
    if negb (w_ok b) then
      if cs + cr <=? 1 then Ok (Some (set_max c 1, None))
      else packet_payload fuel t cfg cap e (set_max c (cs + cr - 1))
    else Ok (Some (mkComm (k_dn c) (k_di c) (k_sn c) (k_si c + cs) (k_rn c) (k_ri c + cr) (k_max c), Some (w_result b)))
  end.

(** *** Packets *)
(** communicator.cpp:462-500; false: generation is complete *)
Definition continue_gen (e : env) (c : comm) : comm * bool :=
  if (k_sn c <=? k_si c) && (k_rn c <=? k_ri c) then
    let dn := if k_dn c =? 0 then e_dests e else k_dn c in
    let di := if k_dn c =? 0 then 0 else k_di c + 1 in
    if dn <=? di then (mkComm dn di (k_sn c) (k_si c) (k_rn c) (k_ri c) (k_max c), false)
    else (mkComm dn di (if e_sending e then e_nsend e di else 0) 0 (if e_receiving e then e_nrecv e di else 0) 0 (k_max c), true)
  else (c, true).
(** A packet given to the writer: index of the destination address, bytes *)
Definition pkt_out : Type := nat * list Z.
(** communicator.cpp:545-603 and the body of the loop at 407-419, up to the write. The flag tells
    whether generate_goodbye() of the reporter was called. *)
Definition gen_packet (fuel : nat) (t : ptype) (cfg : wcfg) (cap : nat) (e : env) (o : io) (c : comm) : res (option (comm * bool * (status + pkt_out))) :=
  if negb (io_alloc o) then Ok (Some (c, false, inl StNoMem))
  else
    r <- packet_payload fuel t cfg cap e c ;;
    let bye := match t with PtReports => e_bye e | PtGoodbye => true end in
    Ok (match r with
        | None => None
        | Some (c, None) => Some (c, bye, inl StNoSpace)
        | Some (c, Some l) =>
          if negb (io_buffer o) then Some (c, bye, inl StNoMem)
          else if negb (io_prepare o) then Some (c, bye, inl StNoSpace)
          else Some (c, bye, inr (k_di c, l))
        end).
(** communicator.cpp:407-419: the packets written, and the status *)
Fixpoint gen_loop (fuel : nat) (t : ptype) (cfg : wcfg) (cap : nat) (e : env) (io : nat -> io) (n : nat) (c : comm) (bye : bool)
  : res (option (comm * bool * status * list pkt_out)) :=
  match fuel with
  | 0 => Ok None
  | S fuel' =>
    let '(c, go) := continue_gen e c in
    if negb go then Ok (Some (c, bye, StOk, []))
    else
      r <- gen_packet fuel t cfg cap e (io n) c ;;
      match r with
      | None => Ok None
      | Some (c, b, inl s) => Ok (Some (c, bye || b, s, []))
      | Some (c, b, inr p) =>
        if negb (io_write (io n)) then Ok (Some (c, bye || b, StWriter, []))
        else
          r <- gen_loop fuel' t cfg cap e io (n + 1) c (bye || b) ;;
          Ok (match r with None => None | Some (c, b, s, l) => Some (c, b, s, p :: l) end)
      end
  end.
(** communicator.cpp:395-430 and 432-460; reporter.cpp:879-889, 1267-1275: end_generation() panics if a
    BYE was due and not generated. begin_generation() succeeds. *)
Definition gen_packets (fuel : nat) (t : ptype) (cfg : wcfg) (cap : nat) (e : env) (io : nat -> io) (c : comm)
  : res (option (comm * status * list pkt_out)) :=
  r <- gen_loop fuel t cfg cap e io 0 (mkComm 0 0 0 0 0 0 (k_max c)) false ;;
  match r with
  | None => Ok None
  | Some (c, bye, s, l) => if e_bye e && negb bye then Panic else Ok (Some (c, s, l))
  end.

(** *** Schedule *)
(** communicator.cpp:336-377: when [generate_reports] is called at [now], the new deadline and whether
    packets are generated *)
Definition k_tick (interval deadline now : Z) : res (Z * bool) :=
  if (now <=? 0)%Z then Panic
  else
    let d := if (deadline =? 0)%Z then now else deadline in
    if (now <? d)%Z then Ok (d, false)
    else if (interval =? 0)%Z then UB
    else Ok ((now + interval - Z.rem (now - d) interval)%Z, true).
