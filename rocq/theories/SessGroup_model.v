(* Model of the group of receiver sessions that share one slot:
   roc_pipeline/receiver_session_group.cpp, roc_pipeline/state_tracker.cpp, and
   of the way incoming RTCP packets reach it: roc_rtcp/communicator.cpp:72-330.

   Simplifications:
   - a session is a number (its identity); what it does with packets and reports
     is not modelled here, only whether it could be created, whether it accepted
     its first packet, and, when refreshed or reclocked, whether it has ended;
   - the frame reader of a session, which is what the mixer gets, has the same
     identity as the session;
   - roc_core::List (sessions_, the mixer's inputs) is a Coq list; adding a member
     twice and removing a non-member panic as in roc_core/list_impl.cpp:90-130
     (List_model.v is the model of the list itself);
   - generate_reports() succeeds (receiver_session_group.cpp:99 panics otherwise). *)
From Coq Require Import ZArith List Bool Lia.
From Verif Require Import Base SessRouter_model.
From Verif Require Reporter_model RtcpTrav_model.
Import ListNotations.
Local Open Scope Z_scope.
Local Open Scope res_scope.

(* receiver_session_group.h:113-137: session_router_, sessions_, the inputs of
   mixer_, the counter of state_tracker_; [g_next] is the identity of the next
   session. *)
Record group := mkG {
  g_router : rstate;
  g_sess : list nat;
  g_mix : list nat;
  g_active : Z;
  g_next : nat
}.

(* receiver_session_group.cpp:19-43 *)
Definition g_new (oom : list bool) : group := mkG (router_new oom) [] [] 0 0.

Definition set_router (g : group) (st : rstate) : group :=
  mkG st (g_sess g) (g_mix g) (g_active g) (g_next g).

(* What the group reads of a transport packet: SSRC of the RTP header, if there
   is one (packet.cpp:125-139); source address, if it came by UDP; FlagRepair. *)
Record pkt := mkPkt { k_rtp : option Z; k_addr : option Z; k_repair : bool }.

(* What happens to a transport packet: it goes to a session, it creates one, it
   is ignored, or a session for it could not be created (with the code of the
   router when that is why). *)
Inductive fate := Delivered (x : nat) | Created (x : nat) | Ignored | Failed (c : option code).

Definition mem (x : nat) (l : list nat) : bool := existsb (Nat.eqb x) l.
Definition del (x : nat) (l : list nat) : list nat := filter (fun y => negb (Nat.eqb x y)) l.

(* List::push_back and List::remove *)
Definition push (l : list nat) (x : nat) : res (list nat) :=
  if mem x l then Panic else Ok (l ++ [x]).
Definition unlist (l : list nat) (x : nat) : res (list nat) :=
  if mem x l then Ok (del x l) else Panic.

(* StateTracker::add_active_sessions, state_tracker.cpp:39-42 *)
Definition add_active (n d : Z) : res Z := if n + d <? 0 then Panic else Ok (n + d).
(* StateTracker::get_state, state_tracker.cpp:20-33; [pending]: num_pending_packets() *)
Definition is_active (g : group) (pending : Z) : bool :=
  if negb (g_active g =? 0) then true else if negb (pending =? 0) then true else false.

(* remove_session_, receiver_session_group.cpp:415-423 *)
Definition remove_session_ (g : group) (x : nat) : res group :=
  m <- unlist (g_mix g) x ;;
  l <- unlist (g_sess g) x ;;
  st <- remove_session (g_router g) x ;;
  n <- add_active (g_active g) (-1) ;;
  Ok (mkG st l m n (g_next g)).

(* create_session_, receiver_session_group.cpp:351-413; [made]: the session could
   be allocated and initialized; [took]: it accepted the packet *)
Definition create_session_ (made took : bool) (g : group) (p : pkt) : res (fate * group) :=
  match k_rtp p, k_addr p with
  | Some s, Some a =>
      if negb made then Ok (Failed None, g) else
      let x := g_next g in
      let g := mkG (g_router g) (g_sess g) (g_mix g) (g_active g) (S x) in
      if negb took then Ok (Failed None, g) else
      q <- add_session (g_router g) x s (Some a) ;;
      match fst q with
      | StOK =>
          m <- push (g_mix g) x ;;
          l <- push (g_sess g) x ;;
          n <- add_active (g_active g) 1 ;;
          Ok (Created x, mkG (snd q) l m n (g_next g))
      | c => Ok (Failed (Some c), set_router g (snd q))
      end
  | _, _ => Ok (Ignored, g)
  end.

(* The session a packet belongs to, receiver_session_group.cpp:282-314;
   [routing]: slot_config_.enable_routing *)
Definition session_for (routing : bool) (g : group) (p : pkt) : res (option nat) :=
  if routing then
    let by_ssrc := match k_rtp p with
                   | Some s => find_by_source (g_router g) s
                   | None => None
                   end in
    Ok (match by_ssrc, k_addr p with
        | Some x, _ => Some x
        | None, Some a => find_by_address (g_router g) a
        | None, None => None
        end)
  else if negb (Nat.eqb (length (g_sess g)) 0 || Nat.eqb (length (g_sess g)) 1) then Panic
  else Ok (match g_sess g with [] => None | x :: _ => Some x end).

(* route_transport_packet_, receiver_session_group.cpp:280-328, with
   can_create_session_, 342-349 *)
Definition route_transport (routing made took : bool) (g : group) (p : pkt)
    : res (fate * group) :=
  f <- session_for routing g p ;;
  match f with
  | Some x => Ok (Delivered x, g)
  | None => if k_repair p then Ok (Ignored, g) else create_session_ made took g p
  end.

(* 249-253, 273-277: a session that the router has lost is removed *)
Definition drop_lost (g : group) (old : option nat) : res group :=
  match old with
  | Some x => if has_session (g_router g) x then Ok g else remove_session_ g x
  | None => Ok g
  end.

(* notify_recv_stream, receiver_session_group.cpp:232-263; the third part of the
   result is the session that gets the report *)
Definition notify_recv (g : group) (s : Z) (c : list Z) : res (code * option nat * group) :=
  let old := find_by_source (g_router g) s in
  q <- link_source (g_router g) s c ;;
  let g := set_router g (snd q) in
  match fst q with
  | StOK =>
      g <- drop_lost g old ;;
      Ok (StOK, find_by_source (g_router g) s, g)
  | k => Ok (k, None, g)
  end.

(* halt_recv_stream, receiver_session_group.cpp:265-278 *)
Definition halt_recv (g : group) (s : Z) : res group :=
  let old := find_by_source (g_router g) s in
  st <- unlink_source (g_router g) s ;;
  drop_lost (set_router g st) old.

(* receiver_session_group.cpp:115-121 *)
Definition earlier (next d : Z) : Z :=
  if d =? 0 then next else if next =? 0 then d else Z.min next d.

(* refresh_sessions, receiver_session_group.cpp:104-124; [l]: the sessions still
   to be visited: nextof() is asked before the visited session is removed, and
   nothing else is removed; [alive x]: None if the session has ended, otherwise
   its deadline (0: none) *)
Fixpoint refresh_loop (alive : nat -> option Z) (l : list nat) (next : Z) (g : group)
    : res (Z * group) :=
  match l with
  | [] => Ok (next, g)
  | x :: l =>
      match alive x with
      | None => g' <- remove_session_ g x ;; refresh_loop alive l next g'
      | Some d => refresh_loop alive l (earlier next d) g
      end
  end.

(* refresh_sessions, 91-124; [rtcp]: the deadline of the communicator, 0 if there
   is no communicator *)
Definition refresh_sessions (alive : nat -> option Z) (rtcp : Z) (g : group)
    : res (Z * group) := refresh_loop alive (g_sess g) rtcp g.

(* reclock_sessions, 127-140: the same loop without deadlines *)
Fixpoint reclock_loop (alive : nat -> bool) (l : list nat) (g : group) : res group :=
  match l with
  | [] => Ok g
  | x :: l => if alive x then reclock_loop alive l g
              else g' <- remove_session_ g x ;; reclock_loop alive l g'
  end.
Definition reclock_sessions (alive : nat -> bool) (g : group) : res group :=
  reclock_loop alive (g_sess g) g.

(* remove_all_sessions_, receiver_session_group.cpp:425-431; [n] bounds the loop *)
Fixpoint remove_all_sessions (n : nat) (g : group) : res (option group) :=
  match n with
  | O => Ok None
  | S n =>
      match rev (g_sess g) with
      | [] => Ok (Some g)
      | x :: _ => g' <- remove_session_ g x ;; remove_all_sessions n g'
      end
  end.

(* ---- RTCP ---- *)

(* The name behind a code of the reporter model (0 is the empty name). Only
   emptiness and equality matter to the router. *)
Definition name_of (c : Z) : list Z := if c =? 0 then [] else [c].

(* remote_send_report.sender_cname points to the name of the stream
   (reporter.cpp:215) *)
Definition cname_in (t : Reporter_model.tab) (s : Z) : list Z :=
  match Reporter_model.get t s with
  | Some m => name_of (Reporter_model.s_cname m)
  | None => []
  end.

(* What the reporter tells the group; the first failed notification ends the
   loop (reporter.cpp:951-958).  A receiver ignores notify_send_stream
   (iparticipant.h:73-82). *)
Fixpoint tell (t : Reporter_model.tab) (l : list Reporter_model.evt) (g : group)
    : res group :=
  match l with
  | [] => Ok g
  | Reporter_model.Halt s :: l => g' <- halt_recv g s ;; tell t l g'
  | Reporter_model.NotifyRecv s :: l =>
      q <- notify_recv g s (cname_in t s) ;;
      match fst (fst q) with StOK => tell t l (snd q) | _ => Ok (snd q) end
  | _ :: l => tell t l g
  end.

(* The group together with the reporter of its communicator. *)
Record node := mkN { n_group : group; n_rep : Reporter_model.rep }.

Inductive nop :=
| NPacket (made took : bool) (p : pkt)
| NReport (o : Reporter_model.rop)
| NRefresh (alive : nat -> option Z) (rtcp : Z)
| NReclock (alive : nat -> bool).

(* [None]: a loop of the reporter is still running (see Reporter_model.v).  The
   fate of a packet is part of the result. *)
Definition n_step (fuel : nat) (routing : bool) (c : Reporter_model.rcfg) (n : node) (o : nop)
    : res (option (list fate * node)) :=
  match o with
  | NPacket made took p =>
      q <- route_transport routing made took (n_group n) p ;;
      Ok (Some ([fst q], mkN (snd q) (n_rep n)))
  | NReport o =>
      q <- Reporter_model.r_step fuel c (n_rep n) o ;;
      match q with
      | None => Ok None
      | Some w => g <- tell (Reporter_model.r_tab (fst w)) (snd w) (n_group n) ;;
                  Ok (Some ([], mkN g (fst w)))
      end
  | NRefresh alive rtcp =>
      q <- refresh_sessions alive rtcp (n_group n) ;;
      Ok (Some ([], mkN (snd q) (n_rep n)))
  | NReclock alive =>
      g <- reclock_sessions alive (n_group n) ;; Ok (Some ([], mkN g (n_rep n)))
  end.

Fixpoint n_run (fuel : nat) (routing : bool) (c : Reporter_model.rcfg) (n : node) (l : list nop)
    : res (option (list fate * node)) :=
  match l with
  | [] => Ok (Some ([], n))
  | o :: l =>
      q <- n_step fuel routing c n o ;;
      match q with
      | None => Ok None
      | Some w =>
          q' <- n_run fuel routing c (snd w) l ;;
          Ok (match q' with
              | None => None
              | Some w' => Some (fst w ++ fst w', snd w')
              end)
      end
  end.

Definition n_new (oom : list bool) (local : Z) : node :=
  mkN (g_new oom) (Reporter_model.r_new local).

(* ---- Incoming RTCP packets: roc_rtcp/communicator.cpp ---- *)

(* The code of a name: what is in front of the first zero byte, which is where
   strcmp() and strcpy() stop (reporter.cpp:151, 182). *)
Fixpoint cstr (l : list Z) : list Z :=
  match l with
  | [] => []
  | b :: l => if b =? 0 then [] else b :: cstr l
  end.
Definition name_code (l : list Z) : Z :=
  match cstr l with [] => 0 | t => fold_left (fun a b => a * 256 + b) t 1 end.

(* process_description_, communicator.cpp:208-243; [ssrc]: that of the last chunk
   (0 before the first one) *)
Fixpoint desc_ops (ssrc : Z) (l : list RtcpTrav_model.sview) : list Reporter_model.rop :=
  match l with
  | [] => []
  | RtcpTrav_model.SChunkV s :: l => desc_ops s l
  | RtcpTrav_model.SItemV ty text :: l =>
      if negb (ty =? 1) then desc_ops ssrc l
      else if match cstr text with [] => true | _ => false end then desc_ops ssrc l
      else Reporter_model.RCname true ssrc (name_code text) :: desc_ops ssrc l
  end.

(* process_all_descriptions_, 123-149 *)
Definition sdes_ops (v : RtcpTrav_model.view) : list Reporter_model.rop :=
  match v with
  | RtcpTrav_model.VSDES (Some r) => desc_ops 0 (snd (fst r))
  | _ => []
  end.

(* process_sender_report_, process_receiver_report_, process_extended_report_,
   266-330; [ts]: ntp_2_unix *)
Definition block_ops (ssrc : Z) (b : RtcpTrav_model.rblock) : Reporter_model.rop :=
  Reporter_model.RReception true ssrc (RtcpTrav_model.rb_ssrc b).
Definition xr_ops (ts : Z -> Z) (ssrc : Z) (x : RtcpTrav_model.xview)
    : list Reporter_model.rop :=
  match x with
  | RtcpTrav_model.XRrtr ntp => [Reporter_model.RRrtr ssrc (ts ntp)]
  | RtcpTrav_model.XDlrr l =>
      map (fun b => Reporter_model.RDlrr ssrc (RtcpTrav_model.db_ssrc b)) l
  | RtcpTrav_model.XMeas s _ _ _ _ _ => [Reporter_model.RMetrics ssrc s]
  | RtcpTrav_model.XDelay _ s _ _ _ _ => [Reporter_model.RMetrics ssrc s]
  | RtcpTrav_model.XQueue _ s _ _ => [Reporter_model.RMetrics ssrc s]
  end.
(* process_all_reports_, 151-184 *)
Definition report_ops (ts : Z -> Z) (v : RtcpTrav_model.view) : list Reporter_model.rop :=
  match v with
  | RtcpTrav_model.VSR ssrc ntp _ _ _ bs =>
      Reporter_model.RSr true ssrc (ts ntp) :: map (block_ops ssrc) bs
  | RtcpTrav_model.VRR ssrc bs => map (block_ops ssrc) bs
  | RtcpTrav_model.VXR (Some r) => flat_map (xr_ops ts (fst (fst r))) (snd (fst r))
  | _ => []
  end.
(* process_goodbye_, 245-264, process_all_goodbyes_, 186-206 *)
Definition bye_ops (v : RtcpTrav_model.view) : list Reporter_model.rop :=
  match v with
  | RtcpTrav_model.VBYE (Some r) =>
      flat_map (fun b => match b with
                         | RtcpTrav_model.BSsrcV s => [Reporter_model.RBye s]
                         | _ => []
                         end) (snd (fst r))
  | _ => []
  end.

(* Allocation of streams: the answers [mem], in order; [true] when used up. *)
Fixpoint with_mem (mem : list bool) (l : list Reporter_model.rop) : list Reporter_model.rop :=
  match l with
  | [] => []
  | o :: l =>
      let b := hd true mem in
      match o with
      | Reporter_model.RCname _ id n => Reporter_model.RCname b id n :: with_mem (tl mem) l
      | Reporter_model.RSr _ id ts => Reporter_model.RSr b id ts :: with_mem (tl mem) l
      | Reporter_model.RReception _ id ab => Reporter_model.RReception b id ab :: with_mem (tl mem) l
      | o => o :: with_mem mem l
      end
  end.

(* process_packet, communicator.cpp:72-121: three passes over the packet *)
Definition packet_ops (ts : Z -> Z) (mem : list bool) (from now : Z) (p : Reporter_model.part)
    (buf : list Z) : res (list Reporter_model.rop) :=
  w <- RtcpTrav_model.walk buf ;;
  Ok (match w with
      | None => []
      | Some v =>
          [Reporter_model.RBeginP from now p] ++
          with_mem mem (flat_map sdes_ops (fst v) ++ flat_map (report_ops ts) (fst v) ++
                        flat_map bye_ops (fst v)) ++
          [Reporter_model.REndP]
      end).

(* route_control_packet_, receiver_session_group.cpp:330-340 *)
Definition route_control (fuel : nat) (c : Reporter_model.rcfg) (ts : Z -> Z) (mem : list bool)
    (from now : Z) (p : Reporter_model.part) (n : node) (buf : list Z)
    : res (option (list fate * node)) :=
  ops <- packet_ops ts mem from now p buf ;;
  n_run fuel true c n (map NReport ops).
