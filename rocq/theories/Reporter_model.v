(** Model of the stream table, the address index and collision handling of roc_rtcp/reporter.cpp.

    Streams are objects with an identity [s_uid]; pointers to streams are identities, and reading a
    stream that was removed from the map (its only owner) is UB. Canonical names are codes (0 is the
    empty name), socket addresses are codes too. Contents of the reports other than the timestamps
    that decide whether a stream is reported are not part of this model. The participant (the
    pipeline) answers queries with well-formed reports (reporter.cpp:1312-1387 panics otherwise) and
    accepts notifications. Allocation of a stream while processing may fail; other allocations
    succeed. Hash maps are lists in order of insertion (hashmap_impl.cpp:321-327). *)
From Verif Require Import Base.
Open Scope res_scope.
Local Open Scope Z_scope.

(** reporter.h:256-352 *)
Record strm := mkS { s_uid : nat; s_id : Z; s_cname : Z; s_hasr : bool; s_rts : Z; s_hass : bool; s_sts : Z; s_lrr : option nat; s_addr : Z; s_upd : Z; s_loop : bool }.
(** reporter.h:354-397 *)
Record adr := mkA { a_key : Z; a_send : list nat; a_recv : list nat; a_last : Z }.
(** stream_map_, stream_lru_ (front first), identity of the next stream, need_rebuild_index_ *)
Record tab := mkT { t_streams : list strm; t_lru : list nat; t_uid : nat; t_need : bool }.
(** address_map_, address_lru_ (front first), address_index_ *)
Record idx := mkI { i_addrs : list adr; i_lru : list Z; i_index : list Z }.
(** reporter.h: ReportState *)
Inductive rst := RIdle | RProc | RGen.
Inductive mode := ToAddress | ReportBack.
Record rcfg := mkRc { rc_mode : mode; rc_addr : Z; rc_cname : Z; rc_timeout : Z }.
(** reporter.h:419-485; [r_recv] are the sender ids of local_recv_reports_ *)
Record rep := mkR { r_st : rst; r_time : Z; r_from : Z; r_local : Z; r_send : bool; r_recv : list Z; r_coll : bool; r_crep : bool; r_tab : tab; r_idx : idx }.
(** reporter.cpp:25-47, with the source id of the participant *)
Definition r_new (local : Z) : rep := mkR RIdle 0 0 local false [] false false (mkT [] [] 0 true) (mkI [] [] []).
Definition with_tab (r : rep) (t : tab) : rep := mkR (r_st r) (r_time r) (r_from r) (r_local r) (r_send r) (r_recv r) (r_coll r) (r_crep r) t (r_idx r).

(** What the participant sees (halt_recv_stream, notify_send_stream, notify_recv_stream), and what a generated block is about:
    destination, source id in the block, source id in the local report it was filled from *)
Inductive evt := Halt (id : Z) | NotifySend (id : Z) | NotifyRecv (id : Z) | Dlrr (addr id : Z) | Reception (addr id about : Z).

(** *** Streams *)
Definition get (t : tab) (id : Z) : option strm := find (fun s => s_id s =? id) (t_streams t).
Definition get_uid (t : tab) (u : nat) : option strm := find (fun s => Nat.eqb (s_uid s) u) (t_streams t).
Definition modify (t : tab) (u : nat) (f : strm -> strm) : tab :=
  mkT (map (fun s => if Nat.eqb (s_uid s) u then f s else s) (t_streams t)) (t_lru t) (t_uid t) (t_need t).
Definition set_need (t : tab) : tab := mkT (t_streams t) (t_lru t) (t_uid t) true.
(** reporter.cpp:1389-1419; [ok]: allocation succeeds *)
Definition find_create (ok : bool) (now : Z) (t : tab) (id : Z) : tab * option strm :=
  match get t id with
  | Some s => (t, Some s)
  | None => if ok then let s := mkS (t_uid t) id 0 false 0 false 0 None 0 now false in
                       (mkT (t_streams t ++ [s]) (t_uid t :: t_lru t) (S (t_uid t)) true, Some s)
            else (t, None)
  end.
(** reporter.cpp:1421-1429 *)
Definition without (u : nat) (l : list nat) : list nat := filter (fun x => negb (Nat.eqb x u)) l.
Definition remove_stream (t : tab) (u : nat) : tab :=
  mkT (filter (fun s => negb (Nat.eqb (s_uid s) u)) (t_streams t)) (without u (t_lru t)) (t_uid t) true.
(** reporter.cpp:1431-1440 *)
Definition set_upd (now : Z) (s : strm) : strm := mkS (s_uid s) (s_id s) (s_cname s) (s_hasr s) (s_rts s) (s_hass s) (s_sts s) (s_lrr s) (s_addr s) now (s_loop s).
Definition update_stream (now : Z) (t : tab) (u : nat) : tab :=
  match get_uid t u with
  | None => t
  | Some s => if s_upd s =? now then t
              else let t := modify t u (set_upd now) in mkT (t_streams t) (u :: without u (t_lru t)) (t_uid t) (t_need t)
  end.

(** reporter.cpp:1220-1265 *)
Definition set_loop (s : strm) : strm := mkS (s_uid s) (s_id s) (s_cname s) (s_hasr s) (s_rts s) (s_hass s) (s_sts s) (s_lrr s) (s_addr s) (s_upd s) true.
Definition detect_collision (c : rcfg) (r : rep) (id : Z) : rep :=
  if r_coll r then r
  else if negb (id =? r_local r) then r
  else
    let hit := mkR (r_st r) (r_time r) (r_from r) (r_local r) (r_send r) (r_recv r) true false (r_tab r) (r_idx r) in
    match get (r_tab r) id with
    | None => hit
    | Some s => if s_loop s then r
                else if s_cname s =? rc_cname c then with_tab r (modify (r_tab r) (s_uid s) set_loop)
                else hit
    end.

(** *** Processing *)
(** reporter.cpp:131-189 *)
Definition set_cname (n : Z) (s : strm) : strm := mkS (s_uid s) (s_id s) n (s_hasr s) (s_rts s) (s_hass s) (s_sts s) (s_lrr s) (s_addr s) (s_upd s) (s_loop s).
Definition process_cname (c : rcfg) (r : rep) (ok : bool) (id name : Z) : rep * list evt :=
  if name =? 0 then (r, [])
  else
    match find_create ok (r_time r) (r_tab r) id with
    | (t, None) => (with_tab r t, [])
    | (t, Some s) =>
      if s_cname s =? name then (with_tab r t, [])
      else
        let '(t, s, ev) :=
          if negb (s_cname s =? 0) then
            let p := find_create ok (r_time r) (remove_stream t (s_uid s)) id in (fst p, snd p, [Halt id])
          else (t, Some s, []) in
        match s with
        | None => (with_tab r t, ev)
        | Some s =>
          let r := with_tab r (set_need (modify t (s_uid s) (set_cname name))) in
          let r := detect_collision c r id in
          (with_tab r (update_stream (r_time r) (r_tab r) (s_uid s)), ev)
        end
    end.
(** reporter.cpp:191-245; [ts]: the timestamp of the report *)
Definition set_sr (ts from : Z) (s : strm) : strm := mkS (s_uid s) (s_id s) (s_cname s) (s_hasr s) (s_rts s) true ts (s_lrr s) from (s_upd s) (s_loop s).
Definition need_if (b : bool) (t : tab) : tab := if b then set_need t else t.
Definition process_sr (c : rcfg) (r : rep) (ok : bool) (id ts : Z) : rep :=
  let r := detect_collision c r id in
  match find_create ok (r_time r) (r_tab r) id with
  | (t, None) => with_tab r t
  | (t, Some s) =>
    let t := need_if (negb (s_hass s) || negb (s_addr s =? r_from r)) (modify t (s_uid s) (set_sr ts (r_from r))) in
    with_tab r (update_stream (r_time r) t (s_uid s))
  end.
(** reporter.cpp:247-317; [id] is the receiver, [about] the sender the block is about *)
Definition set_rr (from : Z) (s : strm) : strm := mkS (s_uid s) (s_id s) (s_cname s) true (s_rts s) (s_hass s) (s_sts s) (s_lrr s) from (s_upd s) (s_loop s).
Definition process_reception (c : rcfg) (r : rep) (ok : bool) (id about : Z) : rep :=
  let r := detect_collision c r id in
  if negb (r_send r) || negb (about =? r_local r) then r
  else
    match find_create ok (r_time r) (r_tab r) id with
    | (t, None) => with_tab r t
    | (t, Some s) =>
      let t := need_if (negb (s_hasr s) || negb (s_addr s =? r_from r)) (modify t (s_uid s) (set_rr (r_from r))) in
      with_tab r (update_stream (r_time r) t (s_uid s))
    end.
(** reporter.cpp:319-380 *)
Definition process_dlrr (c : rcfg) (r : rep) (id about : Z) : rep :=
  let r := detect_collision c r id in
  if negb (about =? r_local r) then r
  else match get (r_tab r) id with
       | Some s => if s_hass s then with_tab r (update_stream (r_time r) (r_tab r) (s_uid s)) else r
       | None => r
       end.
(** reporter.cpp:382-430 *)
Definition set_rrtr (ts : Z) (s : strm) : strm := mkS (s_uid s) (s_id s) (s_cname s) (s_hasr s) ts (s_hass s) (s_sts s) (s_lrr s) (s_addr s) (s_upd s) (s_loop s).
Definition process_rrtr (c : rcfg) (r : rep) (id ts : Z) : rep :=
  let r := detect_collision c r id in
  match get (r_tab r) id with
  | Some s => if s_hasr s then with_tab r (update_stream (r_time r) (modify (r_tab r) (s_uid s) (set_rrtr ts)) (s_uid s)) else r
  | None => r
  end.
(** reporter.cpp:432-470, 472-508, 510-551: measurement info, delay metrics, queue metrics *)
Definition process_metrics (c : rcfg) (r : rep) (id about : Z) : rep :=
  let r := detect_collision c r id in
  if negb (about =? r_local r) then r
  else match get (r_tab r) id with
       | Some s => if s_hasr s then with_tab r (update_stream (r_time r) (r_tab r) (s_uid s)) else r
       | None => r
       end.
(** reporter.cpp:553-578 *)
Definition process_goodbye (r : rep) (id : Z) : rep * list evt :=
  (match get (r_tab r) id with Some s => with_tab r (remove_stream (r_tab r) (s_uid s)) | None => r end, [Halt id]).

(** *** Timeouts, notifications *)
(** reporter.cpp:1177-1218; None: the loop still runs *)
Fixpoint detect_timeouts (fuel : nat) (timeout now : Z) (t : tab) : res (option (tab * list evt)) :=
  match fuel with
  | O => Ok None
  | S fuel =>
    match rev (t_lru t) with
    | [] => Ok (Some (t, []))
    | u :: _ =>
      match get_uid t u with
      | None => UB
      | Some s =>
        if now - timeout <? s_upd s then Ok (Some (t, []))
        else if negb (s_hasr s) && negb (s_hass s) then detect_timeouts fuel timeout now (update_stream now t u)
        else
          r <- detect_timeouts fuel timeout now (remove_stream t u) ;;
          Ok (match r with None => None | Some (t, ev) => Some (t, Halt (s_id s) :: ev) end)
      end
    end
  end.
(** reporter.cpp:896-965; [sending]: the participant gives the same answer as at the beginning of the processing *)
Fixpoint notify (t : tab) (sending : bool) (now : Z) (l : list nat) : res (list evt) :=
  match l with
  | [] => Ok []
  | u :: l =>
    match get_uid t u with
    | None => UB
    | Some s =>
      if negb (s_upd s =? now) then Ok []
      else
        r <- notify t sending now l ;;
        Ok (if s_loop s then r
            else (if s_hasr s && sending then [NotifySend (s_id s)] else []) ++ (if s_hass s then [NotifyRecv (s_id s)] else []) ++ r)
    end
  end.

(** *** Index *)
Definition get_adr (i : idx) (k : Z) : option adr := find (fun a => a_key a =? k) (i_addrs i).
Definition set_adr (i : idx) (a : adr) : idx := mkI (map (fun x => if a_key x =? a_key a then a else x) (i_addrs i)) (i_lru i) (i_index i).
Definition withoutz (k : Z) (l : list Z) : list Z := filter (fun x => negb (x =? k)) l.
(** reporter.cpp:1442-1470 followed by 1484-1499: find or create the address, start its rebuild *)
Definition rebuild_address (now : Z) (i : idx) (k : Z) : idx :=
  match get_adr i k with
  | None => mkI (i_addrs i ++ [mkA k [] [] now]) (k :: i_lru i) (i_index i)
  | Some a => if a_last a =? now then i
              else let i := set_adr i (mkA k [] [] now) in mkI (i_addrs i) (k :: withoutz k (i_lru i)) (i_index i)
  end.
Definition push_send (i : idx) (k : Z) (u : nat) : idx := match get_adr i k with Some a => set_adr i (mkA k (a_send a ++ [u]) (a_recv a) (a_last a)) | None => i end.
Definition push_recv (i : idx) (k : Z) (u : nat) : idx := match get_adr i k with Some a => set_adr i (mkA k (a_send a) (a_recv a ++ [u]) (a_last a)) | None => i end.
Definition dest (c : rcfg) (s : strm) : Z := match rc_mode c with ToAddress => rc_addr c | ReportBack => s_addr s end.
(** reporter.cpp:1053-1102 *)
Definition rebuild_sends (c : rcfg) (now : Z) (t : tab) (i : idx) : idx :=
  let i := match rc_mode c with ToAddress => rebuild_address now i (rc_addr c) | ReportBack => i end in
  fold_left (fun i s => if s_loop s || negb (s_hasr s) || (s_rts s =? 0) then i else push_send (rebuild_address now i (dest c s)) (dest c s) (s_uid s)) (t_streams t) i.
(** reporter.cpp:1104-1146; [n]: position in local_recv_reports_ *)
Definition set_lrr (n : nat) (s : strm) : strm := mkS (s_uid s) (s_id s) (s_cname s) (s_hasr s) (s_rts s) (s_hass s) (s_sts s) (Some n) (s_addr s) (s_upd s) (s_loop s).
Fixpoint rebuild_recvs (c : rcfg) (now : Z) (n : nat) (ids : list Z) (t : tab) (i : idx) : tab * idx :=
  match ids with
  | [] => (t, i)
  | id :: ids =>
    match find_create true now t id with
    | (t, Some s) =>
      if s_loop s || (match rc_mode c with ReportBack => negb (s_hass s) || (s_sts s =? 0) | ToAddress => false end) then rebuild_recvs c now (S n) ids t i
      else rebuild_recvs c now (S n) ids (modify t (s_uid s) (set_lrr n)) (push_recv (rebuild_address now i (dest c s)) (dest c s) (s_uid s))
    | (t, None) => (t, i)
    end
  end.
(** reporter.cpp:1148-1157, 1472-1482: drop addresses not touched; [l] is the list of addresses, back first *)
Fixpoint drop_stale (now : Z) (l : list Z) (i : idx) : idx :=
  match l with
  | [] => i
  | k :: l => match get_adr i k with
              | Some a => if a_last a =? now then i else drop_stale now l (mkI (filter (fun x => negb (a_key x =? k)) (i_addrs i)) (withoutz k (i_lru i)) (i_index i))
              | None => i
              end
  end.
(** reporter.cpp:1048-1175 *)
Definition rebuild_index (c : rcfg) (r : rep) : rep :=
  let i := mkI (i_addrs (r_idx r)) (i_lru (r_idx r)) [] in
  let i := if r_send r then rebuild_sends c (r_time r) (r_tab r) i else i in
  let '(t, i) := rebuild_recvs c (r_time r) 0 (r_recv r) (r_tab r) i in
  let i := drop_stale (r_time r) (rev (i_lru i)) i in
  mkR (r_st r) (r_time r) (r_from r) (r_local r) (r_send r) (r_recv r) (r_coll r) (r_crep r) (mkT (t_streams t) (t_lru t) (t_uid t) false) (mkI (i_addrs i) (i_lru i) (map a_key (i_addrs i))).

(** *** Beginning: reporter.cpp:107-129, 599-619, 967-1046 *)
(** The participant: whether it sends, and the sender ids of its receiving streams *)
Record part := mkPart { p_send : bool; p_recv : list Z }.
Definition query (r : rep) (p : part) : rep :=
  let need := negb (Nat.eqb (length (r_recv r)) (length (p_recv p))) || existsb (fun id => match get (r_tab r) id with None => true | Some _ => false end) (p_recv p) in
  mkR (r_st r) (r_time r) (r_from r) (r_local r) (p_send p) (p_recv p) (r_coll r) (r_crep r) (need_if need (r_tab r)) (r_idx r).
Definition refresh (c : rcfg) (r : rep) (p : part) : rep :=
  let r := query r p in if t_need (r_tab r) then rebuild_index c r else r.
Definition next_time (last now : Z) : Z := if now =? last then now + 1 else now.
Definition begin_ (c : rcfg) (st : rst) (from now : Z) (r : rep) (p : part) : res rep :=
  match r_st r with
  | RIdle => if now <=? 0 then Panic
             else Ok (refresh c (mkR st (next_time (r_time r) now) from (r_local r) (r_send r) (r_recv r) (r_coll r) (r_crep r) (r_tab r) (r_idx r)) p)
  | _ => Panic
  end.
Definition idle (r : rep) : rep := mkR RIdle (r_time r) (r_from r) (r_local r) (r_send r) (r_recv r) (r_coll r) (r_crep r) (r_tab r) (r_idx r).
(** reporter.cpp:580-597 *)
Definition end_processing (fuel : nat) (c : rcfg) (r : rep) : res (option (rep * list evt)) :=
  q <- detect_timeouts fuel (rc_timeout c) (r_time r) (r_tab r) ;;
  match q with
  | None => Ok None
  | Some (t, ev) => n <- (if r_time r =? 0 then Ok [] else notify t (r_send r) (r_time r) (t_lru t)) ;; Ok (Some (idle (with_tab r t), ev ++ n))
  end.
(** reporter.cpp:1267-1310; [ids]: what the participant chooses, one by one. None: all are taken, the loop still runs *)
Fixpoint pick (t : tab) (ids : list Z) : option Z :=
  match ids with [] => None | id :: ids => match get t id with None => Some id | Some _ => pick t ids end end.
Definition resolve_collision (r : rep) (ids : list Z) : res (option rep) :=
  if negb (r_coll r) then Ok (Some r)
  else if negb (r_crep r) then Panic
  else Ok (match pick (r_tab r) ids with
           | None => None
           | Some id => Some (mkR (r_st r) (r_time r) (r_from r) id (r_send r) (r_recv r) false false (r_tab r) (r_idx r))
           end).
(** reporter.cpp:879-894 *)
Definition end_generation (fuel : nat) (c : rcfg) (r : rep) (ids : list Z) : res (option (rep * list evt)) :=
  q <- resolve_collision (idle r) ids ;;
  match q with
  | None => Ok None
  | Some r => d <- detect_timeouts fuel (rc_timeout c) (r_time r) (r_tab r) ;;
              Ok (match d with None => None | Some (t, ev) => Some (with_tab r t, ev) end)
  end.
(** *** Generation: reporter.cpp:622-643, 699-733, 749-772 *)
Definition nth_adr (r : rep) (a : nat) : option adr := match nth_error (i_index (r_idx r)) a with Some k => get_adr (r_idx r) k | None => None end.
Definition gen_dlrr (r : rep) (a n : nat) : res evt :=
  match nth_adr r a with
  | None => Panic
  | Some x => match nth_error (a_send x) n with
              | None => Panic
              | Some u => match get_uid (r_tab r) u with None => UB | Some s => Ok (Dlrr (a_key x) (s_id s)) end
              end
  end.
Definition gen_reception (r : rep) (a n : nat) : res evt :=
  match nth_adr r a with
  | None => Panic
  | Some x => match nth_error (a_recv x) n with
              | None => Panic
              | Some u => match get_uid (r_tab r) u with
                          | None => UB
                          | Some s => match s_lrr s with
                                      | None => UB
                                      | Some p => match nth_error (r_recv r) p with None => UB | Some id => Ok (Reception (a_key x) (s_id s) id) end
                                      end
                          end
              end
  end.
(** All blocks, as the communicator asks for them when all fit one packet (communicator.cpp:462-500, 686-803) *)
Fixpoint all_ok {A} (l : list (res A)) : res (list A) := match l with [] => Ok [] | x :: l => a <- x ;; r <- all_ok l ;; Ok (a :: r) end.
Definition gen_addr (r : rep) (a : nat) : list (res evt) :=
  match nth_adr r a with
  | None => [Panic]
  | Some x => (if r_send r then map (gen_dlrr r a) (seq 0 (length (a_send x))) else []) ++
              (match r_recv r with [] => [] | _ => map (gen_reception r a) (seq 0 (length (a_recv x))) end)
  end.
Definition gen_all (r : rep) : res (list evt) := all_ok (concat (map (gen_addr r) (seq 0 (length (i_index (r_idx r)))))).

(** *** Operations *)
Inductive rop :=
| RBeginP (from now : Z) (p : part) | RCname (ok : bool) (id name : Z) | RSr (ok : bool) (id ts : Z) | RReception (ok : bool) (id about : Z)
| RDlrr (id about : Z) | RRrtr (id ts : Z) | RMetrics (id about : Z) | RBye (id : Z) | REndP
| RBeginG (now : Z) (p : part) | RBlocks (bye : bool) | REndG (ids : list Z).
Definition in_st (r : rep) (s : rst) : bool := match r_st r, s with RIdle, RIdle | RProc, RProc | RGen, RGen => true | _, _ => false end.
Definition lift (r : rep * list evt) : res (option (rep * list evt)) := Ok (Some r).
Definition r_step (fuel : nat) (c : rcfg) (r : rep) (o : rop) : res (option (rep * list evt)) :=
  match o with
  | RBeginP from now p => q <- begin_ c RProc from now r p ;; lift (q, [])
  | RBeginG now p => q <- begin_ c RGen (r_from r) now r p ;; lift (q, [])
  | RCname ok id name => if in_st r RProc then lift (process_cname c r ok id name) else Panic
  | RSr ok id ts => if in_st r RProc then lift (process_sr c r ok id ts, []) else Panic
  | RReception ok id about => if in_st r RProc then lift (process_reception c r ok id about, []) else Panic
  | RDlrr id about => if in_st r RProc then lift (process_dlrr c r id about, []) else Panic
  | RRrtr id ts => if in_st r RProc then lift (process_rrtr c r id ts, []) else Panic
  | RMetrics id about => if in_st r RProc then lift (process_metrics c r id about, []) else Panic
  | RBye id => if in_st r RProc then lift (process_goodbye r id) else Panic
  | REndP => if in_st r RProc then end_processing fuel c r else Panic
  | RBlocks bye => (* all blocks; generate_goodbye() if [bye], 868-877 *)
    if in_st r RGen then
      l <- gen_all r ;;
      lift (mkR (r_st r) (r_time r) (r_from r) (r_local r) (r_send r) (r_recv r) (r_coll r) (r_crep r || (bye && r_coll r)) (r_tab r) (r_idx r), l)
    else Panic
  | REndG ids => if in_st r RGen then end_generation fuel c r ids else Panic
  end.
Fixpoint r_run (fuel : nat) (c : rcfg) (r : rep) (l : list rop) : res (option (rep * list evt)) :=
  match l with
  | [] => Ok (Some (r, []))
  | o :: l => q <- r_step fuel c r o ;;
              match q with
              | None => Ok None
              | Some (r, ev) => q <- r_run fuel c r l ;; Ok (match q with None => None | Some (r, ev') => Some (r, ev ++ ev') end)
              end
  end.
