(** Model of the RTCP traversers: roc_rtcp/traverser.cpp, sdes_traverser.cpp,
    bye_traverser.cpp, xr_traverser.cpp, and the accessors of roc_rtcp/headers.h.

    A slice (core::Slice<uint8_t>) is the list of its bytes; reading outside it is undefined
    behaviour, even where the underlying buffer is larger. Sizes are far below 2^64, so
    size_t additions do not wrap. Loops carry fuel; running out of it counts as failure
    (UB), so that a result shows termination.

    [walk] at the end is the client: it visits every packet, every chunk, item, source and
    block and reads every field, as communicator.cpp 123-330 and print_packet.cpp do. *)
From Verif Require Import Base.
Open Scope res_scope.
Local Open Scope nat_scope.

(** slice.h:190-199 (the check is off by one, see Slice_model.v) *)
Definition idx (l : list Z) (i : nat) : res Z := if length l <? i then Panic else rd l i.
(** slice.h:162-177 *)
Definition sub (l : list Z) (from to : nat) : res (list Z) :=
  if to <? from then Panic else if length l <? to then Panic else Ok (firstn (to - from) (skipn from l)).

(** Multi-byte fields, endian_ops.h *)
Definition r16 (l : list Z) (i : nat) : res Z := a <- rd l i ;; b <- rd l (i + 1) ;; Ok (be16 a b).
Definition r32 (l : list Z) (i : nat) : res Z :=
  a <- rd l i ;; b <- rd l (i + 1) ;; c <- rd l (i + 2) ;; d <- rd l (i + 3) ;; Ok (be32 a b c d).
(** headers.h:264-267 NtpTimestamp64::value *)
Definition r64 (l : list Z) (i : nat) : res Z :=
  h <- r32 l i ;; w <- r32 l (i + 4) ;; Ok (Z.lor (Z.shiftl h 32) w).
(** headers.h:297-299 NtpTimestamp32::value *)
Definition rmid (l : list Z) (i : nat) : res Z := m <- r32 l i ;; Ok (Z.shiftl m 16).

(** headers.h:126-238 PacketHeader *)
Definition counter (b : Z) : nat := Z.to_nat (Z.land (Z.shiftr b 0) 0x1F).
Definition version (b : Z) : Z := Z.land (Z.shiftr b 6) 0x03.
Definition has_padding (b : Z) : bool := negb (Z.land (Z.shiftr b 5) 0x01 =? 0)%Z.
(** headers.h:58-60 *)
Definition len_bytes (words : Z) : nat := Z.to_nat ((words + 1) * 4)%Z.

Definition RTCP_SR : Z := 200.  Definition RTCP_RR : Z := 201.  Definition RTCP_SDES : Z := 202.
Definition RTCP_BYE : Z := 203. Definition RTCP_XR : Z := 207.

(** *** Values read by the client *)
(** headers.h:333-491 ReceptionReportBlock; the fraction lost is its 8-bit code. *)
Record rblock := mkRb { rb_ssrc : Z; rb_fract : Z; rb_cum : Z; rb_seq : Z; rb_jitter : Z; rb_lsr : Z; rb_dlsr : Z }.
(** headers.h:1228-1277 XrDlrrSubblock *)
Record dblock := mkDb { db_ssrc : Z; db_lrr : Z; db_dlrr : Z }.
Inductive xview :=
| XRrtr (ntp : Z)
| XDlrr (l : list dblock)
| XMeas (ssrc first ifirst ilast idur cdur : Z)
| XDelay (flag ssrc mean mn mx e2e : Z)
| XQueue (flag ssrc lat stall : Z).
Inductive sview := SChunkV (ssrc : Z) | SItemV (type : Z) (text : list Z).
Inductive bview := BSsrcV (ssrc : Z) | BReasonV (text : list Z).
(** For SDES, BYE and XR: None if parse() refused the packet, otherwise the elements and
    whether the iterator reported an error. *)
Inductive view :=
| VSR (ssrc ntp rtp packets octets : Z) (blocks : list rblock)
| VRR (ssrc : Z) (blocks : list rblock)
| VSDES (r : option (nat * list sview * bool))
| VBYE (r : option (nat * list bview * bool))
| VXR (r : option (Z * list xview * bool)).

(** *** Report blocks *)
(** headers.h:388-432 *)
Definition losses_fract (v : Z) : Z := Z.land (Z.shiftr v 24) 0xFF.
Definition losses_cum (v : Z) : Z :=
  let c := Z.land (Z.shiftr v 0) 0xFFFFFF in
  s32 (if (Z.land c (Z.shiftl 1 23) =? 0)%Z then c else Z.lor c (u32 (Z.lnot 0xFFFFFF))).
Definition read_rblock (l : list Z) (p : nat) : res rblock :=
  ssrc <- r32 l p ;; losses <- r32 l (p + 4) ;; seq <- r32 l (p + 8) ;; jit <- r32 l (p + 12) ;;
  lsr <- rmid l (p + 16) ;; dlsr <- rmid l (p + 20) ;;
  Ok (mkRb ssrc (losses_fract losses) (losses_cum losses) seq jit lsr dlsr).
(** A counted sequence of blocks; get_block_by_index headers.h:73-82 panics from [num] on. *)
Fixpoint read_blocks {A} (rdb : nat -> res A) (size p : nat) (num i n : nat) : res (list A) :=
  match n with
  | O => Ok []
  | S n' => if num <=? i then Panic
            else b <- rdb (p + size * i) ;; bs <- read_blocks rdb size p num (i + 1) n' ;; Ok (b :: bs)
  end.
(** headers.h:621-722 SenderReportPacket, 524-578 ReceiverReportPacket *)
Definition read_sr (l : list Z) : res view :=
  b0 <- rd l 0 ;; ssrc <- r32 l 4 ;; ntp <- r64 l 8 ;; rtp <- r32 l 16 ;; pc <- r32 l 20 ;; oc <- r32 l 24 ;;
  bs <- read_blocks (read_rblock l) 24 28 (counter b0) 0 (counter b0) ;; Ok (VSR ssrc ntp rtp pc oc bs).
Definition read_rr (l : list Z) : res view :=
  b0 <- rd l 0 ;; ssrc <- r32 l 4 ;;
  bs <- read_blocks (read_rblock l) 24 8 (counter b0) 0 (counter b0) ;; Ok (VRR ssrc bs).

(** *** SDES *)
(** sdes_traverser.cpp:23-56: None if refused, otherwise the buffer and the chunk count *)
Definition sdes_parse (l : list Z) : res (option (list Z * nat)) :=
  if length l <? 4 then Ok None
  else
    b0 <- rd l 0 ;; ty <- rd l 1 ;; lw <- r16 l 2 ;;
    if negb (ty =? RTCP_SDES)%Z then Ok None
    else
      let plen := len_bytes lw in
      if length l <? plen then Ok None
      else if 31 <? counter b0 then Ok None
      else if has_padding b0 then
        pad <- idx l (plen - 1) ;;
        if (Z.to_nat pad <? 1) || (plen - 4 <? Z.to_nat pad) then Ok None
        else l' <- sub l 0 (plen - Z.to_nat pad) ;; Ok (Some (l', counter b0))
      else Ok (Some (l, counter b0)).

Inductive sst := SBegin | SChunk | SItem | SEnd.
(** the state of SdesTraverser::Iterator; [s_el] is what get_chunk() or get_item() returns *)
Record siter := mkS { s_st : sst; s_pos : nat; s_chunk : nat; s_ilen : nat; s_err : bool; s_el : sview }.
Definition s_begin : siter := mkS SBegin 0 0 0 false (SChunkV 0).
(** sdes_traverser.cpp:127-130: do { pos++ } while (pos < size && (pos & 3)) *)
Fixpoint skip_pad (fuel : nat) (l : list Z) (pos : nat) : res nat :=
  match fuel with
  | O => UB
  | S f => let pos := pos + 1 in
           if (pos <? length l) && negb (Z.land (Z.of_nat pos) 0x03 =? 0)%Z then skip_pad f l pos else Ok pos
  end.
(** sdes_traverser.cpp:206-219; the text array holds MaxTextLen + 1 bytes *)
Definition parse_item (l : list Z) (pos : nat) : res sview :=
  ty <- idx l pos ;; tl <- rd l (pos + 1) ;;
  let n := Nat.min (Nat.min (Z.to_nat tl) (length l - (pos + 2))) 255 in
  text <- sub l (pos + 2) (pos + 2 + n) ;; Ok (SItemV ty text).
(** sdes_traverser.cpp:157-174 *)
Definition s_chunk_or_end (l : list Z) (chunks pos chunk ilen : nat) (err : bool) (el : sview) : res siter :=
  if chunk =? chunks then Ok (mkS SEnd pos chunk ilen err el)
  else if length l <? pos + 4 then Ok (mkS SEnd pos chunk ilen true el)
  else _ <- idx l pos ;; ssrc <- r32 l pos ;; Ok (mkS SChunk pos chunk ilen err (SChunkV ssrc)).
(** sdes_traverser.cpp:120-155 *)
Definition s_item (l : list Z) (chunks pos chunk ilen : nat) (err : bool) (el : sview) : res siter :=
  if pos =? length l then s_chunk_or_end l chunks pos (chunk + 1) ilen err el
  else
    b <- idx l pos ;;
    if (b =? 0)%Z then pos' <- skip_pad 4 l pos ;; s_chunk_or_end l chunks pos' (chunk + 1) ilen err el
    else if length l <? pos + 2 then Ok (mkS SEnd pos chunk ilen true el)
    else
      tl <- rd l (pos + 1) ;;
      let ilen := 2 + Z.to_nat tl in
      if length l <? pos + ilen then Ok (mkS SEnd pos chunk ilen true el)
      else el <- parse_item l pos ;; Ok (mkS SItem pos chunk ilen err el).
(** sdes_traverser.cpp:94-177 *)
Definition s_next (l : list Z) (chunks : nat) (it : siter) : res siter :=
  let '(mkS st pos chunk ilen err el) := it in
  match st with
  | SEnd => Ok it
  | SBegin => if length l <? pos + 4 then Ok (mkS SEnd (pos + 4) chunk ilen true el)
              else s_chunk_or_end l chunks (pos + 4) chunk ilen err el
  | SChunk => s_item l chunks (pos + 4) chunk ilen err el
  | SItem => s_item l chunks (pos + ilen) chunk ilen err el
  end.
(** communicator.cpp:212-244 *)
Fixpoint s_walk (fuel : nat) (l : list Z) (chunks : nat) (it : siter) : res (list sview * bool) :=
  match fuel with
  | O => UB
  | S f => it <- s_next l chunks it ;;
           match s_st it with
           | SEnd => Ok ([], s_err it)
           | _ => p <- s_walk f l chunks it ;; Ok (s_el it :: fst p, snd p)
           end
  end.
Definition read_sdes (l : list Z) : res view :=
  r <- sdes_parse l ;;
  match r with
  | None => Ok (VSDES None)
  | Some (l', n) => p <- s_walk (S (length l' + n)) l' n s_begin ;; Ok (VSDES (Some (n, fst p, snd p)))
  end.

(** *** BYE *)
(** bye_traverser.cpp:25-58 *)
Definition bye_parse (l : list Z) : res (option (list Z * nat)) :=
  if length l <? 4 then Ok None
  else
    b0 <- rd l 0 ;; ty <- rd l 1 ;; lw <- r16 l 2 ;;
    if negb (ty =? RTCP_BYE)%Z then Ok None
    else
      let plen := len_bytes lw in
      if length l <? plen then Ok None
      else if 31 <? counter b0 then Ok None
      else if has_padding b0 then
        pad <- idx l (plen - 1) ;;
        if (Z.to_nat pad <? 1) || (plen - 4 <? Z.to_nat pad) then Ok None
        else l' <- sub l 0 (plen - Z.to_nat pad) ;; Ok (Some (l', counter b0))
      else Ok (Some (l, counter b0)).

Inductive bst := BBegin | BSsrc | BReason | BEnd.
Record biter := mkB { b_st : bst; b_pos : nat; b_ssrc : nat; b_err : bool; b_el : bview }.
Definition b_begin : biter := mkB BBegin 0 0 false (BSsrcV 0).
(** bye_traverser.cpp:181-193; the text array holds MaxTextLen + 1 bytes *)
Definition parse_reason (l : list Z) (pos : nat) : res bview :=
  tl <- idx l pos ;;
  let n := Nat.min (Nat.min (Z.to_nat tl) (length l - (pos + 1))) 255 in
  text <- sub l (pos + 1) (pos + 1 + n) ;; Ok (BReasonV text).
(** bye_traverser.cpp:116-152 *)
Definition b_element (l : list Z) (count pos cur : nat) (err : bool) (el : bview) : res biter :=
  if cur =? count then
    if pos <? length l then
      if length l <? pos + 1 then Ok (mkB BEnd pos cur true el)
      else
        tl <- idx l pos ;;
        if length l <? pos + 1 + Z.to_nat tl then Ok (mkB BEnd pos cur true el)
        else el <- parse_reason l pos ;; Ok (mkB BReason pos cur err el)
    else Ok (mkB BEnd pos cur err el)
  else if length l <? pos + 4 then Ok (mkB BEnd pos cur true el)
  else _ <- idx l pos ;; ssrc <- r32 l pos ;; Ok (mkB BSsrc pos cur err (BSsrcV ssrc)).
(** bye_traverser.cpp:93-159 *)
Definition b_next (l : list Z) (count : nat) (it : biter) : res biter :=
  let '(mkB st pos cur err el) := it in
  match st with
  | BEnd => Ok it
  | BBegin => if length l <? pos + 4 then Ok (mkB BEnd (pos + 4) cur true el) else b_element l count (pos + 4) cur err el
  | BSsrc => b_element l count (pos + 4) (cur + 1) err el
  | BReason => Ok (mkB BEnd pos cur err el)
  end.
(** communicator.cpp:246-265 *)
Fixpoint b_walk (fuel : nat) (l : list Z) (count : nat) (it : biter) : res (list bview * bool) :=
  match fuel with
  | O => UB
  | S f => it <- b_next l count it ;;
           match b_st it with
           | BEnd => Ok ([], b_err it)
           | _ => p <- b_walk f l count it ;; Ok (b_el it :: fst p, snd p)
           end
  end.
Definition read_bye (l : list Z) : res view :=
  r <- bye_parse l ;;
  match r with
  | None => Ok (VBYE None)
  | Some (l', n) => p <- b_walk (n + 3) l' n b_begin ;; Ok (VBYE (Some (n, fst p, snd p)))
  end.

(** *** XR *)
Definition XR_RRTR : Z := 4.  Definition XR_DLRR : Z := 5.  Definition XR_MEAS : Z := 14.
Definition XR_DELAY : Z := 16. Definition XR_QUEUE : Z := 220.

(** headers.h:1328-1330 *)
Definition num_subblocks (blen : nat) : nat := (blen - 4) / 12.
(** xr_traverser.cpp:194-235: whether a block of a known type has an acceptable length *)
Definition xr_check (ty : Z) (blen : nat) : option bool :=
  if (ty =? XR_RRTR)%Z then Some (12 <=? blen)
  else if (ty =? XR_DLRR)%Z then Some (4 + num_subblocks blen * 12 <=? blen)
  else if (ty =? XR_MEAS)%Z then Some (32 <=? blen)
  else if (ty =? XR_DELAY)%Z then Some (28 <=? blen)
  else if (ty =? XR_QUEUE)%Z then Some (blen =? 16)
  else None.

Inductive xst := XBegin | XAt (ty : Z) | XEnd.
Record xiter := mkX { x_st : xst; x_pos : nat; x_len : nat; x_err : bool }.
Definition x_begin : xiter := mkX XBegin 0 0 false.
(** xr_traverser.cpp:118-191 *)
Fixpoint x_loop (fuel : nat) (l : list Z) (pos len : nat) (err : bool) : res xiter :=
  match fuel with
  | O => UB
  | S f =>
    if pos =? length l then Ok (mkX XEnd pos len err)
    else if length l <? pos + 4 then Ok (mkX XEnd pos len true)
    else
      ty <- idx l pos ;; lw <- r16 l (pos + 2) ;;
      let len := len_bytes lw in
      if length l <? pos + len then Ok (mkX XEnd pos len true)
      else match xr_check ty len with
           | Some true => Ok (mkX (XAt ty) pos len err)
           | Some false => x_loop f l (pos + len) len true
           | None => x_loop f l (pos + len) len err
           end
  end.
(** xr_traverser.cpp:96-116 *)
Definition x_next (l : list Z) (it : xiter) : res xiter :=
  let '(mkX st pos len err) := it in
  match st with
  | XEnd => Ok it
  | XBegin => if length l <? pos + 8 then Ok (mkX XEnd (pos + 8) len true) else x_loop (S (length l)) l (pos + 8) len err
  | XAt _ => x_loop (S (length l)) l (pos + len) len err
  end.
(** headers.h: fields of the blocks; metric flag 1556-1559 *)
Definition metric_flag (b : Z) : Z := Z.land (Z.shiftr b 6) 0x03.
Definition read_dblock (l : list Z) (p : nat) : res dblock :=
  ssrc <- r32 l p ;; lrr <- rmid l (p + 4) ;; dlrr <- rmid l (p + 8) ;; Ok (mkDb ssrc lrr dlrr).
Definition read_xblock (l : list Z) (p : nat) (ty : Z) : res xview :=
  if (ty =? XR_RRTR)%Z then ntp <- r64 l (p + 4) ;; Ok (XRrtr ntp)
  else if (ty =? XR_DLRR)%Z then
    lw <- r16 l (p + 2) ;; let n := num_subblocks (len_bytes lw) in
    bs <- read_blocks (read_dblock l) 12 (p + 4) n 0 n ;; Ok (XDlrr bs)
  else if (ty =? XR_MEAS)%Z then
    ssrc <- r32 l (p + 4) ;; first <- r16 l (p + 10) ;; f <- r32 l (p + 12) ;; la <- r32 l (p + 16) ;;
    d <- rmid l (p + 20) ;; c <- r64 l (p + 24) ;; Ok (XMeas ssrc first f la d c)
  else if (ty =? XR_DELAY)%Z then
    ts <- rd l (p + 1) ;; ssrc <- r32 l (p + 4) ;; me <- rmid l (p + 8) ;; mi <- rmid l (p + 12) ;; ma <- rmid l (p + 16) ;;
    e <- r64 l (p + 20) ;; Ok (XDelay (metric_flag ts) ssrc me mi ma e)
  else
    ts <- rd l (p + 1) ;; ssrc <- r32 l (p + 4) ;; la <- rmid l (p + 8) ;; st <- rmid l (p + 12) ;;
    Ok (XQueue (metric_flag ts) ssrc la st).
(** communicator.cpp:285-330 *)
Fixpoint x_walk (fuel : nat) (l : list Z) (it : xiter) : res (list xview * bool) :=
  match fuel with
  | O => UB
  | S f => it <- x_next l it ;;
           match x_st it with
           | XAt ty => v <- read_xblock l (x_pos it) ty ;; p <- x_walk f l it ;; Ok (v :: fst p, snd p)
           | _ => Ok ([], x_err it)
           end
  end.
(** xr_traverser.cpp:22-57; the blocks are counted by a first pass, which reads no block contents *)
Fixpoint x_count (fuel : nat) (l : list Z) (it : xiter) : res nat :=
  match fuel with
  | O => UB
  | S f => it <- x_next l it ;; match x_st it with XAt _ => n <- x_count f l it ;; Ok (S n) | _ => Ok 0 end
  end.
Definition xr_parse (l : list Z) : res (option (list Z * nat)) :=
  if length l <? 8 then Ok None
  else
    b0 <- rd l 0 ;; ty <- rd l 1 ;; lw <- r16 l 2 ;;
    if negb (ty =? RTCP_XR)%Z then Ok None
    else
      let plen := len_bytes lw in
      if length l <? plen then Ok None
      else
        r <- (if has_padding b0 then
                pad <- idx l (plen - 1) ;;
                (* 42: the subtraction is unsigned; it wraps when the length says less than 8 *)
                if (Z.to_nat pad <? 1) || ((8 <=? plen) && (plen - 8 <? Z.to_nat pad)) then Ok None
                else if plen <? Z.to_nat pad then Panic
                else l' <- sub l 0 (plen - Z.to_nat pad) ;; Ok (Some l')
              else Ok (Some l)) ;;
        match r with
        | None => Ok None
        | Some l' => n <- x_count (S (length l')) l' x_begin ;; Ok (Some (l', n))
        end.
Definition read_xr (l : list Z) : res view :=
  r <- xr_parse l ;;
  match r with
  | None => Ok (VXR None)
  | Some (l', n) =>
    ssrc <- r32 l' 4 ;; p <- x_walk (S (length l')) l' x_begin ;; Ok (VXR (Some (ssrc, fst p, snd p)))
  end.

(** *** Compound packet *)
Inductive tkind := TSR | TRR | TSDES | TBYE | TXR.
Inductive tst := TBegin | TAt (k : tkind) | TEnd.
Record titer := mkT { t_st : tst; t_pos : nat; t_len : nat; t_slice : list Z; t_err : bool }.
Definition t_begin : titer := mkT TBegin 0 0 [] false.

(** traverser.cpp:138-148: None if the padding is invalid, otherwise the new slice, which starts
    at the beginning of the whole buffer rather than of the packet *)
Definition remove_padding (buf sl : list Z) (b0 : Z) (len : nat) : res (option (list Z)) :=
  if has_padding b0 then
    pad <- idx sl (len - 1) ;;
    if (Z.to_nat pad <? 1) || (len - 4 <? Z.to_nat pad) then Ok None
    else sl' <- sub buf 0 (len - Z.to_nat pad) ;; Ok (Some sl')
  else Ok (Some sl).
(** traverser.cpp:150-174 *)
Definition check_sr (sl : list Z) : res bool := b <- rd sl 0 ;; Ok (28 + counter b * 24 <=? length sl).
Definition check_rr (sl : list Z) : res bool := b <- rd sl 0 ;; Ok (8 + counter b * 24 <=? length sl).

(** traverser.cpp:69-135 *)
Fixpoint t_loop (fuel : nat) (buf : list Z) (pos len : nat) (sl : list Z) (err : bool) : res titer :=
  match fuel with
  | O => UB
  | S f =>
    if pos =? length buf then Ok (mkT TEnd pos len sl err)
    else if length buf <? pos + 4 then Ok (mkT TEnd pos len sl true)
    else
      b0 <- idx buf pos ;; ty <- rd buf (pos + 1) ;; lw <- r16 buf (pos + 2) ;;
      let len := len_bytes lw in
      if negb (version b0 =? 2)%Z then Ok (mkT TEnd pos len sl true)
      else if length buf <? pos + len then Ok (mkT TEnd pos len sl true)
      else
        sl <- sub buf pos (pos + len) ;;
        if (ty =? RTCP_SR)%Z || (ty =? RTCP_RR)%Z then
          p <- remove_padding buf sl b0 len ;;
          match p with
          | None => t_loop f buf (pos + len) len sl true
          | Some sl' =>
            ok <- (if (ty =? RTCP_SR)%Z then check_sr sl' else check_rr sl') ;;
            if ok then Ok (mkT (TAt (if (ty =? RTCP_SR)%Z then TSR else TRR)) pos len sl' err)
            else t_loop f buf (pos + len) len sl' true
          end
        else if (ty =? RTCP_SDES)%Z then Ok (mkT (TAt TSDES) pos len sl err)
        else if (ty =? RTCP_BYE)%Z then Ok (mkT (TAt TBYE) pos len sl err)
        else if (ty =? RTCP_XR)%Z then Ok (mkT (TAt TXR) pos len sl err)
        else t_loop f buf (pos + len) len sl err
  end.
(** traverser.cpp:58-66 *)
Definition t_next (buf : list Z) (it : titer) : res titer :=
  let '(mkT st pos len sl err) := it in
  match st with
  | TEnd => Ok it
  | TBegin => t_loop (S (length buf)) buf pos len sl err
  | TAt _ => t_loop (S (length buf)) buf (pos + len) len sl err
  end.
(** traverser.cpp:176-216 and what the client reads *)
Definition read_packet (k : tkind) (sl : list Z) : res view :=
  match k with
  | TSR => read_sr sl | TRR => read_rr sl | TSDES => read_sdes sl | TBYE => read_bye sl | TXR => read_xr sl
  end.
Fixpoint t_walk (fuel : nat) (buf : list Z) (it : titer) : res (list view * bool) :=
  match fuel with
  | O => UB
  | S f => it <- t_next buf it ;;
           match t_st it with
           | TAt k => v <- read_packet k (t_slice it) ;; p <- t_walk f buf it ;; Ok (v :: fst p, snd p)
           | _ => Ok ([], t_err it)
           end
  end.
(** traverser.cpp:22-31: None if parse() refuses the buffer *)
Definition walk (buf : list Z) : res (option (list view * bool)) :=
  if length buf <? 4 then Ok None
  else r <- t_walk (S (length buf)) buf t_begin ;; Ok (Some r).
