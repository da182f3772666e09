(** Model of roc_rtcp/builder.cpp and of the setters of roc_rtcp/headers.h.

    The slice given to the builder is its capacity and the bytes written so far; [w_buf] holds the
    bytes of the result followed by those of the packet being built, [w_rsz] is the size of the
    result slice and [w_start] the offset of the current packet's slice. Structures passed to the
    builder are given by the values passed to their setters, after construction (so the counter of
    the header is 0). [w_hdr] and [w_xhdr] are the offsets kept as pointers by the code. *)
From Verif Require Import Base Ntp_model RtcpTrav_model.
Open Scope res_scope.
Local Open Scope nat_scope.

(** *** Structures *)
(** headers.h:162-169 PacketHeader::reset *)
Definition head (ty : Z) : list Z := [128; ty; 0; 0]%Z.
(** headers.h:253-307 *)
Definition put_ntp64 (t : Z) : list Z := put32 (fst (ntp64_set t)) ++ put32 (snd (ntp64_set t)).
Definition put_ntp32 (m : Z) : list Z := put32 m.
(** headers.h:436-441, 443-448 and 412-415: [set_fract_loss] stores an 8-bit code *)
Definition clamp_cum (c : Z) : Z := if (0x7FFFFF <? c)%Z then 0x7FFFFF else if (c <? -0x7FFFFF - 1)%Z then (-0x7FFFFF - 1)%Z else c.
Definition put_losses (fract cum : Z) : Z :=
  let l := Z.lor (Z.land 0 (u32 (Z.lnot (Z.shiftl 0xFF 24)))) (u32 (Z.shiftl (Z.land fract 0xFF) 24)) in
  Z.lor (Z.land l (u32 (Z.lnot 0xFFFFFF))) (u32 (Z.land (u32 (clamp_cum cum)) 0xFFFFFF)).
(** A reception report as the client describes it: [ri_fract] is the 8-bit code, times are 64-bit NTP. *)
Record rin := mkRin { ri_ssrc : Z; ri_fract : Z; ri_cum : Z; ri_seq : Z; ri_jitter : Z; ri_lsr : Z; ri_dlsr : Z }.
(** headers.h:333-491 *)
Definition enc_rin (r : rin) : list Z :=
  put32 (ri_ssrc r) ++ put32 (put_losses (ri_fract r) (ri_cum r)) ++ put32 (ri_seq r) ++ put32 (ri_jitter r) ++
  put_ntp32 (ntp32_set (ri_lsr r)) ++ put_ntp32 (set_delay (ri_dlsr r)).
(** headers.h:621-645 *)
Record srin := mkSr { si_ssrc : Z; si_ntp : Z; si_rtp : Z; si_packets : Z; si_octets : Z }.
Definition enc_sr (s : srin) : list Z :=
  head RTCP_SR ++ put32 (si_ssrc s) ++ put_ntp64 (si_ntp s) ++ put32 (si_rtp s) ++ put32 (si_packets s) ++ put32 (si_octets s).
(** headers.h:524-578 *)
Definition enc_rr (ssrc : Z) : list Z := head RTCP_RR ++ put32 ssrc.
(** headers.h:1035-1072 *)
Definition enc_xr (ssrc : Z) : list Z := head RTCP_XR ++ put32 ssrc.
(** headers.h:1100-1157, [flag] is the type specific byte *)
Definition xhead (ty flag : Z) : list Z := [ty; flag; 0; 0]%Z.
(** headers.h:1562-1566 *)
Definition set_flag (f : Z) : Z := Z.lor (Z.land 0 (u8 (Z.lnot (Z.shiftl 0x03 6)))) (u8 (Z.shiftl (Z.land f 0x03) 6)).
Record din := mkDin { di_ssrc : Z; di_lrr : Z; di_dlrr : Z }.
(** headers.h:1228-1277 *)
Definition enc_din (d : din) : list Z := put32 (di_ssrc d) ++ put_ntp32 (ntp32_set (di_lrr d)) ++ put_ntp32 (set_delay (di_dlrr d)).
(** headers.h:1174-1211 *)
Definition enc_rrtr (ntp : Z) : list Z := xhead XR_RRTR 0 ++ put_ntp64 ntp.
Record min_ := mkMin { mi_ssrc : Z; mi_first : Z; mi_ifirst : Z; mi_ilast : Z; mi_idur : Z; mi_cdur : Z }.
(** headers.h:1373-1473 *)
Definition enc_meas (m : min_) : list Z :=
  xhead XR_MEAS 0 ++ put32 (mi_ssrc m) ++ put16 0 ++ put16 (mi_first m) ++ put32 (mi_ifirst m) ++ put32 (mi_ilast m) ++
  put_ntp32 (set_delay (mi_idur m)) ++ put_ntp64 (mi_cdur m).
(** None: the metric is not set (headers.h:1536-1543) *)
Definition metric32 (o : option Z) : Z := match o with Some x => set_metric_32 x | None => ntp32_set metric_unavail_32 end.
Definition metric64 (o : option Z) : Z * Z := match o with Some x => set_metric_64 x | None => ntp64_set metric_unavail_64 end.
Record yin := mkYin { yi_flag : Z; yi_ssrc : Z; yi_mean : option Z; yi_min : option Z; yi_max : option Z; yi_e2e : option Z }.
(** headers.h:1515-1640 *)
Definition enc_delay (d : yin) : list Z :=
  xhead XR_DELAY (set_flag (yi_flag d)) ++ put32 (yi_ssrc d) ++ put_ntp32 (metric32 (yi_mean d)) ++ put_ntp32 (metric32 (yi_min d)) ++
  put_ntp32 (metric32 (yi_max d)) ++ put32 (fst (metric64 (yi_e2e d))) ++ put32 (snd (metric64 (yi_e2e d))).
Record qin := mkQin { qi_flag : Z; qi_ssrc : Z; qi_lat : option Z; qi_stall : option Z }.
(** headers.h:1668-1756 *)
Definition enc_queue (q : qin) : list Z :=
  xhead XR_QUEUE (set_flag (qi_flag q)) ++ put32 (qi_ssrc q) ++ put_ntp32 (metric32 (qi_lat q)) ++ put_ntp32 (metric32 (qi_stall q)).

(** *** The builder *)
(** builder.h:163-178 *)
Inductive wst := WTop | WSrHead | WSrReport | WRrHead | WRrReport | WXrHead | WDlrrHead | WDlrrReport
               | WSdesHead | WSdesChunk | WByeHead | WByeSsrc | WByeReason | WLast.
(** config.h: the fields the builder uses *)
Record wcfg := mkCfg { c_srrr : bool; c_sdes : bool; c_xr : bool }.
(** builder.h:180-194 *)
Record bld := mkBld { w_st : wst; w_buf : list Z; w_rsz : nat; w_start : nat; w_hdr : option nat; w_xhdr : nat;
                      w_sr : bool; w_rr : bool; w_cname : bool; w_trunc : bool; w_cap : nat; w_cfg : wcfg }.
(** builder.cpp:15-30 *)
Definition w_new (cfg : wcfg) (cap : nat) : bld := mkBld WTop [] 0 0 None 0 false false false false cap cfg.

Definition st_upd (b : bld) (s : wst) : bld := mkBld s (w_buf b) (w_rsz b) (w_start b) (w_hdr b) (w_xhdr b) (w_sr b) (w_rr b) (w_cname b) (w_trunc b) (w_cap b) (w_cfg b).
Definition buf_upd (b : bld) (l : list Z) : bld := mkBld (w_st b) l (w_rsz b) (w_start b) (w_hdr b) (w_xhdr b) (w_sr b) (w_rr b) (w_cname b) (w_trunc b) (w_cap b) (w_cfg b).
Definition xhdr_upd (b : bld) (n : nat) : bld := mkBld (w_st b) (w_buf b) (w_rsz b) (w_start b) (w_hdr b) n (w_sr b) (w_rr b) (w_cname b) (w_trunc b) (w_cap b) (w_cfg b).
Definition cname_upd (b : bld) (c : bool) : bld := mkBld (w_st b) (w_buf b) (w_rsz b) (w_start b) (w_hdr b) (w_xhdr b) (w_sr b) (w_rr b) c (w_trunc b) (w_cap b) (w_cfg b).
Definition srrr_upd (b : bld) (s r : bool) : bld := mkBld (w_st b) (w_buf b) (w_rsz b) (w_start b) (w_hdr b) (w_xhdr b) s r (w_cname b) (w_trunc b) (w_cap b) (w_cfg b).
Definition trunc_upd (b : bld) : bld := mkBld (w_st b) (w_buf b) (w_rsz b) (w_start b) (w_hdr b) (w_xhdr b) (w_sr b) (w_rr b) (w_cname b) true (w_cap b) (w_cfg b).

(** headers.h:50-55 *)
Definition rtcp_len (x : nat) : res Z :=
  if (x <? 4) || (65535 <? Z.of_nat x)%Z || negb (x mod 4 =? 0) then Panic else Ok (Z.of_nat x / 4 - 1)%Z.
(** set_len_bytes on the header at offset [h]: headers.h:225-237, 1144-1156 *)
Definition set_len (l : list Z) (h x : nat) : res (list Z) :=
  w <- rtcp_len x ;; l <- wr l (h + 2) (byte_of w 1) ;; wr l (h + 3) (byte_of w 0).
(** headers.h:177-185 *)
Definition inc_counter (l : list Z) (h : nat) : res (list Z) :=
  b <- rd l h ;;
  let c := counter b + 1 in
  if 31 <? c then Panic
  else wr l h (Z.lor (Z.land b (u8 (Z.lnot 0x1F))) (u8 (Z.land (Z.of_nat c) 0x1F))).
(** headers.h:204-206 *)
Definition set_padding (l : list Z) (h : nat) : res (list Z) :=
  b <- rd l h ;; wr l h (Z.lor (Z.land b (u8 (Z.lnot (Z.shiftl 1 5)))) (u8 (Z.shiftl 1 5))).
(** headers.h:66-69 *)
Definition padding_len (size mn : nat) : nat :=
  mn + (let r := Z.land (Z.of_nat (size + mn)) 0x03 in if (r =? 0)%Z then 0 else Z.to_nat (4 - r)).

(** builder.cpp:461-479, followed by the copy of the structure [p] *)
Definition begin_packet (b : bld) (p : list Z) : bld :=
  if w_trunc b then b
  else if w_cap b - w_rsz b <? length p then
    trunc_upd (mkBld (w_st b) (firstn (w_rsz b) (w_buf b)) (w_rsz b) (w_rsz b) (w_hdr b) (w_xhdr b) (w_sr b) (w_rr b) (w_cname b) false (w_cap b) (w_cfg b))
  else mkBld (w_st b) (firstn (w_rsz b) (w_buf b) ++ p) (w_rsz b) (w_rsz b) (Some (w_rsz b)) (w_xhdr b) (w_sr b) (w_rr b) (w_cname b) false (w_cap b) (w_cfg b).
(** builder.cpp:481-492, followed by the copy of [p]; None if nothing was added *)
Definition add_block (b : bld) (p : list Z) : bld * bool :=
  if w_trunc b then (b, false)
  else if w_cap b - length (w_buf b) <? length p then (trunc_upd b, false)
  else (buf_upd b (w_buf b ++ p), true).
Definition cur_size (b : bld) : nat := length (w_buf b) - w_start b.
(** builder.cpp:494-505 *)
Definition end_packet (b : bld) : res bld :=
  if w_trunc b then Ok b
  else if (cur_size b <? 4) || negb (cur_size b mod 4 =? 0) then Panic
  else match w_hdr b with
       | None => UB
       | Some h => l <- set_len (w_buf b) h (cur_size b) ;;
                   Ok (mkBld (w_st b) l (w_rsz b + cur_size b) (w_start b) (w_hdr b) (w_xhdr b) (w_sr b) (w_rr b) (w_cname b) (w_trunc b) (w_cap b) (w_cfg b))
       end.
(** *** Operations *)
Inductive op :=
| OBeginSr (s : srin) | OSrReport (r : rin) | OEndSr
| OBeginRr (ssrc : Z) | ORrReport (r : rin) | OEndRr
| OBeginSdes | OBeginChunk (ssrc : Z) | OItem (ty : Z) (text : list Z) | OEndChunk | OEndSdes
| OBeginBye | OByeSsrc (ssrc : Z) | OByeReason (text : list Z) | OEndBye
| OBeginXr (ssrc : Z) | ORrtr (ntp : Z) | OBeginDlrr | ODlrrReport (d : din) | OEndDlrr
| OMeas (m : min_) | ODelay (d : yin) | OQueue (q : qin) | OEndXr
| OPadding (n : nat).

(** builder.cpp:76-84, 118-126 *)
Definition add_report (b : bld) (r : rin) : res bld :=
  let '(b, ok) := add_block b (enc_rin r) in
  if negb ok then Ok b
  else match w_hdr b with
       | None => UB
       | Some h => l <- set_len (w_buf b) h (cur_size b) ;; l <- inc_counter l h ;; Ok (buf_upd b l)
       end.
(** builder.cpp:162-170, 256-264: a block that is counted *)
Definition add_counted (b : bld) (p : list Z) : res bld :=
  let '(b, ok) := add_block b p in
  if negb ok then Ok b
  else match w_hdr b with None => UB | Some h => l <- inc_counter (w_buf b) h ;; Ok (buf_upd b l) end.
(** builder.cpp:327-334 and alike *)
Definition add_xblock (b : bld) (p : list Z) : res bld :=
  let n := length (w_buf b) in
  let '(b, ok) := add_block b p in
  if negb ok then Ok b
  else l <- set_len (w_buf b) n (length p) ;; Ok (xhdr_upd (buf_upd b l) n).
Definition is_st (b : bld) (l : list wst) : bool :=
  existsb (fun s => match s, w_st b with
    | WTop, WTop | WSrHead, WSrHead | WSrReport, WSrReport | WRrHead, WRrHead | WRrReport, WRrReport | WXrHead, WXrHead
    | WDlrrHead, WDlrrHead | WDlrrReport, WDlrrReport | WSdesHead, WSdesHead | WSdesChunk, WSdesChunk
    | WByeHead, WByeHead | WByeSsrc, WByeSsrc | WByeReason, WByeReason | WLast, WLast => true | _, _ => false end) l.
(** builder.cpp:143, 238, 312: the first packet should be a report *)
Definition first_ok (b : bld) : bool := negb (c_srrr (w_cfg b)) || w_sr b || w_rr b.

Definition w_step (b : bld) (o : op) : res bld :=
  match o with
  | OBeginSr s => (* 54-68 *)
    if negb (is_st b [WTop]) || negb (c_srrr (w_cfg b)) then Panic
    else Ok (begin_packet (srrr_upd (st_upd b WSrHead) true (w_rr b)) (enc_sr s))
  | OSrReport r => (* 70-85 *)
    if negb (is_st b [WSrHead; WSrReport]) then Panic else add_report (st_upd b WSrReport) r
  | OEndSr => (* 87-94 *)
    if negb (is_st b [WSrHead; WSrReport]) then Panic else end_packet (st_upd b WTop)
  | OBeginRr ssrc => (* 96-110 *)
    if negb (is_st b [WTop]) || negb (c_srrr (w_cfg b)) then Panic
    else Ok (begin_packet (srrr_upd (st_upd b WRrHead) (w_sr b) true) (enc_rr ssrc))
  | ORrReport r => (* 112-127 *)
    if negb (is_st b [WRrHead; WRrReport]) then Panic else add_report (st_upd b WRrReport) r
  | OEndRr => (* 129-136 *)
    if negb (is_st b [WRrHead; WRrReport]) then Panic else end_packet (st_upd b WTop)
  | OBeginSdes => (* 138-154 *)
    if negb (is_st b [WTop]) || negb (c_sdes (w_cfg b)) || negb (first_ok b) then Panic
    else Ok (begin_packet (st_upd b WSdesHead) (head RTCP_SDES))
  | OBeginChunk ssrc => (* 156-171 *)
    if negb (is_st b [WSdesHead]) then Panic else add_counted (cname_upd (st_upd b WSdesChunk) false) (put32 ssrc)
  | OItem ty text => (* 173-207 *)
    if negb (is_st b [WSdesChunk]) || (255 <? length text) then Panic
    else if (ty =? 1)%Z && ((length text =? 0) || w_cname b) then Panic
    else Ok (fst (add_block (if (ty =? 1)%Z then cname_upd b true else b) ([u8 ty; u8 (Z.of_nat (length text))] ++ text)))
  | OEndChunk => (* 209-225 *)
    if negb (is_st b [WSdesChunk]) || negb (w_cname b) then Panic
    else Ok (fst (add_block (st_upd b WSdesHead) (repeat 0%Z (padding_len (cur_size b) 1))))
  | OEndSdes => (* 227-233 *)
    if negb (is_st b [WSdesHead]) then Panic else end_packet (st_upd b WTop)
  | OBeginBye => (* 235-248 *)
    if negb (is_st b [WTop]) || negb (first_ok b) then Panic
    else Ok (begin_packet (st_upd b WByeHead) (head RTCP_BYE))
  | OByeSsrc ssrc => (* 250-265 *)
    if negb (is_st b [WByeHead; WByeSsrc]) then Panic else add_counted (st_upd b WByeSsrc) (put32 ssrc)
  | OByeReason text => (* 267-296 *)
    if negb (is_st b [WByeSsrc]) || (255 <? length text) then Panic
    else Ok (fst (add_block (st_upd b WByeReason) ([u8 (Z.of_nat (length text))] ++ text ++ repeat 0%Z (padding_len (1 + length text) 0))))
  | OEndBye => (* 298-305 *)
    if negb (is_st b [WByeSsrc; WByeReason]) then Panic else end_packet (st_upd b WTop)
  | OBeginXr ssrc => (* 307-322 *)
    if negb (is_st b [WTop]) || negb (c_xr (w_cfg b)) || negb (first_ok b) then Panic
    else Ok (begin_packet (st_upd b WXrHead) (enc_xr ssrc))
  | ORrtr ntp => (* 324-335 *)
    if negb (is_st b [WXrHead]) then Panic else add_xblock b (enc_rrtr ntp)
  | OBeginDlrr => (* 337-349 *)
    if negb (is_st b [WXrHead]) then Panic
    else let n := length (w_buf b) in
         let '(b, ok) := add_block (st_upd b WDlrrHead) (xhead XR_DLRR 0) in
         Ok (if ok then xhdr_upd b n else b)
  | ODlrrReport d => (* 351-362 *)
    if negb (is_st b [WDlrrHead; WDlrrReport]) then Panic else Ok (fst (add_block (st_upd b WDlrrReport) (enc_din d)))
  | OEndDlrr => (* 364-376 *)
    if negb (is_st b [WDlrrHead; WDlrrReport]) then Panic
    else if w_trunc b then Ok (st_upd b WXrHead)
    else l <- set_len (w_buf b) (w_xhdr b) (length (w_buf b) - w_xhdr b) ;; Ok (buf_upd (st_upd b WXrHead) l)
  | OMeas m => (* 378-391 *)
    if negb (is_st b [WXrHead]) then Panic else add_xblock b (enc_meas m)
  | ODelay d => (* 393-405 *)
    if negb (is_st b [WXrHead]) then Panic else add_xblock b (enc_delay d)
  | OQueue q => (* 407-419 *)
    if negb (is_st b [WXrHead]) then Panic else add_xblock b (enc_queue q)
  | OEndXr => (* 421-427 *)
    if negb (is_st b [WXrHead]) then Panic else end_packet (st_upd b WTop)
  | OPadding n => (* 429-459 *)
    if negb (is_st b [WTop]) || negb (n mod 4 =? 0) || (n <? 1) || (255 <? n) then Panic
    else if w_trunc b then Ok (st_upd b WLast)
    else match w_hdr b with
         | None => Panic
         | Some h =>
           l <- set_padding (w_buf b) h ;; a <- rd l (h + 2) ;; c <- rd l (h + 3) ;;
           l <- set_len l h (len_bytes (be16 a c) + n) ;;
           if w_cap b - w_rsz b <? n then Ok (trunc_upd (buf_upd (st_upd b WLast) l))
           else Ok (mkBld WLast (l ++ repeat 0%Z (n - 1) ++ [Z.of_nat n]) (w_rsz b + n) (w_start b) (w_hdr b) (w_xhdr b) (w_sr b) (w_rr b) (w_cname b) (w_trunc b) (w_cap b) (w_cfg b))
         end
  end.
Fixpoint w_run (b : bld) (ops : list op) : res bld :=
  match ops with [] => Ok b | o :: r => b <- w_step b o ;; w_run b r end.
(** builder.cpp:32-48 *)
Definition w_destroy (b : bld) : res unit :=
  if negb (is_st b [WTop; WLast]) then Panic
  else if negb (w_trunc b) && (w_rsz b =? 0) then Panic
  else if c_srrr (w_cfg b) && negb (w_sr b) && negb (w_rr b) then Panic
  else if c_sdes (w_cfg b) && negb (w_cname b) then Panic
  else Ok tt.
(** builder.cpp:50-52 and the slice *)
Definition w_ok (b : bld) : bool := negb (w_trunc b).
Definition w_result (b : bld) : list Z := firstn (w_rsz b) (w_buf b).
