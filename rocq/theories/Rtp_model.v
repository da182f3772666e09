(** Model of RTP and FEC packet composing and parsing:
    roc_rtp/{headers.h,composer.cpp,parser.cpp}, roc_fec/{composer.h,parser.h},
    roc_packet/packet.cpp flags.
    A packet buffer is a byte list [mem] (the memory of the core::Buffer, at
    address [addr]); header, payload and padding are slices of it. *)
From Verif Require Import Base Slice_model FecHeaders_model Align_model.
Local Open Scope res_scope.
Local Open Scope nat_scope.

(** packet.h:45-56 *)
Definition FlagRTP : N := 2%N.
Definition FlagFEC : N := 4%N.
Definition FlagAudio : N := 16%N.
Definition FlagRepair : N := 32%N.

(** rtp.h:24-96, fec.h:35-81: the fields used here.  [p_pad = None] is the null
    slice. Other slices are meaningful only when the flag is set. *)
Record pkt := mkPkt {
  p_flags : N;
  p_src : Z; p_seq : Z; p_ts : Z; p_marker : bool; p_pt : Z;
  p_hdr : slice; p_pay : slice; p_pad : option slice;
  p_esi : Z; p_sbn : Z; p_k : Z; p_n : Z; p_pid : slice; p_fpay : slice
}.

Definition nosl : slice := mkSl 0 0.
(** packet.cpp:15-18, rtp.cpp, fec.cpp constructors *)
Definition pkt_new : pkt := mkPkt 0%N 0 0 0 false 0 nosl nosl None 0 0 0 0 nosl nosl.

(** packet.cpp:20-25 *)
Definition add_flags (p : pkt) (fl : N) : res pkt :=
  if N.eqb (N.land (p_flags p) fl) 0 then
    Ok (mkPkt (N.lor (p_flags p) fl) (p_src p) (p_seq p) (p_ts p) (p_marker p) (p_pt p)
              (p_hdr p) (p_pay p) (p_pad p) (p_esi p) (p_sbn p) (p_k p) (p_n p) (p_pid p) (p_fpay p))
  else Panic.
(** packet.cpp:27-29 *)
Definition has_flag (p : pkt) (fl : N) : bool := negb (N.eqb (N.land (p_flags p) fl) 0).

Definition set_rtp_slices (p : pkt) (h pay : slice) (pad : option slice) : pkt :=
  mkPkt (p_flags p) (p_src p) (p_seq p) (p_ts p) (p_marker p) (p_pt p) h pay pad
        (p_esi p) (p_sbn p) (p_k p) (p_n p) (p_pid p) (p_fpay p).
Definition set_rtp_fields (p : pkt) (src seq ts : Z) (m : bool) (pt : Z) : pkt :=
  mkPkt (p_flags p) src seq ts m pt (p_hdr p) (p_pay p) (p_pad p)
        (p_esi p) (p_sbn p) (p_k p) (p_n p) (p_pid p) (p_fpay p).
Definition set_fec_slices (p : pkt) (pid pay : slice) : pkt :=
  mkPkt (p_flags p) (p_src p) (p_seq p) (p_ts p) (p_marker p) (p_pt p) (p_hdr p) (p_pay p) (p_pad p)
        (p_esi p) (p_sbn p) (p_k p) (p_n p) pid pay.
Definition set_fec_fields (p : pkt) (esi sbn k n : Z) : pkt :=
  mkPkt (p_flags p) (p_src p) (p_seq p) (p_ts p) (p_marker p) (p_pt p) (p_hdr p) (p_pay p) (p_pad p)
        esi sbn k n (p_pid p) (p_fpay p).

(** ** RTP header: headers.h:55-221, as its 12 bytes. *)
Definition rtp_hdr_size : nat := 12.
Local Open Scope Z_scope.
(** headers.h:126-128 *)
Definition h_clear : list Z := repeat 0 rtp_hdr_size.
(** headers.h:131-140 *)
Definition h_version (h : list Z) : Z := Z.land (Z.shiftr (nth 0 h 0) 6) 3.
Definition h_set_version (h : list Z) (v : Z) : list Z :=
  upd h 0 (u8 (Z.lor (Z.land (nth 0 h 0) (u8 (Z.lnot (Z.shiftl 3 6)))) (Z.shiftl v 6))).
(** headers.h:143-151 *)
Definition h_has_padding (h : list Z) : bool := negb (Z.land (nth 0 h 0) (Z.shiftl 1 5) =? 0).
Definition h_set_padding (h : list Z) (v : bool) : list Z :=
  upd h 0 (u8 (Z.lor (Z.land (nth 0 h 0) (u8 (Z.lnot (Z.shiftl 1 5)))) (Z.shiftl (if v then 1 else 0) 5))).
(** headers.h:154-156 *)
Definition h_has_extension (h : list Z) : bool := negb (Z.land (nth 0 h 0) (Z.shiftl 1 4) =? 0).
(** headers.h:159-168; the argument type is uint8_t *)
Definition h_payload_type (h : list Z) : Z := Z.land (nth 1 h 0) 127.
Definition h_set_payload_type (h : list Z) (pt : Z) : res (list Z) :=
  let pt := u8 pt in
  if Z.land pt 127 =? pt then
    Ok (upd h 1 (u8 (Z.lor (Z.land (nth 1 h 0) (u8 (Z.lnot 127))) pt)))
  else Panic.
(** headers.h:171-179 *)
Definition h_marker (h : list Z) : bool := negb (Z.land (nth 1 h 0) (Z.shiftl 1 7) =? 0).
Definition h_set_marker (h : list Z) (m : bool) : list Z :=
  upd h 1 (u8 (Z.lor (Z.land (nth 1 h 0) (u8 (Z.lnot (Z.shiftl 1 7)))) (Z.shiftl (if m then 1 else 0) 7))).
(** headers.h:182-209 *)
Definition put32_at (h : list Z) (i : nat) (v : Z) : list Z :=
  upd (upd (upd (upd h i (byte_of v 3)) (1 + i) (byte_of v 2)) (2 + i) (byte_of v 1)) (3 + i) (byte_of v 0).
Definition get32_at (h : list Z) (i : nat) : Z :=
  be32 (nth i h 0) (nth (1 + i) h 0) (nth (2 + i) h 0) (nth (3 + i) h 0).
Definition h_seqnum (h : list Z) : Z := get16_at h 2.
Definition h_set_seqnum (h : list Z) (v : Z) : list Z := put16_at h 2 (u16 v).
Definition h_timestamp (h : list Z) : Z := get32_at h 4.
Definition h_set_timestamp (h : list Z) (v : Z) : list Z := put32_at h 4 (u32 v).
Definition h_ssrc (h : list Z) : Z := get32_at h 8.
Definition h_set_ssrc (h : list Z) (v : Z) : list Z := put32_at h 8 (u32 v).
(** headers.h:212-214 *)
Definition h_num_csrc (h : list Z) : Z := Z.land (Z.shiftr (nth 0 h 0) 0) 15.
(** headers.h:120-123 *)
Definition h_header_size (h : list Z) : nat := rtp_hdr_size + Z.to_nat (h_num_csrc h) * 4.

(** ** Composers.  [CNone] is the NULL inner composer. *)
Inductive pos_t := Header | Footer.
Inductive ptype := Source | Repair.
Inductive composer :=
| CNone
| CRtp (inner : composer)
| CFec (kind : pid_kind) (t : ptype) (pos : pos_t) (inner : composer).

Local Open Scope nat_scope.
(** rtp composer.cpp:22-46, fec composer.h:37-63.  [None] = returned false.
    [CNone] is never called (NULL). *)
Fixpoint c_align (c : composer) (addr n : nat) (buffer : slice) (hs al : nat) : res (option slice) :=
  match c with
  | CNone => UB
  | CRtp inner =>
      if al =? 0 then UB else
      if negb ((addr + s_off buffer) mod al =? 0) then Panic else
      let hs := hs + rtp_hdr_size in
      match inner with
      | CNone =>
          let padding := Z.to_nat (pad_as (Z.of_nat hs) (Z.of_nat al)) in
          if sl_cap n buffer <? padding then Ok None
          else b <- sl_reslice n buffer padding padding ;; Ok (Some b)
      | _ => c_align inner addr n buffer hs al
      end
  | CFec kind _ pos inner =>
      if al =? 0 then UB else
      if negb ((addr + s_off buffer) mod al =? 0) then Panic else
      let hs := match pos with Header => hs + pid_size kind | Footer => hs end in
      match inner with
      | CNone =>
          let padding := Z.to_nat (pad_as (Z.of_nat hs) (Z.of_nat al)) in
          if sl_cap n buffer <? padding then Ok None
          else b <- sl_reslice n buffer padding padding ;; Ok (Some b)
      | _ => c_align inner addr n buffer hs al
      end
  end.

(** rtp composer.cpp:48-87, fec composer.h:66-120: returns the packet and the
    updated buffer slice. *)
Fixpoint c_prepare (c : composer) (n : nat) (p : pkt) (buffer : slice) (psize : nat)
  : res (option (pkt * slice)) :=
  match c with
  | CNone => UB
  | CRtp inner =>
      header <- sl_sub buffer 0 0 ;;
      if sl_cap n header <? rtp_hdr_size then Ok None else
      header <- sl_reslice n header 0 rtp_hdr_size ;;
      payload <- sl_sub header (s_size header) (s_size header) ;;
      r <- match inner with
           | CNone =>
               if sl_cap n payload <? psize then Ok None
               else pl <- sl_reslice n payload 0 psize ;; Ok (Some (p, pl))
           | _ => c_prepare inner n p payload psize
           end ;;
      match r with
      | None => Ok None
      | Some (p, payload) =>
          p <- add_flags p FlagRTP ;;
          let p := set_rtp_slices p header payload (p_pad p) in
          b <- sl_reslice n buffer 0 (s_size header + s_size payload) ;;
          Ok (Some (p, b))
      end
  | CFec kind t pos inner =>
      pid <- sl_sub buffer 0 0 ;;
      pid <- match pos with
             | Header => if sl_cap n pid <? pid_size kind then Ok None
                         else x <- sl_reslice n pid 0 (pid_size kind) ;; Ok (Some x)
             | Footer => Ok (Some pid)
             end ;;
      match pid with
      | None => Ok None
      | Some pid =>
          payload <- sl_sub pid (s_size pid) (s_size pid) ;;
          r <- match inner with
               | CNone => pl <- sl_reslice n payload 0 psize ;; Ok (Some (p, pl))
               | _ => c_prepare inner n p payload psize
               end ;;
          match r with
          | None => Ok None
          | Some (p, payload) =>
              pid <- match pos with
                     | Footer =>
                         x <- sl_sub payload (s_size payload) (s_size payload) ;;
                         if sl_cap n x <? pid_size kind then Ok None
                         else y <- sl_reslice n x 0 (pid_size kind) ;; Ok (Some y)
                     | Header => Ok (Some pid)
                     end ;;
              match pid with
              | None => Ok None
              | Some pid =>
                  p <- match t with Repair => add_flags p FlagRepair | Source => Ok p end ;;
                  p <- add_flags p FlagFEC ;;
                  let p := set_fec_slices p pid payload in
                  b <- sl_reslice n buffer 0 (s_size pid + s_size payload) ;;
                  Ok (Some (p, b))
              end
          end
      end
  end.

(** rtp composer.cpp:89-117, fec composer.h:123-130. *)
Fixpoint c_pad (c : composer) (p : pkt) (pad : nat) : res (option pkt) :=
  match c with
  | CNone => UB
  | CRtp CNone =>
      if negb (has_flag p FlagRTP) then Panic else
      match p_pad p with
      | Some _ => Panic
      | None =>
          let psize := s_size (p_pay p) in
          if psize <? pad then Ok None else
          padding <- sl_sub (p_pay p) (psize - pad) psize ;;
          payload <- sl_sub (p_pay p) 0 (psize - pad) ;;
          Ok (Some (set_rtp_slices p (p_hdr p) payload (Some padding)))
      end
  | CRtp inner => c_pad inner p pad
  | CFec _ _ _ CNone => Ok None
  | CFec _ _ _ inner => c_pad inner p pad
  end.

(** rtp composer.cpp:129-137: fill the header (12 bytes). *)
Definition rtp_header_bytes (p : pkt) (padding : bool) : res (list Z) :=
  let h := h_set_version h_clear 2 in
  let h := h_set_ssrc h (p_src p) in
  let h := h_set_seqnum h (p_seq p) in
  let h := h_set_timestamp h (p_ts p) in
  let h := h_set_marker h (p_marker p) in
  h <- h_set_payload_type h (p_pt p) ;;
  Ok (if padding then h_set_padding h true else h).

(** fec composer.h:142-157: fill the payload ID. *)
Definition fec_pid_bytes (kind : pid_kind) (p : pkt) : res (list Z) :=
  let h := pid_clear kind in
  if negb (Z.shiftr (p_esi p) 16 =? 0)%Z then Panic else
  h <- pid_set_esi kind h (p_esi p) ;;
  h <- pid_set_sbn kind h (p_sbn p) ;;
  if negb (Z.shiftr (p_k p) 16 =? 0)%Z then Panic else
  let h := pid_set_k kind h (p_k p) in
  if negb (Z.shiftr (p_n p) 16 =? 0)%Z then Panic else
  Ok (pid_set_n kind h (p_n p)).

(** rtp composer.cpp:119-164, fec composer.h:133-164: returns the new memory and
    the boolean result. *)
Fixpoint c_compose (c : composer) (mem : list Z) (p : pkt) : res (list Z * bool) :=
  match c with
  | CNone => UB
  | CRtp inner =>
      if negb (has_flag p FlagRTP) then Panic else
      if negb (s_size (p_hdr p) =? rtp_hdr_size) then Panic else
      let padding := match p_pad p with Some s => s | None => nosl end in
      h <- rtp_header_bytes p (0 <? s_size padding) ;;
      mem <- sl_put mem (p_hdr p) 0 h ;;
      if (0 <? s_size padding) && (255 <? s_size padding) then Ok (mem, false) else
      mem <- (if 0 <? s_size padding then
                sl_put mem padding 0
                  (repeat 0%Z (s_size padding - 1) ++ [Z.of_nat (s_size padding)])
              else Ok mem) ;;
      match inner with CNone => Ok (mem, true) | _ => c_compose inner mem p end
  | CFec kind _ _ inner =>
      if negb (has_flag p FlagFEC) then Panic else
      if negb (s_size (p_pid p) =? pid_size kind) then Panic else
      h <- fec_pid_bytes kind p ;;
      mem <- sl_put mem (p_pid p) 0 h ;;
      match inner with CNone => Ok (mem, true) | _ => c_compose inner mem p end
  end.

(** ** Parsers. *)
Inductive parser :=
| PNone
| PRtp (inner : parser)
| PFec (kind : pid_kind) (t : ptype) (pos : pos_t) (inner : parser).

(** Read [k] bytes of slice [s] starting at index [i]. *)
Fixpoint sl_read (mem : list Z) (s : slice) (i k : nat) : res (list Z) :=
  match k with
  | O => Ok []
  | S k => b <- sl_rd mem s i ;; t <- sl_read mem s (S i) k ;; Ok (b :: t)
  end.

Section Parse.
(** EncodingMap::find_by_pt: packet flags of a registered payload type
    (encoding_map.cpp); an arbitrary function here. *)
Variable encodings : Z -> option N.

(** rtp parser.cpp:21-115; fec parser.h:36-76. [None] = returned false. *)
Fixpoint p_parse (pr : parser) (mem : list Z) (p : pkt) (buffer : slice) : res (option pkt) :=
  match pr with
  | PNone => UB
  | PRtp inner =>
      let size := s_size buffer in
      if size <? rtp_hdr_size then Ok None else
      h <- sl_read mem buffer 0 rtp_hdr_size ;;
      if negb (h_version h =? 2)%Z then Ok None else
      let hsize := h_header_size h in
      let hsize1 := if h_has_extension h then hsize + 4 else hsize in
      if size <? hsize1 then Ok None else
      ext <- (if h_has_extension h then
                e <- sl_read mem buffer hsize 4 ;;
                Ok (Z.to_nat (Z.shiftl (get16_at e 2) 2))
              else Ok 0) ;;
      let hsize2 := hsize1 + ext in
      if size <? hsize2 then Ok None else
      pad <- (if h_has_padding h then
                if hsize2 =? size then Ok None else
                b <- sl_rd mem buffer (size - 1) ;;
                if (b =? 0)%Z then Ok None
                else if size - hsize2 <? Z.to_nat b then Ok None
                else Ok (Some (Z.to_nat b))
              else Ok (Some 0)) ;;
      match pad with
      | None => Ok None
      | Some pad =>
          let pend := size - pad in
          p <- add_flags p FlagRTP ;;
          let p := set_rtp_fields p (h_ssrc h) (h_seqnum h) (h_timestamp h) (h_marker h) (h_payload_type h) in
          hs <- sl_sub buffer 0 hsize2 ;;
          pl <- sl_sub buffer hsize2 pend ;;
          pd <- (if 0 <? pad then x <- sl_sub buffer pend (pend + pad) ;; Ok (Some x) else Ok (p_pad p)) ;;
          let p := set_rtp_slices p hs pl pd in
          p <- match encodings (h_payload_type h) with
               | Some fl => add_flags p fl
               | None => Ok p
               end ;;
          match inner with PNone => Ok (Some p) | _ => p_parse inner mem p pl end
      end
  | PFec kind t pos inner =>
      let size := s_size buffer in
      if size <? pid_size kind then Ok None else
      h <- sl_read mem buffer (match pos with Header => 0 | Footer => size - pid_size kind end) (pid_size kind) ;;
      p <- match t with Repair => add_flags p FlagRepair | Source => Ok p end ;;
      p <- add_flags p FlagFEC ;;
      let p := set_fec_fields p (pid_esi kind h) (u16 (pid_sbn kind h)) (pid_k kind h) (pid_n kind h) in
      pl <- match pos with
            | Header => sl_sub buffer (pid_size kind) size
            | Footer => sl_sub buffer 0 (size - pid_size kind)
            end ;;
      let p := set_fec_slices p (p_pid p) pl in
      match inner with PNone => Ok (Some p) | _ => p_parse inner mem p pl end
  end.
End Parse.
