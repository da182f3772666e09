(** Model of roc_rtp/filter.cpp (Filter), roc_rtp/link_meter.cpp (LinkMeter)
    and roc_rtp/sequencer.cpp (Sequencer). *)
From Verif Require Import Base Seqnum_model.
Open Scope res_scope.

(** roc_packet/rtp.h:24-96 (the fields these components use; the payload is
    represented by its length, the only thing the decoder's
    [decoded_sample_count] depends on). *)
Record rtp := mkRtp {
  r_src : Z; r_sn : Z; r_ts : Z; r_dur : Z; r_cts : Z; r_pt : Z; r_len : Z }.

(** A packet: FlagRTP, FlagAudio (packet.h) and its RTP part. *)
Record fpkt := mkFp { fp_rtp : bool; fp_audio : bool; fp_hdr : rtp }.

(** filter.h:25-38 [FilterConfig]; [to_ns] is
    [sample_spec_.stream_timestamp_delta_2_ns] (sample_spec.cpp:298-304, a
    floating point function, left abstract) and [count] the decoder's
    [decoded_sample_count]. *)
Record fcfg := mkFcfg {
  max_sn_jump : Z; max_ts_jump : Z; to_ns : Z -> Z; count : Z -> Z }.

(** rtp.cpp:24-32 is [rtp_compare] in Seqnum_model. *)

(** filter.cpp:76-136. The negation at line 91 is computed in int and converted
    back to int16_t; the conversion at line 94 is to a 64-bit size_t; the
    negation at line 104 overflows int for INT32_MIN (UB). *)
Definition validate_sequence (c : fcfg) (prev next : rtp) : res bool :=
  if negb (r_src prev =? r_src next) then Ok false
  else if negb (r_pt next =? r_pt prev) then Ok false
  else
    let sn := seqnum_diff (r_sn next) (r_sn prev) in
    let sn := if sn <? 0 then s16 (- sn) else sn in
    if max_sn_jump c <? u64 sn then Ok false
    else
      let ts := stream_timestamp_diff (r_ts next) (r_ts prev) in
      if ts =? - 2 ^ 31 then UB
      else
        let ts := if ts <? 0 then - ts else ts in
        if max_ts_jump c <? to_ns c ts then Ok false
        else if r_cts next <? 0 then Ok false
        else if (r_cts next =? 0) && negb (r_cts prev =? 0) then Ok false
        else Ok true.

(** filter.cpp:45-66; the state is [has_prev_packet_]/[prev_packet_rtp_]. *)
Definition validate (c : fcfg) (st : option rtp) (p : fpkt) : res (bool * option rtp) :=
  if negb (fp_rtp p) then Ok (false, st)
  else if negb (fp_audio p) then Ok (false, st)
  else
    ok <- match st with
          | None => Ok true
          | Some prev => validate_sequence c prev (fp_hdr p)
          end ;;
    if negb ok then Ok (false, st)
    else match st with
         | None => Ok (true, Some (fp_hdr p))
         | Some prev =>
             if rtp_compare (r_sn prev) (r_sn (fp_hdr p)) <? 0
             then Ok (true, Some (fp_hdr p)) else Ok (true, Some prev)
         end.

(** filter.cpp:68-74; the cast is to uint32_t. *)
Definition populate (c : fcfg) (p : fpkt) : fpkt :=
  let h := fp_hdr p in
  if r_dur h =? 0 then
    mkFp (fp_rtp p) (fp_audio p)
         (mkRtp (r_src h) (r_sn h) (r_ts h) (u32 (count c (r_len h))) (r_cts h) (r_pt h) (r_len h))
  else p.

(** Result of one upstream read, and of one read of the filter. *)
Inductive rd_in := InPkt (p : fpkt) | InStatus (code : Z).
Inductive rd_out := OutPkt (p : fpkt) | OutStatus (code : Z).

(** status_code.h: StatusNoData (any code other than StatusOK). *)
Definition st_nodata : Z := 1.

(** filter.cpp:27-43 *)
Definition filter_read (c : fcfg) (st : option rtp) (i : rd_in) : res (option rtp * rd_out) :=
  match i with
  | InStatus s => Ok (st, OutStatus s)
  | InPkt p =>
      r <- validate c st p ;;
      let '(ok, st') := r in
      if ok then Ok (st', OutPkt (populate c p)) else Ok (st', OutStatus st_nodata)
  end.

(** A sequence of reads, starting from [st]. *)
Fixpoint filter_run (c : fcfg) (st : option rtp) (is : list rd_in) : res (option rtp * list rd_out) :=
  match is with
  | [] => Ok (st, [])
  | i :: is' =>
      r <- filter_read c st i ;;
      r' <- filter_run c (fst r) is' ;;
      Ok (fst r', snd r :: snd r')
  end.

(** link_meter.h:99-106: the sequence-number part of LinkMeter, and the
    reported metrics ext_first_seqnum / ext_last_seqnum. *)
Record lm := mkLm { lm_first_pkt : bool; lm_first : Z; lm_hi : Z; lm_lo : Z;
                    lm_ext_first : Z; lm_ext_last : Z }.

(** link_meter.cpp:16-26 *)
Definition lm_init : lm := mkLm true 0 0 0 0 0.

(** link_meter.cpp:100-129. [(uint16_t)-1] is 65535; hi is uint32_t. *)
Definition lm_update (m : lm) (sn : Z) : lm :=
  let first := if (lm_first_pkt m || (seqnum_diff sn (lm_first m) <? 0)) && (lm_hi m =? 0)
               then sn else lm_first m in
  let upd := lm_first_pkt m || (0 <? seqnum_diff sn (lm_lo m)) in
  let hi := if upd then (if sn <? lm_lo m then u32 (lm_hi m + 65535) else lm_hi m) else lm_hi m in
  let lo := if upd then sn else lm_lo m in
  mkLm false first hi lo first (u32 (hi + lo)).

(** LinkMeter::write for packets of a known encoding (link_meter.cpp:54-77). *)
Definition lm_run (sns : list Z) : lm := fold_left lm_update sns lm_init.

(** sequencer.h: Sequencer state. *)
Record seqr := mkSeqr { sq_pt : Z; sq_sn : Z; sq_ts : Z }.

(** sequencer.cpp:34-53; [ssrc] is what [identity_.ssrc()] returns at the call. *)
Definition seqr_next (s : seqr) (ssrc cts dur len : Z) : seqr * rtp :=
  (mkSeqr (sq_pt s) (u16 (sq_sn s + 1)) (u32 (sq_ts s + dur)),
   mkRtp ssrc (sq_sn s) (sq_ts s) dur cts (sq_pt s) len).

(** A sequence of calls (ssrc, cts, duration, payload length). *)
Fixpoint seqr_run (s : seqr) (cs : list (Z * Z * Z * Z)) : list rtp :=
  match cs with
  | [] => []
  | (ssrc, cts, dur, len) :: cs' =>
      let '(s', r) := seqr_next s ssrc cts dur len in r :: seqr_run s' cs'
  end.
