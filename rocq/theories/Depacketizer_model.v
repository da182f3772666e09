(** Model of audio::Depacketizer, src/internal_modules/roc_audio/depacketizer.cpp,
    together with the position bookkeeping of PcmDecoder, pcm_decoder.cpp.

    One list element stands for the samples of all channels at one instant. The
    payload decoder is modelled as holding the decoded samples (C42 is about the
    coding). The packet reader is a queue that does not change during one
    read(). Not modelled: capture timestamps, beep mode, counters used for logs. *)
From Verif Require Import Base Seqnum_model.
Open Scope res_scope.

(** A packet: RTP timestamp and decoded payload. *)
Record dpkt := mkDpkt { dp_ts : Z; dp_smp : list Z }.

(** depacketizer.h 94-114; [dz_pkt] is packet_ with the decoder position and the
    samples not decoded yet. *)
Record dz := mkDz { dz_q : list dpkt; dz_pkt : option (Z * list Z); dz_ts : Z; dz_first : bool }.

Definition dz_new : dz := mkDz [] None 0 true.

(** roc_packet/units.h: stream_timestamp_diff, stream_timestamp_lt. *)
Definition ts_diff := stream_timestamp_diff.
Definition ts_lt := stream_timestamp_lt.

(** The loop in update_packet_, 215-238: packets to skip, then the one to play. *)
Fixpoint dz_fetch (first : bool) (ts : Z) (q : list dpkt) (dropped : nat) : option (Z * list Z) * list dpkt * nat :=
  match q with
  | [] => (None, [], dropped)
  | p :: q' =>
      if first then (Some (dp_ts p, dp_smp p), q', dropped)
      else if ts_lt ts (u32 (dp_ts p + Z.of_nat (length (dp_smp p)))) then (Some (dp_ts p, dp_smp p), q', dropped)
      else dz_fetch first ts q' (S dropped)
  end.

(** update_packet_, 207-277; PcmDecoder::shift, pcm_decoder.cpp 87-102. *)
Definition dz_update (s : dz) : res (dz * nat) :=
  match dz_pkt s with
  | Some _ => Ok (s, 0%nat)
  | None =>
      let '(pk, q, dropped) := dz_fetch (dz_first s) (dz_ts s) (dz_q s) 0 in
      match pk with
      | None => Ok (mkDz q None (dz_ts s) (dz_first s), dropped)
      | Some (pos, smp) =>
          let ts := if dz_first s then pos else dz_ts s in
          if ts_lt pos ts then
            let diff := u64 (ts_diff ts pos) in
            if Z.min diff (Z.of_nat (length smp)) =? diff then
              Ok (mkDz q (Some (u32 (pos + diff), skipn (Z.to_nat diff) smp)) ts false, dropped)
            else Panic
          else Ok (mkDz q (Some (pos, smp)) ts false, dropped)
      end
  end.

(** What a read produced so far: samples, how many were decoded, packets dropped. *)
Record dinfo := mkDinfo { di_out : list Z; di_dec : nat; di_drop : nat }.

(** read_packet_samples_, 169-184; PcmDecoder::read, pcm_decoder.cpp 61-85. *)
Definition dz_decode (s : dz) (pos : Z) (smp : list Z) (n : nat) (i : dinfo) : dz * nat * dinfo :=
  let k := Nat.min n (length smp) in
  let pk := if (k <? n)%nat then None else Some (u32 (pos + Z.of_nat k), skipn k smp) in
  (mkDz (dz_q s) pk (u32 (dz_ts s + Z.of_nat k)) (dz_first s), (n - k)%nat,
   mkDinfo (di_out i ++ firstn k smp) (di_dec i + k) (di_drop i)).

(** read_missing_samples_, 186-205. *)
Definition dz_miss (s : dz) (k : nat) (i : dinfo) : dz * dinfo :=
  (mkDz (dz_q s) (dz_pkt s) (u32 (dz_ts s + Z.of_nat k)) (dz_first s), mkDinfo (di_out i ++ repeat 0 k) (di_dec i) (di_drop i)).

(** read_samples_, 103-167: [n] samples are still to be filled. *)
Definition dz_samples (s0 : dz) (n : nat) (i0 : dinfo) : res (dz * nat * dinfo) :=
  r <- dz_update s0 ;;
  let '(s, dropped) := r in
  let i := mkDinfo (di_out i0) (di_dec i0) (di_drop i0 + dropped) in
  match dz_pkt s with
  | Some (pos, smp) =>
      if dz_ts s =? pos then Ok (dz_decode s pos smp n i)
      else if ts_lt (dz_ts s) pos then
        let mis := u64 (ts_diff pos (dz_ts s)) in
        let k := Z.to_nat (Z.min mis (Z.of_nat n)) in
        let '(s1, i1) := dz_miss s k i in
        if (k <? n)%nat then Ok (dz_decode s1 pos smp (n - k) i1) else Ok (s1, 0%nat, i1)
      else Panic
  | None => let '(s1, i1) := dz_miss s n i in Ok (s1, 0%nat, i1)
  end.

(** read_frame_, 95-97. Running out of [fuel] is reported as [UB]. *)
Fixpoint dz_loop (fuel : nat) (s : dz) (n : nat) (i : dinfo) : res (dz * dinfo) :=
  if (n =? 0)%nat then Ok (s, i)
  else match fuel with
  | O => UB
  | S f => r <- dz_samples s n i ;; let '(s1, n1, i1) := r in dz_loop f s1 n1 i1
  end.

(** A frame read: samples and flags (set_frame_props_, 295-318). *)
Record dframe := mkDframe { df_out : list Z; df_not_blank : bool; df_not_complete : bool; df_drops : bool }.

(** Depacketizer::read, 77-101, of a frame of [raw] samples with [nch] channels. *)
Definition dz_read (nch raw : nat) (s : dz) : res (dz * dframe) :=
  if negb (raw mod nch =? 0)%nat then Panic
  else
    let n := (raw / nch)%nat in
    r <- dz_loop (n + 2 * length (dz_q s) + 2) s n (mkDinfo [] 0 0) ;;
    let '(s1, i) := r in
    Ok (s1, mkDframe (di_out i) (negb (di_dec i =? 0)%nat) (di_dec i <? n)%nat (negb (di_drop i =? 0)%nat)).

(** Packets arrive in the queue between reads. *)
Definition dz_arrive (s : dz) (p : dpkt) : dz := mkDz (dz_q s ++ [p]) (dz_pkt s) (dz_ts s) (dz_first s).

Inductive dz_op := DArrive (p : dpkt) | DRead (raw : nat).
Fixpoint dz_run (nch : nat) (s : dz) (ops : list dz_op) : res (list dframe * dz) :=
  match ops with
  | [] => Ok ([], s)
  | DArrive p :: r => dz_run nch (dz_arrive s p) r
  | DRead raw :: r =>
      x <- dz_read nch raw s ;;
      let '(s1, f) := x in
      y <- dz_run nch s1 r ;;
      let '(fs, s2) := y in Ok (f :: fs, s2)
  end.

(** next_timestamp(), 70-75. *)
Definition dz_next_timestamp (s : dz) : Z := if dz_first s then 0 else dz_ts s.
