(** Model of audio::Packetizer, src/internal_modules/roc_audio/packetizer.cpp.

    Frames are lists of raw samples (interleaved channels). The payload encoder
    is modelled as storing the samples it is given; the sample-to-byte coding is
    C42. Simplifications: the encoder accepts every sample that fits in
    samples_per_packet_ (C42), size_t and nanoseconds do not overflow, the
    packet writer succeeds (its failure panics, 149-151). *)
From Verif Require Import Base.
Open Scope res_scope.

(** The environment of a packetizer. *)
Record pz_env := mkPzEnv {
  pz_spp : nat;                (* samples_per_packet_ (per channel), > 0 *)
  pz_nch : nat;                (* number of channels, > 0 *)
  pz_bytes : nat -> Z;         (* payload_encoder_.encoded_byte_count *)
  pz_ns : nat -> Z;            (* sample_spec_.samples_per_chan_2_ns *)
  pz_alloc : nat -> bool;      (* does the n-th create_packet_() succeed, 172-196 *)
  pz_pad : Z -> bool }.        (* composer_.pad *)

(** What is handed to the sequencer, the composer and the writer. *)
Record pz_pkt := mkPzPkt {
  pk_samples : list Z;         (* raw samples of the payload *)
  pk_cts : Z;                  (* capture timestamp *)
  pk_dur : nat;                (* duration in samples per channel *)
  pk_pad : Z }.                (* bytes of padding *)

(** packetizer.h 106-112. *)
Record pz := mkPz {
  pz_open : option (list Z);   (* packet_: the samples encoded so far *)
  pz_pos : nat;                (* packet_pos_ *)
  pz_pcts : Z;                 (* packet_cts_ *)
  pz_cts : Z;                  (* capture_ts_ *)
  pz_tries : nat;              (* calls of create_packet_() so far *)
  pz_out : list pz_pkt;        (* packets written *)
  pz_pcount : Z;               (* metrics_.packet_count *)
  pz_paycount : Z }.           (* metrics_.payload_count *)

Definition pz_new : pz := mkPz None 0 0 0 0 [] 0 0.

(** payload_size_, 51. *)
Definition pz_psize (e : pz_env) : Z := pz_bytes e (pz_spp e).

(** end_packet_ and pad_packet_, 133-170. *)
Definition pz_end (e : pz_env) (s : pz) (smp : list Z) : res pz :=
  let written := pz_bytes e (pz_pos s) in
  if pz_psize e <? written then Panic
  else
    pad <- (if (pz_pos s <? pz_spp e)%nat then
              if written =? pz_psize e then Ok 0
              else if pz_pad e (pz_psize e - written) then Ok (pz_psize e - written) else Panic
            else Ok 0) ;;
    Ok (mkPz None 0 0 (pz_cts s) (pz_tries s) (pz_out s ++ [mkPzPkt smp (pz_pcts s) (pz_pos s) pad])
         (pz_pcount s + 1) (pz_paycount s + written)).

(** One iteration of the loop in write, 84-108, when a packet is open. *)
Definition pz_put (e : pz_env) (s : pz) (smp : list Z) (buf : list Z) (n : nat) : res (pz * list Z * nat) :=
  let k := Nat.min n (pz_spp e - pz_pos s) in
  let cts := if pz_cts s =? 0 then pz_cts s else pz_cts s + pz_ns e k in
  let smp' := smp ++ firstn (k * pz_nch e) buf in
  let s1 := mkPz (Some smp') (pz_pos s + k) (pz_pcts s) cts (pz_tries s) (pz_out s) (pz_pcount s) (pz_paycount s) in
  s2 <- (if (pz_pos s + k =? pz_spp e)%nat then pz_end e s1 smp' else Ok s1) ;;
  Ok (s2, skipn (k * pz_nch e) buf, (n - k)%nat).

(** The loop of write, 84-108; begin_packet_, 117-131. [fuel] bounds the number
    of iterations; running out of it is reported as [UB]. *)
Fixpoint pz_loop (e : pz_env) (fuel : nat) (s : pz) (buf : list Z) (n : nat) : res pz :=
  if (n =? 0)%nat then Ok s
  else match fuel with
  | O => UB
  | S fuel' =>
      match pz_open s with
      | Some smp =>
          r <- pz_put e s smp buf n ;;
          let '(s1, buf1, n1) := r in pz_loop e fuel' s1 buf1 n1
      | None =>
          if pz_alloc e (pz_tries s) then
            r <- pz_put e (mkPz (Some []) 0 (pz_cts s) (pz_cts s) (S (pz_tries s)) (pz_out s) (pz_pcount s) (pz_paycount s)) [] buf n ;;
            let '(s1, buf1, n1) := r in pz_loop e fuel' s1 buf1 n1
          else Ok (mkPz None (pz_pos s) (pz_pcts s) (pz_cts s) (S (pz_tries s)) (pz_out s) (pz_pcount s) (pz_paycount s))
      end
  end.

(** Packetizer::write, 75-109. *)
Definition pz_write (e : pz_env) (s : pz) (samples : list Z) (cts : Z) : res pz :=
  if negb (length samples mod pz_nch e =? 0)%nat then Panic
  else
    let n := (length samples / pz_nch e)%nat in
    pz_loop e n (mkPz (pz_open s) (pz_pos s) (pz_pcts s) cts (pz_tries s) (pz_out s) (pz_pcount s) (pz_paycount s)) samples n.

(** Packetizer::flush, 111-115. *)
Definition pz_flush (e : pz_env) (s : pz) : res pz :=
  match pz_open s with Some smp => pz_end e s smp | None => Ok s end.

Inductive pz_op := PWrite (samples : list Z) (cts : Z) | PFlush.

Fixpoint pz_run (e : pz_env) (s : pz) (ops : list pz_op) : res pz :=
  match ops with
  | [] => Ok s
  | op :: r => s1 <- match op with PWrite l c => pz_write e s l c | PFlush => pz_flush e s end ;; pz_run e s1 r
  end.
