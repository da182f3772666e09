(** C16: the bytes of RTCP packets, from RFC 3550 6.4-6.6, RFC 3611 4.4-4.5, RFC 6776 (measurement
    information, block type 14), RFC 6843 (delay metrics, block type 16) and the block type 220 that the
    project defines for queue metrics. Written from the formats, not from the code: fields are
    big-endian, in the order given, and a length field counts 32-bit words after the first. *)
From Verif Require Import Base RtcpBuild_model RtcpBuild_spec.
Local Open Scope Z_scope.

(** [n] bytes, most significant first *)
Fixpoint be (n : nat) (x : Z) : list Z := match n with O => [] | S k => be k (x / 256) ++ [x mod 256] end.
Definition nulls (n : nat) : list Z := repeat 0 n.
(** units of 1/65536 second *)
Definition units (x : Z) : Z := x / 2 ^ 16.

(** RFC 3550 6.4.1: SSRC, fraction lost, cumulative number lost (24 bits, two's complement), highest
    sequence number, jitter, last SR, delay since last SR *)
Definition wire_report (r : rin) : list Z :=
  be 4 (ri_ssrc r) ++ be 1 (ri_fract r) ++ be 3 (Z.max (- 2 ^ 23) (Z.min (2 ^ 23 - 1) (ri_cum r)) mod 2 ^ 24) ++ be 4 (ri_seq r) ++
  be 4 (ri_jitter r) ++ be 4 (units (middle (ri_lsr r))) ++ be 4 (units (delay (ri_dlsr r))).
(** RFC 3611 4.5 *)
Definition wire_sub (d : din) : list Z := be 4 (di_ssrc d) ++ be 4 (units (middle (di_lrr d))) ++ be 4 (units (delay (di_dlrr d))).
(** block type, two flag bits, body *)
Definition block (ty flag : Z) (body : list Z) : list Z := [ty; flag * 64] ++ be 2 (Z.of_nat (length body) / 4) ++ body.
Definition wire_block (x : xin) : list Z :=
  match x with
  | IRrtr n => block 4 0 (be 8 n)
  | IDlrr l => block 5 0 (concat (map wire_sub l))
  | IMeas m => block 14 0 (be 4 (mi_ssrc m) ++ nulls 2 ++ be 2 (mi_first m) ++ be 4 (mi_ifirst m) ++ be 4 (mi_ilast m) ++
                           be 4 (units (delay (mi_idur m))) ++ be 8 (mi_cdur m))
  | IDelay d => block 16 (yi_flag d) (be 4 (yi_ssrc d) ++ be 4 (units (metric (yi_mean d))) ++ be 4 (units (metric (yi_min d))) ++
                                      be 4 (units (metric (yi_max d))) ++ be 8 (latency (yi_e2e d)))
  | IQueue q => block 220 (qi_flag q) (be 4 (qi_ssrc q) ++ be 4 (units (metric (qi_lat q))) ++ be 4 (units (metric (qi_stall q))))
  end.
(** RFC 3550 6.5: type, length, text; at least one null byte ends the items, up to a multiple of four *)
Definition wire_item (i : Z * list Z) : list Z := [fst i; Z.of_nat (length (snd i))] ++ snd i.
Definition wire_chunk (c : Z * list (Z * list Z)) : list Z :=
  let its := concat (map wire_item (snd c)) in
  be 4 (fst c) ++ its ++ nulls (up4 (length its + 1) - length its).
(** RFC 3550 6.6 *)
Definition wire_reason (t : list Z) : list Z :=
  let s := Z.of_nat (length t) :: t in s ++ nulls (up4 (length s) - length s).
Definition wire_body (p : pk) : list Z :=
  match p with
  | PSr s rs => be 4 (si_ssrc s) ++ be 8 (si_ntp s) ++ be 4 (si_rtp s) ++ be 4 (si_packets s) ++ be 4 (si_octets s) ++ concat (map wire_report rs)
  | PRr s rs => be 4 s ++ concat (map wire_report rs)
  | PSdes cs => concat (map wire_chunk cs)
  | PBye ss r => concat (map (be 4) ss) ++ match r with Some t => wire_reason t | None => [] end
  | PXr s bs => be 4 s ++ concat (map wire_block bs)
  end.
Definition wire_type (p : pk) : Z := match p with PSr _ _ => 200 | PRr _ _ => 201 | PSdes _ => 202 | PBye _ _ => 203 | PXr _ _ => 207 end.
(** reports, chunks or sources *)
Definition wire_count (p : pk) : nat := match p with PSr _ l => length l | PRr _ l => length l | PSdes l => length l | PBye l _ => length l | PXr _ _ => 0%nat end.
(** RFC 3550 6.4.1: version 2, padding bit, count; type; length; the last padding byte is their number *)
Definition wire_padding (pad : option nat) : list Z := match pad with Some n => nulls (n - 1) ++ [Z.of_nat n] | None => [] end.
Definition wire (p : pk) (pad : option nat) : list Z :=
  let body := wire_body p ++ wire_padding pad in
  [2 * 64 + (match pad with Some _ => 32 | None => 0 end) + Z.of_nat (wire_count p); wire_type p] ++ be 2 (Z.of_nat (length body) / 4) ++ body.
(** packets one after the other, padding only in the last *)
Fixpoint wire_all (ps : list pk) (pad : option nat) : list Z :=
  match ps with [] => [] | [p] => wire p pad | p :: r => wire p None ++ wire_all r pad end.
