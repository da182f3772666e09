(** RTP datagram layout (RFC 3550 section 5.1), stated over bytes with plain
    arithmetic. *)
From Verif Require Import Base.

(** Byte string [d] is an RTP datagram with these fields: [hdr] is the fixed
    header, CSRC list and extension; then come [payload] and [padding]. *)
Definition rtp_datagram (d : list Z) (src seq ts : Z) (marker : bool) (pt : Z)
           (hdr payload padding : list Z) : Prop :=
  exists b0 b1 b2 b3 b4 b5 b6 b7 b8 b9 b10 b11 csrc ext,
    hdr = [b0; b1; b2; b3; b4; b5; b6; b7; b8; b9; b10; b11] ++ csrc ++ ext /\
    d = hdr ++ payload ++ padding /\
    (* first octet: version, padding bit, extension bit, CSRC count *)
    b0 / 64 = 2 /\
    Z.of_nat (length csrc) = 4 * (b0 mod 16) /\
    ((b0 / 16) mod 2 = 0 /\ ext = [] \/
     (b0 / 16) mod 2 = 1 /\
     exists e0 e1 e2 e3 data, ext = e0 :: e1 :: e2 :: e3 :: data /\
                              Z.of_nat (length data) = 4 * be16 e2 e3) /\
    ((b0 / 32) mod 2 = 0 /\ padding = [] \/
     (b0 / 32) mod 2 = 1 /\ padding <> [] /\ last padding 0 = Z.of_nat (length padding)) /\
    (* second octet: marker and payload type *)
    b1 = (if marker then 128 else 0) + pt /\ 0 <= pt < 128 /\
    seq = be16 b2 b3 /\ ts = be32 b4 b5 b6 b7 /\ src = be32 b8 b9 b10 b11.
