(** Model of roc_packet/units.h: circular comparison of sequence numbers,
    stream timestamps, extended sequence numbers and FEC block numbers. *)
From Verif Require Import Base.

(** units.h:86-88. [seqnum_t] is uint16_t; [a - b] is computed in int and
    converted to int16_t. *)
Definition seqnum_diff (a b : Z) : Z := s16 (a - b).
(** units.h:91-93 *)
Definition seqnum_lt (a b : Z) : bool := seqnum_diff a b <? 0.
(** units.h:96-98 *)
Definition seqnum_le (a b : Z) : bool := seqnum_diff a b <=? 0.

(** units.h:44-47. [a - b] is computed in uint32_t and converted to int32_t. *)
Definition stream_timestamp_diff (a b : Z) : Z := s32 (u32 (a - b)).
(** units.h:50-52 *)
Definition stream_timestamp_lt (a b : Z) : bool := stream_timestamp_diff a b <? 0.
(** units.h:55-57 *)
Definition stream_timestamp_le (a b : Z) : bool := stream_timestamp_diff a b <=? 0.

(** units.h:111-113 *)
Definition ext_seqnum_diff (a b : Z) : Z := s32 (u32 (a - b)).
(** units.h:116-118 *)
Definition ext_seqnum_lt (a b : Z) : bool := ext_seqnum_diff a b <? 0.

(** units.h:138-140 *)
Definition blknum_diff (a b : Z) : Z := s16 (a - b).
(** units.h:143-145 *)
Definition blknum_lt (a b : Z) : bool := blknum_diff a b <? 0.
(** units.h:148-150 *)
Definition blknum_le (a b : Z) : bool := blknum_diff a b <=? 0.

(** Packet comparison used by the sorted queue, on RTP packets
    (rtp.cpp:24-32, packet.cpp:173-187 first branch). *)
Definition rtp_compare (a b : Z) : Z :=
  if seqnum_lt a b then -1 else if a =? b then 0 else 1.

(** fec.cpp:23-37, on (source_block_number, encoding_symbol_id). *)
Definition fec_compare (a b : Z * Z) : Z :=
  if blknum_lt (fst a) (fst b) then -1
  else if fst a =? fst b then
         if snd a <? snd b then -1 else if snd a =? snd b then 0 else 1
       else 1.
