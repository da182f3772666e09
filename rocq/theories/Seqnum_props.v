(** C01: circular ordering of sequence numbers, stream timestamps and block
    numbers.  Unwrapped (ideal) numbers are arbitrary integers; the values on
    the wire are their residues modulo 2^16 (or 2^32). *)
From Verif Require Import Base Seqnum_model Seqnum_proof.

(** The comparison of wire values is the true distance of the ideal numbers,
    at every wrap position. *)
Theorem C01_seqnum_distance : forall x y : Z,
  - 32768 <= x - y < 32768 ->
  seqnum_diff (x mod 65536) (y mod 65536) = x - y.
Proof. exact seqnum_diff_pos. Qed.
Print Assumptions C01_seqnum_distance.

Example C01_seqnum_distance_ex : seqnum_diff (65537 mod 65536) (65535 mod 65536) = 2.
Proof. reflexivity. Qed.

Theorem C01_blknum_distance : forall x y : Z,
  - 32768 <= x - y < 32768 ->
  blknum_diff (x mod 65536) (y mod 65536) = x - y.
Proof. exact blknum_diff_pos. Qed.
Print Assumptions C01_blknum_distance.

Theorem C01_timestamp_distance : forall x y : Z,
  - 2147483648 <= x - y < 2147483648 ->
  stream_timestamp_diff (x mod 4294967296) (y mod 4294967296) = x - y.
Proof. exact stream_timestamp_diff_pos. Qed.
Print Assumptions C01_timestamp_distance.

Example C01_timestamp_distance_ex :
  stream_timestamp_diff (4294967300 mod 4294967296) (4294967290 mod 4294967296) = 10.
Proof. reflexivity. Qed.

(** Adding k to a value (with wrap) puts it exactly k ahead. *)
Theorem C01_seqnum_add : forall a k : Z,
  - 32768 <= k < 32768 -> seqnum_diff ((a + k) mod 65536) (a mod 65536) = k.
Proof. exact seqnum_add. Qed.
Print Assumptions C01_seqnum_add.

Theorem C01_timestamp_add : forall a k : Z,
  - 2147483648 <= k < 2147483648 ->
  stream_timestamp_diff ((a + k) mod 4294967296) (a mod 4294967296) = k.
Proof. exact stream_timestamp_add. Qed.
Print Assumptions C01_timestamp_add.

(** Exactly one of two different values is before the other, unless they are
    exactly half the range apart. *)
Theorem C01_seqnum_antisym : forall a b : Z,
  0 <= a < 65536 -> 0 <= b < 65536 -> a <> b -> (a - b) mod 65536 <> 32768 ->
  seqnum_lt a b = negb (seqnum_lt b a).
Proof. exact seqnum_antisym. Qed.
Print Assumptions C01_seqnum_antisym.

(** Half the range apart: each of the two is before the other. *)
Theorem C01_seqnum_half_range : forall a b : Z,
  0 <= a < 65536 -> 0 <= b < 65536 -> (a - b) mod 65536 = 32768 ->
  seqnum_lt a b = true /\ seqnum_lt b a = true.
Proof. exact seqnum_half_range. Qed.
Print Assumptions C01_seqnum_half_range.

Theorem C01_timestamp_antisym : forall a b : Z,
  0 <= a < 4294967296 -> 0 <= b < 4294967296 -> a <> b ->
  (a - b) mod 4294967296 <> 2147483648 ->
  stream_timestamp_lt a b = negb (stream_timestamp_lt b a).
Proof. exact stream_timestamp_antisym. Qed.
Print Assumptions C01_timestamp_antisym.

(** Shifting both operands changes nothing. *)
Theorem C01_seqnum_shift : forall a b k : Z,
  seqnum_diff ((a + k) mod 65536) ((b + k) mod 65536) = seqnum_diff a b.
Proof. exact seqnum_shift. Qed.
Print Assumptions C01_seqnum_shift.

Theorem C01_timestamp_shift : forall a b k : Z,
  stream_timestamp_diff ((a + k) mod 4294967296) ((b + k) mod 4294967296)
  = stream_timestamp_diff a b.
Proof. exact stream_timestamp_shift. Qed.
Print Assumptions C01_timestamp_shift.

(** All the ordering predicates agree with the order of the ideal numbers. *)
Theorem C01_order : forall x y : Z,
  (- 32768 <= x - y < 32768 ->
     seqnum_lt (x mod 65536) (y mod 65536) = (x <? y) /\ seqnum_le (x mod 65536) (y mod 65536) = (x <=? y) /\
     blknum_lt (x mod 65536) (y mod 65536) = (x <? y) /\ blknum_le (x mod 65536) (y mod 65536) = (x <=? y)) /\
  (- 2147483648 <= x - y < 2147483648 ->
     stream_timestamp_lt (x mod 4294967296) (y mod 4294967296) = (x <? y) /\
     stream_timestamp_le (x mod 4294967296) (y mod 4294967296) = (x <=? y) /\
     ext_seqnum_lt (x mod 4294967296) (y mod 4294967296) = (x <? y)).
Proof.
  intros x y. split; intros H.
  - unfold seqnum_lt, seqnum_le, blknum_lt, blknum_le. rewrite seqnum_diff_pos, blknum_diff_pos by exact H. repeat split; lia.
  - unfold stream_timestamp_lt, stream_timestamp_le, ext_seqnum_lt. change ext_seqnum_diff with stream_timestamp_diff.
    rewrite stream_timestamp_diff_pos by exact H. repeat split; lia.
Qed.
Print Assumptions C01_order.

Example C01_order_ex : seqnum_lt (65535 mod 65536) (65537 mod 65536) = true /\ blknum_le (65540 mod 65536) (65540 mod 65536) = true.
Proof. split; reflexivity. Qed.
