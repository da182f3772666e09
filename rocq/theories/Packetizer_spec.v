(** Specification of the packetizer (C38): what packets a sequence of frames
    and flushes gives. *)
From Verif Require Import Base Packetizer_model.

(** A stream is a list of raw samples, each labelled with the capture timestamp
    a packet would get if it started with that sample. *)
Notation lsample := (Z * Z)%type.

(** The timestamp of position [k] (samples per channel) of a frame captured at
    [cts], when a packet starts there: the first packet start in the frame is
    [r] samples from its beginning, and each packet has [spp] samples. *)
Definition stamp (e : pz_env) (cts : Z) (r k : nat) : Z :=
  if cts =? 0 then 0
  else cts + (if (r =? 0)%nat then 0 else pz_ns e r) + Z.of_nat ((k - r) / pz_spp e) * pz_ns e (pz_spp e).

(** A frame written after [t] samples per channel since the last flush. *)
Definition label (e : pz_env) (t : nat) (samples : list Z) (cts : Z) : list lsample :=
  let r := ((pz_spp e - t mod pz_spp e) mod pz_spp e)%nat in
  map (fun p => (snd p, stamp e cts r (fst p / pz_nch e))) (combine (seq 0 (length samples)) samples).

(** Cutting a list into pieces of [n] elements; the last may be shorter. *)
Fixpoint cut {A} (fuel n : nat) (l : list A) : list (list A) :=
  match fuel, l with
  | S f, _ :: _ => firstn n l :: cut f n (skipn n l)
  | _, _ => []
  end.

Definition packet_of (e : pz_env) (l : list lsample) : pz_pkt :=
  mkPzPkt (map fst l) (match l with [] => 0 | p :: _ => snd p end) (length l / pz_nch e)
    (pz_bytes e (pz_spp e) - pz_bytes e (length l / pz_nch e)).

(** Raw samples per packet. *)
Definition per_packet (e : pz_env) : nat := (pz_spp e * pz_nch e)%nat.

(** The packets of a stream that ends with a flush, and of one that does not. *)
Definition all_packets (e : pz_env) (l : list lsample) : list pz_pkt := map (packet_of e) (cut (length l) (per_packet e) l).
Definition full_part (e : pz_env) (l : list lsample) : nat := (length l / per_packet e * per_packet e)%nat.
Definition full_packets (e : pz_env) (l : list lsample) : list pz_pkt := all_packets e (firstn (full_part e l) l).

(** Packets for a history; [cur] is the stream since the last flush. *)
Fixpoint expected (e : pz_env) (cur : list lsample) (ops : list pz_op) : list pz_pkt :=
  match ops with
  | [] => full_packets e cur
  | PWrite samples cts :: r => expected e (cur ++ label e (length cur / pz_nch e) samples cts) r
  | PFlush :: r => all_packets e cur ++ expected e [] r
  end.

(** Frames hold whole multi-channel samples and have a capture time of 0 (unknown) or later. *)
Definition op_ok (e : pz_env) (op : pz_op) : Prop :=
  match op with PWrite l c => (length l mod pz_nch e = 0)%nat /\ 0 <= c | PFlush => True end.

(** A sound environment: positive sizes, encoding more samples takes at least
    as many bytes, and the composer can pad. *)
Record env_ok (e : pz_env) : Prop := {
  eo_spp : (0 < pz_spp e)%nat;
  eo_nch : (0 < pz_nch e)%nat;
  eo_bytes : forall a b, (a <= b)%nat -> pz_bytes e a <= pz_bytes e b;
  eo_ns : forall n, 0 <= pz_ns e n;
  eo_pad : forall n, 0 < n -> pz_pad e n = true }.

(** Frames cut short: [op'] keeps a prefix of the samples of [op]. *)
Definition shorter (e : pz_env) (op' op : pz_op) : Prop :=
  match op', op with
  | PWrite l' c', PWrite l c => c' = c /\ (exists rest, l = l' ++ rest) /\ (length l' mod pz_nch e = 0)%nat
  | PFlush, PFlush => True
  | _, _ => False
  end.

(** All raw samples written by a history. *)
Definition written (ops : list pz_op) : list Z := concat (map (fun op => match op with PWrite l _ => l | PFlush => [] end) ops).
