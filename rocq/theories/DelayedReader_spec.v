(** Ideal timeline: every packet has an unwrapped position in the stream and an
    unwrapped start time; what the code sees are their residues. *)
From Verif Require Import Base DelayedReader_model.

Section S.
Variable pos time : dpkt -> Z.

(** A coherent set of packets: distinct positions less than half the sequence
    range apart, start times ordered like positions, total span below half the
    timestamp range. *)
Definition coherent (F : list dpkt) : Prop :=
  NoDup F /\
  (forall p, In p F -> dp_seq p = pos p mod 65536 /\ dp_ts p = time p mod 4294967296 /\ 0 <= dp_dur p) /\
  (forall p q, In p F -> In q F -> p <> q -> pos p <> pos q /\ -32768 < pos p - pos q < 32768) /\
  (forall p q, In p F -> In q F -> pos p < pos q -> time p <= time q) /\
  (forall p q, In p F -> In q F -> time q + dp_dur q - time p < 2147483648).

(** [span F d]: from the start of the oldest to the end of the newest packet. *)
Definition span (F : list dpkt) (d : Z) : Prop :=
  (F = [] /\ d = 0) \/
  exists a b, In a F /\ In b F /\ (forall q, In q F -> pos a <= pos q <= pos b) /\
              d = time b + dp_dur b - time a.

Definition span_below (F : list dpkt) (delay : Z) : Prop := exists d, span F d /\ d < delay.
Definition span_reaches (F : list dpkt) (delay : Z) : Prop := exists d, span F d /\ delay <= d.

Fixpoint ordered (l : list dpkt) : Prop :=
  match l with
  | [] => True
  | p :: t => (forall q, In q t -> pos p < pos q) /\ ordered t
  end.

Definition arrived (sch : list (list dpkt * ustatus)) : list dpkt := concat (map fst sch).

Fixpoint packets_of (rs : list rres) : list dpkt :=
  match rs with [] => [] | RPkt p :: t => p :: packets_of t | RStatus _ :: t => packets_of t end.
End S.

(** A reader without delay: hand over the oldest packet available, else report
    the upstream status. [buf] holds the packets not handed over yet. *)
Fixpoint fifo_polls (buf : list dpkt) (sch : list (list dpkt * ustatus)) : list rres :=
  match sch with
  | [] => []
  | (b, st) :: t =>
      match buf ++ b with
      | [] => RStatus st :: fifo_polls [] t
      | p :: r => RPkt p :: fifo_polls r t
      end
  end.
