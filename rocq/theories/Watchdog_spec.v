(** Specification of the watchdog (C41), on an unbounded time line. *)
From Verif Require Import Base Watchdog_model.

(** End of a sequence of frames. *)
Definition endpos (p : list wframe) : Z := fold_right (fun f a => wf_dur f + a) 0 p.
(** Frame number [j] occupies [fstart p j, fend p j). *)
Definition fstart (p : list wframe) (j : nat) : Z := endpos (firstn j p).
Definition fend (p : list wframe) (j : nat) : Z := endpos (firstn (S j) p).
Definition flag (b : Z) (f : wframe) : Prop := Z.land (wf_flags f) b = b.

(** No audio for at least [m], not counting a warm-up of length [w]: either the last
    non-blank frame ended that long ago, or there was none, the warm-up was over
    when the last frame began, and that much time passed since it. *)
Definition silent_for (m w : Z) (p : list wframe) : Prop :=
  (exists j f, nth_error p j = Some f /\ flag FlagNotBlank f /\ (forall i g, (j < i)%nat -> nth_error p i = Some g -> ~ flag FlagNotBlank g) /\ endpos p - fend p j >= m) \/
  ((forall i g, nth_error p i = Some g -> ~ flag FlagNotBlank g) /\ endpos (removelast p) >= w /\ endpos p - w >= m).

(** Frame [j] overlaps the window number [k] of length [w]. *)
Definition overlaps (w : Z) (p : list wframe) (k : Z) (j : nat) : Prop := fstart p j < (k + 1) * w /\ k * w < fend p j.
(** A window is choppy when some frame in it is incomplete and some frame in it lost packets. *)
Definition choppy (w : Z) (p : list wframe) (k : Z) : Prop :=
  (exists j f, nth_error p j = Some f /\ overlaps w p k j /\ flag FlagNotComplete f) /\
  (exists j f, nth_error p j = Some f /\ overlaps w p k j /\ flag FlagPacketDrops f).
(** Frame [j] completes window [k]. *)
Definition completes (w : Z) (p : list wframe) (k : Z) (j : nat) : Prop :=
  (j < length p)%nat /\ fstart p j < (k + 1) * w <= fend p j.

(** Every window completed in the last [d] samples was choppy. *)
Definition choppy_for (d w : Z) (p : list wframe) : Prop :=
  endpos p >= d /\ forall k j, 0 <= k -> completes w p k j -> endpos p - fend p j < d -> choppy w p k.

(** The session must be declared dead after the frames [p]. *)
Definition must_die (c : wconf) (p : list wframe) : Prop :=
  (wc_blank c <> 0 /\ silent_for (wc_blank c) (wc_warmup c) p) \/ (wc_drops c <> 0 /\ choppy_for (wc_drops c) (wc_window c) p).

(** Accepted configurations and frames not longer than a window. *)
Definition conf_ok (c : wconf) : Prop :=
  0 <= wc_blank c <= 2 ^ 30 /\ 0 <= wc_drops c <= 2 ^ 30 /\ 0 <= wc_warmup c <= 2 ^ 30 /\ (wc_drops c <> 0 -> 1 <= wc_window c <= wc_drops c) /\ wc_status c <> 1%nat.
Definition frame_ok (c : wconf) (f : wframe) : Prop :=
  1 <= wf_dur f <= 2 ^ 30 /\ 0 <= wf_flags f /\ (wc_drops c <> 0 -> wf_dur f <= wc_window c).
