(** Specification of the depacketizer (C39): a player that works one sample at a
    time on an unbounded time line. *)
From Verif Require Import Base Depacketizer_model.

(** A packet at its position on the time line. *)
Record placed := mkPlaced { pl_pos : Z; pl_smp : list Z }.
Definition pl_end (p : placed) : Z := pl_pos p + Z.of_nat (length (pl_smp p)).

(** Packets carry 32-bit timestamps: at time [t] a packet is placed so that its
    end, modulo 2^32, falls in (t - 2^31, t + 2^31]. *)
Definition place (t : Z) (p : dpkt) : placed :=
  let len := Z.of_nat (length (dp_smp p)) in
  mkPlaced (t - s32 (t - (dp_ts p + len)) - len) (dp_smp p).

(** The player: the current time (None until the first packet), the packet being
    played, the queue, all packets taken from the queue so far, and how many of
    them had already ended when they were taken. *)
Record player := mkPlayer { py_t : option Z; py_cur : option placed; py_q : list dpkt; py_taken : list placed; py_late : nat }.
Definition player0 : player := mkPlayer None None [] [] 0.

(** Take packets from the queue until one ends after [t]. *)
Fixpoint take (t : Z) (q : list dpkt) (taken : list placed) (late : nat) : player :=
  match q with
  | [] => mkPlayer (Some t) None [] taken late
  | p :: q' =>
      let x := place t p in
      if pl_end x <=? t then take t q' (x :: taken) (S late) else mkPlayer (Some t) (Some x) q' (x :: taken) late
  end.

(** The packet being played has ended, or there is none. *)
Definition finished (t : Z) (cur : option placed) : bool := match cur with Some x => pl_end x <=? t | None => true end.

(** What the packet being played has at time [t]: [None] is silence. *)
Definition sample_at (t : Z) (cur : option placed) : option Z :=
  match cur with
  | Some x => if t <? pl_pos x then None else nth_error (pl_smp x) (Z.to_nat (t - pl_pos x))
  | None => None
  end.

(** One output sample. The first packet starts the clock. *)
Definition play1 (y : player) : option Z * player :=
  match (match py_t y with Some t => Some t | None => match py_q y with p :: _ => Some (dp_ts p) | [] => None end end) with
  | None => (None, y)
  | Some t =>
      let z := if finished t (py_cur y) then take t (py_q y) (py_taken y) (py_late y) else y in
      (sample_at t (py_cur z), mkPlayer (Some (t + 1)) (py_cur z) (py_q z) (py_taken z) (py_late z))
  end.
Fixpoint play (n : nat) (y : player) : list (option Z) * player :=
  match n with
  | O => ([], y)
  | S k => let '(x, y1) := play1 y in let '(l, y2) := play k y1 in (x :: l, y2)
  end.

Definition py_arrive (y : player) (p : dpkt) : player := mkPlayer (py_t y) (py_cur y) (py_q y ++ [p]) (py_taken y) (py_late y).

(** Silence is a zero sample. *)
Definition render (x : option Z) : Z := match x with Some v => v | None => 0 end.
Definition is_sound (x : option Z) : bool := match x with Some _ => true | None => false end.

(** The frames a player produces: "not blank" when something came from a packet,
    "not complete" when something is silence, "drops" when packets came too late. *)
Definition frame_of (l : list (option Z)) (y y' : player) : dframe :=
  mkDframe (map render l) (existsb is_sound l) (existsb (fun x => negb (is_sound x)) l) (negb (py_late y' =? py_late y)%nat).

Fixpoint play_ops (nch : nat) (y : player) (ops : list dz_op) : list dframe * player :=
  match ops with
  | [] => ([], y)
  | DArrive p :: r => play_ops nch (py_arrive y p) r
  | DRead raw :: r =>
      let '(l, y1) := play (raw / nch) y in
      let '(fs, y2) := play_ops nch y1 r in (frame_of l y y1 :: fs, y2)
  end.

(** The packets of a history. *)
Fixpoint arrived (ops : list dz_op) : list dpkt :=
  match ops with [] => [] | DArrive p :: r => p :: arrived r | DRead _ :: r => arrived r end.

(** Packets hold at least one sample and fewer than 2^31. *)
Definition pkt_ok (p : dpkt) : Prop := 0 <= dp_ts p < 2 ^ 32 /\ 0 < Z.of_nat (length (dp_smp p)) < 2 ^ 31.
Definition op_ok (nch : nat) (op : dz_op) : Prop := match op with DArrive p => pkt_ok p | DRead raw => (raw mod nch = 0)%nat end.
