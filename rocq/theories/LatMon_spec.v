(** What a latency monitor shows and does, told from the history of calls, what they
    returned and what they caused. *)
From Verif Require Import Base Seqnum_model TimeConv_model LatTuner_model LatMon_model.

Definition record := (event * bool * list effect)%type.

(** The session is over: some read failed without asking the pipeline for a frame. *)
Definition gives_up (e : record) : bool :=
  match e with
  | (Read _, false, fx) => negb (existsb (fun x => match x with EPull => true | _ => false end) fx)
  | _ => false
  end.
Definition over (h : list record) : bool := existsb gives_up h.

(** The reads that measured: all up to the one that ended the session. *)
Fixpoint measured (h : list record) : list view :=
  match h with
  | [] => []
  | e :: t =>
      (match e with (Read v, _, _) => [v] | _ => [] end) ++ (if gives_up e then [] else measured t)
  end.

(** The last value that [f] gives, or nothing. *)
Definition last_of {A B} (f : A -> option B) (l : list A) : option B :=
  fold_left (fun st a => match f a with Some b => Some b | None => st end) l None.

(** Timestamps are modulo 2^32; the signed distance of two. *)
Definition signed_distance (x : Z) : Z := (x + 2 ^ 31) mod 2 ^ 32 - 2 ^ 31.

(** How many samples there are from the next one to be played to the end of the latest
    packet. *)
Definition queued (v : view) : option Z :=
  match v_next v, v_latest v with
  | Some next, Some (ts, dur, _) => Some (signed_distance (ts + dur - next))
  | _, _ => None
  end.

(** How long ago the latest packet was received, if its receive time is known and in the
    past. *)
Definition silence (v : view) : option Z :=
  match v_next v, v_latest v with
  | Some _, Some (_, _, rts) => if (0 <? rts) && (rts <? v_now v) then Some (v_now v - rts) else None
  | _, _ => None
  end.

(** When the last frame was captured (zero if this is not known), and the time from
    capture to playback, when both were last known. *)
Definition returned_frame (e : record) : option (Z * Z) :=
  match e with (Read v, true, _) => v_frame v | _ => None end.
Definition captured (h : list record) : Z :=
  match last_of returned_frame h with Some (c, _) => c | None => 0 end.
Fixpoint end_to_end (before h : list record) (x : Z) : Z :=
  match h with
  | [] => x
  | e :: t =>
      end_to_end (before ++ [e]) t
        (match e with
         | (Reclock p, _, _) => if (captured before =? 0) || (p <=? 0) then x else p - captured before
         | _ => x
         end)
  end.

(** Calls as they can be: timestamps of 32 bits, times that are not negative. *)
Definition time (x : Z) : Prop := 0 <= x < 2 ^ 63.
Definition possible (e : event) : Prop :=
  match e with
  | Reclock p => - 2 ^ 63 <= p < 2 ^ 63
  | Read v =>
      time (v_now v) /\ (forall n, v_next v = Some n -> 0 <= n < 2 ^ 32) /\
      (forall t d r, v_latest v = Some (t, d, r) -> 0 <= t < 2 ^ 32 /\ 0 <= d < 2 ^ 32 /\ - 2 ^ 63 <= r < 2 ^ 63) /\
      (forall c d, v_frame v = Some (c, d) -> time c)
  end.

(** All that was done, in order. *)
Definition done (h : list record) : list effect := concat (map snd h).

(** What should be shown after a history: the latest measurement of each kind, in
    nanoseconds, or zero. *)
Definition shows (sp : spec) (h : list record) (m : metrics) (link : Z) : Prop :=
  match last_of queued (measured h) with
  | None => m_niq m = 0
  | Some d => stream_timestamp_delta_2_ns sp d = Ok (m_niq m)
  end /\
  m_stall m = (match last_of silence (measured h) with Some x => x | None => 0 end) /\
  m_e2e m = end_to_end [] h 0 /\
  link = (match last_of v_link (measured h) with Some x => x | None => 0 end).
