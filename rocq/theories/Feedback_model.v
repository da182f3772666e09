(** Model of the sender's feedback monitor
    (src/internal_modules/roc_audio/feedback_monitor.cpp), which takes the reports of
    the receiver and drives the latency tuner and the resampler.

    The latency tuner (claim C65) is a parameter: any type of states with any
    functions.  Simplifications: of the metrics the packet count is separate and the
    others are opaque; the clock is given with each call; logging is left out, except
    that a detected change of the source is an effect. *)
From Verif Require Import Base RateLimiter_model.
Local Open Scope res_scope.

Set Implicit Arguments.

(** latency_tuner.h, ilink_meter.h: LatencyMetrics ([m_lat]) and LinkMetrics: the
    field [total_packets] and the rest. *)
Record metrics := mkMetrics { m_lat : Z; m_total : Z; m_rest : Z }.

(** What the monitor does to its surroundings: hands metrics to the tuner, sets the
    scaling of the resampler, passes a frame on, notes a change of the source. *)
Inductive effect :=
| EFeed (now : Z) (m : metrics)
| EScale (x : Z)
| EFrame (dur : Z)
| ESwitch (now old new : Z).

(** Calls.  A report comes with the number of packets the sender has made so far
    ([Packetizer::metrics().packet_count]). *)
Inductive event :=
| Start
| Report (now src : Z) (m : metrics) (sent : Z)
| WriteFrame (now dur : Z).

Section Monitor.
(** The tuner: state, [write_metrics] followed by [update_stream],
    [advance_stream], [fetch_scaling] (nothing, or a positive factor). *)
Variable T : Type.
Variable tuner0 : T.
Variable tuner_update : metrics -> T -> T * bool.
Variable tuner_advance : Z -> T -> T.
Variable tuner_fetch : T -> T * option Z.
(** [ResamplerWriter::set_scaling]: which factors it takes. *)
Variable scaling_ok : Z -> bool.
(** FeedbackConfig (feedback_monitor.h:29-44) and whether the tuner profile is other
    than intact (feedback_monitor.cpp:32). *)
Variable timeout : Z.
Variable cooldown : Z.
Variable scaling : bool.

(** feedback_monitor.h:110-137: the fields. *)
Record monitor := mkMon {
  started : bool;
  has_feedback : bool;
  source : Z;
  last_ts : Z;
  shown : metrics;
  use_packetizer : bool;
  limiter : rl;
  tuner : T }.

(** feedback_monitor.cpp:18-49: the constructor, for a tuner and a resampler that are
    valid and accept 1.0 as a factor. *)
Definition mon_new : res monitor :=
  l <- rl_new cooldown ;;
  Ok (mkMon false false 0 0 (mkMetrics 0 0 0) false l tuner0).

(** feedback_monitor.cpp:59-68: [start]. *)
Definition mon_start (s : monitor) : monitor :=
  mkMon true (has_feedback s) (source s) (last_ts s) (shown s) (use_packetizer s)
        (limiter s) (tuner s).

(** feedback_monitor.cpp:103-114: take over the metrics. *)
Definition mon_accept (s : monitor) (now src : Z) (m : metrics) (sent : Z) : monitor :=
  let fallback := (m_total m =? 0) || use_packetizer s in
  mkMon (started s) true src now
        (if fallback then mkMetrics (m_lat m) sent (m_rest m) else m)
        fallback (limiter s) (tuner s).

(** feedback_monitor.cpp:70-115: [process_feedback]. *)
Definition mon_report (s : monitor) (now src : Z) (m : metrics) (sent : Z) :
  monitor * list effect :=
  if negb (started s) then (s, [])
  else if has_feedback s && negb (source s =? src) then
    let '(l, ok) := rl_allow (limiter s) now in
    let s' := mkMon (started s) (has_feedback s) (source s) (last_ts s) (shown s)
                    (use_packetizer s) l (tuner s) in
    if ok then (mon_accept s' now src m sent, [ESwitch now (source s) src]) else (s', [])
  else (mon_accept s now src m sent, []).

(** feedback_monitor.cpp:161-188: [update_tuner_]. *)
Definition mon_update (s : monitor) (now dur : Z) : monitor * list effect :=
  if negb (has_feedback s) then (s, [])
  else if timeout <? now - last_ts s then
    (mkMon (started s) false 0 0 (shown s) (use_packetizer s) (limiter s) (tuner s), [])
  else
    let '(t, ok) := tuner_update (shown s) (tuner s) in
    (mkMon (started s) (has_feedback s) (source s) (last_ts s) (shown s)
           (use_packetizer s) (limiter s) (if ok then tuner_advance dur t else t),
     [EFeed now (shown s)]).

(** feedback_monitor.cpp:201-215: [update_scaling_], with the panic at 126-129. *)
Definition mon_scale (s : monitor) : res (monitor * list effect) :=
  let '(t, f) := tuner_fetch (tuner s) in
  let s' := mkMon (started s) (has_feedback s) (source s) (last_ts s) (shown s)
                  (use_packetizer s) (limiter s) t in
  match f with
  | None => Ok (s', [])
  | Some x => if scaling_ok x then Ok (s', [EScale x]) else Panic
  end.

(** feedback_monitor.cpp:117-134: [write]. *)
Definition mon_write (s : monitor) (now dur : Z) : res (monitor * list effect) :=
  if negb (started s) then Ok (s, [EFrame dur])
  else
    let '(s1, e1) := mon_update s now dur in
    r <- (if scaling then mon_scale s1 else Ok (s1, [])) ;;
    Ok (fst r, e1 ++ snd r ++ [EFrame dur]).

(** feedback_monitor.cpp:136-139: [num_participants]. *)
Definition participants (s : monitor) : Z := if has_feedback s then 1 else 0.

(** feedback_monitor.cpp:141-159: [latency_metrics] and [link_metrics]. *)
Definition mon_metrics (s : monitor) (i : Z) : res metrics :=
  if participants s <=? i then Panic else Ok (shown s).

Definition mon_step (s : monitor) (e : event) : res (monitor * list effect) :=
  match e with
  | Start => Ok (mon_start s, [])
  | Report now src m sent => Ok (mon_report s now src m sent)
  | WriteFrame now dur => mon_write s now dur
  end.

(** A history of calls, and all it causes. *)
Fixpoint mon_run (s : monitor) (evs : list event) : res (monitor * list effect) :=
  match evs with
  | [] => Ok (s, [])
  | e :: t =>
      r <- mon_step s e ;;
      q <- mon_run (fst r) t ;;
      Ok (fst q, snd r ++ snd q)
  end.

Definition mon_history (evs : list event) : res (monitor * list effect) :=
  s <- mon_new ;; mon_run s evs.

End Monitor.
