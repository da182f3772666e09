(** Model of the receiver's latency monitor
    (src/internal_modules/roc_audio/latency_monitor.cpp), which measures the latency of
    a session, ends it if the tuner says so, and sets the speed of the resampler.

    The latency tuner (claim C65) is a parameter: any type of states with any functions.
    Simplifications: the link metrics are opaque; factors are opaque; what the monitor
    finds around it when a frame is read is given with the call; logging is left out. *)
From Verif Require Import Base Seqnum_model TimeConv_model LatTuner_model.
Local Open Scope res_scope.

Set Implicit Arguments.

(** What a call of [read] finds: the next timestamp of the depacketizer, if it has
    started (depacketizer.h); timestamp, duration and receive time of the latest packet
    of the incoming queue, if there was one (sorted_queue.h); the clock; the link
    metrics, if there are any; and what the pipeline before it would return: nothing, or
    a frame with this capture time and duration. *)
Record view := mkView {
  v_next : option Z;
  v_latest : option (Z * Z * Z);
  v_now : Z;
  v_link : option Z;
  v_frame : option (Z * Z) }.

(** What the monitor does to its surroundings: hands metrics to the tuner, sets the
    factor of the resampler, reads from the pipeline before it, tells the tuner how much
    was played. *)
Inductive effect :=
| EFeed (m : metrics) (link : Z)
| EScale (x : Z)
| EPull
| EAdvance (dur : Z).

Inductive event := Read (v : view) | Reclock (t : Z).

Section Monitor.
Variable T : Type.
Variable tuner0 : T.
Variable tuner_update : metrics -> Z -> T -> T * bool.
Variable tuner_advance : Z -> T -> T.
Variable tuner_fetch : T -> T * option Z.
(** [ResamplerReader::set_scaling]: which factors it takes; [one] is 1.0. *)
Variable scaling_ok : Z -> bool.
Variable one : Z.
(** The profile is other than intact (latency_monitor.cpp:34); the format of packets. *)
Variable scaling : bool.
Variable sp : spec.

(** latency_monitor.h: the fields. *)
Record monitor := mkMon {
  alive : bool; capture : Z; lat : metrics; link : Z; tuner : T }.

(** latency_monitor.cpp:20-51, 188-197: the constructor, for a valid tuner; None if the
    monitor is not valid. *)
Definition lm_new : option (monitor * list effect) :=
  let s := mkMon true 0 (mkMetrics 0 0 0) 0 tuner0 in
  if scaling then if scaling_ok one then Some (s, [EScale one]) else None
  else Some (s, []).

(** latency_monitor.cpp:130-163: [compute_niq_latency_]. *)
Definition lm_niq (m : metrics) (v : view) : res metrics :=
  match v_next v with
  | None => Ok m
  | Some head =>
      match v_latest v with
      | None => Ok m
      | Some (ts, dur, rts) =>
          let tail := u32 (ts + dur) in
          n <- stream_timestamp_delta_2_ns sp (stream_timestamp_diff tail head) ;;
          if (0 <? rts) && (rts <? v_now v) then
            st <- ns_arith (v_now v - rts) ;; Ok (mkMetrics n st (m_e2e m))
          else Ok (mkMetrics n (m_stall m) (m_e2e m))
      end
  end.

(** latency_monitor.cpp:180-186: [query_link_meter_]. *)
Definition lm_link (old : Z) (v : view) : Z := match v_link v with Some l => l | None => old end.

(** latency_monitor.cpp:199-213: [update_scaling_]. *)
Definition lm_scale (t : T) : T * bool * list effect :=
  let '(t', f) := tuner_fetch t in
  match f with
  | None => (t', true, [])
  | Some x => (t', scaling_ok x, [EScale x])
  end.

(** latency_monitor.cpp:104-120: [pre_process_]. *)
Definition lm_pre (m : metrics) (l : Z) (t : T) : T * bool * list effect :=
  let '(t1, ok) := tuner_update m l t in
  if negb ok then (t1, false, [EFeed m l])
  else if scaling then
    let '(t2, ok2, e) := lm_scale t1 in (t2, ok2, EFeed m l :: e)
  else (t1, true, [EFeed m l]).

(** latency_monitor.cpp:69-92, 122-128: [read] and [post_process_]. *)
Definition lm_read (s : monitor) (v : view) : res (monitor * bool * list effect) :=
  if negb (alive s) then Ok (s, false, [])
  else
    m <- lm_niq (lat s) v ;;
    let l := lm_link (link s) v in
    let '(t, ok, e) := lm_pre m l (tuner s) in
    if negb ok then Ok (mkMon false (capture s) m l t, false, e)
    else
      match v_frame v with
      | None => Ok (mkMon true (capture s) m l t, false, e ++ [EPull])
      | Some (cts, dur) =>
          Ok (mkMon true cts m l (tuner_advance dur t), true, e ++ [EPull; EAdvance dur])
      end.

(** latency_monitor.cpp:94-102, 165-178: [reclock] and [compute_e2e_latency_]. *)
Definition lm_reclock (s : monitor) (t : Z) : res monitor :=
  if capture s =? 0 then Ok s
  else if t <=? 0 then Ok s
  else
    d <- ns_arith (t - capture s) ;;
    Ok (mkMon (alive s) (capture s) (mkMetrics (m_niq (lat s)) (m_stall (lat s)) d) (link s) (tuner s)).

Definition lm_step (s : monitor) (e : event) : res (monitor * bool * list effect) :=
  match e with
  | Read v => lm_read s v
  | Reclock t => s' <- lm_reclock s t ;; Ok (s', true, [])
  end.

(** A history of calls, with what each returned and caused. *)
Fixpoint lm_run (s : monitor) (evs : list event) : res (monitor * list (event * bool * list effect)) :=
  match evs with
  | [] => Ok (s, [])
  | e :: t =>
      r <- lm_step s e ;;
      let '(s', b, fx) := r in
      q <- lm_run s' t ;;
      Ok (fst q, (e, b, fx) :: snd q)
  end.

End Monitor.
