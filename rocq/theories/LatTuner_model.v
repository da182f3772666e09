(* Model of the latency tuner: roc_audio/latency_tuner.cpp:18-431 and
   latency_tuner.h:24-300.

   The frequency estimator (freq_estimator.cpp) is a parameter: a type of states
   [F], its update with one measured latency and the coefficient it offers.
   Its own code is modelled in FreqEst_model.v.  Logging is left out, except for
   the loop that decides when to log, because that loop can fail to end.
   Jitter is only logged and is left out. *)
From Coq Require Import ZArith List Bool Lia.
From Flocq Require Import Core.Core IEEE754.BinarySingleNaN.
From Verif Require Import Base Float32 TimeConv_model.
Import ListNotations.
Local Open Scope Z_scope.
Local Open Scope res_scope.

(* latency_tuner.h:27-41 *)
Inductive backend := BDefault | BNiq | BE2e.
(* latency_tuner.h:44-66 *)
Inductive profile := PDefault | PIntact | PResponsive | PGradual.

Definition is_intact (p : profile) : bool := match p with PIntact => true | _ => false end.

(* latency_tuner.h:69-146: LatencyConfig *)
Record lat_cfg := mkCfg {
  lc_backend : backend;
  lc_profile : profile;
  lc_target : Z;       (* target_latency *)
  lc_tol : Z;          (* latency_tolerance *)
  lc_stale : Z;        (* stale_tolerance *)
  lc_sint : Z;         (* scaling_interval *)
  lc_stol : f32        (* scaling_tolerance *)
}.

(* roc_core/time.h:61 *)
Definition millisecond : Z := 1000000.
(* 1.0f *)
Definition f32_one : f32 := f32_of_Z 1.
(* 0.005f is 0x3ba3d70a: 10737418 * 2^-31 *)
Definition f32_005 : f32 := f32_make 10737418 (-31).
(* x - y, x == y *)
Definition f32_sub (x y : f32) : f32 := Bminus mode_NE x y.
Definition f32_eq (x y : f32) : bool := Beqb x y.

(* latency_tuner.cpp:24-54: backend and profile *)
Definition deduced_backend (b : backend) : backend := match b with BDefault => BNiq | _ => b end.
Definition deduced_profile (recv : bool) (b : backend) (p : profile) (target : Z) : profile :=
  match p with
  | PDefault =>
      if recv then
        match b with
        | BNiq => if (0 <? target) && (target <? 30 * millisecond) then PResponsive else PGradual
        | _ => PResponsive
        end
      else PIntact
  | _ => p
  end.

(* latency_tuner.cpp:56-81: target latency *)
Definition deduced_target (def : Z) (recv : bool) (p : profile) (target : Z) : Z :=
  if target =? 0 then
    if recv then (if is_intact p then -1 else def)
    else (if is_intact p then target else -1)
  else target.

(* latency_tuner.cpp:24-138: LatencyConfig::deduce_defaults.  [logf m t] stands
   for the result of the floating point formula of lines 105-108 for the
   multiplier m and the floored target t, converted to nanoseconds. *)
Definition deduce (logf : Z -> Z -> Z) (def : Z) (recv : bool) (c : lat_cfg) : lat_cfg :=
  let b := deduced_backend (lc_backend c) in
  let p := deduced_profile recv b (lc_profile c) (lc_target c) in
  let target := deduced_target def recv p (lc_target c) in
  let tuning := negb (is_intact p) in
  let tol :=
    if tuning && (lc_tol c =? 0) then
      if 0 <? target then logf (if recv then 1 else 4) (Z.max target millisecond) else -1
    else lc_tol c in
  let sint := if tuning && (lc_sint c =? 0) then 5 * millisecond else lc_sint c in
  let stol := if tuning && f32_eq (lc_stol c) f32_zero then f32_005 else lc_stol c in
  let stale :=
    if negb (tol =? 0) && (lc_stale c =? 0) then
      if 0 <? target then Z.quot tol 4 else -1
    else lc_stale c in
  mkCfg b p target tol stale sint stol.

(* latency_tuner.h:219-299: the fields of LatencyTuner *)
Record tuner (F : Type) := mkTuner {
  t_pos : Z; t_sint : Z; t_spos : Z; t_rint : Z; t_rpos : Z;
  t_new : bool; t_coeff : f32; t_delta : f32;
  t_backend : backend; t_tuning : bool; t_bounds : bool;
  t_has_niq : bool; t_niq : Z; t_stall : Z; t_has_e2e : bool; t_e2e : Z;
  t_target : Z; t_minl : Z; t_maxl : Z; t_maxstall : Z;
  t_spec : spec; t_fe : F
}.
Arguments mkTuner {F}. Arguments t_pos {F}. Arguments t_sint {F}. Arguments t_spos {F}.
Arguments t_rint {F}. Arguments t_rpos {F}. Arguments t_new {F}. Arguments t_coeff {F}.
Arguments t_delta {F}. Arguments t_backend {F}. Arguments t_tuning {F}. Arguments t_bounds {F}.
Arguments t_has_niq {F}. Arguments t_niq {F}. Arguments t_stall {F}. Arguments t_has_e2e {F}.
Arguments t_e2e {F}. Arguments t_target {F}. Arguments t_minl {F}. Arguments t_maxl {F}.
Arguments t_maxstall {F}. Arguments t_spec {F}. Arguments t_fe {F}.

(* a + b, a - b as nanoseconds_t *)
Definition ns_arith (x : Z) : res Z := if (- 2 ^ 63 <=? x) && (x <? 2 ^ 63) then Ok x else UB.

(* latency_tuner.cpp:20: LogInterval *)
Definition log_interval : Z := 5 * second.

(* latency_tuner.cpp:140-258: the constructor; None if it is not valid.
   [mkfe target] makes the frequency estimator, lines 246-250. *)
Definition tuner_new {F} (mkfe : Z -> F) (c : lat_cfg) (sp : spec) : res (option (tuner F)) :=
  rint <- ns_2_stream_timestamp_delta sp log_interval ;;
  let tuning := negb (is_intact (lc_profile c)) in
  let bounds := negb (is_intact (lc_profile c)) || negb (lc_tol c =? 0) in
  let mk target minl maxl maxstall sint :=
    mkTuner 0 sint 0 rint 0 false f32_zero (lc_stol c) (lc_backend c) tuning bounds
            false 0 0 false 0 target minl maxl maxstall sp (mkfe target) in
  if lc_target c <? 0 then Ok None else
  if bounds || tuning then
    target <- ns_2_stream_timestamp_delta sp (lc_target c) ;;
    if (lc_target c <=? 0) || (target <=? 0) then Ok None else
    b <- (if bounds then
            lo <- ns_arith (lc_target c - lc_tol c) ;;
            minl <- ns_2_stream_timestamp_delta sp lo ;;
            hi <- ns_arith (lc_target c + lc_tol c) ;;
            maxl <- ns_2_stream_timestamp_delta sp hi ;;
            maxstall <- ns_2_stream_timestamp_delta sp (lc_stale c) ;;
            Ok (if lc_tol c <? 0 then None else Some (minl, maxl, maxstall))
          else Ok (Some (0, 0, 0))) ;;
    match b with
    | None => Ok None
    | Some (minl, maxl, maxstall) =>
        if tuning then
          sint <- ns_2_stream_timestamp_delta sp (lc_sint c) ;;
          if (lc_sint c <=? 0) || (sint <=? 0) then Ok None
          else if f32_le (lc_stol c) f32_zero then Ok None
          else Ok (Some (mk target minl maxl maxstall sint))
        else Ok (Some (mk target minl maxl maxstall 0))
    end
  else Ok (Some (mk 0 0 0 0 0)).

(* latency_tuner.h:148-176: LatencyMetrics, in nanoseconds *)
Record metrics := mkMetrics { m_niq : Z; m_stall : Z; m_e2e : Z }.

(* latency_tuner.cpp:264-287: write_metrics *)
Definition write_metrics {F} (t : tuner F) (m : metrics) : res (tuner F) :=
  a <- (if (0 <? m_niq m) || (0 <? m_stall m) || t_has_niq t then
          n <- ns_2_stream_timestamp_delta (t_spec t) (m_niq m) ;;
          s <- ns_2_stream_timestamp_delta (t_spec t) (m_stall m) ;; Ok (true, n, s)
        else Ok (false, t_niq t, t_stall t)) ;;
  e <- (if (0 <? m_e2e m) || t_has_e2e t then
          n <- ns_2_stream_timestamp_delta (t_spec t) (m_e2e m) ;; Ok (true, n)
        else Ok (false, t_e2e t)) ;;
  let '(hn, n, s) := a in
  let '(he, el) := e in
  Ok (mkTuner (t_pos t) (t_sint t) (t_spos t) (t_rint t) (t_rpos t) (t_new t) (t_coeff t) (t_delta t)
        (t_backend t) (t_tuning t) (t_bounds t) hn n s he el
        (t_target t) (t_minl t) (t_maxl t) (t_maxstall t) (t_spec t) (t_fe t)).

(* latency_tuner.cpp:345-387: check_bounds_ *)
Definition check_bounds {F} (t : tuner F) (latency : Z) : bool :=
  let is_stalling := match t_backend t with BNiq => true | _ => false end
                     && (t_maxstall t <? t_stall t) && (0 <? t_maxstall t) in
  if (latency <? t_minl t) && is_stalling then true
  else if (latency <? t_minl t) || (t_maxl t <? latency) then false
  else true.

(* latency_tuner.cpp:398-401: the loop of compute_scaling_; None if it has not
   ended after [fuel] rounds *)
Fixpoint scale_loop {F} (upd : F -> Z -> F) (fuel : nat) (pos spos sint latency : Z) (f : F) : option (Z * F) :=
  if pos <? spos then Some (spos, f) else
  match fuel with
  | O => None
  | S fuel => scale_loop upd fuel pos (Base.u32 (spos + sint)) sint latency (upd f latency)
  end.

(* latency_tuner.cpp:405-407: the coefficient is clamped, std::min and std::max *)
Definition clamp (coeff delta : f32) : f32 :=
  f32_max (f32_min coeff (f32_add f32_one delta)) (f32_sub f32_one delta).

(* latency_tuner.cpp:389-408: compute_scaling_ *)
Definition compute_scaling {F} (upd : F -> Z -> F) (coeff : F -> f32) (fuel : nat) (t : tuner F) (latency : Z) : option (tuner F) :=
  let latency := if latency <? 0 then 0 else latency in
  if t_pos t <? t_spos t then Some t else
  match scale_loop upd fuel (t_pos t) (t_spos t) (t_sint t) latency (t_fe t) with
  | None => None
  | Some (spos, f) =>
      Some (mkTuner (t_pos t) (t_sint t) spos (t_rint t) (t_rpos t) true (clamp (coeff f) (t_delta t)) (t_delta t)
        (t_backend t) (t_tuning t) (t_bounds t) (t_has_niq t) (t_niq t) (t_stall t) (t_has_e2e t) (t_e2e t)
        (t_target t) (t_minl t) (t_maxl t) (t_maxstall t) (t_spec t) f)
  end.

(* latency_tuner.cpp:289-324: update_stream; None if it has not returned *)
Definition update_stream {F} (upd : F -> Z -> F) (coeff : F -> f32) (fuel : nat) (t : tuner F) : option (bool * tuner F) :=
  let known := match t_backend t with BNiq => t_has_niq t | BE2e => t_has_e2e t | BDefault => true end in
  let latency := match t_backend t with BNiq => t_niq t | BE2e => t_e2e t | BDefault => 0 end in
  if negb known then Some (true, t) else
  if t_bounds t && negb (check_bounds t latency) then Some (false, t) else
  if t_tuning t then
    match compute_scaling upd coeff fuel t latency with
    | None => None
    | Some t' => Some (true, t')
    end
  else Some (true, t).

(* latency_tuner.cpp:326-332, 410-431: advance_stream and report_ *)
Definition advance_stream {F} (fuel : nat) (t : tuner F) (duration : Z) : option (tuner F) :=
  let pos := Base.u32 (t_pos t + duration) in
  match (if pos <? t_rpos t then Some (t_rpos t, tt)
         else scale_loop (fun (_ : unit) _ => tt) fuel pos (t_rpos t) (t_rint t) 0 tt) with
  | None => None
  | Some (rpos, _) =>
      Some (mkTuner pos (t_sint t) (t_spos t) (t_rint t) rpos (t_new t) (t_coeff t) (t_delta t)
        (t_backend t) (t_tuning t) (t_bounds t) (t_has_niq t) (t_niq t) (t_stall t) (t_has_e2e t) (t_e2e t)
        (t_target t) (t_minl t) (t_maxl t) (t_maxstall t) (t_spec t) (t_fe t))
  end.

(* latency_tuner.cpp:334-343: fetch_scaling *)
Definition fetch_scaling {F} (t : tuner F) : f32 * tuner F :=
  if t_new t then
    (t_coeff t,
     mkTuner (t_pos t) (t_sint t) (t_spos t) (t_rint t) (t_rpos t) false (t_coeff t) (t_delta t)
        (t_backend t) (t_tuning t) (t_bounds t) (t_has_niq t) (t_niq t) (t_stall t) (t_has_e2e t) (t_e2e t)
        (t_target t) (t_minl t) (t_maxl t) (t_maxstall t) (t_spec t) (t_fe t))
  else (f32_zero, t).

(* What callers do: latency_monitor.cpp and feedback_monitor.cpp *)
Inductive op := OMetrics (m : metrics) | OUpdate | OAdvance (duration : Z) | OFetch.
(* What they see *)
Inductive out := OutVerdict (b : bool) | OutScaling (x : f32) | OutNone.

(* One call; the option is None if it has not returned after [fuel] rounds of its loop *)
Definition step {F} (upd : F -> Z -> F) (coeff : F -> f32) (fuel : nat) (t : tuner F) (o : op) : res (option (out * tuner F)) :=
  match o with
  | OMetrics m => t' <- write_metrics t m ;; Ok (Some (OutNone, t'))
  | OUpdate => Ok (match update_stream upd coeff fuel t with Some (b, t') => Some (OutVerdict b, t') | None => None end)
  | OAdvance d => Ok (match advance_stream fuel t d with Some t' => Some (OutNone, t') | None => None end)
  | OFetch => let '(x, t') := fetch_scaling t in Ok (Some (OutScaling x, t'))
  end.

Fixpoint run {F} (upd : F -> Z -> F) (coeff : F -> f32) (fuel : nat) (t : tuner F) (ops : list op) : res (option (list out * tuner F)) :=
  match ops with
  | [] => Ok (Some ([], t))
  | o :: ops =>
      r <- step upd coeff fuel t o ;;
      match r with
      | None => Ok None
      | Some (x, t) =>
          q <- run upd coeff fuel t ops ;;
          match q with None => Ok None | Some (xs, t) => Ok (Some (x :: xs, t)) end
      end
  end.
