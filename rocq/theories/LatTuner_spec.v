(* What the latency tuner should do, told from the calls made to it. *)
From Coq Require Import ZArith List Bool.
From Verif Require Import Base Float32 TimeConv_model LatTuner_model.
Import ListNotations.
Local Open Scope Z_scope.

(* A duration in samples of one channel, as C55 describes *)
Definition smp (sp : spec) (ns : Z) : Z :=
  match ns_2_stream_timestamp_delta sp ns with Ok r => r | _ => 0 end.

(* The latency to be tuned and the stalling of the queue: the last ones
   reported, once anything positive was reported. *)
Definition known (b : backend) (h : list metrics) : option (Z * Z) :=
  let now := last h (mkMetrics 0 0 0) in
  match b with
  | BE2e => if existsb (fun m => 0 <? m_e2e m) h then Some (m_e2e now, 0) else None
  | _ => if existsb (fun m => (0 <? m_niq m) || (0 <? m_stall m)) h then Some (m_niq now, m_stall now) else None
  end.

Definition tuned (c : lat_cfg) : bool := negb (is_intact (lc_profile c)).
Definition bounded (c : lat_cfg) : bool := tuned c || negb (lc_tol c =? 0).

(* Is a latency acceptable?  It may be lower than the tolerance if no packets
   were coming for longer than the stale tolerance (if there is one). *)
Definition acceptable (c : lat_cfg) (sp : spec) (latency stalling : Z) : bool :=
  let lo := smp sp (lc_target c - lc_tol c) in
  let hi := smp sp (lc_target c + lc_tol c) in
  let stale := smp sp (lc_stale c) in
  (smp sp latency <=? hi) && ((lo <=? smp sp latency) || ((0 <? stale) && (stale <? smp sp stalling))).

(* What has happened: samples played, metrics reported, latencies (in samples)
   given to the estimator, and whether it was used since the last fetch *)
Record past := mkPast { p_total : Z; p_hist : list metrics; p_fed : list Z; p_fresh : bool }.
Definition start : past := mkPast 0 [] [] false.

(* One call: what it returns, and the past after it.  The estimator is given one
   latency at the start of the stream and one for every scaling interval. *)
Definition expect1 {F} (c : lat_cfg) (sp : spec) (f0 : F) (upd : F -> Z -> F) (coeff : F -> f32) (p : past) (o : op) : out * past :=
  match o with
  | OMetrics m => (OutNone, mkPast (p_total p) (p_hist p ++ [m]) (p_fed p) (p_fresh p))
  | OAdvance d => (OutNone, mkPast (p_total p + d) (p_hist p) (p_fed p) (p_fresh p))
  | OFetch =>
      (OutScaling (if p_fresh p then clamp (coeff (fold_left upd (p_fed p) f0)) (lc_stol c) else f32_zero),
       mkPast (p_total p) (p_hist p) (p_fed p) false)
  | OUpdate =>
      match known (lc_backend c) (p_hist p) with
      | None => (OutVerdict true, p)
      | Some (latency, stalling) =>
          if bounded c && negb (acceptable c sp latency stalling) then (OutVerdict false, p)
          else if tuned c then
            let due := (Z.to_nat (p_total p / smp sp (lc_sint c) + 1) - length (p_fed p))%nat in
            (OutVerdict true,
             mkPast (p_total p) (p_hist p) (p_fed p ++ repeat (Z.max 0 (smp sp latency)) due) (p_fresh p || (0 <? due)%nat))
          else (OutVerdict true, p)
      end
  end.

Fixpoint expect {F} (c : lat_cfg) (sp : spec) (f0 : F) (upd : F -> Z -> F) (coeff : F -> f32) (p : past) (ops : list op) : list out * past :=
  match ops with
  | [] => ([], p)
  | o :: ops =>
      let '(x, p) := expect1 c sp f0 upd coeff p o in
      let '(xs, p) := expect c sp f0 upd coeff p ops in
      (x :: xs, p)
  end.

(* Samples played by a list of calls *)
Fixpoint played (ops : list op) : Z :=
  match ops with
  | [] => 0
  | OAdvance d :: ops => d + played ops
  | _ :: ops => played ops
  end.

(* Metrics and durations that fit their types *)
Definition op_ok (o : op) : Prop :=
  match o with
  | OMetrics m => (- 2 ^ 63 <= m_niq m < 2 ^ 63) /\ (- 2 ^ 63 <= m_stall m < 2 ^ 63) /\ (- 2 ^ 63 <= m_e2e m < 2 ^ 63)
  | OAdvance d => 0 <= d < 2 ^ 32
  | _ => True
  end.
(* A configuration whose durations fit, with a definite backend, and whose
   bounds can be computed without overflow *)
Definition cfg_ok (c : lat_cfg) : Prop :=
  lc_backend c <> BDefault /\
  - 2 ^ 63 <= lc_target c < 2 ^ 63 /\ - 2 ^ 63 <= lc_tol c < 2 ^ 63 /\
  - 2 ^ 63 <= lc_stale c < 2 ^ 63 /\ - 2 ^ 63 <= lc_sint c < 2 ^ 63 /\
  - 2 ^ 63 <= lc_target c - lc_tol c < 2 ^ 63 /\ - 2 ^ 63 <= lc_target c + lc_tol c < 2 ^ 63.
