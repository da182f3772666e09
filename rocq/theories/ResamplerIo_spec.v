(* What comes out of a resampling reader or writer: one stream of output samples
   at consecutive times, no matter how it is cut into frames. *)
From Coq Require Import ZArith List Bool.
From Verif Require Import Base Float32 TimeConv_model Resampler_model Resampler_spec ResamplerIo_model.
Import ListNotations.
Local Open Scope Z_scope.

(* [n] output samples from time [t] on *)
Definition consecutive (t : Z) (p : params) (n : nat) : list (Z * params) :=
  map (fun j => (t + Z.of_nat j * p_dt p, p)) (seq 0 n).

(* scaling in effect after a request: a rejected one changes nothing *)
Definition rescale (c : cfg) (ir or : Z) (m : f32) (p : params) : params :=
  match set_scaling c ir or m with Ok (Some q) => q | _ => p end.

(* times of the samples of each read *)
Fixpoint read_times (c : cfg) (ir or : Z) (t : Z) (p : params) (os : list rop) : list (list (Z * params)) :=
  match os with
  | [] => []
  | RScale m :: os => read_times c ir or t (rescale c ir or m p) os
  | RRead n :: os => consecutive t p n :: read_times c ir or (t + Z.of_nat n * p_dt p) p os
  end.

(* number of input frames needed for an output sample at time [t]: the frame the
   time is in and the next one *)
Definition frames_needed (c : cfg) (t : Z) : Z := t / (c_frame c * unit) + 2.
Definition needed (c : cfg) (l : list (Z * params)) : Z := fold_right Z.max 0 (map (fun x => frames_needed c (fst x)) l).

(* number of steps of [dt] from [t] on that are before [limit] *)
Definition steps_before (limit t dt : Z) : nat := Z.to_nat ((limit - t + dt - 1) / dt).

(* times of the samples produced by each write; [total]: samples written before.
   All times are covered that are before the end of the last but one complete
   frame of the input without its last sample. *)
Fixpoint write_times (c : cfg) (ir or : Z) (t total : Z) (p : params) (os : list wop) : list (list (Z * params)) :=
  match os with
  | [] => []
  | WScale m :: os => write_times c ir or t total (rescale c ir or m p) os
  | WWrite m :: os =>
      let complete := (total + m - 1) / c_frame c in
      let n := if 3 <=? complete then steps_before ((complete - 1) * c_frame c * unit) t (p_dt p) else O in
      consecutive t p n :: write_times c ir or (t + Z.of_nat n * p_dt p) (total + m) p os
  end.

Definition outs_of (c : cfg) (l : list (list (Z * params))) : list (list (list term)) := map (outputs c) l.
