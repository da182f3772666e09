(* Model of the conversions between durations in nanoseconds, samples, stream
   timestamps and bytes: roc_audio/sample_spec.cpp:21-63, 212-370 and
   roc_packet/units.cpp:16-55.

   float is IEEE 754 single precision, rounded to nearest even after every
   operation (FLT_EVAL_METHOD 0); roundf() rounds half away from zero; converting
   a float that does not fit into an integer type is undefined behaviour. *)
From Coq Require Import Reals ZArith List Bool Lia.
From Flocq Require Import Core.Core IEEE754.BinarySingleNaN.
From Verif Require Import Base Float32.
Local Open Scope Z_scope.
Local Open Scope res_scope.

(* roc_core/time.h:70 *)
Definition second : Z := 1000000000.

(* Integer types: least and greatest value *)
Record ity := mkT { t_min : Z; t_max : Z }.
Definition size_ty : ity := mkT 0 (2 ^ 64 - 1).          (* size_t *)
Definition ts_ty : ity := mkT 0 (2 ^ 32 - 1).            (* stream_timestamp_t *)
Definition diff_ty : ity := mkT (- 2 ^ 31) (2 ^ 31 - 1). (* stream_timestamp_diff_t *)
Definition ns_ty : ity := mkT (- 2 ^ 63) (2 ^ 63 - 1).   (* nanoseconds_t *)

(* roundf() *)
Definition f32_round (x : f32) : f32 := Bnearbyint mode_NA x.
(* x <= y *)
Definition f32_le (x y : f32) : bool := Bleb x y.
(* (T)x *)
Definition to_int (t : ity) (x : f32) : res Z :=
  if f32_fin x && (t_min t <=? Btrunc x) && (Btrunc x <=? t_max t) then Ok (Btrunc x) else UB.
(* a * b in T: wraps if T is unsigned *)
Definition int_mul (t : ity) (a b : Z) : res Z :=
  if (t_min t <=? a * b) && (a * b <=? t_max t) then Ok (a * b)
  else if t_min t <? 0 then UB else Ok ((a * b) mod (t_max t + 1)).

(* sample_spec.cpp:21-23: ns_2_fract_samples *)
Definition ns_2_fract_samples (ns rate : Z) : f32 :=
  f32_round (f32_mul (f32_div (f32_of_Z ns) (f32_of_Z second)) (f32_of_Z rate)).

(* sample_spec.cpp:25-46: ns_2_int_samples<T> *)
Definition ns_2_int_samples (t : ity) (ns rate mul : Z) : res Z :=
  let val := ns_2_fract_samples ns rate in
  if f32_le (f32_mul val (f32_of_Z mul)) (f32_of_Z (t_min t)) then Ok (Z.quot (t_min t) mul * mul)
  else if f32_le (f32_of_Z (t_max t)) (f32_mul val (f32_of_Z mul)) then Ok (Z.quot (t_max t) mul * mul)
  else v <- to_int t val ;; int_mul t v mul.

(* sample_spec.cpp:48-63: nsamples_2_ns *)
Definition nsamples_2_ns (n : f32) (rate : Z) : res Z :=
  let val := f32_round (f32_mul (f32_div n (f32_of_Z rate)) (f32_of_Z second)) in
  if f32_le val (f32_of_Z (t_min ns_ty)) then Ok (t_min ns_ty)
  else if f32_le (f32_of_Z (t_max ns_ty)) val then Ok (t_max ns_ty)
  else to_int ns_ty val.

(* A valid sample specification: sample rate and number of channels are not
   zero, is_valid(), sample_spec.cpp:139-157; sample width in bits *)
Record spec := mkSpec { s_rate : Z; s_chans : Z; s_width : Z }.

(* sample_spec.cpp:217-224 *)
Definition ns_2_samples_per_chan (s : spec) (ns : Z) : res Z :=
  if ns <? 0 then Panic else ns_2_int_samples size_ty ns (s_rate s) 1.
(* 226-231 *)
Definition samples_per_chan_2_ns (s : spec) (n : Z) : res Z := nsamples_2_ns (f32_of_Z n) (s_rate s).
(* 240-247 *)
Definition ns_2_samples_overall (s : spec) (ns : Z) : res Z :=
  if ns <? 0 then Panic else ns_2_int_samples size_ty ns (s_rate s) (s_chans s).
(* 249-257 *)
Definition samples_overall_2_ns (s : spec) (n : Z) : res Z :=
  if negb (n mod s_chans s =? 0) then Panic
  else nsamples_2_ns (f32_div (f32_of_Z n) (f32_of_Z (s_chans s))) (s_rate s).
(* 266-274 *)
Definition ns_2_stream_timestamp (s : spec) (ns : Z) : res Z :=
  if ns <? 0 then Panic else ns_2_int_samples ts_ty ns (s_rate s) 1.
(* 276-282 *)
Definition stream_timestamp_2_ns (s : spec) (ts : Z) : res Z := nsamples_2_ns (f32_of_Z ts) (s_rate s).
(* 288-294 *)
Definition ns_2_stream_timestamp_delta (s : spec) (ns : Z) : res Z :=
  ns_2_int_samples diff_ty ns (s_rate s) 1.
(* 296-302 *)
Definition stream_timestamp_delta_2_ns (s : spec) (ts : Z) : res Z :=
  nsamples_2_ns (f32_of_Z ts) (s_rate s).
(* 309-322 *)
Definition bytes_2_stream_timestamp (s : spec) (n : Z) : res Z :=
  if negb (s_width s mod 8 =? 0) then Panic
  else Ok ((n / (s_width s / 8) / s_chans s) mod 2 ^ 32).
(* 324-337 *)
Definition stream_timestamp_2_bytes (s : spec) (ts : Z) : res Z :=
  if negb (s_width s mod 8 =? 0) then Panic
  else Ok ((ts * (s_width s / 8) * s_chans s) mod 2 ^ 64).
(* 339-341 *)
Definition bytes_2_ns (s : spec) (n : Z) : res Z :=
  t <- bytes_2_stream_timestamp s n ;; stream_timestamp_2_ns s t.
(* 343-345 *)
Definition ns_2_bytes (s : spec) (ns : Z) : res Z :=
  t <- ns_2_stream_timestamp s ns ;; stream_timestamp_2_bytes s t.

(* std::min, std::max *)
Definition f32_min (x y : f32) : f32 := if f32_lt y x then y else x.
Definition f32_max (x y : f32) : f32 := if f32_lt x y then y else x.

(* roc_packet/units.cpp:16-27 *)
Definition u_ns_2_stream_timestamp (ns rate : Z) : res Z :=
  if ns <? 0 then Panic else if rate =? 0 then Panic else
  let ts := f32_round (f32_mul (f32_div (f32_of_Z ns) (f32_of_Z second)) (f32_of_Z rate)) in
  to_int ts_ty (f32_max (f32_min ts (f32_of_Z (t_max ts_ty))) (f32_of_Z (t_min ts_ty))).
(* units.cpp:29-34, 48-53 *)
Definition u_stream_timestamp_2_ns (ts rate : Z) : res Z :=
  if rate =? 0 then Panic else
  to_int ns_ty (f32_round (f32_mul (f32_div (f32_of_Z ts) (f32_of_Z rate)) (f32_of_Z second))).
(* units.cpp:36-46 *)
Definition u_ns_2_stream_timestamp_delta (ns rate : Z) : res Z :=
  if rate =? 0 then Panic else
  let ts := f32_round (f32_mul (f32_div (f32_of_Z ns) (f32_of_Z second)) (f32_of_Z rate)) in
  to_int diff_ty (f32_max (f32_min ts (f32_of_Z (t_max diff_ty))) (f32_of_Z (t_min diff_ty))).
