(* Durations, exactly. *)
From Coq Require Import Reals ZArith.
Local Open Scope R_scope.

(* How many samples of one channel a duration of [ns] nanoseconds is. *)
Definition exact_samples (ns rate : Z) : R := IZR ns * IZR rate / 1000000000.
(* How many nanoseconds [n] samples of one channel last. *)
Definition exact_ns (n rate : Z) : R := IZR n * 1000000000 / IZR rate.

(* [r] is [x] to within one part in 2^22 (0.24 millionths) and half a unit. *)
Definition close (r : Z) (x : R) : Prop := Rabs (IZR r - x) <= Rabs x / 4194304 + 1 / 2.
