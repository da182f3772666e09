(** Model of roc_core/rate_limiter.cpp (RateLimiter) over roc_core/ticker.cpp. *)
From Verif Require Import Base.

(** rate_limiter.h:36-38 and ticker.h:45-47: period_, pos_, and the ticker's
    start time once started. *)
Record rl := mkRl { rl_period : Z; rl_pos : Z; rl_start : option Z }.

(** rate_limiter.cpp:14-21; the constructor panics unless period > 0. *)
Definition rl_new (period : Z) : res rl :=
  if period <=? 0 then Panic else Ok (mkRl period 0 None).

(** ticker.cpp:28-35 at time [now] of the monotonic clock. The ticker frequency
    is Second / Nanosecond = 10^9, so [ratio_] is exactly 1.0; the conversion
    through double is exact for elapsed times below 2^53 ns (104 days), which
    is the range this model covers. *)
Definition rl_elapsed (s : rl) (now : Z) : rl * Z :=
  match rl_start s with
  | None => (mkRl (rl_period s) (rl_pos s) (Some now), 0)
  | Some t => (s, now - t)
  end.

(** rate_limiter.cpp:23-25 *)
Definition rl_would_allow (s : rl) (now : Z) : rl * bool :=
  let '(s, e) := rl_elapsed s now in (s, rl_pos s <=? e).

(** rate_limiter.cpp:27-35; ticks_t is uint64_t. *)
Definition rl_allow (s : rl) (now : Z) : rl * bool :=
  let '(s, e) := rl_elapsed s now in
  if rl_pos s <=? e
  then (mkRl (rl_period s) (u64 (u64 (e / rl_period s + 1) * rl_period s)) (rl_start s), true)
  else (s, false).

(** Calls of allow() at the given times: the answers. *)
Fixpoint rl_run (s : rl) (ts : list Z) : list bool :=
  match ts with
  | [] => []
  | t :: ts' => let '(s', b) := rl_allow s t in b :: rl_run s' ts'
  end.
