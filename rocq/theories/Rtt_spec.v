(** Round trip times, from the times of the four events: our report leaves (t1),
    reaches the peer (t2), its reply leaves (t3), reaches us (t4); t1 and t4 on
    our clock, t2 and t3 on the clock of the peer. *)
From Coq Require Import ZArith List.
Local Open Scope Z_scope.

Record exchange := mkEx { t1 : Z; t2 : Z; t3 : Z; t4 : Z }.

(** time on the way, both ways *)
Definition on_the_way (e : exchange) : Z := (t4 e - t1 e) - (t3 e - t2 e).

(** times that can have been: no effect before its cause on the same clock *)
Definition plausible (e : exchange) : Prop := 0 < t1 e <= t4 e /\ t2 e <= t3 e /\ 0 <= on_the_way e.

(** times an NTP timestamp can express, less the greatest delay a report can describe *)
Definition ntp_time (t : Z) : Prop := -61505152000000000 - 65536000000000 <= t < 4233462144000000000.
Definition in_range (e : exchange) : Prop := ntp_time (t1 e) /\ ntp_time (t2 e) /\ ntp_time (t3 e) /\ ntp_time (t4 e).
