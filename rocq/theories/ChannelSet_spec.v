(** Specification vocabulary for channel sets (C37). *)
From Verif Require Import Base ChannelSet_model.

(** Sets that a program can obtain through the API. *)
Inductive built : chset -> Prop :=
| b_empty : built ch_empty
| b_make l o mask s : 0 <= mask < 2 ^ 32 -> ch_make l o mask = Ok s -> built s
| b_layout s l s' : built s -> ch_set_layout s l = Ok s' -> built s'
| b_order s o : built s -> built (ch_set_order s o)
| b_mask s mask : built s -> 0 <= mask < 2 ^ 32 -> built (ch_set_mask s mask)
| b_range s from to s' : built s -> 0 <= from -> 0 <= to -> ch_set_range s from to = Ok s' -> built s'
| b_count s n s' : built s -> 0 <= n -> ch_set_count s n = Ok s' -> built s'
| b_toggle s n e s' : built s -> 0 <= n -> ch_toggle s n e = Ok s' -> built s'
| b_toggle_range s from to e s' : built s -> 0 <= from -> 0 <= to -> ch_toggle_range s from to e = Ok s' -> built s'
| b_and s o : built s -> built o -> built (ch_and s o)
| b_or s o : built s -> built o -> built (ch_or s o)
| b_xor s o : built s -> built o -> built (ch_xor s o).

(** Membership, as has_channel() reports it. *)
Definition mem (s : chset) (c : Z) : bool := match has_channel s c with Ok b => b | _ => false end.
(** The members in ascending order. *)
Definition members (s : chset) : list Z := filter (mem s) (map Z.of_nat (seq 0 (Z.to_nat 1024))).
(** Membership in a 32-bit mask. *)
Definition in_mask (mask c : Z) : bool := Z.testbit mask c.
