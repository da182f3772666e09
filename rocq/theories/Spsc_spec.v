(** Observations of the producer and of the consumer. *)
From Verif Require Import Base Spsc_model.

Definition pushed (outs : list srout) : list Z := flat_map (fun o => match o with RPush v true => [v] | _ => [] end) outs.
Definition popped (outs : list srout) : list Z := flat_map (fun o => match o with RPop (Some v) => [v] | _ => [] end) outs.
Definition push_calls (ls : list slabel) : Z := Z.of_nat (length (filter (fun l => match l with LPush _ => true | _ => false end) ls)).

(** Positions are 32-bit: chunk numbers stay cyclic if the number of chunks
    divides 2^32, or if the buffer is used for fewer than 2^32 - 1 pushes. *)
Definition positions_ok (n pushes : Z) : Prop := (n + 1 | 2 ^ 32) \/ pushes < 2 ^ 32 - 1.
