(** Model of roc_core/fast_random.cpp. *)
From Verif Require Import Base.
Open Scope res_scope.

(** fast_random.cpp:37-41: the output function applied to the value fetched
    from [rng_state]. *)
Definition mix (z : Z) : Z :=
  let z := Z.lxor z (Z.shiftr z 16) in
  let z := u32 (z * 0x21F0AAAD) in
  let z := Z.lxor z (Z.shiftr z 15) in
  let z := u32 (z * 0x735A2D97) in
  Z.lxor z (Z.shiftr z 15).

(** fast_random.cpp:27-43, one call: new state and result. [seed] is the clock
    value used if the state is zero. Concurrent callers each do one atomic
    fetch-and-add, so a concurrent history is some sequence of such calls. *)
Definition fast_random (st seed : Z) : Z * Z :=
  let st := if st =? 0 then u32 seed else st in
  (u32 (st + 0x9E3779B9), mix st).

(** [n] calls from a state that is not zero at any of them. *)
Fixpoint draws (n : nat) (st : Z) : list Z :=
  match n with
  | O => []
  | S m => let '(st', z) := fast_random st 0 in z :: draws m st'
  end.

(** One iteration of the loop fast_random.cpp:56-59 with output [z]:
    [Some r] when the loop ends. *)
Definition range_iter (range z : Z) : option Z :=
  let r := z mod range in
  if u64 (- range) <? u64 (z - r) then None else Some r.

(** fast_random.cpp:49-67 with [zs] the outputs of successive fast_random()
    calls; [None] means the loop has not ended after all of [zs]. *)
Fixpoint range_loop (range : Z) (zs : list Z) : option Z :=
  match zs with
  | [] => None
  | z :: zs' => match range_iter range z with Some r => Some r | None => range_loop range zs' end
  end.

Definition fast_random_range (from to : Z) (zs : list Z) : res (option Z) :=
  if negb (from <=? to) then Panic
  else
    let range := to - from + 1 in
    match range_loop range zs with
    | None => Ok None
    | Some r =>
        let ret := u32 (from + u32 r) in
        if negb (from <=? ret) then Panic
        else if negb (ret <=? to) then Panic
        else Ok (Some ret)
    end.
