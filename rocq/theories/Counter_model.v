(** Model of roc_rtcp/packet_counter.cpp (PacketCounter). *)
From Verif Require Import Base.

(** packet_counter.h:34-41 *)
Record pc := mkPc { pc_first : bool; pc_begin : Z; pc_hi : Z; pc_lo : Z; pc_counter : Z }.

(** packet_counter.cpp:14-20 *)
Definition pc_init : pc := mkPc true 0 0 0 0.

(** packet_counter.cpp:22-45. [(uint32_t)-1] is 4294967295. *)
Definition pc_update (s : pc) (b e : Z) : pc :=
  let reset := pc_first s || negb (b =? pc_begin s) in
  let bg := if reset then b else pc_begin s in
  let hi := if reset then 0 else pc_hi s in
  let lo := if reset then e else pc_lo s in
  let fwd := 0 <? s32 (u32 (e - lo)) in
  let hi := if fwd && (e <? lo) then u64 (hi + 4294967295) else hi in
  let lo := if fwd then e else lo in
  let cnt := if bg <=? u64 (hi + lo) then u64 (u64 (hi + lo) - bg) else pc_counter s in
  mkPc false bg hi lo cnt.

(** Calls of update with the same begin; the result of the last one. *)
Definition pc_run (b : Z) (es : list Z) : Z :=
  pc_counter (fold_left (fun s e => pc_update s b e) es pc_init).
