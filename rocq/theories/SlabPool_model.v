(** Model of roc_core/slab_pool_impl.cpp and memory_ops.cpp on a 64-bit target
    (AlignMax 8 bytes, SlotHeader 8, Slot and Slab 24). Every public call holds
    the mutex or works on memory owned by the caller, so calls are atomic.
    Memory is split in two maps: [sp_owner] gives the first word of a slot
    (SlotHeader::owner, or a list link when the slot is free: links are never
    the address of the pool object), [sp_bytes] the bytes.
    size_t overflow is not modelled. *)
From Verif Require Import Base Align_model.
Open Scope res_scope.

Definition self : Z := 1.  (* the pool's address, as a token *)
Definition canary_byte : Z := 0x7b.

Record sp_conf := mkSc { sc_obj : Z; sc_max_bytes : Z; sc_overflow_guard : bool; sc_ownership_guard : bool }.

Record sp := mkSp {
  sp_free : list Z;              (* free_slots_: slot addresses *)
  sp_used : Z;                   (* n_used_slots_ *)
  sp_slabs : list (Z * Z);       (* slabs_: address, size in bytes *)
  sp_cur : Z;                    (* slab_cur_slots_ *)
  sp_fails : Z;                  (* num_guard_failures_ *)
  sp_owner : Z -> Z;
  sp_bytes : Z -> Z }.

(** slab_pool_impl.cpp:21-29 *)
Definition clamp (value lower upper : Z) : Z :=
  let value := if (value <? lower) && negb (lower =? 0) then lower else value in
  if (upper <? value) && negb (upper =? 0) then upper else value.

(** slab_pool_impl.cpp:46-49 *)
Definition unaligned_slot_size (obj : Z) : Z := 8 + 8 + obj + 8.
Definition slot_size (obj : Z) : Z := align_as (Z.max 24 (unaligned_slot_size obj)) 8.
Definition slab_hdr_size : Z := 24.

(** slab_pool_impl.cpp:293-310 *)
Definition slots_per_slab (obj size : Z) (round_up : bool) : Z :=
  if size <? slab_hdr_size then 1
  else if size - slab_hdr_size <? slot_size obj then 1
  else ((size - slab_hdr_size) + (if round_up then slot_size obj - 1 else 0)) / slot_size obj.
Definition slot_offset (obj i : Z) : Z := slab_hdr_size + i * slot_size obj.

Definition max_slots (c : sp_conf) : Z :=
  if sc_max_bytes c =? 0 then 0 else slots_per_slab (sc_obj c) (sc_max_bytes c) false.

Fixpoint zseq (n : nat) : list Z := match n with O => [] | S k => zseq k ++ [Z.of_nat k] end.

Definition fill (f : Z -> Z) (lo n v : Z) : Z -> Z := fun x => if (lo <=? x) && (x <? lo + n) then v else f x.

(** slab_pool_impl.cpp:33-71, 280-291; [pre]: address of the preallocated
    memory, of size [pre_size]. Constructing a Slot writes its first word and
    leaves the other bytes meaningless. *)
Definition sp_new (c : sp_conf) (min_bytes pre pre_size : Z) : res sp :=
  let smin := clamp min_bytes pre_size (sc_max_bytes c) in
  let cur := if smin =? 0 then 1 else slots_per_slab (sc_obj c) smin true in
  if negb (0 <? cur) then Panic
  else if negb ((cur <=? max_slots c) || (max_slots c =? 0)) then Panic
  else if 0 <? pre_size then
    if pre =? 0 then Panic
    else
      let n := pre_size / slot_size (sc_obj c) in
      Ok (mkSp (map (fun i => pre + i * slot_size (sc_obj c)) (zseq (Z.to_nat n))) 0 [] cur 0 (fun _ => 0) (fun _ => 0))
  else Ok (mkSp [] 0 [] cur 0 (fun _ => 0) (fun _ => 0)).

(** slab_pool_impl.cpp:226-239 *)
Fixpoint increase_loop (fuel : nat) (maxs cur desired : Z) : Z :=
  match fuel with
  | O => cur
  | S fuel' =>
      if cur <? desired then
        let cur := cur * 2 in
        if (maxs <? cur) && negb (maxs =? 0) then maxs else increase_loop fuel' maxs cur desired
      else cur
  end.
Definition increase_slab_size (c : sp_conf) (cur desired : Z) : Z :=
  let desired := if (max_slots c <? desired) && negb (max_slots c =? 0) then max_slots c else desired in
  increase_loop 64 (max_slots c) cur desired.

(** slab_pool_impl.cpp:241-259; [ans]: the arena's answer. Building the slab
    and its slots overwrites the new memory only. *)
Definition slab_bytes (c : sp_conf) (s : sp) : Z := slot_offset (sc_obj c) (sp_cur s).
Definition allocate_new_slab (c : sp_conf) (s : sp) (ans : option Z) : bool * sp :=
  match ans with
  | None => (false, s)
  | Some a =>
      let size := slab_bytes c s in
      (true, mkSp (sp_free s ++ map (fun i => a + slot_offset (sc_obj c) i) (zseq (Z.to_nat (sp_cur s)))) (sp_used s)
               (sp_slabs s ++ [(a, size)]) (increase_slab_size c (sp_cur s) (sp_cur s * 2)) (sp_fails s)
               (fill (sp_owner s) a size 0) (fill (sp_bytes s) a size 0))
  end.

(** slab_pool_impl.cpp:83-97, 189-201 and 133-149 *)
Definition sp_allocate (c : sp_conf) (s : sp) (ans : option Z) : option Z * sp :=
  let s := match sp_free s with [] => snd (allocate_new_slab c s ans) | _ => s end in
  match sp_free s with
  | [] => (None, s)
  | a :: free =>
      let p := a + 16 in
      let obj := sc_obj c in
      let pad := slot_size obj - unaligned_slot_size obj in
      let bytes := fill (sp_bytes s) (a + 8) 8 canary_byte in
      let bytes := fill bytes p obj 0x7a in
      let bytes := fill bytes (p + obj) (pad + 8) canary_byte in
      (Some p, mkSp free (sp_used s + 1) (sp_slabs s) (sp_cur s) (sp_fails s) (fill (sp_owner s) a 1 self) bytes)
  end.

(** memory_ops.cpp:50-67 *)
Definition check_canary (f : Z -> Z) (lo n : Z) : bool :=
  forallb (fun i => f (lo + i) =? canary_byte) (zseq (Z.to_nat n)).

(** slab_pool_impl.cpp:99-115, 151-187, 203-210, 312-315 *)
Definition sp_deallocate (c : sp_conf) (s : sp) (p : Z) : res sp :=
  if p =? 0 then Panic
  else
    let a := p - 16 in
    let obj := sc_obj c in
    let pad := slot_size obj - unaligned_slot_size obj in
    if negb (sp_owner s a =? self) then
      if sc_ownership_guard c then Panic
      else Ok (mkSp (sp_free s) (sp_used s) (sp_slabs s) (sp_cur s) (sp_fails s + 1) (sp_owner s) (sp_bytes s))
    else
      let intact := check_canary (sp_bytes s) (a + 8) 8 && check_canary (sp_bytes s) (p + obj) (pad + 8) in
      if negb intact && sc_overflow_guard c then Panic
      else
        let fails := if intact then sp_fails s else sp_fails s + 1 in
        let bytes := fill (fill (sp_bytes s) p obj 0x7d) (a + 8) 16 0 in
        if sp_used s =? 0 then Panic
        else Ok (mkSp (a :: sp_free s) (sp_used s - 1) (sp_slabs s) (sp_cur s) fails (fill (sp_owner s) a 1 0) bytes).

(** slab_pool_impl.cpp:77-81, 212-224; [anss]: the arena's answers, a failure
    when used up. *)
Definition nfree (s : sp) : Z := Z.of_nat (length (sp_free s)).
Fixpoint reserve_loop (c : sp_conf) (s : sp) (desired : Z) (anss : list (option Z)) : bool * sp :=
  match anss with
  | [] => (false, s)
  | ans :: anss' =>
      let '(ok, s) := allocate_new_slab c s ans in
      if negb ok then (false, s)
      else if nfree s <? desired then reserve_loop c s desired anss' else (true, s)
  end.
Definition sp_reserve (c : sp_conf) (s : sp) (desired : Z) (anss : list (option Z)) : bool * sp :=
  if nfree s <? desired then
    let s := mkSp (sp_free s) (sp_used s) (sp_slabs s) (increase_slab_size c (sp_cur s) (desired - nfree s))
                  (sp_fails s) (sp_owner s) (sp_bytes s) in
    reserve_loop c s desired anss
  else (true, s).

(** slab_pool_impl.cpp:73-75, 261-278; the blocks given back to the arena. *)
Definition sp_destroy (leak_guard : bool) (s : sp) : res (list Z) :=
  if negb (sp_used s =? 0) && leak_guard then Panic else Ok (map fst (sp_slabs s)).

(** Calls by users; [SWrite]: a user stores a byte. *)
Inductive sop := SAlloc (ans : option Z) | SFree (p : Z) | SReserve (n : Z) (anss : list (option Z)) | SWrite (x b : Z).
Inductive sout := OPtr (p : option Z) | OUnit | OBool (b : bool).
Definition sp_step (c : sp_conf) (s : sp) (o : sop) : res (sout * sp) :=
  match o with
  | SAlloc ans => let '(p, s) := sp_allocate c s ans in Ok (OPtr p, s)
  | SFree p => s <- sp_deallocate c s p ;; Ok (OUnit, s)
  | SReserve n anss => let '(b, s) := sp_reserve c s n anss in Ok (OBool b, s)
  | SWrite x b => Ok (OUnit, mkSp (sp_free s) (sp_used s) (sp_slabs s) (sp_cur s) (sp_fails s) (sp_owner s) (fill (sp_bytes s) x 1 b))
  end.
Fixpoint sp_run (c : sp_conf) (s : sp) (ops : list sop) : res (list sout * sp) :=
  match ops with
  | [] => Ok ([], s)
  | o :: ops' => r <- sp_step c s o ;; r' <- sp_run c (snd r) ops' ;; Ok (fst r :: fst r', snd r')
  end.
