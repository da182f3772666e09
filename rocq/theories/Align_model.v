(** Model of roc_core/align_ops.cpp with size_t arithmetic (64 bits). *)
From Verif Require Import Base.

(** align_ops.cpp:22-32 *)
Definition align_as (size alignment : Z) : Z :=
  if alignment =? 0 then size
  else if size mod alignment =? 0 then size
  else u64 (size + u64 (alignment - size mod alignment)).

(** align_ops.cpp:38-49 *)
Definition pad_as (size alignment : Z) : Z :=
  if alignment =? 0 then 0
  else
    let new_size := u64 (size / alignment * alignment) in
    let new_size := if new_size <? size then u64 (new_size + alignment) else new_size in
    u64 (new_size - size).

(** align_ops.cpp:14-20, 34-36; sizeof(AlignMax) is a platform parameter *)
Definition align_max (max_alignment size : Z) : Z := align_as size max_alignment.
Definition pad_max (max_alignment size : Z) : Z := pad_as size max_alignment.
