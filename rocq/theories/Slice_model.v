(** Model of roc_core/slice.h: a slice is a window of a buffer, given by its
    offset and size in elements.  [n] is the size of the whole buffer.  The
    reference to the buffer itself and its lifetime (BufferPtr) are modelled in
    RefCount_model.v, not here. *)
From Verif Require Import Base.
Local Open Scope nat_scope.

Record slice := mkSl { s_off : nat; s_size : nat }.

(** slice.h:65-74: the slice covering the whole buffer *)
Definition sl_full (n : nat) : slice := mkSl 0 n.

(** slice.h:114-120 *)
Definition sl_cap (n : nat) (s : slice) : nat := n - s_off s.

(** slice.h:126-141 *)
Definition sl_reslice (n : nat) (s : slice) (from to : nat) : res slice :=
  if to <? from then Panic
  else if sl_cap n s <? to then Panic
  else Ok (mkSl (s_off s + from) (to - from)).

(** slice.h:162-177 *)
Definition sl_sub (s : slice) (from to : nat) : res slice :=
  if to <? from then Panic
  else if s_size s <? to then Panic
  else Ok (mkSl (s_off s + from) (to - from)).

(** slice.h:190-199: operator[]; the bound check is [i > size_], so index
    [size_] is not caught and reads past the slice. *)
Definition sl_index {A} (mem : list A) (s : slice) (i : nat) : res A :=
  if s_size s <? i then Panic
  else if i <? s_size s then rd mem (s_off s + i) else UB.

(** Access through the raw pointer data(): UB outside the slice. *)
Definition sl_rd {A} (mem : list A) (s : slice) (i : nat) : res A :=
  if i <? s_size s then rd mem (s_off s + i) else UB.

(** The bytes of a slice. *)
Definition sl_bytes {A} (mem : list A) (s : slice) : list A :=
  firstn (s_size s) (skipn (s_off s) mem).

(** Store [bs] through data() starting at index [i] of the slice: UB if it does
    not fit in the slice. *)
Definition sl_put {A} (mem : list A) (s : slice) (i : nat) (bs : list A) : res (list A) :=
  if (i + length bs <=? s_size s) && (s_off s + s_size s <=? length mem) then
    Ok (firstn (s_off s + i) mem ++ bs ++ skipn (s_off s + i + length bs) mem)
  else UB.
