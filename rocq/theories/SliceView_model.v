(** Model of all of roc_core/slice.h: null slices, construction from a part of a buffer, extend(), and
    programs that work with any number of slices of one buffer.  Sizes are size_t: the sum in extend()
    wraps.  The reference to the buffer and its lifetime are modelled in RefCount_model.v. *)
From Verif Require Import Base Slice_model.
Local Open Scope nat_scope.
Open Scope res_scope.

(** slice.h:215-218: [None] is a slice without data (slice.h:58-62) *)
Definition view := option slice.

(** slice.h:65-74 for a buffer of [n] elements *)
Definition v_whole (n : nat) : view := Some (sl_full n).
(** slice.h:77-91 *)
Definition v_range (n from to : nat) : res view :=
  if to <? from then Panic
  else if n <? to then Panic
  else Ok (Some (mkSl from (to - from))).
(** slice.h:110-112 *)
Definition v_size (v : view) : nat := match v with None => 0 | Some s => s_size s end.
(** slice.h:115-121 *)
Definition v_cap (n : nat) (v : view) : nat := match v with None => 0 | Some s => sl_cap n s end.
(** slice.h:127-143 *)
Definition v_reslice (n : nat) (v : view) (from to : nat) : res view :=
  match v with
  | Some s => (w <- sl_reslice n s from to ;; Ok (Some w))
  | None => if to <? from then Panic else if 0 <? to then Panic else Ok None
  end.
(** slice.h:148-158; the sum is computed in 64 bits *)
Definition v_extend (n : nat) (v : view) (add : nat) : res view :=
  match v with
  | None => Panic
  | Some s => if add =? 0 then Panic else v_reslice n v 0 (Z.to_nat ((Z.of_nat (s_size s) + Z.of_nat add) mod 2 ^ 64))
  end.
(** slice.h:164-177; a part of a null slice is a null slice *)
Definition v_sub (v : view) (from to : nat) : res view :=
  match v with
  | Some s => (w <- sl_sub s from to ;; Ok (Some w))
  | None => if to <? from then Panic else if 0 <? to then Panic else Ok None
  end.
(** slice.h:190-199, reading and assigning through the reference *)
Definition v_get {A} (mem : list A) (v : view) (i : nat) : res A :=
  match v with None => Panic | Some s => sl_index mem s i end.
Definition v_set {A} (mem : list A) (v : view) (i : nat) (x : A) : res (list A) :=
  match v with
  | None => Panic
  | Some s => if s_size s <? i then Panic else if i <? s_size s then wr mem (s_off s + i) x else UB
  end.

(** Programs: slices are kept in numbered variables; each operation names the ones it reads, results go
    to a new variable, except for reslice and extend, which change theirs. *)
Inductive vop (A : Type) :=
| VNull | VWhole | VRange (a b : nat) | VCopy (i : nat) | VSub (i a b : nat)
| VReslice (i a b : nat) | VExtend (i k : nat) | VGet (i j : nat) | VSet (i j : nat) (x : A).
Arguments VNull {A}. Arguments VWhole {A}. Arguments VRange {A}. Arguments VCopy {A}. Arguments VSub {A}.
Arguments VReslice {A}. Arguments VExtend {A}. Arguments VGet {A}. Arguments VSet {A}.

Definition var (vs : list view) (i : nat) : view := nth i vs None.
Definition v_step {A} (st : list A * list view) (o : vop A) : res (list A * list view) :=
  (let '(mem, vs) := st in let n := length mem in
  match o with
  | VNull => Ok (mem, vs ++ [None])
  | VWhole => Ok (mem, vs ++ [v_whole n])
  | VRange a b => v <- v_range n a b ;; Ok (mem, vs ++ [v])
  | VCopy i => Ok (mem, vs ++ [var vs i])
  | VSub i a b => v <- v_sub (var vs i) a b ;; Ok (mem, vs ++ [v])
  | VReslice i a b => v <- v_reslice n (var vs i) a b ;; Ok (mem, upd vs i v)
  | VExtend i k => v <- v_extend n (var vs i) k ;; Ok (mem, upd vs i v)
  | VGet i j => _ <- v_get mem (var vs i) j ;; Ok (mem, vs)
  | VSet i j x => mem' <- v_set mem (var vs i) j x ;; Ok (mem', vs)
  end).
Fixpoint v_run {A} (st : list A * list view) (os : list (vop A)) : res (list A * list view) :=
  match os with [] => Ok st | o :: os' => (st' <- v_step st o ;; v_run st' os') end.
