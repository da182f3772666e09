(** Model of the dynamic array [core::Array]
    (src/internal_modules/roc_core/array.h) together with the memory its
    elements live in.

    Memory is explicit: a block is a list of cells, a cell is either raw
    ([None]) or holds a constructed element ([Some v]).  Touching a cell outside
    its block or in a released block, reading or destroying a raw cell and
    constructing over a live element are all [UB].

    Simplifications: elements are values of an abstract type whose copy
    constructor copies the value; [sizeof(T)] is the parameter [sz]; the embedded
    storage is a block of [E] cells; logging is left out. *)
From Verif Require Import Base.
Local Open Scope res_scope.

Set Implicit Arguments.

(** A block of memory, in units of one element. *)
Definition block (V : Type) := list (option V).

(** Value of the pointer [data_] (array.h:311), NULL being [None]. *)
Inductive ptr := PEmb | PHeap (n : nat).

(** roc_core/array.h:311-317: the fields; [emb] is [embedded_data_], [hp] the
    blocks the arena has given out so far ([None]: given back).  [made] and
    [gone] count constructor and destructor calls and [copies] the copies made
    by [grow]; they are observers and do not exist in the source. *)
Record arr (V : Type) := MkArr {
  emb : block V;
  hp : list (option (block V));
  data : option ptr;
  size : Z;
  cap : Z;
  made : Z;
  gone : Z;
  copies : Z }.

Section Array.
Variable V : Type.
(** The value of [T()]. *)
Variable dflt : V.
(** [EmbeddedCapacity] (array.h:40). *)
Variable E : nat.
(** [sizeof(T)]. *)
Variable sz : Z.

Notation st := (arr V).

(** roc_core/array.h:45-50, aligned_storage.h:39-45: the constructor. *)
Definition fresh : st := MkArr (repeat None E) [] None 0 0 0 0 0.

(** The cells a pointer leads to, if its memory is (still) there.  Not in the
    source: the meaning of a pointer. *)
Definition cells (s : st) (p : ptr) : option (block V) :=
  match p with
  | PEmb => Some (emb s)
  | PHeap n => match nth_error (hp s) n with Some (Some b) => Some b | _ => None end
  end.

(** Store the cells back.  Not in the source: the meaning of a write. *)
Definition set_cells (s : st) (p : ptr) (b : block V) : st :=
  match p with
  | PEmb => MkArr b (hp s) (data s) (size s) (cap s) (made s) (gone s) (copies s)
  | PHeap n => MkArr (emb s) (upd (hp s) n (Some b)) (data s) (size s) (cap s)
                     (made s) (gone s) (copies s)
  end.

(** Access to cell [i] behind [p]: meaning of [p[i]] for a pointer [p]. *)
Definition cell (s : st) (p : ptr) (i : Z) : res (option V) :=
  match cells s p with
  | None => UB
  | Some b => if i <? 0 then UB else rd b (Z.to_nat i)
  end.

(** Change of cell [i] behind [p]. *)
Definition put (s : st) (p : ptr) (i : Z) (c : option V) : res st :=
  match cells s p with
  | None => UB
  | Some b => if (i <? 0) then UB else
              b' <- wr b (Z.to_nat i) c ;; Ok (set_cells s p b')
  end.

(** Lvalue-to-rvalue use of the element [p[i]]. *)
Definition get_at (s : st) (p : ptr) (i : Z) : res V :=
  c <- cell s p i ;; match c with Some v => Ok v | None => UB end.

(** [new (p + i) T(v)] (array.h:159, 191, 230). *)
Definition construct (s : st) (p : ptr) (i : Z) (v : V) : res st :=
  c <- cell s p i ;;
  match c with
  | Some _ => UB
  | None =>
      s' <- put s p i (Some v) ;;
      Ok (MkArr (emb s') (hp s') (data s') (size s') (cap s') (made s' + 1) (gone s')
                (copies s'))
  end.

(** [p[i].~T()] (array.h:174, 196, 235). *)
Definition destruct_at (s : st) (p : ptr) (i : Z) : res st :=
  c <- cell s p i ;;
  match c with
  | None => UB
  | Some _ =>
      s' <- put s p i None ;;
      Ok (MkArr (emb s') (hp s') (data s') (size s') (cap s') (made s') (gone s' + 1)
                (copies s'))
  end.

(** The pointer, or [UB] when NULL is used as one. *)
Definition deref (o : option ptr) : res ptr :=
  match o with Some p => Ok p | None => UB end.

(** roc_core/array.h:190-192: [for (n = from; n < from + cnt; n++)] construct
    default elements. *)
Fixpoint make_more (cnt : nat) (from : Z) (s : st) : res st :=
  match cnt with
  | O => Ok s
  | S c =>
      p <- deref (data s) ;;
      s' <- construct s p from dflt ;;
      make_more c (from + 1) s'
  end.

(** roc_core/array.h:195-197, 234-236: [for (n = to + cnt; n > to; n--)] destroy
    element [n - 1]. *)
Fixpoint destroy_down (cnt : nat) (to : Z) (s : st) : res st :=
  match cnt with
  | O => Ok s
  | S c =>
      p <- deref (data s) ;;
      s' <- destruct_at s p (to + Z.of_nat c) ;;
      destroy_down c to s'
  end.

(** roc_core/array.h:229-231: copy [cnt] elements, starting from index [n], to the
    new memory. *)
Fixpoint copy_up (cnt : nat) (n : Z) (np : ptr) (s : st) : res st :=
  match cnt with
  | O => Ok s
  | S c =>
      p <- deref (data s) ;;
      v <- get_at s p n ;;
      s' <- construct s np n v ;;
      copy_up c (n + 1) np
        (MkArr (emb s') (hp s') (data s') (size s') (cap s') (made s') (gone s')
               (copies s' + 1))
  end.

(** The arena gives no block larger than this many bytes (half of what a pointer
    difference can express); whether it gives a smaller one is up to the caller of
    the model. *)
Definition arena_max : Z := 2 ^ 62.

(** roc_core/array.h:269-287: [allocate_].  [ok] is whether the arena has memory.
    The product is computed in [size_t]; the block holds as many elements as the
    bytes asked for. *)
Definition allocate (ok : bool) (s : st) (n : Z) : option (ptr * st) :=
  if n <=? Z.of_nat E then Some (PEmb, s)
  else
    let bytes := u64 (n * sz) in
    if ok && (bytes <=? arena_max) then
      Some (PHeap (length (hp s)),
            MkArr (emb s) (hp s ++ [Some (repeat None (Z.to_nat (bytes / sz)))])
                  (data s) (size s) (cap s) (made s) (gone s) (copies s))
    else None.

(** roc_core/array.h:289-293: [deallocate_]; giving back what is not there is
    [UB] (heap_arena.cpp:78-126 cannot tell). *)
Definition deallocate (s : st) (p : ptr) : res st :=
  match p with
  | PEmb => Ok s
  | PHeap n =>
      match nth_error (hp s) n with
      | Some (Some _) => Ok (MkArr (emb s) (upd (hp s) n None) (data s) (size s) (cap s)
                                   (made s) (gone s) (copies s))
      | _ => UB
      end
  end.

(** Equality of pointers, for array.h:227. *)
Definition ptr_is (o : option ptr) (p : ptr) : bool :=
  match o, p with
  | Some PEmb, PEmb => true
  | Some (PHeap a), PHeap b => Nat.eqb a b
  | _, _ => false
  end.

Definition set_data (s : st) (p : ptr) : st :=
  MkArr (emb s) (hp s) (Some p) (size s) (cap s) (made s) (gone s) (copies s).
Definition set_cap (s : st) (c : Z) : st :=
  MkArr (emb s) (hp s) (data s) (size s) c (made s) (gone s) (copies s).
Definition set_size (s : st) (n : Z) : st :=
  MkArr (emb s) (hp s) (data s) n (cap s) (made s) (gone s) (copies s).

(** roc_core/array.h:217-248: [grow]. *)
Definition grow (ok : bool) (s : st) (m : Z) : res (bool * st) :=
  if m <=? cap s then Ok (true, s)
  else
    match allocate ok s m with
    | None => Ok (false, s)
    | Some (np, s1) =>
        s4 <- (if ptr_is (data s1) np then Ok s1
               else
                 s2 <- copy_up (Z.to_nat (size s1)) 0 np s1 ;;
                 s3 <- destroy_down (Z.to_nat (size s2)) 0 s2 ;;
                 s3' <- match data s3 with
                        | Some p => deallocate s3 p
                        | None => Ok s3
                        end ;;
                 Ok (set_data s3' np)) ;;
        Ok (true, set_cap s4 m)
    end.

(** roc_core/array.h:298-306: one turn of the [while] loops of [next_capacity_];
    [c0] is [capacity_], which selects the loop. *)
Definition enlarge (c0 c : Z) : Z :=
  if c0 <? 1024 then (if c =? 0 then 2 else u64 (c * 2)) else u64 (c + c / 4).

(** roc_core/array.h:295-309: [next_capacity_]; [None] when [fuel] turns of the
    loop were not enough. *)
Fixpoint next_capacity (fuel : nat) (c0 m c : Z) : option Z :=
  if m <=? c then Some c
  else match fuel with
       | O => None
       | S f => next_capacity f c0 m (enlarge c0 c)
       end.

(** roc_core/array.h:258-266: [grow_exp].  A loop without end and without effects
    is [UB] in C++.  The number of turns allowed is more than any terminating run
    takes. *)
Definition grow_exp (ok : bool) (s : st) (m : Z) : res (bool * st) :=
  if m <=? cap s then Ok (true, s)
  else match next_capacity (Z.to_nat m) (cap s) m (cap s) with
       | None => UB
       | Some c => grow ok s c
       end.

(** What [push_back] is handed: a reference to an object outside of the array, or
    to an element of it. *)
Inductive arg := Lit (v : V) | Ref (p : ptr) (i : Z).

(** roc_core/array.h:154-163: [push_back]. *)
Definition push_back (ok : bool) (s : st) (a : arg) : res (bool * st) :=
  r <- grow_exp ok s (u64 (size s + 1)) ;;
  let '(b, s1) := r in
  if negb b then Ok (false, s1)
  else
    p <- deref (data s1) ;;
    v <- match a with Lit v => Ok v | Ref q i => get_at s1 q i end ;;
    s2 <- construct s1 p (size s1) v ;;
    Ok (true, set_size s2 (size s2 + 1)).

(** roc_core/array.h:168-176: [pop_back]. *)
Definition pop_back (s : st) : res st :=
  if size s =? 0 then Panic
  else
    p <- deref (data s) ;;
    s1 <- destruct_at s p (size s - 1) ;;
    Ok (set_size s1 (size s1 - 1)).

(** roc_core/array.h:183-202: [resize]. *)
Definition resize (ok : bool) (s : st) (n : Z) : res (bool * st) :=
  r <- grow ok s n ;;
  let '(b, s1) := r in
  if negb b then Ok (false, s1)
  else
    s2 <- make_more (Z.to_nat (n - size s1)) (size s1) s1 ;;
    s3 <- destroy_down (Z.to_nat (size s1 - n)) n s2 ;;
    Ok (true, set_size s3 n).

(** roc_core/array.h:207-209: [clear]. *)
Definition clear (s : st) : res st :=
  r <- resize true s 0 ;; Ok (snd r).

(** roc_core/array.h:98-115: [operator[]]; the address of element [i]. *)
Definition at_ (s : st) (i : Z) : res (ptr * Z) :=
  if size s <=? i then Panic else p <- deref (data s) ;; Ok (p, i).

(** roc_core/array.h:118-131: [front]. *)
Definition front (s : st) : res (ptr * Z) :=
  if size s =? 0 then Panic else p <- deref (data s) ;; Ok (p, 0).

(** roc_core/array.h:134-147: [back]. *)
Definition back (s : st) : res (ptr * Z) :=
  if size s =? 0 then Panic else p <- deref (data s) ;; Ok (p, size s - 1).

(** roc_core/array.h:78-93: [data]. *)
Definition data_ptr (s : st) : res (option ptr) :=
  if size s =? 0 then Panic else Ok (data s).

(** roc_core/array.h:52-58: the destructor. *)
Definition destroy (s : st) : res st :=
  s1 <- clear s ;;
  match data s1 with
  | Some p => deallocate s1 p
  | None => Ok s1
  end.

(** Calls a program can make.  [PushElem i] is [a.push_back(a[i])], [Put i v] is
    [a[i] = v] and [Get i] reads [a[i]].  The flags say whether the arena has
    memory at that moment. *)
Inductive call :=
| Push (v : V) (ok : bool)
| PushElem (i : Z) (ok : bool)
| Pop
| Resize (n : Z) (ok : bool)
| Clear
| Grow (n : Z) (ok : bool)
| GrowExp (n : Z) (ok : bool)
| Get (i : Z)
| Put (i : Z) (v : V)
| Front
| Back
| Size
| IsEmpty
| Capacity.

(** What a call returns. *)
Inductive answer := ADone | ABool (b : bool) | AVal (v : V) | ANum (n : Z).

(** One call (array.h:61-266). *)
Definition do_call (s : st) (c : call) : res (answer * st) :=
  match c with
  | Push v ok => r <- push_back ok s (Lit v) ;; Ok (ABool (fst r), snd r)
  | PushElem i ok =>
      a <- at_ s i ;;
      r <- push_back ok s (Ref (fst a) (snd a)) ;; Ok (ABool (fst r), snd r)
  | Pop => s' <- pop_back s ;; Ok (ADone, s')
  | Resize n ok => r <- resize ok s n ;; Ok (ABool (fst r), snd r)
  | Clear => s' <- clear s ;; Ok (ADone, s')
  | Grow n ok => r <- grow ok s n ;; Ok (ABool (fst r), snd r)
  | GrowExp n ok => r <- grow_exp ok s n ;; Ok (ABool (fst r), snd r)
  | Get i => a <- at_ s i ;; v <- get_at s (fst a) (snd a) ;; Ok (AVal v, s)
  | Put i v =>
      a <- at_ s i ;;
      _ <- get_at s (fst a) (snd a) ;;
      s' <- put s (fst a) (snd a) (Some v) ;; Ok (ADone, s')
  | Front => a <- front s ;; v <- get_at s (fst a) (snd a) ;; Ok (AVal v, s)
  | Back => a <- back s ;; v <- get_at s (fst a) (snd a) ;; Ok (AVal v, s)
  | Size => Ok (ANum (size s), s)
  | IsEmpty => Ok (ABool (size s =? 0), s)
  | Capacity => Ok (ANum (cap s), s)
  end.

(** A program: calls in order, with everything they return.  A panic or undefined
    behaviour ends it. *)
Fixpoint run (s : st) (cs : list call) : res (list answer * st) :=
  match cs with
  | [] => Ok ([], s)
  | c :: t =>
      r <- do_call s c ;;
      r' <- run (snd r) t ;;
      Ok (fst r :: fst r', snd r')
  end.

End Array.

Arguments Pop {V}.
Arguments Clear {V}.
Arguments Front {V}.
Arguments Back {V}.
Arguments Size {V}.
Arguments IsEmpty {V}.
Arguments Capacity {V}.
Arguments Resize {V}.
Arguments Grow {V}.
Arguments GrowExp {V}.
Arguments PushElem {V}.
Arguments Get {V}.
Arguments ADone {V}.
Arguments ABool {V}.
Arguments ANum {V}.
