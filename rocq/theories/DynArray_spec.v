(** What a dynamic array is expected to do, said of a plain list and a number:
    the elements and the capacity.  Independent of DynArray_model.v except for the
    names of calls and answers. *)
From Verif Require Import Base DynArray_model.

Set Implicit Arguments.

Section Spec.
Variable V : Type.
Variable dflt : V.
Variable E : nat.
Variable sz : Z.

(** Memory for [m] elements can be had: they fit into the object itself, or the
    arena has memory and they are not absurdly many. *)
Definition can_have (ok : bool) (m : Z) : Prop :=
  m <= Z.of_nat E \/ (ok = true /\ m * sz <= 2 ^ 62).

(** The documented growth ("0, 2, 4, 8, 16, ... until it reaches some threshold,
    and then linearly"): next capacity after [c], for an array that starts
    with [c0]. *)
Definition next_size (c0 c : Z) : Z :=
  if c0 <? 1024 then Z.max 2 (2 * c) else c + c / 4.

(** [c'] is the first of [c], next size, next after that ... that is at least [m]. *)
Inductive first_fit (c0 m : Z) : Z -> Z -> Prop :=
| FF_here c : m <= c -> first_fit c0 m c c
| FF_next c c' : c < m -> first_fit c0 m (next_size c0 c) c' -> first_fit c0 m c c'.

(** Making room for [m] elements in an array of capacity [c], the wanted capacity
    being [w]: whether it works and the capacity afterwards. *)
Inductive room (ok : bool) (c m w : Z) : bool -> Z -> Prop :=
| Room_already : m <= c -> room ok c m w true c
| Room_more : c < m -> can_have ok w -> room ok c m w true w
| Room_none : c < m -> ~ can_have ok w -> room ok c m w false c.

Definition elem (l : list V) (i : Z) : option V :=
  if i <? 0 then None else nth_error l (Z.to_nat i).

(** [n] elements: the first of [l], then default ones. *)
Definition sized (l : list V) (n : Z) : list V :=
  firstn (Z.to_nat n) l ++ repeat dflt (Z.to_nat n - length l).

(** [step l c call answer l' c']: the call is allowed for an array with elements
    [l] and capacity [c], gives the answer and leaves [l'] and [c']. *)
Inductive step (l : list V) (c : Z) : call V -> answer V -> list V -> Z -> Prop :=
| S_push v ok w c' :
    first_fit c (Z.of_nat (length l) + 1) c w ->
    room ok c (Z.of_nat (length l) + 1) w true c' ->
    step l c (Push v ok) (ABool true) (l ++ [v]) c'
| S_push_fail v ok w c' :
    first_fit c (Z.of_nat (length l) + 1) c w ->
    room ok c (Z.of_nat (length l) + 1) w false c' ->
    step l c (Push v ok) (ABool false) l c'
| S_push_elem i v ok a l' c' :
    elem l i = Some v -> step l c (Push v ok) a l' c' ->
    step l c (PushElem i ok) a l' c'
| S_pop t v : l = t ++ [v] -> step l c Pop ADone t c
| S_resize n ok c' :
    room ok c n n true c' -> step l c (Resize n ok) (ABool true) (sized l n) c'
| S_resize_fail n ok c' :
    room ok c n n false c' -> step l c (Resize n ok) (ABool false) l c'
| S_clear : step l c Clear ADone [] c
| S_grow n ok b c' : room ok c n n b c' -> step l c (Grow n ok) (ABool b) l c'
| S_grow_exp n ok w b c' :
    first_fit c n c w -> room ok c n w b c' -> step l c (GrowExp n ok) (ABool b) l c'
| S_get i v : elem l i = Some v -> step l c (Get i) (AVal v) l c
| S_put i v w : elem l i = Some w ->
    step l c (Put i v) ADone
      (firstn (Z.to_nat i) l ++ v :: skipn (S (Z.to_nat i)) l) c
| S_front v t : l = v :: t -> step l c Front (AVal v) l c
| S_back v t : l = t ++ [v] -> step l c Back (AVal v) l c
| S_size : step l c Size (ANum (Z.of_nat (length l))) l c
| S_is_empty b : (b = true <-> l = []) -> step l c IsEmpty (ABool b) l c
| S_capacity : step l c Capacity (ANum c) l c.

(** Whole programs. *)
Inductive steps : list V -> Z -> list (call V) -> list (answer V) -> list V -> Z -> Prop :=
| Steps_nil l c : steps l c [] [] l c
| Steps_cons l c x a l1 c1 t b l2 c2 :
    step l c x a l1 c1 -> steps l1 c1 t b l2 c2 -> steps l c (x :: t) (a :: b) l2 c2.

(** What the caller must observe: asked sizes can be expressed (the product with
    the element size stays within half of what [size_t] can express), indices are
    not negative, and an element of the array itself is never pushed when the array
    may have to move. *)
Definition sane (x : call V) : Prop :=
  match x with
  | Resize n _ | Grow n _ | GrowExp n _ => 0 <= n /\ n * sz <= 2 ^ 62
  | Get i | Put i _ | PushElem i _ => 0 <= i
  | _ => True
  end.

(** Calls that need an element which is not there. *)
Definition misuse (l : list V) (x : call V) : Prop :=
  match x with
  | Pop | Front | Back => l = []
  | Get i | Put i _ | PushElem i _ => Z.of_nat (length l) <= i
  | _ => False
  end.

(** Pushing an element of the array into the same array while it is full. *)
Definition moves_itself (l : list V) (c : Z) (x : call V) : Prop :=
  match x with
  | PushElem _ _ => c <= Z.of_nat (length l)
  | _ => False
  end.

(** Programs that respect all this at every call, whatever is answered before it. *)
Inductive allowed : list V -> Z -> list (call V) -> Prop :=
| Al_nil l c : allowed l c []
| Al_cons l c x t :
    sane x -> ~ misuse l x -> ~ moves_itself l c x ->
    (forall a l' c', step l c x a l' c' -> allowed l' c' t) ->
    allowed l c (x :: t).

(** Programs that only append, remove and look. *)
Definition appending (x : call V) : Prop :=
  match x with
  | Resize _ _ | Grow _ _ | GrowExp _ _ => False
  | _ => True
  end.

(** Number of calls that may append. *)
Fixpoint appends (cs : list (call V)) : Z :=
  match cs with
  | [] => 0
  | (Push _ _ | PushElem _ _) :: t => 1 + appends t
  | _ :: t => appends t
  end.

End Spec.
