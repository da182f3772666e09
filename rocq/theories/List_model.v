(** Model of roc_core/list_impl.cpp and roc_core/list.h: the intrusive doubly
    linked list. Memory holds any number of lists (numbered) and nodes
    (numbered); [Head k] is &head_ of list k and [Node n] the ListData of
    element n. Reading a NULL or unset link is UB, a failed membership check is
    Panic. Ownership (reference counts) is C32; size_ is a nat. *)
From Verif Require Import Base.
Open Scope res_scope.

Inductive ptr := Head (k : nat) | Node (n : nat).
Definition ptr_dec (a b : ptr) : {a = b} + {a <> b}.
Proof. decide equality; apply Nat.eq_dec. Defined.
Definition ptr_eqb (a b : ptr) : bool := if ptr_dec a b then true else false.

(** list_node.h:24-41: fields of every ListData ([None] is NULL), and size_ of
    every list. *)
Record heap := mkHeap {
  nx : ptr -> option ptr; pv : ptr -> option ptr; ow : ptr -> option nat; sz : nat -> nat }.

Definition fset {B} (f : ptr -> B) (p : ptr) (v : B) : ptr -> B := fun q => if ptr_dec q p then v else f q.
Definition nset {B} (f : nat -> B) (k : nat) (v : B) : nat -> B := fun j => if Nat.eq_dec j k then v else f j.

(** list_impl.cpp:15-20 for every list; list_node.h:36-40 for every node. *)
Definition heap0 : heap :=
  mkHeap (fun p => match p with Head k => Some (Head k) | Node _ => None end)
         (fun p => match p with Head k => Some (Head k) | Node _ => None end)
         (fun p => match p with Head k => Some k | Node _ => None end)
         (fun _ => O).

(** Reading a link: dereferencing what it returns is the caller's business. *)
Definition ld (o : option ptr) : res ptr := match o with Some p => Ok p | None => UB end.

(** list_impl.cpp:116-121 *)
Definition check_member (h : heap) (p : ptr) (l : option nat) : res unit :=
  match ow h p, l with
  | None, None => Ok tt
  | Some a, Some b => if (a =? b)%nat then Ok tt else Panic
  | _, _ => Panic
  end.

(** list_impl.cpp:90-103 *)
Definition impl_insert (h : heap) (k : nat) (n b : ptr) : res heap :=
  _ <- check_member h n None ;;
  _ <- check_member h b (Some k) ;;
  let h := mkHeap (fset (nx h) n (Some b)) (pv h) (ow h) (sz h) in
  let h := mkHeap (nx h) (fset (pv h) n (pv h b)) (ow h) (sz h) in
  p <- ld (pv h b) ;;
  let h := mkHeap (fset (nx h) p (Some n)) (pv h) (ow h) (sz h) in
  let h := mkHeap (nx h) (fset (pv h) b (Some n)) (ow h) (sz h) in
  let h := mkHeap (nx h) (pv h) (fset (ow h) n (Some k)) (sz h) in
  Ok (mkHeap (nx h) (pv h) (ow h) (nset (sz h) k (S (sz h k)))).

(** list_impl.cpp:105-114 *)
Definition impl_remove (h : heap) (k : nat) (n : ptr) : res heap :=
  _ <- check_member h n (Some k) ;;
  p <- ld (pv h n) ;;
  let h := mkHeap (fset (nx h) p (nx h n)) (pv h) (ow h) (sz h) in
  q <- ld (nx h n) ;;
  let h := mkHeap (nx h) (fset (pv h) q (pv h n)) (ow h) (sz h) in
  let h := mkHeap (nx h) (pv h) (fset (ow h) n None) (sz h) in
  Ok (mkHeap (nx h) (pv h) (ow h) (nset (sz h) k (pred (sz h k)))).

(** list_impl.cpp:38-50 *)
Definition impl_front (h : heap) (k : nat) : res (option ptr) :=
  if (sz h k =? 0)%nat then Ok None else p <- ld (nx h (Head k)) ;; Ok (Some p).
Definition impl_back (h : heap) (k : nat) : res (option ptr) :=
  if (sz h k =? 0)%nat then Ok None else p <- ld (pv h (Head k)) ;; Ok (Some p).
(** list_impl.cpp:52-68 *)
Definition impl_nextof (h : heap) (k : nat) (n : ptr) : res (option ptr) :=
  _ <- check_member h n (Some k) ;;
  p <- ld (nx h n) ;; Ok (if ptr_eqb p (Head k) then None else Some p).
Definition impl_prevof (h : heap) (k : nat) (n : ptr) : res (option ptr) :=
  _ <- check_member h n (Some k) ;;
  p <- ld (pv h n) ;; Ok (if ptr_eqb p (Head k) then None else Some p).
(** list_impl.cpp:30-32 *)
Definition impl_contains (h : heap) (k : nat) (n : ptr) : bool :=
  match ow h n with Some a => (a =? k)%nat | None => false end.

(** list_impl.cpp:70-88 *)
Definition impl_pop_front (h : heap) (k : nat) : res (heap * ptr) :=
  if (sz h k =? 0)%nat then Panic
  else n <- ld (nx h (Head k)) ;; h' <- impl_remove h k n ;; Ok (h', n).
Definition impl_pop_back (h : heap) (k : nat) : res (heap * ptr) :=
  if (sz h k =? 0)%nat then Panic
  else n <- ld (pv h (Head k)) ;; h' <- impl_remove h k n ;; Ok (h', n).

(** list.h:126-225, on list [k] *)
Inductive lop :=
| PushFront (k e : nat) | PushBack (k e : nat)
| PopFront (k : nat) | PopBack (k : nat)
| InsertBefore (k e before : nat) | InsertAfter (k e after : nat)
| Remove (k e : nat).

Definition lstep (h : heap) (o : lop) : res heap :=
  match o with
  | PushFront k e => p <- ld (nx h (Head k)) ;; impl_insert h k (Node e) p
  | PushBack k e => impl_insert h k (Node e) (Head k)
  | PopFront k => r <- impl_pop_front h k ;; Ok (fst r)
  | PopBack k => r <- impl_pop_back h k ;; Ok (fst r)
  | InsertBefore k e b => impl_insert h k (Node e) (Node b)
  | InsertAfter k e a => p <- ld (nx h (Node a)) ;; impl_insert h k (Node e) p
  | Remove k e => impl_remove h k (Node e)
  end.

Fixpoint lrun (h : heap) (ops : list lop) : res heap :=
  match ops with [] => Ok h | o :: ops' => h' <- lstep h o ;; lrun h' ops' end.

(** What a caller collects by walking: front then nextof, back then prevof. *)
Fixpoint collect (step : ptr -> res (option ptr)) (fuel : nat) (cur : option ptr) : res (list nat) :=
  match cur with
  | None => Ok []
  | Some (Head _) => UB
  | Some (Node n) =>
      match fuel with
      | O => UB
      | S f => nxt <- step (Node n) ;; r <- collect step f nxt ;; Ok (n :: r)
      end
  end.
Definition forward (h : heap) (k : nat) : res (list nat) :=
  p <- impl_front h k ;; collect (impl_nextof h k) (sz h k) p.
Definition backward (h : heap) (k : nat) : res (list nat) :=
  p <- impl_back h k ;; collect (impl_prevof h k) (sz h k) p.
