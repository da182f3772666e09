(** Model of roc_core/ring_queue.h. The storage is a list of slots; [None] is
    raw memory without a constructed element. size_t arithmetic: the wrapping
    subtraction [end_ - begin_ + buff_len_] equals [end_ + buff_len_ - begin_].
    [triv] tells whether T is trivially destructible; if not, destroying a slot
    without an element is UB. Allocation succeeded. *)
From Verif Require Import Base.
Open Scope res_scope.

Section RQ.
Context {A : Type}.
Variable triv : bool.

(** ring_queue.h:196-199 *)
Record rq := mkRq { rq_buf : list (option A); rq_begin : nat; rq_end : nat }.

(** ring_queue.h:42-53 *)
Definition rq_new (max_len : nat) : res rq :=
  if (max_len =? 0)%nat then Panic else Ok (mkRq (repeat None max_len) 0 0).

(** ring_queue.h:67-69 *)
Definition rq_cap (q : rq) : nat := length (rq_buf q).
(** ring_queue.h:72-84 *)
Definition rq_size (q : rq) : nat := ((rq_end q + rq_cap q - rq_begin q) mod rq_cap q)%nat.
Definition rq_empty (q : rq) : bool := (rq_begin q =? rq_end q)%nat.
Definition rq_full (q : rq) : bool := (rq_size q =? rq_cap q)%nat.

(** Reading a slot: UB outside the storage or without element. *)
Definition rq_get (q : rq) (i : nat) : res A :=
  o <- rd (rq_buf q) i ;; match o with Some x => Ok x | None => UB end.
(** Explicit destructor call. *)
Definition rq_destroy (q : rq) (i : nat) : res (list (option A)) :=
  o <- rd (rq_buf q) i ;;
  if triv then Ok (rq_buf q)
  else match o with Some _ => Ok (upd (rq_buf q) i None) | None => UB end.

(** ring_queue.h:89-124 *)
Definition rq_front (q : rq) : res A :=
  if rq_empty q then Panic else rq_get q (rq_begin q).
Definition rq_back (q : rq) : res A :=
  if rq_empty q then Panic else rq_get q ((rq_end q + rq_cap q - 1) mod rq_cap q)%nat.

(** ring_queue.h:129-135 *)
Definition rq_push_front (q : rq) (x : A) : res rq :=
  if rq_full q then Panic
  else
    let b := ((rq_begin q + rq_cap q - 1) mod rq_cap q)%nat in
    buf <- wr (rq_buf q) b (Some x) ;; Ok (mkRq buf b (rq_end q)).
(** ring_queue.h:140-146 *)
Definition rq_pop_front (q : rq) : res rq :=
  if rq_empty q then Panic
  else buf <- rq_destroy q (rq_begin q) ;; Ok (mkRq buf ((rq_begin q + 1) mod rq_cap q)%nat (rq_end q)).
(** ring_queue.h:151-157 *)
Definition rq_push_back (q : rq) (x : A) : res rq :=
  if rq_full q then Panic
  else buf <- wr (rq_buf q) (rq_end q) (Some x) ;; Ok (mkRq buf (rq_begin q) ((rq_end q + 1) mod rq_cap q)%nat).
(** ring_queue.h:162-168; note that the slot destroyed is [end_]. *)
Definition rq_pop_back (q : rq) : res rq :=
  if rq_empty q then Panic
  else buf <- rq_destroy q (rq_end q) ;; Ok (mkRq buf (rq_begin q) ((rq_end q + rq_cap q - 1) mod rq_cap q)%nat).

Inductive rq_op := RPushFront (x : A) | RPushBack (x : A) | RPopFront | RPopBack.
Definition rq_step (q : rq) (o : rq_op) : res rq :=
  match o with
  | RPushFront x => rq_push_front q x
  | RPushBack x => rq_push_back q x
  | RPopFront => rq_pop_front q
  | RPopBack => rq_pop_back q
  end.
Fixpoint rq_run (q : rq) (ops : list rq_op) : res rq :=
  match ops with [] => Ok q | o :: ops' => q' <- rq_step q o ;; rq_run q' ops' end.
End RQ.
Arguments rq A : clear implicits.
Arguments rq_op A : clear implicits.
