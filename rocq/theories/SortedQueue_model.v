(** Model of roc_packet/sorted_queue.cpp.  The intrusive list is a Gallina
    list, front first (the list itself is C23); packets are an arbitrary type
    [A] and [cmp] is Packet::compare (packet.cpp:173-187).  Logging omitted;
    null packets (which panic) are not representable. *)
From Verif Require Import Base.

Section SQ.
Context {A : Type}.
Variable cmp : A -> A -> Z.

(** sorted_queue.h: members list_, latest_, max_size_. *)
Record sq := mkSq { sq_list : list A; sq_latest : option A; sq_max : nat }.

(** sorted_queue.cpp:17-19 *)
Definition sq_new (max_size : nat) : sq := mkSq [] None max_size.

(** Last element of the list: list_.back(). *)
Fixpoint list_back (l : list A) : option A :=
  match l with [] => None | [x] => Some x | _ :: t => list_back t end.

(** sorted_queue.cpp:21-29: take list_.back() and remove it. *)
Definition sq_read (s : sq) : sq * option A :=
  match list_back (sq_list s) with
  | Some p => (mkSq (removelast (sq_list s)) (sq_latest s) (sq_max s), Some p)
  | None => (s, None)
  end.

(** sorted_queue.cpp:48-69: scan from the front; [None] = duplicate dropped. *)
Fixpoint sq_insert (p : A) (l : list A) : option (list A) :=
  match l with
  | [] => Some [p]
  | q :: t =>
      let c := cmp p q in
      if c <? 0 then option_map (cons q) (sq_insert p t)
      else if c =? 0 then None
      else Some (p :: q :: t)
  end.

(** sorted_queue.cpp:31-72 *)
Definition sq_write (s : sq) (p : A) : sq :=
  if (0 <? sq_max s)%nat && (length (sq_list s) =? sq_max s)%nat then s
  else
    let latest :=
      match sq_latest s with
      | None => Some p
      | Some q => if cmp q p <=? 0 then Some p else Some q
      end in
    match sq_insert p (sq_list s) with
    | None => mkSq (sq_list s) latest (sq_max s)
    | Some l => mkSq l latest (sq_max s)
    end.

(** sorted_queue.cpp:78-84 *)
Definition sq_head (s : sq) : option A := list_back (sq_list s).
Definition sq_tail (s : sq) : option A :=
  match sq_list s with [] => None | x :: _ => Some x end.

(** Call histories. *)
Inductive sq_op := SqWrite (p : A) | SqRead.

Definition sq_step (s : sq) (o : sq_op) : sq * option (option A) :=
  match o with
  | SqWrite p => (sq_write s p, None)
  | SqRead => let (s', r) := sq_read s in (s', Some r)
  end.

(** Run a history; the second component lists the result of each read. *)
Fixpoint sq_run (s : sq) (ops : list sq_op) : sq * list (option A) :=
  match ops with
  | [] => (s, [])
  | o :: t =>
      let (s1, r) := sq_step s o in
      let (s2, rs) := sq_run s1 t in
      (s2, match r with Some x => x :: rs | None => rs end)
  end.
End SQ.
Arguments sq A : clear implicits.
Arguments sq_op A : clear implicits.
