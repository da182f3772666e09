(** Model of roc_core/heap_arena.cpp and memory_ops.cpp: several arenas on one heap, and
    a program that allocates, writes anywhere in or near its memory, and gives back. *)
From Verif Require Import Base.
Local Open Scope res_scope.

(** sizeof(ChunkHeader) and sizeof(ChunkCanary) on x86-64 (heap_arena.h:98-107,
    align_ops.h:21-28). *)
Definition hdr : Z := 16.
Definition can : Z := 16.
(** memory_ops.h:46-48. *)
Definition before_use : Z := 0x7a.
Definition after_use : Z := 0x7d.
Definition canary : Z := 0x7b.

(** Memory after the header: how many bytes there are, and what they are. *)
Record mem := mkMem { m_len : Z; m_byte : Z -> Z }.
(** A chunk: whether malloc considers it in use; the header; the memory after it. *)
Record chunk := mkChunk { k_live : bool; k_owner : Z; k_size : Z; k_mem : mem }.
(** Chunks in the order in which malloc gave them; a pointer is a position in this list
    (addresses are not used again). Counters of each arena. The guards that are on. *)
Record world := mkW {
  chunks : list chunk; n_allocs : Z -> Z; n_fails : Z -> Z;
  g_leak : bool; g_over : bool; g_own : bool }.

Definition world0 : world := mkW [] (fun _ => 0) (fun _ => 0) false true true.

Definition upz (f : Z -> Z) (a v : Z) : Z -> Z := fun b => if b =? a then v else f b.

(** memset on checked memory; memory_ops.cpp:15-48. *)
Definition fill (m : mem) (off len v : Z) : res mem :=
  if (0 <=? off) && (off + len <=? m_len m)
  then Ok (mkMem (m_len m) (fun j => if (off <=? j) && (j <? off + len) then v else m_byte m j))
  else if len =? 0 then Ok m else UB.

(** memory_ops.cpp:50-67. *)
Definition check_canary (m : mem) (off len : Z) : res bool :=
  if (0 <=? off) && (off + len <=? m_len m)
  then Ok (forallb (fun k => m_byte m (off + Z.of_nat k) =? canary) (seq 0 (Z.to_nat len)))
  else if len =? 0 then Ok true else UB.

(** heap_arena.cpp:128-130. *)
Definition compute_allocated_size (size : Z) : Z := u64 (hdr + can + size + can).

(** heap_arena.cpp:48-76: [allocate]; malloc refuses, or gives memory with any content. *)
Definition h_allocate (w : world) (a size : Z) (given : option (Z -> Z)) : res (option nat * world) :=
  match given with
  | None => Ok (None, w)
  | Some junk =>
      let chunk_size := u64 (hdr + can + size + can) in
      if chunk_size <? hdr then UB
      else
        m1 <- fill (mkMem (chunk_size - hdr) junk) 0 can canary ;;
        m2 <- fill m1 can size before_use ;;
        m3 <- fill m2 (can + size) can canary ;;
        Ok (Some (length (chunks w)),
            mkW (chunks w ++ [mkChunk true a size m3])
                (upz (n_allocs w) a (n_allocs w a + 1)) (n_fails w)
                (g_leak w) (g_over w) (g_own w))
  end.

(** Memory that was given back must not be touched. *)
Definition look (w : world) (p : nat) : res chunk :=
  match nth_error (chunks w) p with
  | Some c => if k_live c then Ok c else UB
  | None => UB
  end.

Fixpoint put (l : list chunk) (p : nat) (c : chunk) : list chunk :=
  match l, p with
  | [], _ => []
  | _ :: t, O => c :: t
  | x :: t, S q => x :: put t q c
  end.

(** heap_arena.cpp:154-157. *)
Definition report (w : world) (a : Z) : world :=
  mkW (chunks w) (n_allocs w) (upz (n_fails w) a (n_fails w a + 1)) (g_leak w) (g_over w) (g_own w).

(** heap_arena.cpp:78-126: [deallocate]. *)
Definition h_deallocate (w : world) (a : Z) (ptr : option nat) : res world :=
  match ptr with
  | None => Panic
  | Some p =>
      c <- look w p ;;
      if negb (k_owner c =? a) then if g_own w then Panic else Ok (report w a)
      else
        ok1 <- check_canary (k_mem c) 0 can ;;
        ok2 <- check_canary (k_mem c) (can + k_size c) can ;;
        w1 <- (if negb ok1 || negb ok2 then if g_over w then Panic else Ok (report w a) else Ok w) ;;
        if n_allocs w1 a =? 0 then Panic
        else
          m <- fill (k_mem c) can (k_size c) after_use ;;
          Ok (mkW (put (chunks w1) p (mkChunk false (k_owner c) (k_size c) m))
                  (upz (n_allocs w1) a (n_allocs w1 a - 1)) (n_fails w1)
                  (g_leak w1) (g_over w1) (g_own w1))
  end.

(** heap_arena.cpp:132-152: [allocated_size]. *)
Definition h_allocated_size (w : world) (a : Z) (ptr : option nat) : res (Z * world) :=
  match ptr with
  | None => Panic
  | Some p =>
      c <- look w p ;;
      if negb (k_owner c =? a) then if g_own w then Panic else Ok (0, report w a)
      else Ok (compute_allocated_size (k_size c), w)
  end.

(** heap_arena.cpp:27-34: the destructor. *)
Definition h_destroy (w : world) (a : Z) : res world :=
  if negb (n_allocs w a =? 0) then if g_leak w then Panic else Ok (report w a) else Ok w.

(** What a program does: calls, and reads and writes of bytes at an offset from a
    pointer, which may be negative or beyond the end. *)
Inductive op :=
| Alloc (a size : Z) (given : option (Z -> Z)) | Dealloc (a : Z) (p : option nat)
| SizeOf (a : Z) (p : option nat) | Store (p : nat) (i v : Z) | Load (p : nat) (i : Z)
| Guards (leak over own : bool) | Destroy (a : Z) | Count (a : Z) | Fails (a : Z).
Inductive resp := RPtr (p : option nat) | RVal (v : Z) | RDone.

(** One byte of memory, at an offset from the pointer. *)
Definition h_store (w : world) (p : nat) (i v : Z) : res world :=
  c <- look w p ;;
  m <- (if (0 <=? can + i) && (can + i <? m_len (k_mem c)) then fill (k_mem c) (can + i) 1 v else UB) ;;
  Ok (mkW (put (chunks w) p (mkChunk (k_live c) (k_owner c) (k_size c) m))
          (n_allocs w) (n_fails w) (g_leak w) (g_over w) (g_own w)).

Definition h_load (w : world) (p : nat) (i : Z) : res Z :=
  c <- look w p ;;
  if (0 <=? can + i) && (can + i <? m_len (k_mem c)) then Ok (m_byte (k_mem c) (can + i)) else UB.

Definition h_step (w : world) (o : op) : res (resp * world) :=
  match o with
  | Alloc a size given => r <- h_allocate w a size given ;; Ok (RPtr (fst r), snd r)
  | Dealloc a p => w' <- h_deallocate w a p ;; Ok (RDone, w')
  | SizeOf a p => r <- h_allocated_size w a p ;; Ok (RVal (fst r), snd r)
  | Store p i v => w' <- h_store w p i v ;; Ok (RDone, w')
  | Load p i => v <- h_load w p i ;; Ok (RVal v, w)
  | Guards l o' w' => Ok (RDone, mkW (chunks w) (n_allocs w) (n_fails w) l o' w')
  | Destroy a => w' <- h_destroy w a ;; Ok (RDone, w')
  | Count a => Ok (RVal (n_allocs w a), w)
  | Fails a => Ok (RVal (n_fails w a), w)
  end.

(** A program, with what each call returned. *)
Fixpoint h_run (w : world) (os : list op) : res (list (op * resp) * world) :=
  match os with
  | [] => Ok ([], w)
  | o :: t =>
      r <- h_step w o ;;
      q <- h_run (snd r) t ;;
      Ok ((o, fst r) :: fst q, snd q)
  end.
