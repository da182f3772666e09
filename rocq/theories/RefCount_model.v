(** Model of roc_core/shared_ptr.h over ref_counted.h and ref_counted_impl.cpp:
    any number of threads using shared pointers. A pointer variable is one of
    the program's local variables ([PLoc i]) or the one pointer member of an
    object ([PMem o]; objects with more members behave alike). Atomic counter
    operations are single steps; so are the plain accesses to a variable. The
    allocation policy is ArenaAllocation or PoolAllocation: destroy() runs the
    destructor, which releases the member and then checks the counter, and
    frees the memory. Touching the counter or the member of an object whose
    destructor has begun (other than by the destructor) is UB. *)
From Verif Require Import Base.
Open Scope res_scope.

Inductive place := PLoc (i : nat) | PMem (o : nat).
(** [c_wr]: an assignment to the variable is in progress (bookkeeping only). *)
Record cell := mkCell { c_ptr : option nat; c_wr : bool }.
Inductive ost := Alive | Dying | Freed.
Record robj := mkObj { o_cnt : Z; o_mem : cell; o_st : ost }.

(** What remains of nested destruction in a thread: decref of an object, its
    destructor's member release, and the end of its destructor. *)
Inductive frame := FRel (o : nat) | FMem (o : nat) | FEnd (o : nat).
(** What remains of reset(): the store to ptr_, and acquire_(). [rds]: the
    variables the operation reads; [fresh]: a new object is being assigned. *)
Inductive phase := Idle | PSet (p : place) (new : option nat) (rds : list place) (fresh : bool) | PAcq (p : place) (new : nat) (rds : list place) (fresh : bool).
Record rthread := mkTh { th_stk : list frame; th_ph : phase }.
Record rc := mkRc { rc_loc : list cell; rc_obj : list robj; rc_th : list rthread }.

Definition rc_new (threads locals : nat) : rc :=
  mkRc (repeat (mkCell None false) locals) [] (repeat (mkTh [] Idle) threads).

Definition get_cell (s : rc) (p : place) : option cell :=
  match p with
  | PLoc i => nth_error (rc_loc s) i
  | PMem o => match nth_error (rc_obj s) o with Some ob => Some (o_mem ob) | None => None end
  end.
Definition set_obj (s : rc) (o : nat) (ob : robj) : rc := mkRc (rc_loc s) (upd (rc_obj s) o ob) (rc_th s).
Definition set_cell (s : rc) (p : place) (c : cell) : rc :=
  match p with
  | PLoc i => mkRc (upd (rc_loc s) i c) (rc_obj s) (rc_th s)
  | PMem o => match nth_error (rc_obj s) o with
              | Some ob => set_obj s o (mkObj (o_cnt ob) c (o_st ob))
              | None => s
              end
  end.
Definition set_th (s : rc) (t : nat) (x : rthread) : rc := mkRc (rc_loc s) (rc_obj s) (upd (rc_th s) t x).

(** Operations on pointer variables; [p], [q] are local variables.
    p.reset(new T), p = q, p = q->member, q->member = p, p.reset() *)
Inductive rop := ONew (p : nat) | OAssign (p q : nat) | OGet (p q : nat) | OPut (q p : nat) | OClear (p : nat).
Inductive rlabel := RStart (t : nat) (o : rop) | RStep (t : nat).
Inductive rout := RNone | RCreated (o : nat) | RDestroyed (o : nat).

(** Reading a variable; a member of an object that is gone is UB. *)
Definition read (s : rc) (p : place) : res (option nat) :=
  match p with
  | PLoc i => c <- rd (rc_loc s) i ;; Ok (c_ptr c)
  | PMem o => ob <- rd (rc_obj s) o ;; match o_st ob with Alive => Ok (c_ptr (o_mem ob)) | _ => UB end
  end.

Definition opt_eqb (a b : option nat) : bool :=
  match a, b with Some x, Some y => (x =? y)%nat | None, None => true | _, _ => false end.

(** shared_ptr.h:84-90: comparison and the beginning of release_() *)
Definition begin_reset (s : rc) (t : nat) (p : place) (new : option nat) (rds : list place) (fresh : bool) : res rc :=
  old <- read s p ;;
  if opt_eqb new old then Ok s
  else Ok (set_th (set_cell s p (mkCell old true)) t (mkTh (match old with Some o => [FRel o] | None => [] end) (PSet p new rds fresh))).

(** shared_ptr.h:98-111: operator-> *)
Definition deref (v : option nat) : res nat := match v with Some o => Ok o | None => Panic end.

Definition start (s : rc) (t : nat) (o : rop) : res (rout * rc) :=
  match o with
  | ONew p =>
      let n := length (rc_obj s) in
      (* ref_counted_impl.cpp:15-17 *)
      let s := mkRc (rc_loc s) (rc_obj s ++ [mkObj 0 (mkCell None false) Alive]) (rc_th s) in
      s' <- begin_reset s t (PLoc p) (Some n) [] true ;; Ok (RCreated n, s')
  | OAssign p q =>
      v <- read s (PLoc q) ;;
      s' <- begin_reset s t (PLoc p) v [PLoc q] false ;; Ok (RNone, s')
  | OGet p q =>
      v <- read s (PLoc q) ;; o <- deref v ;; x <- read s (PMem o) ;;
      s' <- begin_reset s t (PLoc p) x [PLoc q; PMem o] false ;; Ok (RNone, s')
  | OPut q p =>
      v <- read s (PLoc q) ;; o <- deref v ;; x <- read s (PLoc p) ;;
      s' <- begin_reset s t (PMem o) x [PLoc q; PLoc p] false ;; Ok (RNone, s')
  | OClear p => s' <- begin_reset s t (PLoc p) None [] false ;; Ok (RNone, s')
  end.

(** ref_counted_impl.h:42 *)
Definition max_counter : Z := 100000.
Definition bad (n : Z) : bool := (n <? 0) || (max_counter <? n).

(** ref_counted.h:65-72 over ref_counted_impl.cpp:54-64; then the destructor *)
Definition step_frame (s : rc) (t : nat) (f : frame) (stk : list frame) (ph : phase) : res (rout * rc) :=
  match f with
  | FRel o =>
      ob <- rd (rc_obj s) o ;;
      match o_st ob with
      | Alive =>
          let n := o_cnt ob - 1 in
          if bad n then Panic
          else if n =? 0 then Ok (RNone, set_th (set_obj s o (mkObj n (o_mem ob) Dying)) t (mkTh (FMem o :: stk) ph))
          else Ok (RNone, set_th (set_obj s o (mkObj n (o_mem ob) Alive)) t (mkTh stk ph))
      | _ => UB
      end
  | FMem o =>
      ob <- rd (rc_obj s) o ;;
      match o_st ob with
      | Dying =>
          Ok (RNone, set_th (set_obj s o (mkObj (o_cnt ob) (mkCell None false) Dying)) t
                       (mkTh (match c_ptr (o_mem ob) with Some x => [FRel x] | None => [] end ++ FEnd o :: stk) ph))
      | _ => UB
      end
  | FEnd o =>
      ob <- rd (rc_obj s) o ;;
      match o_st ob with
      | Dying =>
          (* ref_counted_impl.cpp:19-26 *)
          if negb (o_cnt ob =? 0) then Panic
          else Ok (RDestroyed o, set_th (set_obj s o (mkObj (-1) (o_mem ob) Freed)) t (mkTh stk ph))
      | _ => UB
      end
  end.

Definition step_thread (s : rc) (t : nat) (th : rthread) : option (res (rout * rc)) :=
  match th_stk th, th_ph th with
  | f :: stk, ph => Some (step_frame s t f stk ph)
  | [], Idle => None
  | [], PSet p new rds fresh =>
      Some match new with
           | None => Ok (RNone, set_th (set_cell s p (mkCell None false)) t (mkTh [] Idle))
           | Some x => Ok (RNone, set_th (set_cell s p (mkCell (Some x) true)) t (mkTh [] (PAcq p x rds fresh)))
           end
  | [], PAcq p x rds fresh =>
      (* ref_counted_impl.cpp:41-52 *)
      Some (ob <- rd (rc_obj s) x ;;
            match o_st ob with
            | Alive =>
                let n := o_cnt ob + 1 in
                if bad n then Panic
                else Ok (RNone, set_th (set_cell (set_obj s x (mkObj n (o_mem ob) Alive)) p (mkCell (Some x) false)) t (mkTh [] Idle))
            | _ => UB
            end)
  end.

(** [None]: no such step *)
Definition rc_step (s : rc) (l : rlabel) : option (res (rout * rc)) :=
  match l with
  | RStart t o =>
      match nth_error (rc_th s) t with
      | Some (mkTh [] Idle) => Some (start s t o)
      | _ => None
      end
  | RStep t => match nth_error (rc_th s) t with Some th => step_thread s t th | None => None end
  end.

Fixpoint rc_run (s : rc) (ls : list rlabel) : res (list rout * rc) :=
  match ls with
  | [] => Ok ([], s)
  | l :: ls' =>
      match rc_step s l with
      | None => rc_run s ls'
      | Some r => x <- r ;; y <- rc_run (snd x) ls' ;; Ok (fst x :: fst y, snd y)
      end
  end.
