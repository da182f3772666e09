(** Model of roc_core/memory_limiter.cpp and limited_arena.cpp. Threads
    interleave at the granularity of atomic accesses to bytes_acquired_
    (sequentially consistent); the log message on failure is not modelled. *)
From Verif Require Import Base.
Open Scope res_scope.

(** Where a thread is inside acquire() *)
Inductive mt := MIdle | MWant (n : Z) | MLoaded (n cur : Z).
Record ml := mkMl { ml_acquired : Z; ml_threads : nat -> mt }.
Definition ml_new : ml := mkMl 0 (fun _ => MIdle).
Definition set_thread (s : ml) (t : nat) (x : mt) : ml :=
  mkMl (ml_acquired s) (fun u => if Nat.eqb u t then x else ml_threads s u).

(** One atomic step of one thread. *)
Inductive mlabel :=
| LAcquire (t : nat) (n : Z)  (* call acquire(n) *)
| LLoad (t : nat)             (* read bytes_acquired_ and check the limit *)
| LCas (t : nat)              (* compare_exchange *)
| LRelease (t : nat) (n : Z). (* release(n): one atomic subtraction *)
Inductive mout := MNone | MAcquired (n : Z) | MRefused (n : Z) | MReleased (n : Z).

(** memory_limiter.cpp:31-66; [None]: the thread is not at this step. *)
Definition ml_step (limit : Z) (s : ml) (l : mlabel) : option (res (mout * ml)) :=
  match l with
  | LAcquire t n =>
      match ml_threads s t with
      | MIdle => Some (if n =? 0 then Panic else Ok (MNone, set_thread s t (MWant n)))
      | _ => None
      end
  | LLoad t =>
      match ml_threads s t with
      | MWant n =>
          let cur := ml_acquired s in
          let next := u64 (cur + n) in
          Some (Ok (if (0 <? limit) && (limit <? next) then (MRefused n, set_thread s t MIdle)
                    else (MNone, set_thread s t (MLoaded n cur))))
      | _ => None
      end
  | LCas t =>
      match ml_threads s t with
      | MLoaded n cur =>
          Some (Ok (if ml_acquired s =? cur then (MAcquired n, set_thread (mkMl (u64 (cur + n)) (ml_threads s)) t MIdle)
                    else (MNone, set_thread s t (MWant n))))
      | _ => None
      end
  | LRelease t n =>
      match ml_threads s t with
      | MIdle =>
          Some (if n =? 0 then Panic
                else
                  let next := u64 (ml_acquired s - n) in
                  let prev := u64 (next + n) in
                  if prev <? next then Panic else Ok (MReleased n, mkMl next (ml_threads s)))
      | _ => None
      end
  end.

(** A schedule; steps a thread is not at are skipped. *)
Fixpoint ml_run (limit : Z) (s : ml) (ls : list mlabel) : res (list mout * ml) :=
  match ls with
  | [] => Ok ([], s)
  | l :: ls' =>
      match ml_step limit s l with
      | None => ml_run limit s ls'
      | Some r => x <- r ;; y <- ml_run limit (snd x) ls' ;; Ok (fst x :: fst y, snd y)
      end
  end.

(** acquire() and release() run without interference. *)
Definition ml_acquire (limit acquired n : Z) : res (bool * Z) :=
  if n =? 0 then Panic
  else
    let next := u64 (acquired + n) in
    if (0 <? limit) && (limit <? next) then Ok (false, acquired) else Ok (true, next).
Definition ml_release (acquired n : Z) : res Z :=
  if n =? 0 then Panic
  else
    let next := u64 (acquired - n) in
    let prev := u64 (next + n) in
    if prev <? next then Panic else Ok next.

(** limited_arena.cpp:19-34. [sz]: compute_allocated_size of the inner arena,
    [ans]: the inner arena's answer. The inner arena's allocated_size(ptr) is
    what it computed when [ptr] was allocated; blocks are named by pointers. *)
Record la := mkLa { la_acquired : Z; la_live : list (Z * Z) (* pointer, allocated size *) }.
Definition la_allocate (sz : Z -> Z) (limit : Z) (a : la) (size : Z) (ans : option Z) : res (option Z * la) :=
  r <- ml_acquire limit (la_acquired a) (sz size) ;;
  if fst r then
    match ans with
    | Some p => Ok (Some p, mkLa (snd r) ((p, sz size) :: la_live a))
    | None => acq <- ml_release (snd r) (sz size) ;; Ok (None, mkLa acq (la_live a))
    end
  else Ok (None, a).
Fixpoint la_find (live : list (Z * Z)) (p : Z) : option (Z * list (Z * Z)) :=
  match live with
  | [] => None
  | (q, n) :: live' =>
      if q =? p then Some (n, live')
      else match la_find live' p with Some (m, l) => Some (m, (q, n) :: l) | None => None end
  end.
(** Freeing an unknown pointer is undefined in the inner arena. *)
Definition la_deallocate (a : la) (p : Z) : res la :=
  match la_find (la_live a) p with
  | None => UB
  | Some (n, live) => acq <- ml_release (la_acquired a) n ;; Ok (mkLa acq live)
  end.
Inductive laop := LaAlloc (size : Z) (ans : option Z) | LaFree (p : Z).
Definition la_step (sz : Z -> Z) (limit : Z) (a : la) (o : laop) : res la :=
  match o with
  | LaAlloc size ans => r <- la_allocate sz limit a size ans ;; Ok (snd r)
  | LaFree p => la_deallocate a p
  end.
Fixpoint la_run (sz : Z -> Z) (limit : Z) (a : la) (ops : list laop) : res la :=
  match ops with [] => Ok a | o :: ops' => a <- la_step sz limit a o ;; la_run sz limit a ops' end.
