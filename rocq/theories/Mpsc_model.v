(** Model of roc_core/mpsc_queue_impl.cpp (behind mpsc_queue.h): any number of
    producer threads and one consumer interleaving at their accesses to shared
    memory (sequentially consistent). Nodes are named by integers, the stub by
    0. head_ is only accessed by the consumer. *)
From Verif Require Import Base.

Definition stub : Z := 0.

(** Producer inside push_back(x): owner changed; next cleared; tail exchanged *)
Inductive mprod := MPIdle | MPOwned (x : Z) | MPCleared (x : Z) | MPLink (x prev : Z).
(** Consumer inside pop_front: before the tail check with head = stub; waiting
    for stub->next with [k] retries left; before loading the next of the new
    head; before the second tail check; inside push_node_(stub); waiting for
    head->next; before change_owner_ *)
Inductive mcons :=
| MCIdle | MCTail1 (spin : bool) | MCWait1 (spin : bool) (k : nat) | MCNext (spin : bool) | MCTail2 (spin : bool)
| MCStubClear (spin : bool) | MCStubXchg (spin : bool) | MCStubLink (spin : bool) (prev : Z)
| MCWait2 (spin : bool) (k : nat) | MCRelease (x : Z).
Record mq := mkMq {
  mq_next : Z -> option Z; mq_owned : Z -> bool; mq_tail : Z; mq_head : Z;
  mq_prods : nat -> mprod; mq_cons : mcons }.

(** mpsc_queue_impl.cpp:16-19 *)
Definition mq_new : mq := mkMq (fun _ => None) (fun _ => false) stub stub (fun _ => MPIdle) MCIdle.

Definition upn {A} (f : Z -> A) (x : Z) (v : A) : Z -> A := fun y => if y =? x then v else f y.
Definition upt (f : nat -> mprod) (t : nat) (v : mprod) : nat -> mprod := fun u => if Nat.eqb u t then v else f u.

Inductive mqlabel := QPush (t : nat) (x : Z) | QStep (t : nat) | QPop (spin : bool) | QCons.
Inductive mqout := QNone | QCall (t : nat) (x : Z) | QLin (t : nat) (x : Z) | QRet (t : nat) (x : Z) | QPopped (r : option Z).

(** try_wait_next_ makes three attempts (mpsc_queue_impl.cpp:115-127);
    wait_next_ goes on forever (99-109). *)
Definition retries : nat := 2.

(** A node that has a successor leaves the list (mpsc_queue_impl.cpp:87-90) *)
Definition finish (s : mq) (m : Z) : res (mqout * mq) :=
  Ok (QNone, mkMq (mq_next s) (mq_owned s) (mq_tail s) m (mq_prods s) (MCRelease (mq_head s))).
(** The stub leaves the list (mpsc_queue_impl.cpp:64-66) *)
Definition advance (s : mq) (spin : bool) (m : Z) : res (mqout * mq) :=
  Ok (QNone, mkMq (mq_next s) (mq_owned s) (mq_tail s) m (mq_prods s) (MCNext spin)).
Definition goto (s : mq) (c : mcons) : res (mqout * mq) :=
  Ok (QNone, mkMq (mq_next s) (mq_owned s) (mq_tail s) (mq_head s) (mq_prods s) c).
Definition return_null (s : mq) : res (mqout * mq) :=
  Ok (QPopped None, mkMq (mq_next s) (mq_owned s) (mq_tail s) (mq_head s) (mq_prods s) MCIdle).

(** One step of the consumer inside pop_node_ (mpsc_queue_impl.cpp:32-38,
    46-91); the two first loads are one step, as nobody else moves head_. *)
Definition mq_begin_pop (s : mq) (spin : bool) : res (mqout * mq) :=
  match mq_next s (mq_head s) with
  | None => if mq_head s =? stub then goto s (MCTail1 spin) else goto s (MCTail2 spin)
  | Some n => if mq_head s =? stub then advance s spin n else finish s n
  end.
Definition mq_cons_step (s : mq) : option (res (mqout * mq)) :=
  match mq_cons s with
  | MCIdle => None
  | MCTail1 spin => Some (if mq_tail s =? mq_head s then return_null s else goto s (MCWait1 spin retries))
  | MCWait1 spin k =>
      Some match mq_next s (mq_head s) with
           | Some n => advance s spin n
           | None => if spin then goto s (MCWait1 spin k)
                     else match k with S k' => goto s (MCWait1 spin k') | O => return_null s end
           end
  | MCNext spin =>
      Some match mq_next s (mq_head s) with
           | Some n => finish s n
           | None => goto s (MCTail2 spin)
           end
  | MCTail2 spin => Some (if mq_tail s =? mq_head s then goto s (MCStubClear spin) else goto s (MCWait2 spin retries))
  | MCStubClear spin =>
      Some (Ok (QNone, mkMq (upn (mq_next s) stub None) (mq_owned s) (mq_tail s) (mq_head s) (mq_prods s) (MCStubXchg spin)))
  | MCStubXchg spin =>
      Some (Ok (QNone, mkMq (mq_next s) (mq_owned s) stub (mq_head s) (mq_prods s) (MCStubLink spin (mq_tail s))))
  | MCStubLink spin prev =>
      Some (Ok (QNone, mkMq (upn (mq_next s) prev (Some stub)) (mq_owned s) (mq_tail s) (mq_head s) (mq_prods s) (MCWait2 spin retries)))
  | MCWait2 spin k =>
      Some match mq_next s (mq_head s) with
           | Some n => finish s n
           | None => if spin then goto s (MCWait2 spin k)
                     else match k with S k' => goto s (MCWait2 spin k') | O => return_null s end
           end
  | MCRelease x =>
      Some (if mq_owned s x then
              Ok (QPopped (Some x), mkMq (mq_next s) (upn (mq_owned s) x false) (mq_tail s) (mq_head s) (mq_prods s) MCIdle)
            else Panic)
  end.

(** One step of a producer inside push_back (mpsc_queue_impl.cpp:27-30, 40-44,
    129-135) *)
Definition mq_prod_step (s : mq) (t : nat) : option (res (mqout * mq)) :=
  match mq_prods s t with
  | MPIdle => None
  | MPOwned x =>
      Some (Ok (QNone, mkMq (upn (mq_next s) x None) (mq_owned s) (mq_tail s) (mq_head s) (upt (mq_prods s) t (MPCleared x)) (mq_cons s)))
  | MPCleared x =>
      Some (Ok (QLin t x, mkMq (mq_next s) (mq_owned s) x (mq_head s) (upt (mq_prods s) t (MPLink x (mq_tail s))) (mq_cons s)))
  | MPLink x prev =>
      Some (Ok (QRet t x, mkMq (upn (mq_next s) prev (Some x)) (mq_owned s) (mq_tail s) (mq_head s) (upt (mq_prods s) t MPIdle) (mq_cons s)))
  end.
Definition mq_step (s : mq) (l : mqlabel) : option (res (mqout * mq)) :=
  match l with
  | QPush t x =>
      match mq_prods s t with
      | MPIdle =>
          if x =? stub then None
          else Some (if mq_owned s x then Panic
                     else Ok (QCall t x, mkMq (mq_next s) (upn (mq_owned s) x true) (mq_tail s) (mq_head s) (upt (mq_prods s) t (MPOwned x)) (mq_cons s)))
      | _ => None
      end
  | QStep t => mq_prod_step s t
  | QPop spin => match mq_cons s with MCIdle => Some (mq_begin_pop s spin) | _ => None end
  | QCons => mq_cons_step s
  end.

Open Scope res_scope.
Fixpoint mq_run (s : mq) (ls : list mqlabel) : res (list mqout * mq) :=
  match ls with
  | [] => Ok ([], s)
  | l :: ls' =>
      match mq_step s l with
      | None => mq_run s ls'
      | Some r => x <- r ;; y <- mq_run (snd x) ls' ;; Ok (fst x :: fst y, snd y)
      end
  end.
