(** Model of roc_packet/concurrent_queue.cpp: any number of writer and reader threads on
    top of the step-by-step model of the lock-free queue. Packets are named by integers,
    none of them 0. The semaphore is a number without bound, the mutex is held by at most
    one reader; both are assumed to work. *)
From Verif Require Import Base Mpsc_model.

(** A writer: outside of [write]; inside [push_back]; before [post]. *)
Inductive wpc := WIdle | WIn (x : Z) | WPost (x : Z).
(** A reader: outside of [read]; before [wait], before [pop_front_exclusive], inside it,
    and before the return, which releases the mutex. *)
Inductive rpc := RIdle | RWait | RGo | RPop | RHave (v : option Z).

Record cq := mkCq {
  c_q : mq; c_sem : nat; c_w : nat -> wpc; c_r : nat -> rpc; c_lock : option nat }.

Inductive cqlabel := CWrite (t : nat) (x : Z) | CWriter (t : nat) | CRead (r : nat) | CReader (r : nat).
(** What is observed: steps of the inner queue, returns of [write], returns of [read]
    with a packet or StatusNoData. *)
Inductive cqout := CQ (o : mqout) | CWrote (t : nat) (x : Z) | CGot (r : nat) (v : option Z).

Definition upf {A} (f : nat -> A) (t : nat) (v : A) : nat -> A := fun u => if Nat.eqb u t then v else f u.

(** concurrent_queue.cpp:16-20 *)
Definition cq_new : cq := mkCq mq_new 0 (fun _ => WIdle) (fun _ => RIdle) None.

(** concurrent_queue.cpp:37-49: [write]. *)
Definition cq_writer (blocking : bool) (s : cq) (t : nat) : option (res (list cqout * cq)) :=
  match c_w s t with
  | WIdle => None
  | WIn x =>
      match mq_step (c_q s) (QStep t) with
      | None => None
      | Some Panic => Some Panic
      | Some UB => Some UB
      | Some (Ok (o, q)) =>
          Some (Ok match mq_prods q t with
                   | MPIdle =>
                       if blocking
                       then ([CQ o], mkCq q (c_sem s) (upf (c_w s) t (WPost x)) (c_r s) (c_lock s))
                       else ([CQ o; CWrote t x], mkCq q (c_sem s) (upf (c_w s) t WIdle) (c_r s) (c_lock s))
                   | _ => ([CQ o], mkCq q (c_sem s) (c_w s) (c_r s) (c_lock s))
                   end)
      end
  | WPost x =>
      Some (Ok ([CWrote t x], mkCq (c_q s) (S (c_sem s)) (upf (c_w s) t WIdle) (c_r s) (c_lock s)))
  end.

(** concurrent_queue.cpp:22-35: [read], once the mutex is held. *)
Definition cq_reader (s : cq) (r : nat) : option (res (list cqout * cq)) :=
  match c_r s r with
  | RIdle => None
  | RWait =>
      match c_sem s with
      | O => None
      | S n => Some (Ok ([], mkCq (c_q s) n (c_w s) (upf (c_r s) r RGo) (c_lock s)))
      end
  | RGo =>
      match mq_step (c_q s) (QPop true) with
      | None => None
      | Some Panic => Some Panic
      | Some UB => Some UB
      | Some (Ok (o, q)) => Some (Ok ([CQ o], mkCq q (c_sem s) (c_w s) (upf (c_r s) r RPop) (c_lock s)))
      end
  | RPop =>
      match mq_step (c_q s) QCons with
      | None => None
      | Some Panic => Some Panic
      | Some UB => Some UB
      | Some (Ok (o, q)) =>
          Some (Ok ([CQ o], mkCq q (c_sem s) (c_w s)
                     (match o with QPopped v => upf (c_r s) r (RHave v) | _ => c_r s end) (c_lock s)))
      end
  | RHave v => Some (Ok ([CGot r v], mkCq (c_q s) (c_sem s) (c_w s) (upf (c_r s) r RIdle) None))
  end.

(** A reader calls [read] and gets the mutex in one step (concurrent_queue.cpp:23): while
    it waits for the mutex it does nothing. *)
Definition cq_step (blocking : bool) (s : cq) (l : cqlabel) : option (res (list cqout * cq)) :=
  match l with
  | CWrite t x =>
      match c_w s t with
      | WIdle =>
          match mq_step (c_q s) (QPush t x) with
          | None => None
          | Some Panic => Some Panic
          | Some UB => Some UB
          | Some (Ok (o, q)) => Some (Ok ([CQ o], mkCq q (c_sem s) (upf (c_w s) t (WIn x)) (c_r s) (c_lock s)))
          end
      | _ => None
      end
  | CWriter t => cq_writer blocking s t
  | CRead r =>
      match c_r s r, c_lock s with
      | RIdle, None =>
          Some (Ok ([], mkCq (c_q s) (c_sem s) (c_w s)
                     (upf (c_r s) r (if blocking then RWait else RGo)) (Some r)))
      | _, _ => None
      end
  | CReader r => cq_reader s r
  end.

Open Scope res_scope.
(** A schedule: a step that is not possible leaves everything as it is. *)
Fixpoint cq_run (blocking : bool) (s : cq) (ls : list cqlabel) : res (list cqout * cq) :=
  match ls with
  | [] => Ok ([], s)
  | l :: ls' =>
      match cq_step blocking s l with
      | None => cq_run blocking s ls'
      | Some r => x <- r ;; y <- cq_run blocking (snd x) ls' ;; Ok (fst x ++ fst y, snd y)
      end
  end.
