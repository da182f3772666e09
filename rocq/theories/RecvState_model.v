(* Model of how packets enter a receiver and of its activity state:
   roc_pipeline/receiver_endpoint.cpp:191-227, roc_pipeline/state_tracker.cpp,
   roc_pipeline/receiver_source.cpp:95-147, roc_pipeline/receiver_loop.cpp:152-264.

   Network threads call inbound_writer().write(); a pipeline thread calls read(),
   which pulls packets, and state(); tasks add and delete endpoints.  read(),
   state() and tasks hold source_mutex_, so that one of them runs at a time
   ([phase]); writers take no lock.  Every access to the counters and to the
   queue is one atomic step of the thread that makes it.

   Simplifications:
   - a packet is its number, and whether the parser of the endpoint accepts it
     ([i_ok]); what routing it does is given by the number of sessions after it
     (SessGroup_model.v is the model of that, and C51 says that the counter of
     sessions is never negative);
   - route_packet() returns StatusOK (receiver_slot.cpp:79-95 panics otherwise);
   - the queue is a FIFO list (Mpsc_model.v is the model of the queue itself);
     try_pop_front_exclusive() returning NULL, for whatever reason, is the end of
     the loop: the pipeline thread does not take the [PPop] step;
   - an endpoint is deleted when no write to it is running (the network port is
     removed first, roc_node/receiver.cpp:202-240). *)
From Coq Require Import ZArith List Bool Lia.
From Verif Require Import Base.
Import ListNotations.
Local Open Scope Z_scope.

Record item := mkI { i_id : nat; i_ok : bool }.

(* What the holder of source_mutex_ is doing: nothing; it has popped a packet
   (receiver_endpoint.cpp:200); parsed it (201); routed it (206); it has read
   active_sessions_, which was zero (state_tracker.cpp:21). *)
Inductive phase :=
| Free
| Popped (e : nat) (p : item)
| Parsed (e : nat) (p : item)
| Routed (e : nat) (p : item)
| Asked.

(* state_tracker.h:52-53; inbound_queue_ of every existing endpoint; writers in
   the middle of write(), after line 223 of receiver_endpoint.cpp *)
Record st := mkS {
  pend : Z;
  sess : Z;
  qs : nat -> option (list item);
  wr : nat -> option (nat * item);
  ph : phase
}.

Definition fupd {A} (f : nat -> A) (x : nat) (a : A) : nat -> A :=
  fun y => if Nat.eqb y x then a else f y.

Inductive dstate := Active | Idle.

(* Steps *)
Inductive ev :=
| WAdd (w e : nat) (p : item)   (* write(), line 223 *)
| WPush (w : nat)               (* write(), line 224 *)
| PPop (e : nat)                (* pull_packets(), line 200 *)
| PParse                        (* line 201 *)
| PRoute (n : Z)                (* line 206; [n]: the number of sessions afterwards *)
| PDec                          (* line 207 *)
| PSess (n : Z)                 (* refresh_sessions(), reclock_sessions() *)
| PNew (e : nat)                (* add_endpoint() *)
| PDel (e : nat)                (* delete_slot(): the endpoint is destroyed *)
| QSess                         (* get_state(), line 21 *)
| QPend.                        (* get_state(), line 26 *)

(* What can be seen: a packet was dropped as malformed, was routed to the
   sessions, was destroyed with its endpoint; the answer of state(). *)
Inductive out :=
| OBad (e : nat) (p : item)
| ODone (e : nat) (p : item)
| OLost (e : nat) (p : item)
| OState (d : dstate).

(* StateTracker::add_pending_packets, state_tracker.cpp:48-51 *)
Definition add_pending (n d : Z) : res Z := if n + d <? 0 then Panic else Ok (n + d).

(* StateTracker::num_active_sessions is never negative: see C51 *)
Definition set_sess (s : st) (n : Z) (f : phase) : option (res (st * list out)) :=
  if n <? 0 then None else Some (Ok (mkS (pend s) n (qs s) (wr s) f, [])).

(* One step; None: the step is not possible now *)
Definition step (s : st) (a : ev) : option (res (st * list out)) :=
  match a, ph s with
  (* receiver_endpoint.cpp:223 *)
  | WAdd w e p, f =>
      match wr s w, qs s e with
      | None, Some _ =>
          Some (match add_pending (pend s) 1 with
                | Ok n => Ok (mkS n (sess s) (qs s) (fupd (wr s) w (Some (e, p))) f, [])
                | r => match r with UB => UB | _ => Panic end
                end)
      | _, _ => None
      end
  (* receiver_endpoint.cpp:224 *)
  | WPush w, f =>
      match wr s w with
      | Some (e, p) =>
          match qs s e with
          | Some l => Some (Ok (mkS (pend s) (sess s) (fupd (qs s) e (Some (l ++ [p])))
                                    (fupd (wr s) w None) f, []))
          | None => None
          end
      | None => None
      end
  (* receiver_endpoint.cpp:200 *)
  | PPop e, Free =>
      match qs s e with
      | Some (p :: l) => Some (Ok (mkS (pend s) (sess s) (fupd (qs s) e (Some l)) (wr s)
                                       (Popped e p), []))
      | _ => None
      end
  (* receiver_endpoint.cpp:201-204 *)
  | PParse, Popped e p =>
      if i_ok p
      then Some (Ok (mkS (pend s) (sess s) (qs s) (wr s) (Parsed e p), []))
      else Some (Ok (mkS (pend s) (sess s) (qs s) (wr s) Free, [OBad e p]))
  (* receiver_endpoint.cpp:206 *)
  | PRoute n, Parsed e p => set_sess s n (Routed e p)
  (* receiver_endpoint.cpp:207 *)
  | PDec, Routed e p =>
      Some (match add_pending (pend s) (-1) with
            | Ok n => Ok (mkS n (sess s) (qs s) (wr s) Free, [ODone e p])
            | r => match r with UB => UB | _ => Panic end
            end)
  (* receiver_slot.cpp:97-104 *)
  | PSess n, Free => set_sess s n Free
  (* receiver_slot.cpp:49-74 *)
  | PNew e, Free =>
      match qs s e with
      | None => Some (Ok (mkS (pend s) (sess s) (fupd (qs s) e (Some [])) (wr s) Free, []))
      | Some _ => None
      end
  (* receiver_source.cpp:95-101: nothing is subtracted from pending_packets_ *)
  | PDel e, Free =>
      match qs s e with
      | Some l => Some (Ok (mkS (pend s) (sess s) (fupd (qs s) e None) (wr s) Free,
                            map (OLost e) l))
      | None => None
      end
  (* state_tracker.cpp:21-24 *)
  | QSess, Free =>
      if negb (sess s =? 0)
      then Some (Ok (s, [OState Active]))
      else Some (Ok (mkS (pend s) (sess s) (qs s) (wr s) Asked, []))
  (* state_tracker.cpp:26-32 *)
  | QPend, Asked =>
      Some (Ok (mkS (pend s) (sess s) (qs s) (wr s) Free,
                [OState (if negb (pend s =? 0) then Active else Idle)]))
  | _, _ => None
  end.

(* The endpoint is not destroyed while a write to it is running. *)
Definition calm (s : st) (a : ev) : Prop :=
  match a with
  | PDel e => forall w p, wr s w <> Some (e, p)
  | _ => True
  end.

(* receiver_source.cpp:14-28, state_tracker.cpp:15-18 *)
Definition s_new : st := mkS 0 0 (fun _ => None) (fun _ => None) Free.

(* pull_packets(), receiver_endpoint.cpp:191-214, for a queue with these packets
   in it; [ns]: the number of sessions after each packet that is routed *)
Fixpoint pull (e : nat) (l : list item) (n : Z) : list ev :=
  match l with
  | [] => []
  | p :: l => PPop e :: PParse :: (if i_ok p then [PRoute n; PDec] else []) ++ pull e l n
  end.
