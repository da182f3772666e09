(* Executions of a receiver, seen from outside. *)
From Coq Require Import ZArith List Bool Lia.
From Verif Require Import Base RecvState_model.
Import ListNotations.
Local Open Scope Z_scope.

(* An execution: the steps that were made, in order, by all threads, and what
   could be seen. *)
Inductive exec : list ev -> list out -> res st -> Prop :=
| ex_new : exec [] [] (Ok s_new)
| ex_step : forall es os s a s' o,
    exec es os (Ok s) -> calm s a -> step s a = Some (Ok (s', o)) ->
    exec (es ++ [a]) (os ++ o) (Ok s')
| ex_panic : forall es os s a,
    exec es os (Ok s) -> calm s a -> step s a = Some Panic ->
    exec (es ++ [a]) os Panic.

(* Steps of an execution that continues from a state; no endpoint is deleted
   during a write to it. *)
Inductive steps : st -> list ev -> list out -> st -> Prop :=
| ss_nil : forall s, steps s [] [] s
| ss_cons : forall s a s1 o es os s2,
    calm s a -> step s a = Some (Ok (s1, o)) -> steps s1 es os s2 ->
    steps s (a :: es) (o ++ os) s2.

(* How many packets were handed to the receiver. *)
Definition written (es : list ev) : nat :=
  length (filter (fun a => match a with WAdd _ _ _ => true | _ => false end) es).
(* How many packets were routed, dropped as malformed, lost with their endpoint. *)
Definition routed (os : list out) : nat :=
  length (filter (fun o => match o with ODone _ _ => true | _ => false end) os).
Definition malformed (os : list out) : nat :=
  length (filter (fun o => match o with OBad _ _ => true | _ => false end) os).
Definition lost (os : list out) : nat :=
  length (filter (fun o => match o with OLost _ _ => true | _ => false end) os).

(* The number of sessions, as last told by the session groups. *)
Fixpoint sessions_from (n : Z) (es : list ev) : Z :=
  match es with
  | [] => n
  | PRoute m :: es | PSess m :: es => sessions_from m es
  | _ :: es => sessions_from n es
  end.
Definition sessions (es : list ev) : Z := sessions_from 0 es.

(* The write() that thread [w] is making, if any. *)
Fixpoint writing_from (pc : nat -> option (nat * item)) (es : list ev) : nat -> option (nat * item) :=
  match es with
  | [] => pc
  | WAdd w e p :: es => writing_from (fupd pc w (Some (e, p))) es
  | WPush w :: es => writing_from (fupd pc w None) es
  | _ :: es => writing_from pc es
  end.
Definition writing (es : list ev) : nat -> option (nat * item) := writing_from (fun _ => None) es.

(* The packets for which write() to endpoint [e] returned, in order. *)
Fixpoint accepted_from (pc : nat -> option (nat * item)) (e : nat) (es : list ev) : list item :=
  match es with
  | [] => []
  | WAdd w e' p :: es => accepted_from (fupd pc w (Some (e', p))) e es
  | WPush w :: es =>
      match pc w with
      | Some (e', p) => if Nat.eqb e' e then [p] else []
      | None => []
      end ++ accepted_from (fupd pc w None) e es
  | _ :: es => accepted_from pc e es
  end.
Definition accepted (e : nat) (es : list ev) : list item := accepted_from (fun _ => None) e es.

(* What became of the packets of endpoint [e], in order. *)
Definition left_queue (e : nat) (os : list out) : list item :=
  flat_map (fun o => match o with
                     | OBad e' p | ODone e' p | OLost e' p => if Nat.eqb e' e then [p] else []
                     | OState _ => []
                     end) os.

(* Nothing that was handed to the receiver is waiting in it. *)
Definition nothing_waits (es : list ev) (os : list out) : Prop :=
  (forall w, writing es w = None) /\ (forall e, accepted e es = left_queue e os).
