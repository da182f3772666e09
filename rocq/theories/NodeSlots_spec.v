(* What a user of a sender or receiver relies on when slots are configured, connected or
   bound, unlinked and when these calls fail. *)
From Coq Require Import ZArith List Bool Arith.
From Verif Require Import Base NodeSlots_model.
Import ListNotations.
Local Open Scope Z_scope.

(* Every open port that receives packets hands them to a pipeline slot that exists and
   has the endpoint for them. *)
Definition deliveries_live (n : net) : Prop :=
  forall p s i, In p (n_ports n) -> p_recv p = Some (s, i) ->
    exists eps e, In (s, eps) (n_slots n) /\ In e eps /\ ep_iface e = i.
(* Every endpoint that sends packets hands them to a port that is open. *)
Definition sends_open (n : net) : Prop :=
  forall s eps e h, In (s, eps) (n_slots n) -> In e eps -> ep_out e = Some h ->
    exists p, In p (n_ports n) /\ p_id p = h.

(* What the API documents about a slot: it does not exist, it works and these interfaces
   are connected or bound, or it is broken and has to be unlinked. *)
Inductive status := Absent | Working (attached : list Z) | Broken.
Definition table := Z -> status.

(* A call that concerns one existing slot, its answer, and the status after it *)
Inductive slot_call (d : side) : op -> status -> ans -> status -> Prop :=
| Call_configure k i c cs : (d = Rcv -> ~ In i cs) -> slot_call d (Configure k i c) (Working cs) Yes (Working cs)
| Call_configure_late k i c cs : In i cs -> slot_call d (Configure k i c) (Working cs) No Broken
| Call_attach k i u cs a :
    ~ In i cs -> i = 2 \/ i = 3 \/ i = 4 -> u_ok u = true ->
    (a = Yes /\ (d = Snd \/ u_port u <> 0) \/ exists p, a = YesPort p /\ d = Rcv /\ u_port u = 0) ->
    slot_call d (Attach k i u) (Working cs) a (Working (i :: cs))
| Call_attach_fails k i u cs : slot_call d (Attach k i u) (Working cs) No Broken
| Call_broken_configure k i c : slot_call d (Configure k i c) Broken No Broken
| Call_broken_attach k i u : slot_call d (Attach k i u) Broken No Broken
| Call_unlink k st : st <> Absent -> slot_call d (Unlink k) st Yes Absent
| Call_query k cs : slot_call d (Query k) (Working cs) Yes (Working cs).

Definition slot_of (o : op) : option Z :=
  match o with Configure k _ _ => Some k | Attach k _ _ => Some k | Unlink k => Some k | Query k => Some k | HasBroken => None end.
Definition creates (o : op) : bool := match o with Configure _ _ _ => true | Attach _ _ _ => true | _ => false end.

(* One call on the whole table: only the slot named in the call changes. *)
Inductive api (d : side) (t : table) : op -> ans -> table -> Prop :=
| Api_slot o k a t' :
    slot_of o = Some k -> slot_call d o (t k) a (t' k) -> (forall j, j <> k -> t' j = t j) -> api d t o a t'
| Api_create o k a t' :
    slot_of o = Some k -> creates o = true -> t k = Absent -> slot_call d o (Working []) a (t' k) ->
    (forall j, j <> k -> t' j = t j) -> api d t o a t'
| Api_none o k t' : slot_of o = Some k -> t k = Absent -> (forall j, t' j = t j) -> api d t o No t'
| Api_has_broken a t' :
    a = Yes /\ (exists k, t k = Broken) \/ a = No /\ (forall k, t k <> Broken) ->
    (forall j, t' j = t j) -> api d t HasBroken a t'.
Inductive api_run (d : side) : table -> list op -> list ans -> table -> Prop :=
| Run_nil t : api_run d t [] [] t
| Run_cons t o a t1 ops l t2 : api d t o a t1 -> api_run d t1 ops l t2 -> api_run d t (o :: ops) (a :: l) t2.
Definition table0 : table := fun _ => Absent.

(* The interface of a call is one of the enumeration. *)
Definition valid_op (o : op) : Prop :=
  match o with Configure _ i _ => 0 <= i < 5 | Attach _ i _ => 0 <= i < 5 | _ => True end.
(* The system reports port numbers of 16 bits. *)
Definition env_ok (env : list (option addr)) : Prop := forall a, In (Some a) env -> 0 <= a_port a <= 65535.
(* No interface of a slot is bound again before the slot is unlinked. *)
Fixpoint once (seen : list (Z * Z)) (ops : list op) : Prop :=
  match ops with
  | [] => True
  | Attach k i _ :: ops => ~ In (k, i) seen /\ once ((k, i) :: seen) ops
  | Unlink k :: ops => once (filter (fun x => negb (fst x =? k)) seen) ops
  | _ :: ops => once seen ops
  end.

(* What a slot that works holds: one pipeline slot with one endpoint for every attached
   interface. In a sender every port is used by an endpoint, every endpoint sends to a
   port, and what ports receive goes to an endpoint. In a receiver there is one port for
   every attached interface, which delivers to its endpoint; an endpoint that sends uses
   its own port. *)
Definition slot_holds (d : side) (cs : list Z) (n : net) : Prop :=
  exists s eps,
    n_slots n = [(s, eps)] /\ map ep_iface eps = cs /\ NoDup cs /\
    match d with
    | Snd =>
        (forall p, In p (n_ports n) -> exists e, In e eps /\ ep_out e = Some (p_id p)) /\
        (forall e, In e eps -> exists p, In p (n_ports n) /\ ep_out e = Some (p_id p)) /\
        (forall p s' i, In p (n_ports n) -> p_recv p = Some (s', i) -> s' = s /\ In i cs)
    | Rcv =>
        (forall p, In p (n_ports n) -> exists i, p_recv p = Some (s, i) /\ In i cs) /\
        (forall i, In i cs -> exists p, In p (n_ports n) /\ p_recv p = Some (s, i)) /\
        (forall p q, In p (n_ports n) -> In q (n_ports n) -> p_recv p = p_recv q -> p = q) /\
        (forall e h, In e eps -> ep_out e = Some h ->
           exists p, In p (n_ports n) /\ p_id p = h /\ p_recv p = Some (s, ep_iface e))
    end.
(* All that is open belongs to exactly one slot that works; slots that are absent or
   broken hold nothing. *)
Definition holds (d : side) (t : table) (n : net) : Prop :=
  NoDup (map p_id (n_ports n)) /\ NoDup (map fst (n_slots n)) /\
  exists own : Z -> net,
    (forall p, In p (n_ports n) <-> exists k, In p (n_ports (own k))) /\
    (forall x, In x (n_slots n) <-> exists k, In x (n_slots (own k))) /\
    (forall j k p, In p (n_ports (own j)) -> In p (n_ports (own k)) -> j = k) /\
    (forall j k x, In x (n_slots (own j)) -> In x (n_slots (own k)) -> j = k) /\
    (forall k, match t k with
               | Working cs => slot_holds d cs (own k)
               | _ => own k = mkNet [] []
               end).
