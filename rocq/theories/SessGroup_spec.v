(* What callers of the receiver's session group and remote senders may expect. *)
From Coq Require Import ZArith List Bool.
From Verif Require Import Base SessRouter_model SessGroup_model.
From Verif Require Reporter_model.
Import ListNotations.
Local Open Scope Z_scope.

(* The RTCP part of a history. *)
Fixpoint reports (l : list nop) : list Reporter_model.rop :=
  match l with
  | [] => []
  | NReport o :: l => o :: reports l
  | _ :: l => reports l
  end.

(* Every sender report comes after a CNAME for its SSRC in the same packet, as
   RFC 3550, 6.1 demands.  [ids]: SSRCs that the packet has named so far.  A name
   does not count when there was no memory to store it. *)
Fixpoint introduced (ids : list Z) (l : list Reporter_model.rop) : Prop :=
  match l with
  | [] => True
  | Reporter_model.RBeginP _ _ _ :: l => introduced [] l
  | Reporter_model.RBeginG _ _ :: l | Reporter_model.REndP :: l | Reporter_model.REndG _ :: l => introduced [] l
  | Reporter_model.RCname ok id name :: l =>
      introduced (if ok && negb (name =? 0) then id :: ids
                  else filter (fun x => negb (x =? id)) ids) l
  | Reporter_model.RBye id :: l => introduced (filter (fun x => negb (x =? id)) ids) l
  | Reporter_model.RSr _ id _ :: l => In id ids /\ introduced ids l
  | _ :: l => introduced ids l
  end.

(* The session that gets the next packet with this SSRC, whatever its address. *)
Definition leads (g : group) (s : Z) (x : nat) : Prop :=
  forall made took addr repair,
    route_transport true made took g (mkPkt (Some s) addr repair) = Ok (Delivered x, g).

(* The session that gets the next packet without SSRC from this address (repair
   packets have none). *)
Definition leads_from (g : group) (a : Z) (x : nat) : Prop :=
  forall made took repair,
    route_transport true made took g (mkPkt None (Some a) repair) = Ok (Delivered x, g).

(* The operation neither ends session [x] nor is a report. *)
Definition spares (x : nat) (o : nop) : Prop :=
  match o with
  | NPacket _ _ _ => True
  | NReport _ => False
  | NRefresh alive _ => alive x <> None
  | NReclock alive => alive x = true
  end.

(* The earliest of the deadlines that are set (0: not set). *)
Definition is_earliest (d : Z) (l : list Z) : Prop :=
  (d = 0 /\ Forall (fun e => e = 0) l) \/
  (d <> 0 /\ In d l /\ Forall (fun e => e <> 0 -> d <= e) l).

(* What reaches a slot from outside: transport packets, RTCP datagrams, and the
   periodic calls of the pipeline. *)
Inductive input :=
| IMedia (made took : bool) (p : pkt)
| IControl (mem : list bool) (from now : Z) (p : Reporter_model.part) (buf : list Z)
| IRefresh (alive : nat -> option Z) (rtcp : Z)
| IReclock (alive : nat -> bool).

Definition input_ops (ts : Z -> Z) (i : input) : res (list nop) :=
  match i with
  | IMedia made took p => Ok [NPacket made took p]
  | IControl mem from now p buf =>
      bind (packet_ops ts mem from now p buf) (fun l => Ok (map NReport l))
  | IRefresh alive rtcp => Ok [NRefresh alive rtcp]
  | IReclock alive => Ok [NReclock alive]
  end.
Fixpoint history (ts : Z -> Z) (l : list input) : res (list nop) :=
  match l with
  | [] => Ok []
  | i :: l => bind (input_ops ts i) (fun a => bind (history ts l) (fun b => Ok (a ++ b)))
  end.

(* Bytes are bytes and the clock is set. *)
Definition sane (i : input) : Prop :=
  match i with
  | IControl _ _ now _ buf => 0 < now /\ Forall (fun b => 0 <= b < 256) buf
  | _ => True
  end.
