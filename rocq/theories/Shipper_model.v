(** Model of roc_packet/shipper.cpp: the last step of a packet before it is sent. *)
From Verif Require Import Base.
Local Open Scope res_scope.

Section Shipper.
(** Addresses, and contents of packets. *)
Context {A D : Type}.

(** roc_packet/packet.h. What the shipper uses of a packet: the flags FlagUDP, FlagPrepared and FlagComposed, the
    destination (none if the address is empty) and the content. *)
Record pkt := { k_udp : bool; k_dst : option A; k_prepared : bool; k_composed : bool; k_data : D }.

(** roc_packet/packet.cpp:20-25 for FlagUDP *)
Definition add_udp (p : pkt) : res pkt :=
  if k_udp p then Panic
  else Ok {| k_udp := true; k_dst := k_dst p; k_prepared := k_prepared p; k_composed := k_composed p; k_data := k_data p |}.
(** shipper.cpp:33-35; packet->udp() is null without the flag: packet.cpp:42-47. *)
Definition set_dst (a : A) (p : pkt) : res pkt :=
  if negb (k_udp p) then UB
  else match k_dst p with
       | Some _ => Ok p
       | None => Ok {| k_udp := k_udp p; k_dst := Some a; k_prepared := k_prepared p; k_composed := k_composed p; k_data := k_data p |}
       end.
(** roc_packet/packet.cpp:20-25 for FlagComposed *)
Definition add_composed (p : pkt) : res pkt :=
  if k_composed p then Panic
  else Ok {| k_udp := k_udp p; k_dst := k_dst p; k_prepared := k_prepared p; k_composed := true; k_data := k_data p |}.

(** roc_packet/packet.h: PacketPtr. Packets are shared by pointers: a heap of them. [w_calls] are the packets the composer
    was called for, [w_out] what the writer was given, with the packet as it was then. *)
Record world := { w_heap : nat -> pkt; w_calls : list nat; w_out : list (nat * pkt) }.
Definition put (h : nat -> pkt) (i : nat) (p : pkt) : nat -> pkt := fun j => if (j =? i)%nat then p else h j.

(** shipper.cpp:28-51. [compose] is any composer: the new content, or none if it fails.
    Simplified: the status of the writer, which is returned as it is, is left out. *)
Definition ship (addr : option A) (compose : pkt -> option D) (w : world) (i : nat) : res world :=
  let p := w_heap w i in
  p <- match addr with
       | None => Ok p
       | Some a =>
           p <- (if negb (k_udp p) then add_udp p else Ok p) ;;
           set_dst a p
       end ;;
  if negb (k_prepared p) then Panic
  else
    if negb (k_composed p) then
      match compose p with
      | None => Panic
      | Some d =>
          p <- add_composed {| k_udp := k_udp p; k_dst := k_dst p; k_prepared := k_prepared p; k_composed := k_composed p; k_data := d |} ;;
          Ok {| w_heap := put (w_heap w) i p; w_calls := w_calls w ++ [i]; w_out := w_out w ++ [(i, p)] |}
      end
    else Ok {| w_heap := put (w_heap w) i p; w_calls := w_calls w; w_out := w_out w ++ [(i, p)] |}.

(** Any number of calls of shipper.cpp:28-51. *)
Fixpoint ship_all (addr : option A) (compose : pkt -> option D) (w : world) (ids : list nat) : res world :=
  match ids with
  | [] => Ok w
  | i :: t => w <- ship addr compose w i ;; ship_all addr compose w t
  end.
End Shipper.
Arguments pkt : clear implicits.
Arguments world : clear implicits.
