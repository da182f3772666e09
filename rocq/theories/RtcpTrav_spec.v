(** C15: what an RTCP compound packet is (RFC 3550, 6.1 and 6.4). *)
From Verif Require Import Base.
Local Open Scope Z_scope.

(** A whole packet of version 2: the third and fourth bytes give its length, in 32-bit words minus one. *)
Definition is_packet (p : list Z) : Prop :=
  exists b0 ty h l body, p = b0 :: ty :: h :: l :: body /\ b0 / 64 = 2 /\ Z.of_nat (length p) = 4 * (256 * h + l + 1).

(** How a buffer divides into packets; the flag says that what follows the last of them is not a packet. *)
Inductive layout : list Z -> list (list Z) -> bool -> Prop :=
| L_end : layout [] [] false
| L_bad t : t <> [] -> (forall p r, t = p ++ r -> ~ is_packet p) -> layout t [] true
| L_packet p t ps e : is_packet p -> layout t ps e -> layout (p ++ t) (p :: ps) e.

(** A sender or receiver report with the padding bit set. *)
Definition padded_report (p : list Z) : Prop :=
  exists b0 ty r, p = b0 :: ty :: r /\ (ty = 200 \/ ty = 201) /\ (b0 / 32) mod 2 = 1.
