(* Packets by their position in the stream: consecutive packets have consecutive
   positions, the sequence number of a packet is its position modulo 2^16. *)
From Coq Require Import ZArith List Bool.
Import ListNotations.
Local Open Scope Z_scope.

(* greatest and least of the positions *)
Definition highest (x : Z) (xs : list Z) : Z := fold_left Z.max xs x.
Definition lowest (x : Z) (xs : list Z) : Z := fold_left Z.min xs x.

(* No packet is 2^15 or more packets behind, or ahead of, all that came before. *)
Fixpoint orderly (top : Z) (xs : list Z) : Prop :=
  match xs with [] => True | x :: xs => Z.abs (x - top) < 32768 /\ orderly (Z.max top x) xs end.

(* The positions of the packets that count: RTP packets of known payload types. *)
Fixpoint counted (find : Z -> bool) (ps : list (option (Z * Z))) : list Z :=
  match ps with
  | [] => []
  | Some (pt, x) :: ps => if find pt then x :: counted find ps else counted find ps
  | None :: ps => counted find ps
  end.

(* what arrives: payload type and sequence number *)
Definition on_wire (p : option (Z * Z)) : option (Z * Z) :=
  match p with Some (pt, x) => Some (pt, x mod 65536) | None => None end.
