(** RFC 4122 text of a random (version 4) UUID. Nothing here refers to the model. *)
From Verif Require Import Base.
Local Open Scope Z_scope.

Definition lower_hex (c : Z) : Prop := 48 <= c <= 57 \/ 97 <= c <= 102.

(** 36 characters: - at places 8, 13, 18, 23; hexadecimal digits elsewhere; the version 4 at
    place 14; one of 8 9 a b at place 19. *)
Definition uuid4 (t : list Z) : Prop :=
  length t = 36%nat /\
  (forall i c, nth_error t i = Some c ->
    if existsb (Nat.eqb i) [8; 13; 18; 23]%nat then c = 45 else lower_hex c) /\
  nth_error t 14 = Some 52 /\
  (exists c, nth_error t 19 = Some c /\ In c [56; 57; 97; 98]).

(** The value of a digit, and the 16 bytes that a text stands for. *)
Definition hex_val (c : Z) : Z := if c <=? 57 then c - 48 else c - 87.
Fixpoint pairs (t : list Z) : list Z :=
  match t with
  | a :: b :: r => hex_val a * 16 + hex_val b :: pairs r
  | _ => []
  end.
Definition uuid_bytes (t : list Z) : list Z := pairs (filter (fun c => negb (c =? 45)) t).
