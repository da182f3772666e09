(** Specification of percent-encoding (RFC 3986 section 2.1): a text is a
    sequence of units, a plain character or '%' and two hexadecimal digits. *)
From Verif Require Import Base.
From Coq Require Import Ascii String.

Definition hex_digit (c v : Z) : Prop :=
  (48 <= c <= 57 /\ v = c - 48) \/ (65 <= c <= 70 /\ v = c - 55) \/ (97 <= c <= 102 /\ v = c - 87).

Inductive encodes : list Z -> list Z -> Prop :=
| enc_nil : encodes [] []
| enc_plain c s t : c <> 0 -> c <> 37 -> encodes s t -> encodes (c :: s) (c :: t)
| enc_pct h l a b s t : hex_digit h a -> hex_digit l b -> a * 16 + b <> 0 -> encodes s t ->
    encodes (37 :: h :: l :: s) (a * 16 + b :: t).

(** Character sets of RFC 3986, as literal strings. *)
Definition chars (s : string) : list Z := List.map (fun c => Z.of_nat (nat_of_ascii c)) (list_ascii_of_string s).
Definition unreserved : list Z := chars "ABCDEFGHIJKLMNOPQRSTUVWXYZabcdefghijklmnopqrstuvwxyz0123456789-._~".
Definition subdelims : list Z := chars "!$&'()*+,;=".
Definition path_chars : list Z := unreserved ++ subdelims ++ chars ":@/".
Definition host_chars : list Z := unreserved ++ subdelims ++ chars ":[]".
