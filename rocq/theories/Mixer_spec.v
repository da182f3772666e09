(** Specification of mixing (C40). *)
From Verif Require Import Base Float32 Mixer_model.
From Coq Require Import Reals.

(** The samples number [k] of the inputs that can be read. *)
Definition column {A} (zero : A) (ins : list (input A)) (k : nat) : list A :=
  map (fun i => nth k (in_smp i) zero) (filter in_ok ins).

(** Exact mixing: the clamped sum. *)
Definition clamp (lo hi x : Z) : Z := Z.max lo (Z.min hi x).
Definition zsum (l : list Z) : Z := fold_right Z.add 0 l.

(** Clamping of reals to the sample range. *)
Definition rclamp (x : R) : R := Rmax (-1) (Rmin x 1).
