(** What is expected of the pipeline stages that change the channel layout. *)
From Coq Require Import QArith.
From Verif Require Import Base ChannelSet_model ChanMap_model.
Open Scope Z_scope.

(** What one call of the mapper makes of the samples of these sampling moments. *)
Definition one_call (mp : mapper) (fs : list (list Q)) (l : list Q) : Prop :=
  map_samples mp (concat fs) (Z.of_nat (length fs) * num_channels (mp_out mp)) = Ok l.

(** [k] is the least number of parts of size [m] that hold [n]. *)
Definition parts (n m k : nat) : Prop := (n <= k * m)%nat /\ forall j, (n <= j * m)%nat -> (k <= j)%nat.

(** An upstream frame: flags and capture time. *)
Definition fine (r : Z * Z) : Prop := Z.testbit (fst r) 0 = false /\ 0 <= snd r.
(** Every flag that is set in one of the frames, and no other. *)
Definition union_flags (fl : Z) (rs : list (Z * Z)) : Prop :=
  forall i, 0 <= i -> Z.testbit fl i = existsb (fun r => Z.testbit (fst r) i) rs.
