(** What is expected of the pipeline stages that change the sample format. *)
From Verif Require Import Base Pcm_model Pcm_spec Pcm_proof PcmIo_model.
Open Scope Z_scope.
Open Scope res_scope.

(** Samples as they are stored in a byte-aligned format: the bits of each in a container of
    whole bytes, padding bits zero. *)
Definition stored (c : pcm_code) (e : pcm_endian) (vs : list Z) : list Z :=
  flat_map (fun v => container (is_big e) (Z.to_nat (c_pw c / 8)) (v mod 2 ^ c_w c)) vs.
(** Bytes that samples of all channels take at one moment. *)
Definition moment (c : pcm_code) (ch : nat) : nat := (ch * Z.to_nat (c_pw c / 8))%nat.

(** What one call of the mapper makes of these samples. *)
Definition one_map (cv : conv) (vs : list Z) (bytes : list Z) : Prop :=
  length bytes = (length vs * Z.to_nat (c_pw (cv_oc cv) / 8))%nat /\
  exists a b, mapper_map (cv_ic cv) (cv_ie cv) (cv_oc cv) (cv_oe cv) (stored (cv_ic cv) (cv_ie cv) vs) 0
    (repeat 0 (length bytes)) 0 (Z.of_nat (length vs)) = Ok (Z.of_nat (length vs), bytes, a, b).

(** Flags of the result: those of [rs], but the flag "not raw" tells what the result is. *)
Definition flags_for (raw : bool) (fl : Z) (rs : list (Z * Z)) : Prop :=
  forall i, 0 <= i -> Z.testbit fl i = if i =? 0 then negb raw else existsb (fun r => Z.testbit (fst r) i) rs.
