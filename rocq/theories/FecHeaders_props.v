(** C12: FEC payload ID wire formats.  [sbn_fits]/[esi_fits] give the width of
    the field: 16 bits for LDPC-Staircase, 24/8 bits for Reed-Solomon (m=8). *)
From Verif Require Import Base Base_lemmas FecHeaders_model FecHeaders_proof.

(** Writing a field reads back, whatever the buffer contained, and leaves the
    other three fields alone. *)
Theorem C12_block_number : forall kind h v,
  length h = pid_size kind ->
  (match kind with RS8M => 0 <= v < 2 ^ 24 | _ => 0 <= v < 2 ^ 16 end) ->
  exists h', pid_set_sbn kind h v = Ok h' /\ length h' = pid_size kind /\
    pid_sbn kind h' = v /\
    pid_esi kind h' = pid_esi kind h /\ pid_k kind h' = pid_k kind h /\ pid_n kind h' = pid_n kind h.
Proof. exact set_sbn_spec. Qed.
Print Assumptions C12_block_number.

Theorem C12_symbol_id : forall kind h v,
  length h = pid_size kind ->
  (match kind with RS8M => 0 <= v < 2 ^ 8 | _ => 0 <= v < 2 ^ 16 end) ->
  exists h', pid_set_esi kind h v = Ok h' /\ length h' = pid_size kind /\
    pid_esi kind h' = v /\
    pid_sbn kind h' = pid_sbn kind h /\ pid_k kind h' = pid_k kind h /\ pid_n kind h' = pid_n kind h.
Proof. exact set_esi_spec. Qed.
Print Assumptions C12_symbol_id.

Theorem C12_block_length : forall kind h v,
  length h = pid_size kind -> 0 <= v < 2 ^ 16 ->
  let h' := pid_set_k kind h v in
  length h' = pid_size kind /\ pid_k kind h' = v /\
  pid_sbn kind h' = pid_sbn kind h /\ pid_esi kind h' = pid_esi kind h /\ pid_n kind h' = pid_n kind h.
Proof. exact set_k_spec. Qed.
Print Assumptions C12_block_length.

(** The total block length is on the wire only in LDPC repair packets; the
    other two formats report a constant. *)
Theorem C12_total_length : forall kind h v,
  length h = pid_size kind -> 0 <= v < 2 ^ 16 ->
  let h' := pid_set_n kind h v in
  length h' = pid_size kind /\
  pid_n kind h' = (match kind with LdpcSource => 0 | LdpcRepair => v | RS8M => 255 end) /\
  pid_sbn kind h' = pid_sbn kind h /\ pid_esi kind h' = pid_esi kind h /\ pid_k kind h' = pid_k kind h.
Proof. exact set_n_spec. Qed.
Print Assumptions C12_total_length.

(** Values that do not fit are refused (the process aborts), never truncated,
    in the Reed-Solomon format. *)
Theorem C12_rs8m_too_wide : forall h v,
  (2 ^ 24 <= v < 2 ^ 32 -> pid_set_sbn RS8M h v = Panic) /\
  (2 ^ 8 <= v < 2 ^ 16 -> pid_set_esi RS8M h v = Panic).
Proof.
  intros h v. split; intros H.
  - unfold pid_set_sbn. cbv zeta. rewrite u32_id by (change (2 ^ 32) with 4294967296 in H; lia).
    rewrite shiftr_div by lia. change (2 ^ 24) with 16777216 in *. destruct (Z.eqb_spec (v / 16777216) 0); [lia|reflexivity].
  - unfold pid_set_esi. cbv zeta. rewrite u16_id by (change (2 ^ 16) with 65536 in H; lia).
    rewrite shiftr_div by lia. change (2 ^ 8) with 256 in *. destruct (Z.eqb_spec (v / 256) 0); [lia|reflexivity].
Qed.
Print Assumptions C12_rs8m_too_wide.

Example C12_example :
  exists h', pid_set_sbn RS8M [9; 9; 9; 7; 1; 2] 66051 = Ok h' /\ h' = [1; 2; 3; 7; 1; 2].
Proof. eexists. split; reflexivity. Qed.
