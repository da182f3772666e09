(** C03: FIFO packet queue. *)
From Verif Require Import Base Queue_model Queue_spec Queue_proof.

(** For every history, the packets written are exactly those returned, in the
    same order, followed by those still stored. *)
Theorem C03_fifo : forall (A : Type) (ops : list (q_op A)),
  q_written ops = q_got (snd (q_run [] ops)) ++ fst (q_run [] ops).
Proof. intros A ops. exact (q_run_fifo ops []). Qed.
Print Assumptions C03_fifo.

(** The next read reports no data exactly when everything written was returned. *)
Theorem C03_nodata_iff_drained : forall (A : Type) (ops : list (q_op A)),
  snd (q_read (fst (q_run [] ops))) = None <-> q_got (snd (q_run [] ops)) = q_written ops.
Proof. intros A ops. exact (q_nodata ops). Qed.
Print Assumptions C03_nodata_iff_drained.

Example C03_ex :
  snd (q_run [] [QRead; QWrite 1; QWrite 2; QRead; QWrite 3; QRead; QRead; QRead])
  = [None; Some 1; Some 2; Some 3; None].
Proof. reflexivity. Qed.
