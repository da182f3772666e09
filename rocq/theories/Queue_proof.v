From Verif Require Import Base Queue_model Queue_spec.
Section P.
Context {A : Type}.
Lemma q_run_fifo (ops : list (q_op A)) : forall l,
  l ++ q_written ops = q_got (snd (q_run l ops)) ++ fst (q_run l ops).
Proof.
  induction ops as [|[p|] ops IH]; intros l; cbn [q_run q_written].
  - rewrite app_nil_r. reflexivity.
  - unfold q_write. rewrite <- IH, <- app_assoc. reflexivity.
  - destruct l as [|p t]; cbn [q_read].
    + specialize (IH []). destruct (q_run [] ops). cbn in *. auto.
    + specialize (IH t). destruct (q_run t ops). cbn in *. f_equal. auto.
Qed.
Lemma q_nodata (ops : list (q_op A)) :
  snd (q_read (fst (q_run [] ops))) = None <-> q_got (snd (q_run [] ops)) = q_written ops.
Proof.
  pose proof (q_run_fifo ops []) as H. cbn [app] in H.
  destruct (fst (q_run [] ops)) as [|p t]; cbn; split; intros E; try discriminate; auto.
  - rewrite app_nil_r in H. congruence.
  - exfalso. rewrite H in E. apply (f_equal (@length A)) in E. rewrite app_length in E. cbn in E. lia.
Qed.
Lemma q_nreads_len (ops : list (q_op A)) : forall l, length (snd (q_run l ops)) = q_nreads ops.
Proof.
  induction ops as [|[p|] ops IH]; intros l; cbn; auto.
  destruct (q_read l). specialize (IH l0). destruct (q_run l0 ops). cbn in *. auto.
Qed.
End P.
