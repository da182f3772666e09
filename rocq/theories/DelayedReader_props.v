(** C04: DelayedReader holds packets back until the target duration has been
    collected, trims the surplus once, then passes every packet in order. *)
From Coq Require Import Permutation.
From Verif Require Import Base SortedQueue_model DelayedReader_model DelayedReader_spec DelayedReader_proof.

(** While at every poll so far upstream failed or less than [delay] has
    arrived, no packet is returned (only statuses), and none is lost. *)
Theorem C04_waits pos time delay pre :
  coherent pos time (arrived pre) ->
  (forall a x b, pre = a ++ x :: b ->
     snd x = UErr \/ span_below pos time (arrived (a ++ [x])) delay) ->
  exists q, dr_polls (dr_new delay) [] pre =
              (mkDr q delay false, [], map (fun x => RStatus (snd x)) pre) /\
            Permutation (arrived pre) (sq_list q).
Proof.
  intros H1 H2. destruct (waiting_spec pos time delay pre H1 H2) as (q & E & _ & _ & P). eauto.
Qed.
Print Assumptions C04_waits.

(** At the first poll where [delay] has arrived, the packets of the queue in
    stream order split into a surplus prefix [D], the first packet [p] returned,
    and a rest [R]: [p :: R] is the shortest suffix still spanning the delay.
    From then on the reader behaves as a plain first-in first-out reader of [R]
    followed by whatever arrives: nothing else is delayed, lost, duplicated or
    reordered. *)
Theorem C04_starts pos time delay pre b post :
  0 < delay ->
  coherent pos time (arrived pre ++ b) ->
  (forall a x c, pre = a ++ x :: c ->
     snd x = UErr \/ span_below pos time (arrived (a ++ [x])) delay) ->
  span_reaches pos time (arrived pre ++ b) delay ->
  exists D p R,
    Permutation (arrived pre ++ b) (D ++ p :: R) /\ ordered pos (D ++ p :: R) /\
    span_reaches pos time (p :: R) delay /\ span_below pos time R delay /\
    snd (dr_polls (dr_new delay) [] (pre ++ (b, UNoData) :: post)) =
      map (fun x => RStatus (snd x)) pre ++ RPkt p :: fifo_polls R post.
Proof. exact (start_spec pos time delay pre b post). Qed.
Print Assumptions C04_starts.

(** Without the hypothesis [0 < delay] the claim fails: a reader with zero
    delay throws away every packet queued at its first poll and reports that
    there is no data. *)
Theorem C04_zero_delay_refuted :
  exists b p q, b = [p; q] /\
    coherent dp_seq dp_ts b /\ span_reaches dp_seq dp_ts b 0 /\
    snd (dr_polls (dr_new 0) [] [(b, UNoData); ([], UNoData)]) = [RStatus UNoData; RStatus UNoData].
Proof.
  set (p := mkDp 1 1 0 10). set (q := mkDp 2 2 10 10).
  exists [p; q], p, q. split; [reflexivity|].
  assert (HF : forall P : dpkt -> Prop, P p -> P q -> forall x, In x [p; q] -> P x).
  { intros P ? ? x [<-|[<-|[]]]; auto. }
  assert (HC : coherent dp_seq dp_ts [p; q]).
  { split. { repeat constructor; cbn; intuition discriminate. }
    split. { apply HF; cbn; repeat split; lia. }
    split. { intros x y Hx Hy. revert y Hy x Hx.
             intros y Hy; pattern y; revert y Hy; apply HF; intros x Hx; pattern x; revert x Hx; apply HF; intros; cbn; (congruence || lia). }
    split. { intros x y Hx Hy. revert y Hy x Hx.
             intros y Hy; pattern y; revert y Hy; apply HF; intros x Hx; pattern x; revert x Hx; apply HF; intros; cbn in *; lia. }
    intros x y Hx Hy. revert y Hy x Hx.
    intros y Hy; pattern y; revert y Hy; apply HF; intros x Hx; pattern x; revert x Hx; apply HF; intros; cbn in *; lia. }
  split; [exact HC|]. split; [|vm_compute; reflexivity].
  exists 20. split; [|lia]. right. exists p, q. cbn.
  split; [auto|]. split; [auto|]. split; [|reflexivity]. apply HF; cbn; lia.
Qed.
Print Assumptions C04_zero_delay_refuted.

(** Example: delay 25; packets of 10; four packets arrive out of order in two
    batches around the sequence wrap, one is surplus. *)
Example C04_example :
  snd (dr_polls (dr_new 25) []
    [([mkDp 2 0 10 10], UNoData); ([mkDp 4 2 30 10; mkDp 1 65535 0 10; mkDp 3 1 20 10], UNoData);
     ([], UNoData); ([mkDp 5 3 40 10], UNoData); ([], UNoData); ([], UNoData)]) =
  [RStatus UNoData; RPkt (mkDp 2 0 10 10); RPkt (mkDp 3 1 20 10); RPkt (mkDp 4 2 30 10);
   RPkt (mkDp 5 3 40 10); RStatus UNoData].
Proof. vm_compute. reflexivity. Qed.

(** The packets of this example satisfy the hypotheses of [C04_starts]. *)
Example C04_example_hypotheses :
  let pos := fun p => dp_id p + 65534 in
  let time := fun p => (dp_id p - 1) * 10 in
  let pre := [([mkDp 2 0 10 10], UNoData)] in
  let b := [mkDp 4 2 30 10; mkDp 1 65535 0 10; mkDp 3 1 20 10] in
  coherent pos time (arrived pre ++ b) /\
  (forall a x c, pre = a ++ x :: c ->
     snd x = UErr \/ span_below pos time (arrived (a ++ [x])) 25) /\
  span_reaches pos time (arrived pre ++ b) 25.
Proof.
  cbv zeta. cbn [arrived map fst concat app].
  set (p2 := mkDp 2 0 10 10). set (p4 := mkDp 4 2 30 10).
  set (p1 := mkDp 1 65535 0 10). set (p3 := mkDp 3 1 20 10).
  assert (HF : forall P : dpkt -> Prop, P p2 -> P p4 -> P p1 -> P p3 -> forall x, In x [p2; p4; p1; p3] -> P x).
  { intros P ? ? ? ? x [<-|[<-|[<-|[<-|[]]]]]; auto. }
  split; [|split].
  - split. { repeat constructor; cbn; intuition discriminate. }
    split. { apply HF; cbn; repeat split; lia. }
    split. { intros p q Hp Hq. revert q Hq p Hp.
             intros y Hy; pattern y; revert y Hy; apply HF; intros x Hx; pattern x; revert x Hx; apply HF; intros; cbn; (congruence || lia). }
    split. { intros p q Hp Hq. revert q Hq p Hp.
             intros y Hy; pattern y; revert y Hy; apply HF; intros x Hx; pattern x; revert x Hx; apply HF; intros; cbn in *; lia. }
    intros p q Hp Hq. revert q Hq p Hp.
    intros y Hy; pattern y; revert y Hy; apply HF; intros x Hx; pattern x; revert x Hx; apply HF; intros; cbn in *; lia.
  - intros a x c E. destruct a as [|a0 a]; [|destruct a; discriminate]. inversion E; subst. right.
    exists 10. split; [|lia]. right. exists p2, p2. cbn. repeat split; auto; destruct H as [<-|[]]; cbn; lia.
  - exists 40. split; [|lia]. right. exists p1, p4. cbn.
    split; [auto|]. split; [auto|]. split; [|reflexivity]. apply HF; cbn; lia.
Qed.
