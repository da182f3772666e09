(* C54: the pump moves frames from the main or the backup source to the sink. *)
From Coq Require Import ZArith List Bool Lia Arith.
From Verif Require Import Base Pump_model Pump_spec Pump_proof.
Import ListNotations.
Local Open Scope Z_scope.

(* Every frame that was read is written, once and in order, before the next one
   is read; what the source said about it is kept. *)
Theorem C54_forward : forall c tr s,
  runs c tr s -> next_call s = Some CStop \/ next_call s = None ->
  Forall2 (same_frame c) (map snd (frames_read tr)) (frames_written tr) /\
  reclocked tr = map fst (frames_read tr).
Proof.
  intros c tr s H P. pose proof (v_flow _ _ _ (runs_inv _ _ _ H)) as F.
  unfold flow in F. unfold next_call in P.
  destruct (p_pc s); destruct P as [P|P]; try discriminate P; destruct F; auto.
Qed.
Print Assumptions C54_forward.

(* At most one frame is on its way. *)
Theorem C54_one_at_a_time : forall c tr s,
  runs c tr s ->
  (length (frames_read tr) <= length (frames_written tr) + 1 /\
   length (frames_written tr) <= length (frames_read tr))%nat.
Proof.
  intros c tr s H. pose proof (v_flow _ _ _ (runs_inv _ _ _ H)) as F.
  assert (L : forall l, Forall2 (same_frame c) (map snd l) (frames_written tr) ->
    @length (src * frame) l = length (frames_written tr)).
  { intros l. clear. generalize (frames_written tr). intros m. remember (map snd l) as k eqn:E.
    intros G. revert l E. induction G; intros [|yy l0] E; try discriminate E; cbn; auto.
    f_equal. apply IHG. cbn in E. congruence. }
  unfold flow, ahead, ahead', done, even in F.
  destruct (p_pc s).
  1-7: destruct F as [F _]; apply L in F; lia.
  - destruct F as (_ & _ & r & rest & E & _ & _ & F & _). rewrite E. apply L in F. cbn [length]. lia.
  - destruct F as (_ & _ & (r & rest & E & _ & _ & F & _) & _). rewrite E. apply L in F. cbn [length]. lia.
  - destruct F as (_ & (r & rest & E & _ & F & _) & _). rewrite E. apply L in F. cbn [length]. lia.
  - destruct F as (_ & (F & _) & _). apply L in F. lia.
  - destruct F as ((F & _) & _). apply L in F. lia.
  - destruct F as ((F & _) & _). apply L in F. lia.
  - destruct F as [F _]; apply L in F; lia.
  - destruct F as [F _]; apply L in F; lia.
Qed.
Print Assumptions C54_one_at_a_time.

(* The capture time of a frame whose source gave none: now, minus the latency of
   the source and the duration of the frame if the source knows its latency. *)
Theorem C54_capture : forall c tr f a s,
  runs c ((CWrite f, a) :: tr) s ->
  exists x r rest, frames_read tr = (x, r) :: rest /\ same_frame c r f /\
    (f_cts r = 0 ->
     exists now lat tr', tr = (CClock, ATime now) :: (CLatency x, ALat lat) :: tr' /\
       f_cts f = now - match lat with None => 0 | Some l => l + to_ns c (duration f) end).
Proof.
  intros c tr f a s H. inversion H as [|tr0 s0 k a0 s' R K N]; subst.
  pose proof (v_flow _ _ _ (runs_inv _ _ _ R)) as F.
  unfold next_call in K. unfold flow in F. destruct (p_pc s0); try discriminate K.
  assert (f0 = f) by congruence. subst f0.
  destruct F as (_ & (r & rest & E & S1 & _) & F). exists (p_cur s0), r, rest.
  split; auto. split; auto. intros Z0. exact (F _ _ E Z0).
Qed.
Print Assumptions C54_capture.

(* The playback time that a source is told is for the frame read from it: now,
   plus the latency of the sink without that frame. *)
Theorem C54_playback : forall c tr x t a s,
  runs c ((CReclock x t, a) :: tr) s ->
  exists now lat f tr', tr = (CClock, ATime now) :: (CSinkLatency, ALat lat) :: (CWrite f, AUnit) :: tr' /\
    t = now + match lat with None => 0 | Some l => l - to_ns c (duration f) end /\
    exists r rest, frames_read tr = (x, r) :: rest /\ same_frame c r f.
Proof.
  intros c tr x t a s H. inversion H as [|tr0 s0 k a0 s' R K N]; subst.
  pose proof (v_flow _ _ _ (runs_inv _ _ _ R)) as F.
  unfold next_call in K. unfold flow in F. destruct (p_pc s0); try discriminate K.
  assert (t0 = t) by congruence. subst t0. assert (p_cur s0 = x) by congruence. subst x.
  destruct F as ((F1 & F2) & now & lat & tr' & E & T). exists now, lat, f, tr'.
  split; auto. split; auto. subst tr. cbn [frames_read frames_written map] in *.
  destruct (frames_read tr') as [|[y r] rest]; [discriminate F2|].
  exists r, rest. cbn [map fst snd] in *. inversion F1; subst. split; auto. congruence.
Qed.
Print Assumptions C54_playback.

(* Which source is read: the backup source only if the main one is not active or
   failed to resume; the main one only if it is active or there is no backup
   source that would start. *)
Theorem C54_choice : forall c tr x a s,
  runs c ((CRead x, a) :: tr) s ->
  match x with
  | Main => active tr = true \/ has_backup c = false \/ switch_failed tr = true
  | Backup => has_backup c = true /\ (active tr = false \/ switch_failed tr = true)
  end.
Proof.
  intros c tr x a s H. inversion H as [|tr0 s0 k a0 s' R K N]; subst.
  pose proof (runs_inv _ _ _ R) as V. pose proof (v_rd _ _ _ V) as F. pose proof (v_bk _ _ _ V) as B.
  unfold next_call in K. destruct (p_pc s0); try discriminate K.
  assert (p_cur s0 = x) by congruence. subst x. specialize (F eq_refl).
  destruct (p_cur s0); auto. split; auto. apply B; auto.
Qed.
Print Assumptions C54_choice.

(* The backup source is read only while it is running: after a successful
   restart, and not after a pause. *)
Theorem C54_backup_running : forall c tr a s,
  runs c ((CRead Backup, a) :: tr) s -> running Backup tr = true.
Proof.
  intros c tr a s H. inversion H as [|tr0 s0 k a0 s' R K N]; subst.
  pose proof (v_bk _ _ _ (runs_inv _ _ _ R)) as B.
  unfold next_call in K. destruct (p_pc s0); try discriminate K.
  apply B. congruence.
Qed.
Print Assumptions C54_backup_running.

(* The same for the main source holds only until the backup source ends. *)
Theorem C54_main_running_partial : forall c tr a s,
  runs c ((CRead Main, a) :: tr) s -> backup_ended tr = false -> running Main tr = true.
Proof.
  intros c tr a s H E. inversion H as [|tr0 s0 k a0 s' R K N]; subst.
  pose proof (v_mn _ _ _ (runs_inv _ _ _ R)) as B.
  unfold next_call in K. destruct (p_pc s0); try discriminate K.
  destruct B as [B|B]; congruence.
Qed.
Print Assumptions C54_main_running_partial.

(* The pump ends only when told to, when the main source ends, or, in oneshot
   mode, when the main source becomes inactive after giving a frame; never
   because of the backup source.  run() returns false if it was told to stop. *)
Theorem C54_end : forall c tr s b,
  runs c tr s -> p_pc s = PEnd b ->
  exists stop tr', tr = (CStop, ABool stop) :: tr' /\ b = negb stop /\ end_reason c tr'.
Proof. intros c tr s b H E. exact (v_done _ _ _ (runs_inv _ _ _ H) b E). Qed.
Print Assumptions C54_end.

(* After such a reason nothing more is read, written or asked. *)
Lemma after_reason c tr s : runs c tr s ->
  match p_pc s with
  | PStop2 | PEnd _ => True
  | _ => ~ end_reason c tr
  end.
Proof.
  intros H. pose proof (runs_inv _ _ _ H) as V. destruct H as [|tr s k a s' H K N]; [exact (fun F => F)|].
  pose proof (runs_inv _ _ _ H) as V0. pose proof (v_n _ _ _ V0) as Vn.
  destruct s as [cur n p]. unfold next in N. unfold next_call in K. unfold at_pc in N. cbn [p_pc p_cur p_n] in *.
  assert (A : match p_pc s' with PStop2 | PEnd _ => True | _ => ~ end_reason c ((k, a) :: tr) end
              \/ exists b, a = ABool b).
  { destruct p; destruct a; try discriminate N; eauto; left;
      assert (k = match Some k with Some x => x | None => k end) as _ by reflexivity.
    all: try (destruct (p_pc s'); auto; cbn [end_reason]; destruct k; try discriminate K; try tauto; fail).
    all: try (destruct f; try discriminate N).
    all: try (destruct (p_pc s') eqn:Q; auto; cbn [end_reason]; destruct k; try discriminate K; try tauto;
              destruct s; try tauto; fail).
    assert (k = CRead cur) by congruence. subst k. destruct cur; cbn [src_eqb] in N.
    - assert (s' = mkP Main n PStop2) by congruence. subst s'. exact I.
    - assert (s' = mkP Main n PTop) by congruence. subst s'. cbn. tauto. }
  destruct A as [A|[b ->]]; auto.
  destruct p; try discriminate N.
  - assert (k = CStop) by congruence. subst k.
    assert (s' = mkP cur n (if b then PStop2 else PState)) by congruence. subst s'. destruct b; cbn; tauto.
  - assert (k = CState) by congruence. subst k. destruct b.
    + assert (s' = mkP cur n (if src_eqb cur Backup then PResume else PRead)) by congruence. subst s'.
      destruct cur; cbn; tauto.
    + assert (s' = mkP cur n (if oneshot c && negb (Nat.eqb n 0) then PStop2
                     else if has_backup c && negb (src_eqb cur Backup) then PRestart
                     else PRead)) by congruence. subst s'. cbn [p_pc].
      destruct (oneshot c) eqn:O; cbn [andb].
      * destruct (Nat.eqb_spec n 0); cbn [negb]; auto.
        assert (X : ~ end_reason c ((CState, ABool false) :: tr)).
        { cbn. intros [_ G]. apply nmain_in in G. congruence. }
        destruct (has_backup c && negb (src_eqb cur Backup)); exact X.
      * assert (X : ~ end_reason c ((CState, ABool false) :: tr)) by (cbn; intros [G _]; congruence).
        destruct (has_backup c && negb (src_eqb cur Backup)); exact X.
  - assert (k = CResume) by congruence. subst k. destruct (p_pc s'); auto.
  - assert (k = CRestart) by congruence. subst k. destruct (p_pc s'); auto.
  - assert (s' = mkP cur n (PEnd (negb b))) by congruence. subst s'. exact I.
Qed.

Theorem C54_end_at_once : forall c tr more s,
  runs c (more ++ tr) s -> end_reason c tr ->
  more = [] \/ exists b, more = [(CStop, ABool b)].
Proof.
  intros c tr more. induction more as [|[k a] more IH]; intros s H E; auto.
  cbn [app] in H. inversion H as [|tr0 s0 k0 a0 s' R K N]; subst.
  pose proof (IH s0 R E) as G. right.
  destruct G as [->|[b ->]].
  - cbn [app] in R. pose proof (after_reason _ _ _ R) as A.
    unfold next_call in K. unfold next in N. destruct (p_pc s0); try tauto; try discriminate K.
    destruct a; try discriminate N. exists b. assert (k = CStop) by congruence. congruence.
  - exfalso. cbn [app] in R. inversion R as [|tr0 s1 k1 a1 s2 R1 K1 N1]; subst.
    pose proof (after_reason _ _ _ R1) as A. unfold next, at_pc in N1.
    destruct (p_pc s1); try tauto; destruct s1 as [cur n p]; cbn [at_pc p_cur p_n] in *.
    + assert (s0 = mkP cur n (PEnd (negb b))) by congruence. subst s0. discriminate K.
    + discriminate N1.
Qed.
Print Assumptions C54_end_at_once.

(* At most one read happens between two looks at the stop flag. *)
Theorem C54_stop_soon : forall c tr s, runs c tr s -> (since_stop tr <= 1)%nat.
Proof. intros c tr s H. apply (v_since _ _ _ (runs_inv _ _ _ H)). Qed.
Print Assumptions C54_stop_soon.

(* Every iteration moves a frame, or a source ended, or it is the last. *)
Theorem C54_progress : forall c tr s,
  runs c tr s -> (iterations tr <= length (frames_read tr) + ends_of_file tr + 1)%nat.
Proof. intros c tr s H. pose proof (v_iter _ _ _ (runs_inv _ _ _ H)). lia. Qed.
Print Assumptions C54_progress.

(* Executions can be computed from the answers. *)
Fixpoint play (c : pcfg) (s : pst) (l : list ans) (tr : list (call * ans)) : option (list (call * ans) * pst) :=
  match l with
  | [] => Some (tr, s)
  | a :: l => match next_call s, next c s a with
              | Some k, Some s' => play c s' l ((k, a) :: tr)
              | _, _ => None
              end
  end.
Lemma play_runs c l : forall s tr tr' s', runs c tr s -> play c s l tr = Some (tr', s') -> runs c tr' s'.
Proof.
  induction l as [|a l IH]; intros s tr tr' s' R H; cbn [play] in H.
  - assert (tr' = tr) by congruence. assert (s' = s) by congruence. subst. exact R.
  - destruct (next_call s) as [k|] eqn:K; [|discriminate H].
    destruct (next c s a) as [s1|] eqn:N; [|discriminate H].
    eapply IH; [|exact H]. eapply r_step; eauto.
Qed.

Definition cfg : pcfg := mkCfg true false (fun d => d * 1000) (fun b => b / 4).

(* The main source is read while it is paused: it was paused for the backup
   source, the backup source ended, and the main source became active. *)
Theorem C54_main_running_refuted :
  exists c tr a s, runs c ((CRead Main, a) :: tr) s /\ active tr = true /\ running Main tr = false.
Proof.
  exists cfg.
  destruct (play cfg p_new
    [ABool false; ABool false; ABool true; AUnit; AFrame None;
     ABool false; ABool true; AFrame None] []) as [[tr s]|] eqn:E; [|discriminate E].
  exists (tl tr), (AFrame None), s.
  assert (T : tr = (CRead Main, AFrame None) :: tl tr).
  { vm_compute in E. assert (tr = [(CRead Main, AFrame None); (CState, ABool true); (CStop, ABool false);
      (CRead Backup, AFrame None); (CPause Main, AUnit); (CRestart, ABool true); (CState, ABool false);
      (CStop, ABool false)]) by congruence. subst tr. reflexivity. }
  split; [|split].
  - rewrite <- T. eapply play_runs; [constructor|exact E].
  - vm_compute in E. assert (Q : tl tr = [(CState, ABool true); (CStop, ABool false);
      (CRead Backup, AFrame None); (CPause Main, AUnit); (CRestart, ABool true); (CState, ABool false);
      (CStop, ABool false)]) by (assert (tr = (CRead Main, AFrame None) :: [(CState, ABool true); (CStop, ABool false);
      (CRead Backup, AFrame None); (CPause Main, AUnit); (CRestart, ABool true); (CState, ABool false);
      (CStop, ABool false)]) by congruence; subst tr; reflexivity). rewrite Q. reflexivity.
  - vm_compute in E. assert (Q : tl tr = [(CState, ABool true); (CStop, ABool false);
      (CRead Backup, AFrame None); (CPause Main, AUnit); (CRestart, ABool true); (CState, ABool false);
      (CStop, ABool false)]) by (assert (tr = (CRead Main, AFrame None) :: [(CState, ABool true); (CStop, ABool false);
      (CRead Backup, AFrame None); (CPause Main, AUnit); (CRestart, ABool true); (CState, ABool false);
      (CStop, ABool false)]) by congruence; subst tr; reflexivity). rewrite Q. reflexivity.
Qed.
Print Assumptions C54_main_running_refuted.

(* A backup source without frames makes the pump spin: any number of iterations
   without a frame and without ending. *)
Definition round : list (call * ans) :=
  [(CRead Backup, AFrame None); (CPause Main, AUnit); (CRestart, ABool true); (CState, ABool false);
   (CStop, ABool false)].
Theorem C54_spin_refuted : forall n,
  exists c tr s, runs c tr s /\ iterations tr = n /\ frames_read tr = [] /\ next_call s = Some CStop.
Proof.
  intros n. exists cfg.
  assert (G : exists tr, runs cfg tr p_new /\ iterations tr = n /\ frames_read tr = []).
  { induction n as [|n (tr & R & I & F)].
    - exists []. split; [constructor|auto].
    - exists (round ++ tr). split; [|cbn; auto].
      apply (play_runs cfg [ABool false; ABool false; ABool true; AUnit; AFrame None] p_new tr); auto. }
  destruct G as (tr & R & I & F). exists tr, p_new. auto.
Qed.
Print Assumptions C54_spin_refuted.

(* A case: the main source is idle, the backup plays a frame, the main source
   becomes active and gives a frame; then the pump is told to stop. *)
Example pump_case :
  option_map (fun x => (rev (map fst (fst x)), frames_written (fst x), p_pc (snd x)))
    (play cfg p_new
      [ABool false; ABool false; ABool true; AUnit; AFrame (Some (mkF 1 40 None 0)); ALat (Some 7); ATime 100000; AUnit; ALat None; ATime 100001; AUnit;
       ABool false; ABool true; ABool true; AUnit; AFrame (Some (mkF 2 40 (Some 10) 55)); AUnit; ALat (Some 20000); ATime 100002; AUnit;
       ABool true; ABool true] [])
  = Some ([CStop; CState; CRestart; CPause Main; CRead Backup; CLatency Backup; CClock;
           CWrite (mkF 1 40 (Some 10) 89993); CSinkLatency; CClock; CReclock Backup 100001;
           CStop; CState; CResume; CPause Backup; CRead Main; CWrite (mkF 2 40 (Some 10) 55);
           CSinkLatency; CClock; CReclock Main 110002; CStop; CStop],
          [mkF 2 40 (Some 10) 55; mkF 1 40 (Some 10) 89993], PEnd false).
Proof. vm_compute. reflexivity. Qed.
