(* Proofs about the latency tuner. *)
From Coq Require Import Reals ZArith List Bool Lia Lra.
From Verif Require Import Base Float32 TimeConv_model TimeConv_spec TimeConv_props LatTuner_model LatTuner_spec.
Import ListNotations.
Local Open Scope Z_scope.
Local Open Scope res_scope.

Lemma smp_ok sp ns : valid sp -> - 2 ^ 63 <= ns < 2 ^ 63 -> ns_2_stream_timestamp_delta sp ns = Ok (smp sp ns) /\ - 2 ^ 31 <= smp sp ns < 2 ^ 31.
Proof.
  intros V H. destruct (C55_never_undefined sp V) as (_ & _ & _ & D & _). destruct (D ns H) as (r & E & B).
  unfold smp. rewrite E. auto.
Qed.

Lemma smp_mono sp a b : valid sp -> - 2 ^ 63 <= a <= b -> b < 2 ^ 63 -> smp sp a <= smp sp b.
Proof.
  intros V H1 H2. destruct (C55_monotone sp V) as (_ & _ & _ & D & _).
  apply (D a b); auto; apply smp_ok; auto; lia.
Qed.

Lemma close_zero r : close r 0 -> r = 0.
Proof.
  unfold close. rewrite Rminus_0_r, Rabs_R0. intros H.
  assert (G : (Rabs (IZR r) < 1)%R) by lra. rewrite <- abs_IZR in G. apply lt_IZR in G. lia.
Qed.

Lemma smp_close sp ns : usual sp -> - 2 ^ 63 <= ns < 2 ^ 63 ->
  (Rabs (exact_samples ns (s_rate sp)) <= IZR (2 ^ 31) * (1 - / 1048576))%R -> close (smp sp ns) (exact_samples ns (s_rate sp)).
Proof. intros U H B. apply (C55_delta_to_samples sp ns (smp sp ns) U H); [|exact B]. apply smp_ok; [apply U|exact H]. Qed.

Lemma smp_zero sp : usual sp -> smp sp 0 = 0.
Proof.
  intros U. assert (E : exact_samples 0 (s_rate sp) = 0%R) by (unfold exact_samples; lra).
  apply close_zero. rewrite <- E. apply smp_close; auto; [lia|]. rewrite E, Rabs_R0.
  change (IZR (2 ^ 31)) with 2147483648%R. lra.
Qed.

Lemma log_pos sp : usual sp -> 0 < smp sp log_interval.
Proof.
  intros U. assert (E : exact_samples log_interval (s_rate sp) = (5 * IZR (s_rate sp))%R).
  { unfold exact_samples. change (IZR log_interval) with 5000000000%R. lra. }
  destruct U as [V HR]. assert (R1 : (1 <= IZR (s_rate sp))%R) by (apply IZR_le; apply V).
  assert (R2 : (IZR (s_rate sp) <= 16777216)%R) by (apply IZR_le; exact HR).
  assert (C : close (smp sp log_interval) (exact_samples log_interval (s_rate sp))).
  { apply smp_close; [split; auto|unfold log_interval, second; lia|]. rewrite E, Rabs_pos_eq by lra. change (IZR (2 ^ 31)) with 2147483648%R. lra. }
  rewrite E in C. unfold close in C. rewrite (Rabs_pos_eq (5 * _)) in C by lra.
  apply lt_IZR. revert C. generalize (IZR (smp sp log_interval)). intros x C. unfold Rabs in C. destruct (Rcase_abs _) in C; lra.
Qed.

(* The loop ends, at the first multiple of the interval past the position. *)
Lemma loop_ends {F} (upd : F -> Z -> F) lat pos sint : 0 < sint -> 0 <= pos -> pos + sint < 2 ^ 32 ->
  forall n fuel spos f, 0 <= spos -> Z.of_nat n = (if pos <? spos then 0 else (pos - spos) / sint + 1) -> (n <= fuel)%nat ->
  scale_loop upd fuel pos spos sint lat f = Some (spos + Z.of_nat n * sint, fold_left upd (repeat lat n) f) /\
  (pos < spos -> n = 0%nat) /\ (spos <= pos -> pos < spos + Z.of_nat n * sint <= pos + sint).
Proof.
  intros Hs Hp Hw. induction n as [|n IH]; intros fuel spos f H0 HN HF.
  - destruct (pos <? spos) eqn:E.
    + destruct fuel; cbn [scale_loop repeat fold_left]; rewrite E; (split; [f_equal; f_equal; lia|split; [auto|lia]]).
    + exfalso. assert (0 <= (pos - spos) / sint) by (apply Z.div_pos; lia). clear - H HN. lia.
  - destruct (pos <? spos) eqn:E; [exfalso; clear - HN; lia|].
    destruct fuel as [|fuel]; [lia|]. cbn [scale_loop repeat fold_left]. rewrite E.
    assert (EU : Base.u32 (spos + sint) = spos + sint) by (unfold Base.u32; apply Z.mod_small; lia). rewrite EU.
    assert (HN' : Z.of_nat n = (if pos <? spos + sint then 0 else (pos - (spos + sint)) / sint + 1)).
    { destruct (pos <? spos + sint) eqn:E2.
      - assert ((pos - spos) / sint = 0) by (apply Z.div_small; lia). clear - H HN. lia.
      - replace (pos - (spos + sint)) with (pos - spos + (-1) * sint) by ring. rewrite Z.div_add by lia. clear - HN. lia. }
    destruct (IH fuel (spos + sint) (upd f lat) ltac:(lia) HN' ltac:(lia)) as (A & B & C). rewrite A.
    split; [f_equal; f_equal; lia|]. split; [lia|]. intros _.
    destruct (Z.lt_ge_cases pos (spos + sint)) as [G|G].
    + rewrite (B G). lia.
    + specialize (C G). nia.
Qed.

Lemma fold_repeat_app {F} (upd : F -> Z -> F) l1 l2 f : fold_left upd (l1 ++ l2) f = fold_left upd l2 (fold_left upd l1 f).
Proof. apply fold_left_app. Qed.

(* The tuner after the given past *)
Definition rel {F} (c : lat_cfg) (sp : spec) (f0 : F) (upd : F -> Z -> F) (coeff : F -> f32) (t : tuner F) (p : past) : Prop :=
  t_pos t = p_total p /\ t_sint t = (if tuned c then smp sp (lc_sint c) else 0) /\
  t_spos t = Z.of_nat (length (p_fed p)) * t_sint t /\ t_rint t = smp sp log_interval /\ 0 <= t_rpos t /\
  t_new t = p_fresh p /\ (p_fresh p = true -> t_coeff t = clamp (coeff (fold_left upd (p_fed p) f0)) (lc_stol c)) /\
  t_delta t = lc_stol c /\ t_backend t = lc_backend c /\ t_tuning t = tuned c /\ t_bounds t = bounded c /\
  t_has_niq t = existsb (fun m => (0 <? m_niq m) || (0 <? m_stall m)) (p_hist p) /\
  (t_has_niq t = true -> t_niq t = smp sp (m_niq (last (p_hist p) (mkMetrics 0 0 0))) /\ t_stall t = smp sp (m_stall (last (p_hist p) (mkMetrics 0 0 0)))) /\
  t_has_e2e t = existsb (fun m => 0 <? m_e2e m) (p_hist p) /\
  (t_has_e2e t = true -> t_e2e t = smp sp (m_e2e (last (p_hist p) (mkMetrics 0 0 0)))) /\
  (bounded c = true -> t_minl t = smp sp (lc_target c - lc_tol c) /\ t_maxl t = smp sp (lc_target c + lc_tol c) /\
                       t_maxstall t = smp sp (lc_stale c)) /\
  t_spec t = sp /\ t_fe t = fold_left upd (p_fed p) f0.

(* What a valid configuration is *)
Definition cfg_valid (c : lat_cfg) (sp : spec) : Prop :=
  0 <= lc_target c /\
  (bounded c = true -> 0 < lc_target c /\ 0 < smp sp (lc_target c) /\ 0 <= lc_tol c) /\
  (tuned c = true -> 0 < lc_sint c /\ 0 < smp sp (lc_sint c) /\ f32_le (lc_stol c) f32_zero = false).

Lemma tuned_bounded c : tuned c = true -> bounded c = true.
Proof. unfold bounded. intros ->. reflexivity. Qed.

Lemma ns_arith_ok x : - 2 ^ 63 <= x < 2 ^ 63 -> ns_arith x = Ok x.
Proof. intros H. unfold ns_arith. destruct (Z.leb_spec (- 2 ^ 63) x); [|lia]. destruct (Z.ltb_spec x (2 ^ 63)); [reflexivity|lia]. Qed.

Lemma new_spec {F} (mkfe : Z -> F) c sp upd coeff : valid sp -> cfg_ok c ->
  exists r, tuner_new mkfe c sp = Ok r /\
  match r with
  | None => ~ cfg_valid c sp
  | Some t => cfg_valid c sp /\ rel c sp (mkfe (t_target t)) upd coeff t start /\
              t_target t = (if bounded c then smp sp (lc_target c) else 0) /\ t_rpos t = 0
  end.
Proof.
  intros V (B0 & B1 & B2 & B3 & B4 & B5 & B6).
  destruct (smp_ok sp log_interval V) as (L1 & L2); [unfold log_interval, second; lia|].
  destruct (smp_ok sp (lc_target c) V B1) as (T1 & T2).
  destruct (smp_ok sp (lc_target c - lc_tol c) V B5) as (M1 & M2).
  destruct (smp_ok sp (lc_target c + lc_tol c) V B6) as (X1 & X2).
  destruct (smp_ok sp (lc_stale c) V B3) as (S1 & S2).
  destruct (smp_ok sp (lc_sint c) V B4) as (I1 & I2).
  unfold tuner_new. rewrite L1. cbn [bind].
  fold (tuned c). fold (bounded c).
  destruct (Z.ltb_spec (lc_target c) 0) as [HT|HT]; [eexists; split; [reflexivity|]; unfold cfg_valid; intros W; lia|].
  destruct (bounded c) eqn:EB; cbn [orb].
  - rewrite T1. cbn [bind].
    destruct (Z.leb_spec (lc_target c) 0) as [H1|H1]; cbn [orb]; [eexists; split; [reflexivity|]; intros (W1 & W2 & _); specialize (W2 EB); lia|].
    destruct (Z.leb_spec (smp sp (lc_target c)) 0) as [H2|H2]; [eexists; split; [reflexivity|]; intros (W1 & W2 & _); specialize (W2 EB); lia|].
    rewrite (ns_arith_ok _ B5), (ns_arith_ok _ B6). cbn [bind]. rewrite M1. cbn [bind]. rewrite X1. cbn [bind]. rewrite S1. cbn [bind].
    destruct (Z.ltb_spec (lc_tol c) 0) as [H3|H3]; [eexists; split; [reflexivity|]; intros (W1 & W2 & _); specialize (W2 EB); lia|].
    destruct (tuned c) eqn:ET.
    + rewrite I1. cbn [bind].
      destruct (Z.leb_spec (lc_sint c) 0) as [H4|H4]; cbn [orb]; [eexists; split; [reflexivity|]; intros (W1 & _ & W2); specialize (W2 ET); lia|].
      destruct (Z.leb_spec (smp sp (lc_sint c)) 0) as [H5|H5]; [eexists; split; [reflexivity|]; intros (W1 & _ & W2); specialize (W2 ET); lia|].
      destruct (f32_le (lc_stol c) f32_zero) eqn:E6; [eexists; split; [reflexivity|]; intros (W1 & _ & W2); specialize (W2 ET); destruct W2 as (_ & _ & W2); rewrite E6 in W2; discriminate W2|].
      eexists. split; [reflexivity|]. cbn [t_target t_rpos]. split; [|split; [|split; reflexivity]].
      * unfold cfg_valid. rewrite EB, ET. intuition.
      * unfold rel. rewrite EB, ET. cbn. repeat (split; [first [reflexivity|lia|intros G; discriminate G|auto]|]). reflexivity.
    + eexists. split; [reflexivity|]. cbn [t_target t_rpos]. split; [|split; [|split; reflexivity]].
      * unfold cfg_valid. rewrite EB, ET. intuition discriminate.
      * unfold rel. rewrite EB, ET. cbn. repeat (split; [first [reflexivity|lia|intros G; discriminate G|auto]|]). reflexivity.
  - destruct (tuned c) eqn:ET; [apply tuned_bounded in ET; congruence|].
    eexists. split; [reflexivity|]. cbn [t_target t_rpos]. split; [|split; [|split; reflexivity]].
    + unfold cfg_valid. rewrite EB, ET. intuition discriminate.
    + unfold rel. rewrite EB, ET. cbn. repeat (split; [first [reflexivity|lia|intros G; discriminate G|auto]|]). reflexivity.
Qed.

Lemma last_snoc {A} (l : list A) x d : last (l ++ [x]) d = x.
Proof. apply last_last. Qed.

Lemma metrics_step {F} c sp (f0 : F) upd coeff t p m : valid sp -> op_ok (OMetrics m) -> rel c sp f0 upd coeff t p ->
  exists t', write_metrics t m = Ok t' /\ rel c sp f0 upd coeff t' (mkPast (p_total p) (p_hist p ++ [m]) (p_fed p) (p_fresh p)) /\ t_rpos t' = t_rpos t.
Proof.
  intros V (Q1 & Q2 & Q3) (R1 & R2 & R3 & R4 & R5 & R6 & R7 & R8 & R9 & R10 & R11 & R12 & R13 & R14 & R15 & R16 & R17 & R18).
  destruct (smp_ok sp _ V Q1) as (N1 & _). destruct (smp_ok sp _ V Q2) as (N2 & _). destruct (smp_ok sp _ V Q3) as (N3 & _).
  unfold write_metrics. rewrite R17, N1. cbn [bind]. rewrite N2. cbn [bind]. rewrite N3. cbn [bind].
  destruct ((0 <? m_niq m) || (0 <? m_stall m) || t_has_niq t) eqn:E1; cbn [bind];
  destruct ((0 <? m_e2e m) || t_has_e2e t) eqn:E2; cbn [bind];
  (eexists; split; [reflexivity|split; [|reflexivity]]);
  unfold rel;
  cbn [t_pos t_sint t_spos t_rint t_rpos t_new t_coeff t_delta t_backend t_tuning t_bounds t_has_niq t_niq t_stall t_has_e2e t_e2e t_target t_minl t_maxl t_maxstall t_spec t_fe p_total p_hist p_fed p_fresh];
  rewrite ?existsb_app, ?last_snoc; cbn [existsb]; rewrite ?orb_false_r, <- ?R12, <- ?R14;
  repeat (split; [first [assumption|reflexivity|intros G; discriminate G|intros _; split; reflexivity|intros _; reflexivity|rewrite orb_comm; symmetry; assumption]|]); assumption.
Qed.

Lemma advance_step {F} c sp (f0 : F) upd coeff t p d fuel : valid sp -> 0 <= p_total p -> 0 <= d -> 0 < smp sp log_interval ->
  p_total p + d + smp sp log_interval < 2 ^ 32 -> (Z.to_nat (2 ^ 32) <= fuel)%nat -> rel c sp f0 upd coeff t p ->
  exists t', advance_stream fuel t d = Some t' /\ rel c sp f0 upd coeff t' (mkPast (p_total p + d) (p_hist p) (p_fed p) (p_fresh p)).
Proof.
  intros V HP HD HI HW HF (R1 & R2 & R3 & R4 & R5 & R6 & R7 & R8 & R9 & R10 & R11 & R12 & R13 & R14 & R15 & R16 & R17 & R18).
  unfold advance_stream. rewrite R1, R4.
  assert (EU : Base.u32 (p_total p + d) = p_total p + d) by (unfold Base.u32; apply Z.mod_small; lia). rewrite EU.
  destruct (p_total p + d <? t_rpos t) eqn:E.
  - eexists. split; [reflexivity|]. unfold rel.
    cbn [t_pos t_sint t_spos t_rint t_rpos t_new t_coeff t_delta t_backend t_tuning t_bounds t_has_niq t_niq t_stall t_has_e2e t_e2e t_target t_minl t_maxl t_maxstall t_spec t_fe p_total p_hist p_fed p_fresh].
    repeat (split; [first [assumption|reflexivity]|]). assumption.
  - apply Z.ltb_ge in E. set (n := Z.to_nat ((p_total p + d - t_rpos t) / smp sp log_interval + 1)).
    assert (D0 : 0 <= (p_total p + d - t_rpos t) / smp sp log_interval) by (apply Z.div_pos; lia).
    assert (D1 : (p_total p + d - t_rpos t) / smp sp log_interval <= p_total p + d - t_rpos t) by (apply Z.div_le_upper_bound; nia).
    destruct (loop_ends (fun (_ : unit) _ => tt) 0 (p_total p + d) (smp sp log_interval) HI ltac:(lia) HW n fuel (t_rpos t) tt R5) as (A & _ & C).
    { unfold n. rewrite Z2Nat.id by lia. destruct (p_total p + d <? t_rpos t) eqn:E2; [apply Z.ltb_lt in E2; clear - E E2; lia|reflexivity]. }
    { unfold n. clear - HF HW HP HD HI D0 D1 R5. lia. }
    specialize (C E). rewrite A. eexists. split; [reflexivity|]. unfold rel.
    cbn [t_pos t_sint t_spos t_rint t_rpos t_new t_coeff t_delta t_backend t_tuning t_bounds t_has_niq t_niq t_stall t_has_e2e t_e2e t_target t_minl t_maxl t_maxstall t_spec t_fe p_total p_hist p_fed p_fresh].
    repeat (split; [first [assumption|reflexivity|clear - C HP HD; lia]|]). assumption.
Qed.

Lemma bounds_spec {F} c sp (f0 : F) upd coeff t p lat st : usual sp -> cfg_ok c -> cfg_valid c sp -> rel c sp f0 upd coeff t p -> bounded c = true ->
  known (lc_backend c) (p_hist p) = Some (lat, st) ->
  check_bounds t (match t_backend t with BNiq => t_niq t | BE2e => t_e2e t | BDefault => 0 end) = acceptable c sp lat st.
Proof.
  intros V (B0 & B1 & B2 & B3 & B4 & B5 & B6) (_ & W & _) (R1 & R2 & R3 & R4 & R5 & R6 & R7 & R8 & R9 & R10 & R11 & R12 & R13 & R14 & R15 & R16 & R17 & R18) EB K.
  destruct (R16 EB) as (M1 & M2 & M3). destruct (W EB) as (_ & _ & HT).
  assert (MM : smp sp (lc_target c - lc_tol c) <= smp sp (lc_target c + lc_tol c)) by (apply smp_mono; [apply V|lia|lia]).
  unfold check_bounds, acceptable, known in *. rewrite R9, M1, M2, M3.
  destruct (lc_backend c) eqn:EK; [congruence| |].
  - rewrite <- R12 in K. destruct (t_has_niq t); [|discriminate K]. destruct (R13 eq_refl) as (N1 & N2).
    assert (lat = m_niq (last (p_hist p) (mkMetrics 0 0 0))) by congruence. assert (st = m_stall (last (p_hist p) (mkMetrics 0 0 0))) by congruence. subst lat st.
    rewrite N1, N2. clear - MM.
    destruct (Z.ltb_spec (smp sp (m_niq (last (p_hist p) (mkMetrics 0 0 0)))) (smp sp (lc_target c - lc_tol c)));
    destruct (Z.ltb_spec (smp sp (lc_target c + lc_tol c)) (smp sp (m_niq (last (p_hist p) (mkMetrics 0 0 0)))));
    destruct (Z.leb_spec (smp sp (m_niq (last (p_hist p) (mkMetrics 0 0 0)))) (smp sp (lc_target c + lc_tol c)));
    destruct (Z.leb_spec (smp sp (lc_target c - lc_tol c)) (smp sp (m_niq (last (p_hist p) (mkMetrics 0 0 0)))));
    destruct (smp sp (lc_stale c) <? smp sp (m_stall (last (p_hist p) (mkMetrics 0 0 0)))); destruct (0 <? smp sp (lc_stale c)); cbn; try reflexivity; lia.
  - rewrite <- R14 in K. destruct (t_has_e2e t); [|discriminate K]. pose proof (R15 eq_refl) as N1.
    assert (lat = m_e2e (last (p_hist p) (mkMetrics 0 0 0))) by congruence. assert (st = 0) by congruence. subst lat st.
    assert (Z0 : smp sp 0 = 0).
    { apply smp_zero. exact V. }
    rewrite N1, Z0. clear - MM.
    destruct (Z.ltb_spec (smp sp (m_e2e (last (p_hist p) (mkMetrics 0 0 0)))) (smp sp (lc_target c - lc_tol c)));
    destruct (Z.ltb_spec (smp sp (lc_target c + lc_tol c)) (smp sp (m_e2e (last (p_hist p) (mkMetrics 0 0 0)))));
    destruct (Z.leb_spec (smp sp (m_e2e (last (p_hist p) (mkMetrics 0 0 0)))) (smp sp (lc_target c + lc_tol c)));
    destruct (Z.leb_spec (smp sp (lc_target c - lc_tol c)) (smp sp (m_e2e (last (p_hist p) (mkMetrics 0 0 0)))));
    destruct (Z.ltb_spec (smp sp (lc_stale c)) 0); destruct (Z.ltb_spec 0 (smp sp (lc_stale c))); cbn; try reflexivity; lia.
Qed.

Lemma update_step {F} c sp (f0 : F) upd coeff t p fuel : usual sp -> cfg_ok c -> cfg_valid c sp -> 0 <= p_total p ->
  (tuned c = true -> p_total p + smp sp (lc_sint c) < 2 ^ 32) -> (Z.to_nat (2 ^ 32) <= fuel)%nat -> rel c sp f0 upd coeff t p ->
  exists b t' p', update_stream upd coeff fuel t = Some (b, t') /\ expect1 c sp f0 upd coeff p OUpdate = (OutVerdict b, p') /\
    rel c sp f0 upd coeff t' p' /\ p_total p' = p_total p.
Proof.
  intros U CO CV HP HW HF R. pose proof R as (R1 & R2 & R3 & R4 & R5 & R6 & R7 & R8 & R9 & R10 & R11 & R12 & R13 & R14 & R15 & R16 & R17 & R18).
  unfold update_stream, expect1. rewrite R11.
  assert (KN : match t_backend t with BNiq => t_has_niq t | BE2e => t_has_e2e t | BDefault => true end =
               match known (lc_backend c) (p_hist p) with Some _ => true | None => false end).
  { rewrite R9. unfold known. destruct (lc_backend c) eqn:EK; [destruct CO as (B0 & _); congruence| |].
    - rewrite <- R12. destruct (t_has_niq t); reflexivity.
    - rewrite <- R14. destruct (t_has_e2e t); reflexivity. }
  rewrite KN. destruct (known (lc_backend c) (p_hist p)) as [[lat st]|] eqn:K; cbn [negb].
  2: { exists true, t, p. auto. }
  assert (LT : match t_backend t with BNiq => t_niq t | BE2e => t_e2e t | BDefault => 0 end = smp sp lat).
  { rewrite R9. unfold known in K. destruct (lc_backend c) eqn:EK; [destruct CO as (B0 & _); congruence| |].
    - rewrite <- R12 in K. destruct (t_has_niq t); [|discriminate K]. destruct (R13 eq_refl) as (N1 & N2). rewrite N1. f_equal. congruence.
    - rewrite <- R14 in K. destruct (t_has_e2e t); [|discriminate K]. rewrite (R15 eq_refl). f_equal. congruence. }
  assert (CB : bounded c && negb (check_bounds t (smp sp lat)) = bounded c && negb (acceptable c sp lat st)).
  { destruct (bounded c) eqn:EB; [|reflexivity]. rewrite <- LT. cbn [andb]. f_equal. eapply bounds_spec; eauto. }
  rewrite LT, CB. destruct (bounded c && negb (acceptable c sp lat st)); [exists false, t, p; auto|].
  rewrite R10. destruct (tuned c) eqn:ET; [|exists true, t, p; auto].
  destruct CV as (_ & _ & CV). destruct (CV ET) as (V1 & V2 & _). specialize (HW eq_refl). try rewrite ET in R2.
  set (I := smp sp (lc_sint c)) in *. assert (EI : smp sp (lc_sint c) = I) by reflexivity. clearbody I.
  assert (EL : (if smp sp lat <? 0 then 0 else smp sp lat) = Z.max 0 (smp sp lat)) by (destruct (Z.ltb_spec (smp sp lat) 0); lia).
  unfold compute_scaling. rewrite EL, R1. rewrite R2 in *.
  set (k := length (p_fed p)) in *.
  assert (DV : p_total p = I * (p_total p / I) + p_total p mod I) by (apply Z.div_mod; lia).
  assert (MB : 0 <= p_total p mod I < I) by (apply Z.mod_pos_bound; lia).
  assert (D0 : 0 <= p_total p / I) by (apply Z.div_pos; lia).
  assert (D1 : p_total p / I <= p_total p) by (apply Z.div_le_upper_bound; nia).
  set (q := p_total p / I) in *. set (r := p_total p mod I) in *. clearbody q r. rewrite R3.
  destruct (p_total p <? Z.of_nat k * I) eqn:EQ.
  - apply Z.ltb_lt in EQ. assert (q + 1 <= Z.of_nat k) by nia.
    assert (ED : (Z.to_nat (q + 1) - k)%nat = 0%nat) by lia. rewrite ED. cbn [repeat Nat.ltb Nat.leb]. rewrite app_nil_r, orb_false_r.
    exists true, t. eexists. split; [reflexivity|]. split; [reflexivity|]. split; [|reflexivity]. destruct p. exact R.
  - apply Z.ltb_ge in EQ. set (due := (Z.to_nat (q + 1) - k)%nat). assert (KQ : Z.of_nat k <= q) by nia.
    assert (DD : Z.of_nat due = q + 1 - Z.of_nat k) by (unfold due; lia).
    destruct (loop_ends upd (Z.max 0 (smp sp lat)) (p_total p) I V2 HP HW due fuel (Z.of_nat k * I) (t_fe t) ltac:(lia)) as (A & _ & C).
    { destruct (p_total p <? Z.of_nat k * I) eqn:E2; [apply Z.ltb_lt in E2; clear - EQ E2; lia|].
      assert (EQQ : (p_total p - Z.of_nat k * I) / I = q - Z.of_nat k).
      { symmetry. apply Z.div_unique with (r := r); [lia|]. nia. }
      rewrite EQQ. clear - DD. lia. }
    { clear - DD D1 HW HF V2. lia. }
    rewrite A. exists true. eexists. eexists. split; [reflexivity|]. split; [reflexivity|]. split; [|reflexivity].
    assert (LD : (0 <? due)%nat = true) by (apply Nat.ltb_lt; lia). rewrite LD, orb_true_r.
    unfold rel. cbn [t_pos t_sint t_spos t_rint t_rpos t_new t_coeff t_delta t_backend t_tuning t_bounds t_has_niq t_niq t_stall t_has_e2e t_e2e t_target t_minl t_maxl t_maxstall t_spec t_fe p_total p_hist p_fed p_fresh].
    rewrite ?R2, ?ET, EI, R18, R8, app_length, repeat_length, fold_left_app. fold k.
    repeat (split; [first [assumption|reflexivity|lia|intros _; reflexivity]|]). reflexivity.
Qed.

(* Every history of calls, until the position nears 2^32. *)
Lemma run_spec {F} c sp (f0 : F) upd coeff fuel ops : usual sp -> cfg_ok c -> cfg_valid c sp -> (Z.to_nat (2 ^ 32) <= fuel)%nat ->
  Forall op_ok ops -> forall t p, rel c sp f0 upd coeff t p -> 0 <= p_total p ->
  p_total p + played ops + smp sp log_interval < 2 ^ 32 ->
  (tuned c = true -> p_total p + played ops + smp sp (lc_sint c) < 2 ^ 32) ->
  exists t', run upd coeff fuel t ops = Ok (Some (fst (expect c sp f0 upd coeff p ops), t')) /\
    rel c sp f0 upd coeff t' (snd (expect c sp f0 upd coeff p ops)).
Proof.
  intros U CO CV HF OK. induction OK as [|o ops OK1 OK IH]; intros t p R HP W1 W2.
  - exists t. split; [reflexivity|exact R].
  - assert (PL : 0 <= played ops).
    { clear - OK. induction OK as [|o ops A B IH]; [cbn; lia|]. destruct o; cbn [played] in *; try lia. cbn in A. lia. }
    assert (G : forall x t1 p1, step upd coeff fuel t o = Ok (Some (x, t1)) -> expect1 c sp f0 upd coeff p o = (x, p1) ->
       rel c sp f0 upd coeff t1 p1 -> 0 <= p_total p1 -> p_total p1 + played ops = p_total p + played (o :: ops) ->
       exists t', run upd coeff fuel t (o :: ops) = Ok (Some (fst (expect c sp f0 upd coeff p (o :: ops)), t')) /\
    rel c sp f0 upd coeff t' (snd (expect c sp f0 upd coeff p (o :: ops)))).
    { intros x t1 p1 S E R' HP' T. destruct (IH t1 p1 R' HP' ltac:(lia)) as (t' & A & B); [intros ET; specialize (W2 ET); lia|].
      exists t'. cbn [run expect]. rewrite S. cbn [bind]. rewrite A. cbn [bind]. rewrite E.
      destruct (expect c sp f0 upd coeff p1 ops) as [xs p2]. cbn [fst snd] in *. split; [reflexivity|exact B]. }
    assert (LP := log_pos sp U).
    destruct o as [m| |d|].
    + destruct (metrics_step c sp f0 upd coeff t p m (proj1 U) OK1 R) as (t' & A & B & _).
      eapply G; [cbn [step]; rewrite A; reflexivity|reflexivity|exact B|exact HP|reflexivity].
    + destruct (update_step c sp f0 upd coeff t p fuel U CO CV HP) as (b & t' & p' & A & B & C & D).
      { intros ET. specialize (W2 ET). cbn [played] in W2. lia. }
      { exact HF. }
      { exact R. }
      eapply G; [cbn [step]; rewrite A; reflexivity|exact B|exact C|lia|rewrite D; reflexivity].
    + cbn [op_ok] in OK1. cbn [played] in *.
      destruct (advance_step c sp f0 upd coeff t p d fuel (proj1 U) HP ltac:(lia) LP ltac:(lia) HF R) as (t' & A & B).
      eapply G; [cbn [step]; rewrite A; reflexivity|reflexivity|exact B|cbn [p_total]; lia|cbn [p_total]; lia].
    + pose proof R as (R1 & R2 & R3 & R4 & R5 & R6 & R7 & R8 & R9 & R10 & R11 & R12 & R13 & R14 & R15 & R16 & R17 & R18).
      destruct (p_fresh p) eqn:EF.
      * eapply G; [cbn [step]; unfold fetch_scaling; rewrite R6; reflexivity|cbn [expect1]; rewrite EF, <- (R7 eq_refl); reflexivity| |exact HP|reflexivity].
        unfold rel. cbn [t_pos t_sint t_spos t_rint t_rpos t_new t_coeff t_delta t_backend t_tuning t_bounds t_has_niq t_niq t_stall t_has_e2e t_e2e t_target t_minl t_maxl t_maxstall t_spec t_fe p_total p_hist p_fed p_fresh].
        repeat (split; [first [assumption|reflexivity|intros Q; discriminate Q]|]). assumption.
      * eapply G; [cbn [step]; unfold fetch_scaling; rewrite R6; reflexivity|cbn [expect1]; rewrite EF; reflexivity| |exact HP|reflexivity].
        destruct p. cbn in EF. subst. exact R.
Qed.
