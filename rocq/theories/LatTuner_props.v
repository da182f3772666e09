(* C65: the latency tuner. *)
From Coq Require Import Reals ZArith List Bool Lia Lra.
From Flocq Require Import Core.Core IEEE754.BinarySingleNaN.
From Verif Require Import Base Float32 TimeConv_model TimeConv_spec TimeConv_proof TimeConv_props LatTuner_model LatTuner_spec LatTuner_proof.
Import ListNotations.
Local Open Scope Z_scope.
Local Open Scope res_scope.

(* 100 ms with a tolerance of 50 ms, tuned quickly and by network queue size *)
Definition ex_cfg : lat_cfg := mkCfg BNiq PResponsive 100000000 50000000 12500000 5000000 f32_005.
Example ex_cfg_ok : cfg_ok ex_cfg.
Proof. unfold cfg_ok, ex_cfg. cbn [lc_backend lc_target lc_tol lc_stale lc_sint]. repeat split; try lia. discriminate. Qed.
Example ex_values : smp cd (lc_target ex_cfg) = 4410 /\ smp cd (lc_target ex_cfg - lc_tol ex_cfg) = 2205 /\
  smp cd (lc_target ex_cfg + lc_tol ex_cfg) = 6615 /\ smp cd (lc_stale ex_cfg) = 551 /\ smp cd (lc_sint ex_cfg) = 221 /\ smp cd log_interval = 220500.
Proof. repeat split; vm_compute; reflexivity. Qed.
(* A configuration is accepted exactly if the target latency is not negative;
   if bounds or tuning are wanted, target is at least one sample and the
   tolerance not negative; and if tuning is wanted, the scaling interval is at
   least one sample and the scaling tolerance positive. *)
Theorem C65_accepted : forall F (mkfe : Z -> F) c sp, usual sp -> cfg_ok c ->
  exists r, tuner_new mkfe c sp = Ok r /\
  ((exists t, r = Some t) <->
   0 <= lc_target c /\
   (bounded c = true -> 0 < lc_target c /\ 0 < smp sp (lc_target c) /\ 0 <= lc_tol c) /\
   (tuned c = true -> 0 < lc_sint c /\ 0 < smp sp (lc_sint c) /\ f32_le (lc_stol c) f32_zero = false)).
Proof.
  intros F mkfe c sp U CO. destruct (new_spec mkfe c sp (fun f _ => f) (fun _ => f32_zero) (proj1 U) CO) as (r & E & H).
  exists r. split; [exact E|]. destruct r as [t|].
  - destruct H as (CV & _). split; [intros _; exact CV|eauto].
  - split; [intros (t & G); discriminate G|intros G; elim H; exact G].
Qed.
Print Assumptions C65_accepted.

Example ex_accepted : forall F (mkfe : Z -> F), exists t, tuner_new mkfe ex_cfg cd = Ok (Some t).
Proof.
  intros F mkfe. destruct (C65_accepted F mkfe ex_cfg cd cd_usual ex_cfg_ok) as (r & E & H).
  destruct ex_values as (V1 & _ & _ & _ & V2 & _).
  destruct H as (_ & H). destruct H as (t & G); [|exists t; rewrite E, G; reflexivity].
  rewrite V1, V2. assert (Q : f32_le (lc_stol ex_cfg) f32_zero = false) by (vm_compute; reflexivity).
  rewrite Q. cbn [lc_target lc_tol lc_sint ex_cfg]. repeat split; lia.
Qed.

(* Every history of calls on an accepted configuration, for every frequency
   estimator: until the stream position comes near 2^32 samples all calls
   return, and verdicts, scaling factors and what the estimator is given are as
   specified. *)
Theorem C65_history : forall F (mkfe : Z -> F) upd coeff c sp t ops fuel, usual sp -> cfg_ok c ->
  tuner_new mkfe c sp = Ok (Some t) -> Forall op_ok ops ->
  played ops + smp sp log_interval < 2 ^ 32 -> (tuned c = true -> played ops + smp sp (lc_sint c) < 2 ^ 32) ->
  (Z.to_nat (2 ^ 32) <= fuel)%nat ->
  let f0 := mkfe (if bounded c then smp sp (lc_target c) else 0) in
  exists t', run upd coeff fuel t ops = Ok (Some (fst (expect c sp f0 upd coeff start ops), t')) /\
    t_fe t' = fold_left upd (p_fed (snd (expect c sp f0 upd coeff start ops))) f0.
Proof.
  intros F mkfe upd coeff c sp t ops fuel U CO E OK W1 W2 HF f0.
  destruct (new_spec mkfe c sp upd coeff (proj1 U) CO) as (r & E2 & H). rewrite E in E2.
  assert (r = Some t) by congruence. subst r. destruct H as (CV & R & ET & _). rewrite ET in R.
  destruct (run_spec c sp f0 upd coeff fuel ops U CO CV HF OK t start R) as (t' & A & B); auto; [cbn; lia|].
  exists t'. split; [exact A|apply B].
Qed.
Print Assumptions C65_history.

Lemma expect_app {F} c sp (f0 : F) upd coeff ops1 ops2 p :
  expect c sp f0 upd coeff p (ops1 ++ ops2) =
  let '(xs, p1) := expect c sp f0 upd coeff p ops1 in let '(ys, p2) := expect c sp f0 upd coeff p1 ops2 in (xs ++ ys, p2).
Proof.
  revert p. induction ops1 as [|o ops1 IH]; intros p; cbn [expect app].
  - destruct (expect c sp f0 upd coeff p ops2). reflexivity.
  - destruct (expect1 c sp f0 upd coeff p o) as [x p1]. rewrite IH. destruct (expect c sp f0 upd coeff p1 ops1) as [xs p2].
    destruct (expect c sp f0 upd coeff p2 ops2) as [ys p3]. reflexivity.
Qed.

(* The metrics written by a list of calls *)
Fixpoint written (ops : list op) : list metrics :=
  match ops with [] => [] | OMetrics m :: ops => m :: written ops | _ :: ops => written ops end.

Lemma expect_past {F} c sp (f0 : F) upd coeff ops : forall p, let p' := snd (expect c sp f0 upd coeff p ops) in
  p_hist p' = p_hist p ++ written ops /\ p_total p' = p_total p + played ops.
Proof.
  induction ops as [|o ops IH]; intros p; cbn zeta.
  - cbn. rewrite app_nil_r. split; [reflexivity|lia].
  - cbn [expect]. destruct (expect1 c sp f0 upd coeff p o) as [x p1] eqn:E1. specialize (IH p1). cbn zeta in IH.
    destruct (expect c sp f0 upd coeff p1 ops) as [xs p2]. cbn [snd] in *. destruct IH as (-> & ->).
    assert (Q : p_hist p1 = p_hist p ++ written [o] /\ p_total p1 = p_total p + played [o]).
    { destruct o; cbn [expect1] in E1.
      - assert (p1 = mkPast (p_total p) (p_hist p ++ [m]) (p_fed p) (p_fresh p)) by congruence. subst p1. cbn. split; [reflexivity|lia].
      - cbn [written played]. rewrite app_nil_r, Z.add_0_r.
        destruct (known (lc_backend c) (p_hist p)) as [[l s]|]; [|assert (p1 = p) by congruence; subst; auto].
        destruct (bounded c && negb (acceptable c sp l s)); [assert (p1 = p) by congruence; subst; auto|].
        destruct (tuned c); [|assert (p1 = p) by congruence; subst; auto].
        match type of E1 with (_, ?q) = _ => assert (G : p1 = q) by congruence end. rewrite G. auto.
      - assert (p1 = mkPast (p_total p + duration) (p_hist p) (p_fed p) (p_fresh p)) by congruence. subst p1. cbn. rewrite app_nil_r. split; [reflexivity|lia].
      - match type of E1 with (_, ?q) = _ => assert (G : p1 = q) by congruence end. rewrite G. cbn. rewrite app_nil_r. split; [reflexivity|lia]. }
    destruct Q as (-> & ->). rewrite <- app_assoc. destruct o; cbn [written played app]; (split; [reflexivity|lia]).
Qed.

Lemma played_app a b : played (a ++ b) = played a + played b.
Proof. induction a as [|o a IH]; cbn [app played]; [lia|]. destruct o; lia. Qed.

Lemma expect_update {F} c sp (f0 : F) upd coeff p :
  fst (expect1 c sp f0 upd coeff p OUpdate) =
  OutVerdict (match known (lc_backend c) (p_hist p) with
              | None => true | Some (l, s) => negb (bounded c && negb (acceptable c sp l s)) end).
Proof.
  cbn [expect1]. destruct (known (lc_backend c) (p_hist p)) as [[l s]|]; [|reflexivity].
  destruct (bounded c && negb (acceptable c sp l s)); [reflexivity|]. destruct (tuned c); reflexivity.
Qed.

(* The verdict after any history depends on the metrics written so far only. *)
Theorem C65_verdict : forall F (mkfe : Z -> F) upd coeff c sp t ops fuel, usual sp -> cfg_ok c ->
  tuner_new mkfe c sp = Ok (Some t) -> Forall op_ok ops ->
  played ops + smp sp log_interval < 2 ^ 32 -> (tuned c = true -> played ops + smp sp (lc_sint c) < 2 ^ 32) ->
  (Z.to_nat (2 ^ 32) <= fuel)%nat ->
  exists outs t', run upd coeff fuel t (ops ++ [OUpdate]) = Ok (Some (outs ++
    [OutVerdict (match known (lc_backend c) (written ops) with
                 | None => true | Some (l, s) => negb (bounded c) || acceptable c sp l s end)], t')).
Proof.
  intros F mkfe upd coeff c sp t ops fuel U CO E OK W1 W2 HF.
  destruct (C65_history F mkfe upd coeff c sp t (ops ++ [OUpdate]) fuel U CO E) as (t' & A & _).
  - apply Forall_app. split; [exact OK|]. constructor; [exact I|constructor].
  - rewrite played_app. cbn [played]. lia.
  - rewrite played_app. cbn [played]. intros ET. specialize (W2 ET). lia.
  - exact HF.
  - cbv zeta in A. set (f0 := mkfe _) in *. rewrite expect_app in A.
    pose proof (expect_past c sp f0 upd coeff ops start) as Q. cbv zeta in Q.
    destruct (expect c sp f0 upd coeff start ops) as [xs p1]. cbn [snd] in Q. cbn [expect] in A.
    pose proof (expect_update c sp f0 upd coeff p1) as G. destruct (expect1 c sp f0 upd coeff p1 OUpdate) as [x p2]. cbn [fst] in *.
    exists xs, t'. rewrite A. repeat f_equal. rewrite G. f_equal. destruct Q as (-> & _). cbn [p_hist start app].
    destruct (known (lc_backend c) (written ops)) as [[l s]|]; [|reflexivity]. destruct (bounded c), (acceptable c sp l s); reflexivity.
Qed.
Print Assumptions C65_verdict.

(* In nanoseconds: a latency within the tolerance is always acceptable. *)
Theorem C65_inside : forall c sp l s, usual sp -> cfg_ok c ->
  lc_target c - lc_tol c <= l <= lc_target c + lc_tol c -> acceptable c sp l s = true.
Proof.
  intros c sp l s U (B0 & B1 & B2 & B3 & B4 & B5 & B6) H. unfold acceptable.
  assert (A : smp sp (lc_target c - lc_tol c) <= smp sp l) by (apply smp_mono; [apply U|lia|lia]).
  assert (B : smp sp l <= smp sp (lc_target c + lc_tol c)) by (apply smp_mono; [apply U|lia|lia]).
  apply andb_true_iff. split; [lia|]. apply orb_true_iff. left. lia.
Qed.
Print Assumptions C65_inside.

(* A latency outside the tolerance by more than one sample (and the relative
   error of single precision) is not acceptable; if it is too low, provided that
   packets were not missing for longer than the stale tolerance. *)
Definition convertible (sp : spec) (ns : Z) : Prop :=
  - 2 ^ 63 <= ns < 2 ^ 63 /\ (Rabs (exact_samples ns (s_rate sp)) <= IZR (2 ^ 31) * (1 - / 1048576))%R.
Definition apart (sp : spec) (a b : Z) : Prop :=
  let x := exact_samples a (s_rate sp) in let y := exact_samples b (s_rate sp) in
  (y - x > 1 + (Rabs x + Rabs y) / 4194304)%R.

Lemma apart_lt sp a b : usual sp -> convertible sp a -> convertible sp b -> apart sp a b -> smp sp a < smp sp b.
Proof.
  intros U (A1 & A2) (B1 & B2) H. pose proof (smp_close sp a U A1 A2) as CA. pose proof (smp_close sp b U B1 B2) as CB.
  unfold close, apart in *. apply lt_IZR. cbv zeta in H.
  set (x := exact_samples a (s_rate sp)) in *. set (y := exact_samples b (s_rate sp)) in *.
  generalize dependent (IZR (smp sp a)). generalize dependent (IZR (smp sp b)). intros v CB u CA.
  assert (u - x <= Rabs x / 4194304 + 1 / 2)%R by (eapply Rle_trans; [apply Rle_abs|exact CA]).
  assert (y - v <= Rabs y / 4194304 + 1 / 2)%R by (rewrite <- Rabs_Ropp in CB; eapply Rle_trans; [|exact CB]; replace (- (v - y))%R with (y - v)%R by ring; apply Rle_abs).
  lra.
Qed.

Theorem C65_outside : forall c sp l s, usual sp -> cfg_ok c -> convertible sp l ->
  convertible sp (lc_target c - lc_tol c) -> convertible sp (lc_target c + lc_tol c) -> - 2 ^ 63 <= s < 2 ^ 63 ->
  apart sp (lc_target c + lc_tol c) l \/ (apart sp l (lc_target c - lc_tol c) /\ s <= lc_stale c) ->
  acceptable c sp l s = false.
Proof.
  intros c sp l s U (B0 & B1 & B2 & B3 & B4 & B5 & B6) CL CLo CHi CS [H|(H & HS)]; unfold acceptable; apply andb_false_iff.
  - left. apply Z.leb_gt. apply apart_lt; auto.
  - right. apply orb_false_iff. split; [apply Z.leb_gt; apply apart_lt; auto|]. apply andb_false_iff. right. apply Z.ltb_ge.
    apply smp_mono; [apply U|lia|lia].
Qed.
Print Assumptions C65_outside.

(* 151 ms is too much for 100 +- 50 ms, 49 ms too little; and it is forgiven if
   there were no packets for 20 ms. *)
Example ex_verdicts : acceptable ex_cfg cd 151000000 0 = false /\ acceptable ex_cfg cd 49000000 12500000 = false /\
  acceptable ex_cfg cd 49000000 20000000 = true /\ acceptable ex_cfg cd 150000000 0 = true.
Proof. repeat split; vm_compute; reflexivity. Qed.
Example ex_apart : apart cd (lc_target ex_cfg + lc_tol ex_cfg) 151000000.
Proof.
  unfold apart, exact_samples, ex_cfg. cbn [lc_target lc_tol s_rate cd].
  change (100000000 + 50000000) with 150000000. rewrite !Rabs_pos_eq by lra. lra.
Qed.

(* The estimator is given one latency per scaling interval, however the stream
   is cut into frames: after an update with a known and acceptable latency, the
   number of latencies it has been given (recorded here) is the number of
   intervals begun. *)
Theorem C65_cadence : forall coeff c sp t ops fuel l s, usual sp -> cfg_ok c ->
  tuner_new (fun _ => []) c sp = Ok (Some t) -> Forall op_ok ops ->
  played ops + smp sp log_interval < 2 ^ 32 -> played ops + smp sp (lc_sint c) < 2 ^ 32 ->
  (Z.to_nat (2 ^ 32) <= fuel)%nat ->
  tuned c = true -> known (lc_backend c) (written ops) = Some (l, s) -> acceptable c sp l s = true ->
  exists outs t', run (fun given x => given ++ [x]) coeff fuel t (ops ++ [OUpdate]) = Ok (Some (outs, t')) /\
    Z.of_nat (length (t_fe t')) = played ops / smp sp (lc_sint c) + 1.
Proof.
  intros coeff c sp t ops fuel l s U CO E OK W1 W2 HF ET K AC.
  destruct (C65_accepted _ (fun _ : Z => @nil Z) c sp U CO) as (r & E' & CV). rewrite E in E'. assert (r = Some t) by congruence. subst r.
  destruct CV as (CV & _). destruct (CV (ex_intro _ t eq_refl)) as (_ & _ & CV2). destruct (CV2 ET) as (_ & I0 & _).
  destruct (C65_history _ (fun _ => []) (fun given x => given ++ [x]) coeff c sp t (ops ++ [OUpdate]) fuel U CO E) as (t' & A & B).
  - apply Forall_app. split; [exact OK|]. constructor; [exact I|constructor].
  - rewrite played_app. cbn [played]. lia.
  - rewrite played_app. cbn [played]. intros _. lia.
  - exact HF.
  - cbv zeta in A, B. set (upd := fun given x => given ++ [x]) in *. eexists. exists t'. split; [exact A|]. rewrite B.
    assert (FL : forall xs, fold_left upd xs [] = xs).
    { intros xs. assert (G : forall a, fold_left upd xs a = a ++ xs); [|apply G].
      induction xs as [|x xs IH]; intros a; cbn [fold_left]; [rewrite app_nil_r; reflexivity|]. rewrite IH. unfold upd. rewrite <- app_assoc. reflexivity. }
    rewrite FL. rewrite expect_app.
    assert (HB : forall ops p, 0 <= p_total p -> Forall op_ok ops -> Z.of_nat (length (p_fed p)) <= p_total p / smp sp (lc_sint c) + 1 ->
       let p' := snd (expect c sp [] upd coeff p ops) in
       Z.of_nat (length (p_fed p')) <= p_total p' / smp sp (lc_sint c) + 1).
    { clear - I0 ET. intros ops. induction ops as [|o ops IH]; intros p HP OK H; cbv zeta; [exact H|].
      inversion OK as [|? ? O1 O2]; subst. cbn [expect].
      assert (Q : let p1 := snd (expect1 c sp [] upd coeff p o) in 0 <= p_total p1 /\ Z.of_nat (length (p_fed p1)) <= p_total p1 / smp sp (lc_sint c) + 1).
      { cbv zeta. destruct o; cbn [expect1].
        - cbn [snd p_total p_fed]. auto.
        - destruct (known _ _) as [[l s]|]; [|auto]. destruct (bounded c && _); [auto|]. rewrite ET. cbn [snd p_total p_fed].
          split; [exact HP|]. rewrite app_length, repeat_length.
          assert (0 <= p_total p / smp sp (lc_sint c)) by (apply Z.div_pos; lia).
          set (q := p_total p / smp sp (lc_sint c)) in *. clearbody q. clear - H H0. lia.
        - cbn [op_ok] in O1. cbn [snd p_total p_fed]. split; [lia|].
          eapply Z.le_trans; [exact H|]. apply Z.add_le_mono_r. apply Z.div_le_mono; lia.
        - cbn [snd p_total p_fed]. auto. }
      destruct (expect1 c sp [] upd coeff p o) as [x p1]. cbv zeta in Q. cbn [snd] in Q. destruct Q as (Q1 & Q2).
      specialize (IH p1 Q1 O2 Q2). cbv zeta in IH. destruct (expect c sp [] upd coeff p1 ops) as [xs p2]. exact IH. }
    specialize (HB ops start ltac:(cbn; lia) OK). cbv zeta in HB.
    assert (Z0 : 0 / smp sp (lc_sint c) = 0) by (apply Z.div_0_l; lia).
    specialize (HB ltac:(cbn [p_fed start p_total length]; rewrite Z0; lia)).
    pose proof (expect_past c sp [] upd coeff ops start) as Q. cbv zeta in Q.
    destruct (expect c sp [] upd coeff start ops) as [xs p1]. cbn [snd] in *. destruct Q as (Q1 & Q2). cbn [p_hist p_total start app] in Q1, Q2.
    cbn [expect expect1]. rewrite Q1, K, AC, ET. cbn [negb]. rewrite andb_false_r. cbn [snd p_fed]. rewrite app_length, repeat_length, Q2 in *.
    rewrite Z.add_0_l in *. assert (PL : 0 <= played ops).
    { clear - OK. induction OK as [|o ops A B IH]; [cbn; lia|]. destruct o; cbn [played] in *; try lia. cbn in A. lia. }
    assert (0 <= played ops / smp sp (lc_sint c)) by (apply Z.div_pos; lia).
    set (q := played ops / smp sp (lc_sint c)) in *. clearbody q. clear - HB H. lia.
Qed.
Print Assumptions C65_cadence.

(* Clamping *)
Lemma one_val : f32_val f32_one = 1%R /\ f32_fin f32_one = true.
Proof. apply (f32_of_Z_exact 1). lia. Qed.

Lemma rnd1 : rnd32 1 = 1%R.
Proof. destruct one_val as (E & _). rewrite <- E. apply val_gen. Qed.

Lemma rnd_le x y : (x <= y)%R -> (rnd32 x <= rnd32 y)%R.
Proof. intros H. apply round_le; auto with typeclass_instances. apply FLT_exp_valid. reflexivity. Qed.

Lemma f2_lt : (2 < bpow radix2 128)%R.
Proof. change 2%R with (bpow radix2 1). apply bpow_lt. lia. Qed.

Lemma limits d : f32_fin d = true -> (0 < f32_val d < 1)%R ->
  f32_val (f32_add f32_one d) = rnd32 (1 + f32_val d) /\ f32_fin (f32_add f32_one d) = true /\
  f32_val (f32_sub f32_one d) = rnd32 (1 - f32_val d) /\ f32_fin (f32_sub f32_one d) = true /\
  (1 <= rnd32 (1 + f32_val d) <= 2)%R /\ (0 < rnd32 (1 - f32_val d) <= 1)%R.
Proof.
  intros FD BD. destruct one_val as (V1 & F1).
  assert (R2 : rnd32 2 = 2%R).
  { destruct (f32_of_Z_exact 2 ltac:(lia)) as (E & _). change 2%R with (IZR 2). rewrite <- E. apply val_gen. }
  assert (P1 : (1 <= rnd32 (1 + f32_val d) <= 2)%R).
  { split; [rewrite <- rnd1 at 1|rewrite <- R2]; apply rnd_le; lra. }
  assert (P2 : (0 < rnd32 (1 - f32_val d) <= 1)%R).
  { split; [|rewrite <- rnd1 at 2; apply rnd_le; lra].
    (* 1 - d is at least 2^-24, because d is a multiple of its last place below 1 *)
    assert (G : generic_format radix2 (SpecFloat.fexp 24 128) (bpow radix2 (-149))).
    { apply generic_format_bpow. cbv. discriminate. }
    assert (L : (bpow radix2 (-149) <= 1 - f32_val d)%R).
    { assert (FM : FIX_format radix2 (-149) (1 - f32_val d)).
      { assert (FX : FIX_format radix2 (-149) (f32_val d)).
        { apply (FIX_format_generic radix2 (-149)). apply generic_format_FIX_FLT with (prec := 24). apply generic_format_B2R. }
        destruct FX as [[m e] M1 M2]. cbn in M2. subst e. exists (Float radix2 (2 ^ 149 - m) (-149)); [|reflexivity].
        rewrite M1. unfold F2R. cbn [Fnum Fexp]. rewrite minus_IZR, Rmult_minus_distr_r. f_equal.
        change (2 ^ 149) with (Zpower radix2 149). rewrite IZR_Zpower by lia. rewrite <- bpow_plus. reflexivity. }
      destruct FM as [[m e] M1 M2]. cbn in M2. subst e. rewrite M1. unfold F2R. cbn [Fnum Fexp].
      assert (0 < m).
      { apply (lt_IZR 0). apply Rmult_lt_reg_r with (r := bpow radix2 (-149)); [apply bpow_gt_0|]. rewrite Rmult_0_l.
        replace (IZR m * bpow radix2 (-149))%R with (1 - f32_val d)%R by exact M1. lra. }
      rewrite <- (Rmult_1_l (bpow radix2 (-149))) at 1. apply Rmult_le_compat_r; [apply bpow_ge_0|]. apply IZR_le. lia. }
    apply Rlt_le_trans with (bpow radix2 (-149)); [apply bpow_gt_0|].
    rewrite <- (round_generic radix2 (SpecFloat.fexp 24 128) ZnearestE (bpow radix2 (-149)) G). apply rnd_le. exact L. }
  pose proof f2_lt as F2.
  pose proof (Bplus_correct 24 128 eq_refl eq_refl mode_NE f32_one d F1 FD) as A. cbn [round_mode] in A.
  fold (f32_val f32_one) in A. fold (f32_val d) in A. rewrite V1 in A. fold (rnd32 (1 + f32_val d)) in A.
  rewrite Rlt_bool_true in A by (rewrite Rabs_pos_eq; lra). destruct A as (A1 & A2 & _).
  pose proof (Bminus_correct 24 128 eq_refl eq_refl mode_NE f32_one d F1 FD) as B. cbn [round_mode] in B.
  fold (f32_val f32_one) in B. fold (f32_val d) in B. rewrite V1 in B. fold (rnd32 (1 - f32_val d)) in B.
  rewrite Rlt_bool_true in B by (rewrite Rabs_pos_eq; lra). destruct B as (B1 & B2 & _).
  repeat split; auto; lra.
Qed.

Lemma min_any x y : f32_nan x = false -> f32_fin y = true ->
  f32_nan (f32_min x y) = false /\ (f32_fin (f32_min x y) = true -> (f32_val (f32_min x y) <= f32_val y)%R) /\
  (f32_fin (f32_min x y) = false -> forall z, f32_fin z = true -> f32_lt (f32_min x y) z = true).
Proof.
  intros NX FY. unfold f32_min. destruct (f32_lt y x) eqn:E.
  - split; [destruct y; try reflexivity; discriminate FY|]. split; [intros _; lra|intros G; congruence].
  - split; [exact NX|]. split.
    + intros FX. apply lt_false; auto.
    + intros G z FZ. destruct x as [sx|sx| |sx m e W]; try discriminate G; try discriminate NX.
      destruct sx; [destruct z as [sz|sz| |sz mz ez Wz]; try discriminate FZ; destruct sz; reflexivity|].
      exfalso. destruct y as [sy|sy| |sy m e W]; try discriminate FY; destruct sy; discriminate E.
Qed.

Lemma clamp_range k d : f32_nan k = false -> f32_fin d = true -> (0 < f32_val d < 1)%R ->
  f32_fin (clamp k d) = true /\ (rnd32 (1 - f32_val d) <= f32_val (clamp k d) <= rnd32 (1 + f32_val d))%R.
Proof.
  intros NK FD BD. destruct (limits d FD BD) as (A1 & A2 & B1 & B2 & P1 & P2).
  unfold clamp. destruct (min_any k (f32_add f32_one d) NK A2) as (N & M1 & M2).
  set (x := f32_min k (f32_add f32_one d)) in *. set (lo := f32_sub f32_one d) in *.
  assert (LH : (rnd32 (1 - f32_val d) <= rnd32 (1 + f32_val d))%R) by lra.
  destruct (f32_fin x) eqn:FX.
  - destruct (max_val x lo FX B2) as (V & FM). rewrite V, B1. specialize (M1 eq_refl). rewrite A1 in M1.
    split; [exact FM|]. split; [apply Rmax_r|apply Rmax_lub; lra].
  - unfold f32_max. rewrite (M2 eq_refl lo B2), B1. split; [exact B2|lra].
Qed.

(* The scaling factor: every value fetched, in any history, is either zero
   (nothing new) or a positive number within the scaling tolerance of one,
   provided that the estimator does not produce a NaN. *)
Theorem C65_range : forall F (mkfe : Z -> F) upd coeff c sp t ops fuel, usual sp -> cfg_ok c ->
  tuner_new mkfe c sp = Ok (Some t) -> Forall op_ok ops ->
  played ops + smp sp log_interval < 2 ^ 32 -> (tuned c = true -> played ops + smp sp (lc_sint c) < 2 ^ 32) ->
  (Z.to_nat (2 ^ 32) <= fuel)%nat ->
  (forall f, f32_nan (coeff f) = false) -> f32_fin (lc_stol c) = true -> (0 < f32_val (lc_stol c) < 1)%R ->
  exists outs t', run upd coeff fuel t ops = Ok (Some (outs, t')) /\
    forall x, In (OutScaling x) outs -> x = f32_zero \/
      (f32_fin x = true /\ (0 < f32_val x)%R /\
       (rnd32 (1 - f32_val (lc_stol c)) <= f32_val x <= rnd32 (1 + f32_val (lc_stol c)))%R).
Proof.
  intros F mkfe upd coeff c sp t ops fuel U CO E OK W1 W2 HF NN FD BD.
  destruct (C65_history F mkfe upd coeff c sp t ops fuel U CO E OK W1 W2 HF) as (t' & A & _). cbv zeta in A.
  eexists. exists t'. split; [exact A|]. set (f0 := mkfe _). clearbody f0. clear A.
  destruct (limits _ FD BD) as (_ & _ & _ & _ & _ & P2). generalize start. clear - NN FD BD P2.
  induction ops as [|o ops IH]; intros p x H; [elim H|]. cbn [expect] in H.
  destruct (expect1 c sp f0 upd coeff p o) as [y p1] eqn:E1. specialize (IH p1).
  destruct (expect c sp f0 upd coeff p1 ops) as [ys p2]. cbn [fst] in *. destruct H as [H|H]; [|apply IH; exact H].
  subst y. destruct o; cbn [expect1] in E1.
  - discriminate E1.
  - destruct (known _ _) as [[l s]|]; [|discriminate E1]. destruct (bounded c && _); [discriminate E1|]. destruct (tuned c); discriminate E1.
  - discriminate E1.
  - assert (G : x = if p_fresh p then clamp (coeff (fold_left upd (p_fed p) f0)) (lc_stol c) else f32_zero) by congruence.
    rewrite G. destruct (p_fresh p); [right|left; reflexivity].
    destruct (clamp_range (coeff (fold_left upd (p_fed p) f0)) (lc_stol c) (NN _) FD BD) as (Q1 & Q2).
    split; [exact Q1|]. split; [lra|exact Q2].
Qed.
Print Assumptions C65_range.

Example ex_range : f32_fin f32_005 = true /\ (0 < f32_val f32_005 < 1)%R.
Proof.
  destruct (f32_make_exact 10737418 (-31) ltac:(lia) ltac:(lia)) as (V & Fi). split; [exact Fi|].
  unfold f32_005. rewrite V. unfold F2R. cbn [Fnum Fexp].
  assert (B : bpow radix2 (-31) = (/ 2147483648)%R) by reflexivity. rewrite B. lra.
Qed.

(* Defaults. *)
Definition all_default : lat_cfg := mkCfg BDefault PDefault 0 0 0 0 f32_zero.

(* On the receiver, unless tuning is switched off, any choice of settings that
   are not negative leads to an accepted configuration with tuning and bounds
   (if target and interval are at least one sample); with tuning switched off
   it is rejected if the target is not given. *)
Theorem C65_receiver_defaults : forall F (mkfe : Z -> F) logf def c sp, usual sp ->
  0 < def -> (forall m t, 0 <= logf m t) ->
  lc_profile c <> PIntact -> 0 <= lc_target c -> 0 <= lc_tol c -> 0 <= lc_stale c -> 0 <= lc_sint c ->
  (f32_eq (lc_stol c) f32_zero = true \/ f32_le (lc_stol c) f32_zero = false) ->
  let d := deduce logf def true c in cfg_ok d -> 0 < smp sp (lc_target d) -> 0 < smp sp (lc_sint d) ->
  tuned d = true /\ bounded d = true /\ lc_target d = (if lc_target c =? 0 then def else lc_target c) /\
  exists t, tuner_new mkfe d sp = Ok (Some t).
Proof.
  intros F mkfe logf def c sp U HD HL HP H1 H2 H3 H4 H5 d CO S1 S2.
  assert (IP : forall b, is_intact (deduced_profile true b (lc_profile c) (lc_target c)) = false).
  { intros b. unfold deduced_profile. destruct (lc_profile c); try reflexivity; [|congruence].
    destruct b; try reflexivity. destruct (_ && _); reflexivity. }
  assert (ET : tuned d = true) by (unfold tuned, d, deduce; cbn [lc_profile]; rewrite IP; reflexivity).
  assert (EL : lc_target d = if lc_target c =? 0 then def else lc_target c).
  { unfold d, deduce. cbn [lc_target]. unfold deduced_target. rewrite IP. reflexivity. }
  assert (TP : 0 < lc_target d) by (rewrite EL; destruct (Z.eqb_spec (lc_target c) 0); lia).
  split; [exact ET|]. split; [apply tuned_bounded; exact ET|]. split; [exact EL|].
  destruct (C65_accepted F mkfe d sp U CO) as (r & E & H). destruct H as (_ & H).
  destruct H as (t & G); [|exists t; rewrite E, G; reflexivity].
  split; [lia|]. split.
  - intros _. split; [exact TP|]. split; [exact S1|].
    assert (EE : lc_tol d = if lc_tol c =? 0 then logf 1 (Z.max (lc_target d) millisecond) else lc_tol c).
    { unfold d, deduce in TP |- *. cbn [lc_tol lc_target] in TP |- *. rewrite IP. cbn [negb andb]. destruct (lc_tol c =? 0); [|reflexivity].
      destruct (Z.ltb_spec 0 (deduced_target def true (deduced_profile true (deduced_backend (lc_backend c)) (lc_profile c) (lc_target c)) (lc_target c))); [reflexivity|lia]. }
    rewrite EE. destruct (lc_tol c =? 0); [apply HL|exact H2].
  - intros _. split; [|split; [exact S2|]].
    + unfold d, deduce. cbn [lc_sint]. rewrite IP. cbn [negb andb]. unfold millisecond. destruct (Z.eqb_spec (lc_sint c) 0); lia.
    + unfold d, deduce. cbn [lc_stol]. rewrite IP. cbn [negb andb]. destruct (f32_eq (lc_stol c) f32_zero) eqn:EQ.
      * vm_compute. reflexivity.
      * destruct H5 as [H5|H5]; [discriminate H5|exact H5].
Qed.
Print Assumptions C65_receiver_defaults.

(* Where tuning runs on the other side, the target has to be given: without it
   the configuration is rejected.  A sender with no settings at all is accepted,
   and it neither tunes nor bounds. *)
Theorem C65_target_required : forall F (mkfe : Z -> F) logf def (recv : bool) c sp, usual sp ->
  lc_target c = 0 -> (if recv then lc_profile c = PIntact else lc_profile c <> PIntact /\ lc_profile c <> PDefault) ->
  let d := deduce logf def recv c in cfg_ok d -> tuner_new mkfe d sp = Ok None.
Proof.
  intros F mkfe logf def recv c sp U HT HP d CO. destruct (C65_accepted F mkfe d sp U CO) as (r & E & H).
  assert (EL : lc_target d = -1).
  { unfold d, deduce. cbn [lc_target]. unfold deduced_target, deduced_profile. rewrite HT. cbn [Z.eqb].
    destruct recv; [rewrite HP; reflexivity|]. destruct HP as (A & B). destruct (lc_profile c); try reflexivity; congruence. }
  rewrite E. f_equal. destruct r as [t|]; [|reflexivity]. destruct H as (H & _). destruct (H (ex_intro _ t eq_refl)) as (H0 & _). lia.
Qed.
Print Assumptions C65_target_required.

Theorem C65_sender_default : forall F (mkfe : Z -> F) logf def sp, usual sp ->
  let d := deduce logf def false all_default in
  tuned d = false /\ bounded d = false /\ exists t, tuner_new mkfe d sp = Ok (Some t).
Proof.
  intros F mkfe logf def sp U d. assert (CO : cfg_ok d) by (unfold cfg_ok, d; cbn; repeat split; try lia; discriminate).
  split; [reflexivity|]. split; [reflexivity|].
  destruct (C65_accepted F mkfe d sp U CO) as (r & E & H). destruct H as (_ & H).
  destruct H as (t & G); [|exists t; rewrite E, G; reflexivity].
  split; [cbn; lia|]. split; intros Q; discriminate Q.
Qed.
Print Assumptions C65_sender_default.

(* Deducing defaults twice changes nothing more. *)
Theorem C65_defaults_stable : forall logf def recv c,
  deduce logf def recv (deduce logf def recv c) = deduce logf def recv c.
Proof.
  intros logf def recv [b p tg tol st si so]. unfold deduce. cbn [lc_backend lc_profile lc_target lc_tol lc_stale lc_sint lc_stol].
  assert (EB : deduced_backend (deduced_backend b) = deduced_backend b) by (destruct b; reflexivity).
  rewrite EB. set (b' := deduced_backend b).
  assert (EP : forall x, deduced_profile recv b' (deduced_profile recv b' p tg) x = deduced_profile recv b' p tg).
  { intros x. unfold deduced_profile. destruct p; try reflexivity. destruct recv; [|reflexivity].
    destruct b'; try reflexivity. destruct (_ && _); reflexivity. }
  rewrite EP. set (p' := deduced_profile recv b' p tg).
  assert (ETg : deduced_target def recv p' (deduced_target def recv p' tg) = deduced_target def recv p' tg).
  { unfold deduced_target. destruct (Z.eqb_spec tg 0) as [->|N].
    - destruct recv, (is_intact p'); cbn; try reflexivity. destruct (def =? 0); reflexivity.
    - destruct (Z.eqb_spec tg 0); [lia|reflexivity]. }
  rewrite ETg. set (tg' := deduced_target def recv p' tg). set (tn := negb (is_intact p')).
  set (lg := logf (if recv then 1 else 4) (Z.max tg' millisecond)).
  destruct tn; cbn [andb].
  - assert (E1 : (if (if tol =? 0 then if 0 <? tg' then lg else -1 else tol) =? 0 then if 0 <? tg' then lg else -1
                  else if tol =? 0 then if 0 <? tg' then lg else -1 else tol) = (if tol =? 0 then if 0 <? tg' then lg else -1 else tol)).
    { destruct (tol =? 0) eqn:T; [destruct ((if 0 <? tg' then lg else -1) =? 0); reflexivity|rewrite T; reflexivity]. }
    rewrite E1. set (tol' := if tol =? 0 then if 0 <? tg' then lg else -1 else tol).
    assert (E2 : (if (if si =? 0 then 5 * millisecond else si) =? 0 then 5 * millisecond else if si =? 0 then 5 * millisecond else si) = (if si =? 0 then 5 * millisecond else si)).
    { destruct (si =? 0) eqn:T; [reflexivity|rewrite T; reflexivity]. }
    rewrite E2.
    assert (E3 : (if f32_eq (if f32_eq so f32_zero then f32_005 else so) f32_zero then f32_005 else if f32_eq so f32_zero then f32_005 else so) = (if f32_eq so f32_zero then f32_005 else so)).
    { destruct (f32_eq so f32_zero) eqn:T; [destruct (f32_eq f32_005 f32_zero); reflexivity|rewrite T; reflexivity]. }
    rewrite E3. f_equal. destruct (negb (tol' =? 0)); cbn [andb]; [|reflexivity].
    destruct (st =? 0) eqn:T; [|rewrite T; reflexivity]. destruct ((if 0 <? tg' then Z.quot tol' 4 else -1) =? 0); reflexivity.
  - f_equal. destruct (negb (tol =? 0)); cbn [andb]; [|reflexivity].
    destruct (st =? 0) eqn:T; [|rewrite T; reflexivity]. destruct ((if 0 <? tg' then Z.quot tol 4 else -1) =? 0); reflexivity.
Qed.
Print Assumptions C65_defaults_stable.

(* The position is a 32-bit number that wraps, and it is compared as if it did
   not.  At the position 2^32 - 1 no later position exists, and the call never
   returns. *)
Lemma loop_stuck {F} (upd : F -> Z -> F) sint lat fuel : forall spos f, spos < 2 ^ 32 ->
  scale_loop upd fuel (2 ^ 32 - 1) spos sint lat f = None.
Proof.
  induction fuel as [|fuel IH]; intros spos f H; cbn [scale_loop]; (destruct (Z.ltb_spec (2 ^ 32 - 1) spos); [lia|]); [reflexivity|].
  apply IH. unfold Base.u32. apply Z.mod_pos_bound. lia.
Qed.

Lemma loop_below {F} (upd : F -> Z -> F) sint lat fuel pos : forall spos f spos' f', spos < 2 ^ 32 ->
  scale_loop upd fuel pos spos sint lat f = Some (spos', f') -> spos' < 2 ^ 32.
Proof.
  induction fuel as [|fuel IH]; intros spos f spos' f' H; cbn [scale_loop]; destruct (pos <? spos); intros E; try discriminate E.
  - assert (spos' = spos) by congruence. lia.
  - assert (spos' = spos) by congruence. lia.
  - apply IH in E; [exact E|]. unfold Base.u32. apply Z.mod_pos_bound. lia.
Qed.

Lemma advance_pos {F} fuel (t t' : tuner F) d : t_rpos t < 2 ^ 32 -> advance_stream fuel t d = Some t' ->
  t_pos t' = Base.u32 (t_pos t + d) /\ t_rpos t' < 2 ^ 32 /\ t_pos t' <> 2 ^ 32 - 1.
Proof.
  intros HR. unfold advance_stream. set (pos := Base.u32 (t_pos t + d)).
  destruct (pos <? t_rpos t) eqn:E.
  - intros G. assert (EP : t_pos t' = pos /\ t_rpos t' = t_rpos t).
    { split; [assert (Q : Some (t_pos t') = Some pos)|assert (Q : Some (t_rpos t') = Some (t_rpos t))]; try congruence;
      match type of G with Some ?x = _ => assert (x = t') by congruence; subst t' end; reflexivity. }
    destruct EP as (-> & ->). apply Z.ltb_lt in E. repeat split; lia.
  - destruct (scale_loop _ _ _ _ _ _ _) as [[rp u]|] eqn:L; [|intros G; discriminate G]. intros G.
    match type of G with Some ?x = _ => assert (Q : x = t') by congruence; subst t' end. cbn [t_pos t_rpos].
    split; [reflexivity|]. split; [eapply loop_below; [|exact L]; exact HR|].
    intros Q. rewrite Q in L. rewrite loop_stuck in L by exact HR. discriminate L.
Qed.

Theorem C65_endless_refuted :
  ~ (forall F (mkfe : Z -> F) upd coeff c sp t ops, usual sp -> cfg_ok c -> tuner_new mkfe c sp = Ok (Some t) ->
       (forall o, In o ops -> exists d, o = OAdvance d /\ 0 < d <= 1000) ->
       exists fuel outs t', run upd coeff fuel t ops = Ok (Some (outs, t'))).
Proof.
  intros H. destruct (ex_accepted unit (fun _ => tt)) as (t & E).
  assert (E0 : t_pos t = 0 /\ t_rpos t = 0).
  { destruct (new_spec (fun _ => tt) ex_cfg cd (fun _ _ => tt) (fun _ => f32_zero) (proj1 cd_usual) ex_cfg_ok) as (r & E2 & G).
    rewrite E in E2. assert (r = Some t) by congruence. subst r. destruct G as (_ & R & _ & G). split; [|exact G]. apply R. }
  set (n := Z.to_nat 16843009).
  destruct (H unit (fun _ => tt) (fun _ _ => tt) (fun _ => f32_zero) ex_cfg cd t (repeat (OAdvance 255) n) cd_usual ex_cfg_ok E) as (fuel & outs & t' & A).
  { intros o Q. apply repeat_spec in Q. exists 255. split; [exact Q|lia]. }
  assert (G : forall k (t : tuner unit) outs t' base, t_pos t = base -> 0 <= base -> base + 255 * Z.of_nat k < 2 ^ 32 -> t_rpos t < 2 ^ 32 ->
    run (fun _ _ => tt) (fun _ => f32_zero) fuel t (repeat (OAdvance 255) (S k)) = Ok (Some (outs, t')) -> base + 255 * Z.of_nat (S k) <> 2 ^ 32 - 1).
  { clear. induction k as [|k IH]; intros t outs t' base P B0 B R E.
    - cbn [repeat run step] in E. destruct (advance_stream fuel t 255) as [t1|] eqn:A; cbn [bind] in E; [|discriminate E].
      destruct (advance_pos _ _ _ _ R A) as (P1 & _ & P3). intros Q. apply P3. rewrite P1, P. unfold Base.u32.
      replace (base + 255) with (2 ^ 32 - 1) by lia. reflexivity.
    - remember (S k) as k'. cbn [repeat run step] in E. destruct (advance_stream fuel t 255) as [t1|] eqn:A; cbn [bind] in E; [|discriminate E].
      destruct (advance_pos _ _ _ _ R A) as (P1 & P2 & _).
      destruct (run _ _ fuel t1 _) as [[[outs1 t2]|]| |] eqn:RR; cbn [bind] in E; try discriminate E.
      assert (P1' : t_pos t1 = base + 255). { rewrite P1, P. unfold Base.u32. apply Z.mod_small. lia. }
      subst k'. specialize (IH t1 outs1 t2 (base + 255) P1' ltac:(lia) ltac:(lia) P2 RR). lia. }
  destruct n as [|k] eqn:EN; [unfold n in EN; lia|].
  apply (G k t outs t' 0); try lia. exact A.
Qed.
Print Assumptions C65_endless_refuted.

(* And after the position has wrapped, the estimator is not given anything and
   no scaling is offered: here the second fetch comes ten seconds, two thousand
   scaling intervals, after the first one. *)
Lemma expect_two {F} (f0 : F) upd coeff T D : 0 <= T -> 221 <= D ->
  let m := mkMetrics 100000000 0 0 in
  exists p, expect ex_cfg cd f0 upd coeff start [OMetrics m; OAdvance T; OUpdate; OFetch] =
      ([OutNone; OutNone; OutVerdict true; OutScaling (clamp (coeff (fold_left upd (p_fed p) f0)) f32_005)], p) /\
    p_total p = T /\ p_fresh p = false /\ p_hist p = [m] /\ Z.of_nat (length (p_fed p)) = T / 221 + 1 /\
    exists q, expect ex_cfg cd f0 upd coeff p [OAdvance D; OUpdate; OFetch] =
      ([OutNone; OutVerdict true; OutScaling (clamp (coeff (fold_left upd (p_fed q) f0)) f32_005)], q).
Proof.
  intros HT HD m. destruct ex_values as (_ & _ & _ & _ & V & _).
  assert (AC : acceptable ex_cfg cd 100000000 0 = true) by (vm_compute; reflexivity).
  assert (K : known (lc_backend ex_cfg) [m] = Some (100000000, 0)) by reflexivity.
  assert (G0 : 0 <= T / 221) by (apply Z.div_pos; lia).
  assert (G1 : T / 221 + 1 <= (T + D) / 221).
  { replace (T / 221 + 1) with ((T + 1 * 221) / 221) by (rewrite Z.div_add by lia; reflexivity). apply Z.div_le_mono; lia. }
  set (fed := repeat (Z.max 0 (smp cd 100000000)) (Z.to_nat (T / 221 + 1))).
  set (p := mkPast T [m] fed false). exists p.
  assert (FL : length fed = Z.to_nat (T / 221 + 1)) by apply repeat_length.
  split; [|split; [reflexivity|split; [reflexivity|split; [reflexivity|split]]]].
  - unfold expect. cbn [expect1 start p_total p_hist p_fed p_fresh app]. rewrite Z.add_0_l, K, AC, V.
    change (tuned ex_cfg) with true. cbn [negb]. rewrite andb_false_r. cbn [length]. rewrite Nat.sub_0_r. fold fed.
    cbn [p_total p_hist p_fed p_fresh]. assert (LT : (0 <? Z.to_nat (T / 221 + 1))%nat = true) by (apply Nat.ltb_lt; lia).
    rewrite LT. cbn [orb app]. unfold p. cbn [p_fed]. reflexivity.
  - unfold p. cbn [p_fed]. rewrite FL. lia.
  - exists (mkPast (T + D) [m] (fed ++ repeat (Z.max 0 (smp cd 100000000)) (Z.to_nat ((T + D) / 221 + 1) - Z.to_nat (T / 221 + 1))) false).
    unfold expect. unfold p. cbn [expect1 p_total p_hist p_fed p_fresh app]. rewrite K, AC, V.
    change (tuned ex_cfg) with true. cbn [negb]. rewrite andb_false_r. rewrite FL.
    cbn [p_total p_hist p_fed p_fresh].
    assert (LT : (0 <? Z.to_nat ((T + D) / 221 + 1) - Z.to_nat (T / 221 + 1))%nat = true) by (apply Nat.ltb_lt; lia).
    rewrite LT. cbn [orb]. reflexivity.
Qed.

Lemma advance_any {F} (t : tuner F) d fuel pos : Base.u32 (t_pos t + d) = pos -> 0 <= pos -> 0 <= t_rpos t -> 0 < t_rint t -> pos + t_rint t < 2 ^ 32 ->
  (Z.to_nat (2 ^ 32) <= fuel)%nat -> exists rp, advance_stream fuel t d =
    Some (mkTuner pos (t_sint t) (t_spos t) (t_rint t) rp (t_new t) (t_coeff t) (t_delta t)
        (t_backend t) (t_tuning t) (t_bounds t) (t_has_niq t) (t_niq t) (t_stall t) (t_has_e2e t) (t_e2e t)
        (t_target t) (t_minl t) (t_maxl t) (t_maxstall t) (t_spec t) (t_fe t)).
Proof.
  intros EU HP HR HI HW HF. unfold advance_stream. rewrite EU.
  destruct (pos <? t_rpos t) eqn:E; [eexists; reflexivity|]. apply Z.ltb_ge in E.
  set (n := Z.to_nat ((pos - t_rpos t) / t_rint t + 1)).
  assert (D0 : 0 <= (pos - t_rpos t) / t_rint t) by (apply Z.div_pos; lia).
  assert (D1 : (pos - t_rpos t) / t_rint t <= pos - t_rpos t) by (apply Z.div_le_upper_bound; nia).
  destruct (loop_ends (fun (_ : unit) _ => tt) 0 pos (t_rint t) HI HP HW n fuel (t_rpos t) tt HR) as (A & _ & C).
  { unfold n. rewrite Z2Nat.id by lia. destruct (pos <? t_rpos t) eqn:E2; [apply Z.ltb_lt in E2; clear - E E2; lia|reflexivity]. }
  { unfold n. clear - HF HW HP HI D0 D1 HR. lia. }
  rewrite A. eexists. reflexivity.
Qed.

Lemma run_app {F} upd coeff fuel ops1 ops2 (t : tuner F) xs t1 ys t2 :
  run upd coeff fuel t ops1 = Ok (Some (xs, t1)) -> run upd coeff fuel t1 ops2 = Ok (Some (ys, t2)) ->
  run upd coeff fuel t (ops1 ++ ops2) = Ok (Some (xs ++ ys, t2)).
Proof.
  revert t xs. induction ops1 as [|o ops1 IH]; intros t xs A B; cbn [run app] in *.
  - assert (xs = [] /\ t = t1) by (split; congruence). destruct H as (-> & ->). exact B.
  - destruct (step upd coeff fuel t o) as [[[x t']|]| |]; cbn [bind] in *; try discriminate A.
    destruct (run upd coeff fuel t' ops1) as [[[xs' t'']|]| |] eqn:R; cbn [bind] in A; try discriminate A.
    assert (E : xs = x :: xs' /\ t'' = t1) by (split; congruence). destruct E as (-> & ->).
    rewrite (IH t' xs' R B). reflexivity.
Qed.

Theorem C65_wrap_refuted :
  ~ (forall F (mkfe : Z -> F) upd coeff c sp t ops fuel outs t', usual sp -> cfg_ok c -> tuner_new mkfe c sp = Ok (Some t) ->
       Forall op_ok ops -> run upd coeff fuel t ops = Ok (Some (outs, t')) ->
       outs = fst (expect c sp (mkfe (if bounded c then smp sp (lc_target c) else 0)) upd coeff start ops)).
Proof.
  intros H. destruct (ex_accepted unit (fun _ => tt)) as (t & E). set (upd := fun (_ : unit) (_ : Z) => tt). set (coeff := fun _ : unit => f32_one).
  destruct ex_values as (_ & _ & _ & _ & V & VL).
  set (T := 2 ^ 32 - 220502). set (m := mkMetrics 100000000 0 0).
  destruct (expect_two tt upd coeff T 441000 ltac:(unfold T; lia) ltac:(lia)) as (p & X1 & X2 & X3 & X4 & X5 & q & X6). fold m in X1, X4.
  assert (HF : (Z.to_nat (2 ^ 32) <= Z.to_nat (2 ^ 32))%nat) by apply Nat.le_refl. revert HF. generalize (Z.to_nat (2 ^ 32)) at 2. intros fuel HF.
  destruct (new_spec (fun _ => tt) ex_cfg cd upd coeff (proj1 cd_usual) ex_cfg_ok) as (r & E2 & G).
  rewrite E in E2. assert (r = Some t) by congruence. subst r. destruct G as (CV & R & _ & _).
  assert (OK1 : Forall op_ok [OMetrics m; OAdvance T; OUpdate; OFetch]).
  { repeat constructor; unfold m, T; cbn [m_niq m_stall m_e2e]; try lia. }
  destruct (run_spec ex_cfg cd tt upd coeff fuel [OMetrics m; OAdvance T; OUpdate; OFetch] cd_usual ex_cfg_ok CV HF OK1 t start R) as (t1 & A1 & R1).
  { cbn; lia. } { rewrite VL. cbn [played p_total start]. unfold T. lia. } { intros _. rewrite V. cbn [played p_total start]. unfold T. lia. }
  rewrite X1 in A1, R1. cbn [fst snd] in A1, R1.
  pose proof R1 as (Q1 & Q2 & Q3 & Q4 & Q5 & Q6 & Q7 & Q8 & Q9 & Q10 & Q11 & Q12 & Q13 & Q14 & Q15 & Q16 & Q17 & Q18).
  destruct (advance_any t1 441000 fuel 220498) as (rp & A2).
  { rewrite Q1, X2. reflexivity. } { lia. } { exact Q5. } { rewrite Q4, VL. lia. } { rewrite Q4, VL. lia. } { exact HF. }
  match type of A2 with _ = Some ?x => set (t2 := x) in * end.
  assert (NQ : t_has_niq t1 = true) by (rewrite Q12, X4; reflexivity).
  assert (SP : 220498 < t_spos t1).
  { rewrite Q3, Q2, X5. change (tuned ex_cfg) with true. cbn iota. rewrite V.
    assert (T < (T / 221 + 1) * 221) by (pose proof (Z.div_mod T 221); pose proof (Z.mod_pos_bound T 221); lia). unfold T in *. lia. }
  assert (CB : check_bounds t1 (t_niq t1) = true).
  { assert (K : known (lc_backend ex_cfg) (p_hist p) = Some (100000000, 0)) by (rewrite X4; reflexivity).
    pose proof (bounds_spec ex_cfg cd tt upd coeff t1 p _ _ cd_usual ex_cfg_ok CV R1 eq_refl K) as B.
    rewrite Q9 in B. cbn [lc_backend ex_cfg] in B. rewrite B. vm_compute. reflexivity. }
  assert (A3 : update_stream upd coeff fuel t2 = Some (true, t2)).
  { unfold update_stream. cbn [t_backend t_has_niq t_bounds t_tuning t_niq t2]. rewrite Q9. cbn [lc_backend ex_cfg]. rewrite NQ. cbn [negb].
    assert (CB2 : check_bounds t2 (t_niq t1) = true) by exact CB. rewrite CB2. cbn [negb]. rewrite andb_false_r.
    rewrite Q10. change (tuned ex_cfg) with true. cbn iota. unfold compute_scaling. cbn [t_pos t_spos t2].
    destruct (Z.ltb_spec 220498 (t_spos t1)); [reflexivity|lia]. }
  assert (A4 : run upd coeff fuel t1 [OAdvance 441000; OUpdate; OFetch] = Ok (Some ([OutNone; OutVerdict true; OutScaling f32_zero], t2))).
  { cbn [run step]. rewrite A2. cbn [bind]. rewrite A3. cbn [bind]. unfold fetch_scaling. cbn [t_new t2]. rewrite Q6, X3. reflexivity. }
  pose proof (run_app _ _ _ _ _ _ _ _ _ _ A1 A4) as A5.
  assert (OK2 : Forall op_ok ([OMetrics m; OAdvance T; OUpdate; OFetch] ++ [OAdvance 441000; OUpdate; OFetch])).
  { apply Forall_app. split; [exact OK1|]. repeat constructor; lia. }
  specialize (H unit (fun _ => tt) upd coeff ex_cfg cd t _ fuel _ _ cd_usual ex_cfg_ok E OK2 A5). rewrite expect_app, X1, X6 in H. cbn [fst app] in H.
  assert (Z0 : f32_zero = clamp f32_one f32_005).
  { apply (f_equal (fun l => last l OutNone)) in H. cbn [last] in H. unfold coeff in H. congruence. }
  destruct ex_range as (F1 & F2). destruct one_val as (_ & F3).
  destruct (clamp_range f32_one f32_005) as (_ & C1 & _); [destruct f32_one; try discriminate F3; reflexivity|exact F1|exact F2|].
  destruct (limits f32_005 F1 F2) as (_ & _ & _ & _ & _ & L1 & _). rewrite <- Z0 in C1.
  assert (f32_val f32_zero = 0%R) by reflexivity. lra.
Qed.
Print Assumptions C65_wrap_refuted.

(* Which defaults are filled in, for senders and receivers: what was set stays; the
   backend is NIQ; the profile of a receiver with NIQ is responsive for targets below
   30 ms and gradual otherwise, responsive with E2E, and a sender does not tune; with
   tuning the interval is 5 ms, and the tolerance is computed from the target, with 1 ms
   as the smallest; the stale tolerance is a quarter of the tolerance. *)
Theorem C65_filled_in : forall logf def recv c, let d := deduce logf def recv c in
  (lc_backend c <> BDefault -> lc_backend d = lc_backend c) /\ (lc_backend c = BDefault -> lc_backend d = BNiq) /\
  (lc_profile c <> PDefault -> lc_profile d = lc_profile c) /\
  (lc_profile c = PDefault -> recv = false -> lc_profile d = PIntact) /\
  (lc_profile c = PDefault -> recv = true -> lc_backend d = BE2e -> lc_profile d = PResponsive) /\
  (lc_profile c = PDefault -> recv = true -> lc_backend d = BNiq ->
     (0 < lc_target c < 30000000 -> lc_profile d = PResponsive) /\
     (~ 0 < lc_target c < 30000000 -> lc_profile d = PGradual)) /\
  (lc_target c <> 0 -> lc_target d = lc_target c) /\
  (lc_target c = 0 -> recv = true -> lc_profile d <> PIntact -> lc_target d = def) /\
  (lc_tol c <> 0 -> lc_tol d = lc_tol c) /\
  (lc_tol c = 0 -> lc_profile d <> PIntact -> 0 < lc_target d ->
     lc_tol d = logf (if recv then 1 else 4) (if lc_target d <? 1000000 then 1000000 else lc_target d)) /\
  (lc_sint c <> 0 -> lc_sint d = lc_sint c) /\
  (lc_sint c = 0 -> lc_profile d <> PIntact -> lc_sint d = 5000000) /\
  (lc_stale c <> 0 -> lc_stale d = lc_stale c) /\
  (lc_stale c = 0 -> 0 < lc_tol d -> 0 < lc_target d -> lc_stale d = lc_tol d / 4).
Proof.
  intros logf def recv [b p tg tl st si so]. cbv zeta. unfold deduce. cbn [lc_backend lc_profile lc_target lc_tol lc_stale lc_sint lc_stol].
  set (b' := deduced_backend b). set (p' := deduced_profile recv b' p tg). set (tg' := deduced_target def recv p' tg).
  assert (IN : p' <> PIntact -> is_intact p' = false) by (destruct p'; auto; congruence).
  split; [unfold b'; now destruct b|]. split; [intros ->; reflexivity|].
  split; [unfold p'; now destruct p|]. split; [intros -> ->; reflexivity|].
  split; [intros -> -> E; unfold p', deduced_profile; now rewrite E|].
  split.
  { intros -> -> E. unfold p', deduced_profile. rewrite E. unfold millisecond. split; intros H;
    destruct (Z.ltb_spec 0 tg); destruct (Z.ltb_spec tg (30 * 1000000)); try reflexivity; lia. }
  split; [unfold tg', deduced_target; intros H; destruct (Z.eqb_spec tg 0); [contradiction|reflexivity]|].
  split; [unfold tg', deduced_target; intros -> -> H; now rewrite (IN H)|].
  split; [intros H; destruct (Z.eqb_spec tl 0); [contradiction|]; now rewrite andb_false_r|].
  split.
  { intros -> H T. rewrite (IN H). cbn [negb andb Z.eqb]. destruct (Z.ltb_spec 0 tg'); [|lia]. f_equal. unfold millisecond.
    destruct (Z.ltb_spec tg' 1000000); lia. }
  split; [intros H; destruct (Z.eqb_spec si 0); [contradiction|]; now rewrite andb_false_r|].
  split; [intros -> H; rewrite (IN H); reflexivity|].
  split; [intros H; destruct (Z.eqb_spec st 0); [contradiction|]; now rewrite andb_false_r|].
  intros -> H T. set (tol := if negb (is_intact p') && (tl =? 0) then _ else tl) in *.
  destruct (Z.eqb_spec tol 0); [lia|]. destruct (Z.ltb_spec 0 tg'); [|lia]. cbn. apply Z.quot_div_nonneg; lia.
Qed.
Print Assumptions C65_filled_in.
Example ex_filled_in : lc_profile (deduce (fun _ t => t) 200000000 true all_default) = PGradual /\
  lc_profile (deduce (fun _ t => t) 200000000 true (mkCfg BDefault PDefault 29999999 0 0 0 f32_zero)) = PResponsive /\
  lc_profile (deduce (fun _ t => t) 200000000 true (mkCfg BDefault PDefault 30000000 0 0 0 f32_zero)) = PGradual.
Proof. repeat split. Qed.
