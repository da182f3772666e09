(* C57: the resampler *)
From Coq Require Import Reals ZArith List Bool Lia Lra.
From Flocq Require Import Core.Core IEEE754.BinarySingleNaN.
From Verif Require Import Base Float32 TimeConv_model TimeConv_proof Resampler_model Resampler_spec Resampler_proof Resampler_hist Resampler_scale.
Import ListNotations.
Local Open Scope Z_scope.
Local Open Scope res_scope.

(* the scaling asked for is a number *)
Definition number (o : op) : Prop :=
  match o with
  | Scale i o m => f32_nan (f32_mul (f32_div (f32_of_Z i) (f32_of_Z o)) m) = false
  | _ => True
  end.

Lemma number_ok c os : frame_ok c -> Forall number os -> Forall (scale_ok c) os.
Proof.
  intros F N. eapply Forall_impl; [|exact N]. intros [i o m| |n] H; try exact I.
  destruct (scaling_ok c i o m F H) as (r & E & P). exists r. split; [exact E|]. intros p Ep. apply (P p Ep).
Qed.
Lemma frame_cfg c : frame_ok c -> cfg_ok c.
Proof. intros [A B]. unfold cfg_ok. pose proof (window_cases c). lia. Qed.

(* For every history of frames pushed, samples popped in portions of any size and
   scalings set, each sample that comes out is the windowed sum around its own
   time on the input stream, and the times are those the scalings ask for. *)
Theorem C57_outputs : forall (c : cfg) (in_rate out_rate : Z) (mult : f32) (p : params) (os : list op) (outs : list (list term)) (st : rs),
  frame_ok c -> set_scaling c in_rate out_rate mult = Ok (Some p) -> number (Scale in_rate out_rate mult) -> Forall number os ->
  run c rs_new (Scale in_rate out_rate mult :: os) = Ok (outs, st) ->
  outs = outputs c (times c (c_frame c * unit) 0 p os).
Proof.
  intros c i o m p os outs st F S N NS R.
  assert (P : par_ok c p).
  { destruct (scaling_ok c i o m F N) as (r & E & Q). rewrite S in E. apply (Q p). congruence. }
  cbn [run step] in R. rewrite S in R. cbn [bind fst snd app] in R.
  destruct (history c os (with_par rs_new p) (c_frame c * unit) 0 (frame_cfg c F) P (inv_par _ _ _ _ _ (inv_new c)) (number_ok c os F NS)) as [_ H].
  destruct (run c (with_par rs_new p) os) as [y| |]; cbn [bind] in R; try discriminate R.
  destruct (H y eq_refl) as [H1 _]. assert (E : outs = fst y) by congruence. rewrite E. exact H1.
Qed.

(* No history accesses memory outside the frames or the table or stops the
   program, unless the window of an output sample ends exactly where a frame ends;
   and then it does. *)
Theorem C57_safe : forall (c : cfg) (in_rate out_rate : Z) (mult : f32) (p : params) (os : list op),
  frame_ok c -> set_scaling c in_rate out_rate mult = Ok (Some p) -> number (Scale in_rate out_rate mult) -> Forall number os ->
  (exists r, run c rs_new (Scale in_rate out_rate mult :: os) = Ok r) <->
  Forall (fun x => ~ at_edge c x) (times c (c_frame c * unit) 0 p os).
Proof.
  intros c i o m p os F S N NS.
  assert (P : par_ok c p).
  { destruct (scaling_ok c i o m F N) as (r & E & Q). rewrite S in E. apply (Q p). congruence. }
  destruct (history c os (with_par rs_new p) (c_frame c * unit) 0 (frame_cfg c F) P (inv_par _ _ _ _ _ (inv_new c)) (number_ok c os F NS)) as [H1 H2].
  cbv zeta in H1, H2. change (r_par (with_par rs_new p)) with p in *.
  cbn [run step]. rewrite S. cbn [bind fst snd app]. split.
  - intros [r R]. destruct (run c (with_par rs_new p) os) as [y| |]; cbn [bind] in R; try discriminate R. apply (H2 y eq_refl).
  - intros FA. destruct (H1 FA) as [st' E]. rewrite E. cbn [bind]. eauto.
Qed.

(* The samples come out one after another at the rate asked for: the step is the
   scaling rounded down to the unit of time. *)
Theorem C57_rate : forall (c : cfg) (in_rate out_rate : Z) (mult : f32) (p : params),
  frame_ok c -> number (Scale in_rate out_rate mult) -> 1 <= in_rate <= 2 ^ 24 -> 1 <= out_rate <= 2 ^ 24 ->
  set_scaling c in_rate out_rate mult = Ok (Some p) ->
  let exact := (IZR in_rate / IZR out_rate * f32_val mult)%R in
  f32_fin mult = true /\ (Rabs (IZR (p_dt p) - exact * 1048576) <= 1 + exact / 4)%R.
Proof.
  intros c i o m p F N Hi Ho S. cbv zeta. destruct (scaling_ok c i o m F N) as (r & E & Q). rewrite S in E.
  destruct (Q p ltac:(congruence)) as (_ & NF & NB & DT). clear Q E S N.
  destruct (f32_of_Z_exact i ltac:(lia)) as [IV IF]. destruct (f32_of_Z_exact o ltac:(lia)) as [OV OF].
  assert (IR : (1 <= IZR i <= 16777216)%R) by (split; apply IZR_le; lia).
  assert (OR : (1 <= IZR o <= 16777216)%R) by (split; apply IZR_le; lia).
  assert (QR : (/ 16777216 <= IZR i / IZR o <= 16777216)%R).
  { split.
    - apply Rmult_le_reg_r with (IZR o); [lra|]. unfold Rdiv. rewrite Rmult_assoc, Rinv_l by lra. lra.
    - apply Rmult_le_reg_r with (IZR o); [lra|]. unfold Rdiv. rewrite Rmult_assoc, Rinv_l by lra. nra. }
  destruct (div_val (f32_of_Z i) (f32_of_Z o) 30 ltac:(lia) ltac:(rewrite OV; lra) IF) as [D1 D2].
  { rewrite IV, OV. rewrite pow_IZR by lia. change (2 ^ 30) with 1073741824. rewrite Rabs_right; lra. }
  rewrite IV, OV in D1.
  assert (P100 : (0 < bpow radix2 (-100) <= / 10000000000000000)%R) by (rewrite pow100; lra).
  destruct (rnd32_rel (IZR i / IZR o)) as (e1 & E1 & R1). { right. rewrite Rabs_right by lra. lra. }
  apply Rabs_le_inv in E1. rewrite u32_val in E1.
  set (q := f32_div (f32_of_Z i) (f32_of_Z o)) in *.
  assert (QP : (0 < f32_val q)%R) by (rewrite D1, R1; nra).
  assert (MF : f32_fin m = true).
  { destruct m as [s|s| |s mm e pf]; try reflexivity.
    - exfalso. clear - NF QP D2. clearbody q. destruct q as [b|b| |b mm e pf]; cbn in *; try discriminate; try lra.
    - exfalso. clear - NF. clearbody q. destruct q; discriminate NF. }
  split; [exact MF|].
  destruct (mul_fin q m D2 MF) as [[_ MV]|MI]; [|exfalso; rewrite MI in NF; discriminate NF].
  set (ns := f32_mul q m) in *. clearbody ns.
  assert (MP : (0 < f32_val m)%R).
  { destruct (Rle_lt_dec (f32_val m) 0) as [L|L]; [|exact L]. exfalso.
    assert (rnd32 (f32_val q * f32_val m) <= 0)%R by (rewrite <- rnd32_0; apply rnd32_mono; nra). lra. }
  set (x := (IZR i / IZR o)%R) in *. set (y := f32_val m) in *.
  pose proof (Zfloor_lb (f32_val ns * 1048576)) as F1. pose proof (Zfloor_ub (f32_val ns * 1048576)) as F2. rewrite <- DT in F1, F2.
  assert (QX : (f32_val q = x * (1 + e1))%R) by (rewrite D1, R1; reflexivity).
  assert (XY : (0 < x * y)%R) by (apply Rmult_lt_0_compat; lra).
  assert (QY : (f32_val q * y = x * y * (1 + e1))%R) by (rewrite QX; ring).
  set (w := (x * y)%R) in *.
  destruct (Rle_lt_dec (bpow radix2 (-100)) (f32_val q * y)) as [L|L].
  - destruct (rnd32_rel (f32_val q * y)) as (e2 & E2 & R2). { right. rewrite Rabs_right; [exact L|]. apply Rle_ge. rewrite QY. apply Rmult_le_pos; lra. }
    apply Rabs_le_inv in E2. rewrite u32_val in E2.
    assert (NV : (f32_val ns = w * ((1 + e1) * (1 + e2)))%R) by (rewrite MV, R2, QY; ring).
    assert (B1 : ((1 + e1) * (1 + e2) <= (1 + / 16777216) * (1 + / 16777216))%R) by (apply Rmult_le_compat; lra).
    assert (B2 : ((1 - / 16777216) * (1 - / 16777216) <= (1 + e1) * (1 + e2))%R) by (apply Rmult_le_compat; lra).
    set (g := ((1 + e1) * (1 + e2))%R) in *. apply Rabs_le. split; nra.
  - assert (NS : (f32_val ns <= bpow radix2 (-100))%R) by (rewrite MV, <- (rnd32_pow (-100)) by lia; apply rnd32_mono; lra).
    assert (WB : (w <= 2 * bpow radix2 (-100))%R) by (rewrite QY in L; nra).
    assert (D0 : (0 <= IZR (p_dt p))%R) by (apply IZR_le; rewrite DT; apply Zfloor_lub; lra).
    apply Rabs_le. split; lra.
Qed.

(* The terms of an output sample are exactly the input samples within half a window. *)
Theorem C57_window : forall (c : cfg) (t : Z) (p : params) (pos : Z),
  In pos (map t_pos (output_at c t p)) <-> Z.abs (t - pos * unit) <= p_half p.
Proof.
  intros c t p pos. unfold output_at. rewrite map_map. cbn [term_of t_pos].
  assert (E : forall l, map (fun x : Z => x) l = l) by (intros l; apply map_id).
  rewrite E. unfold range. rewrite in_map_iff.
  unfold first_in, last_in, unit. split.
  - intros (k & <- & K). apply in_seq in K. lia.
  - intros H. exists (Z.to_nat (pos + (p_half p - t) / 1048576)). split; [lia|]. apply in_seq. lia.
Qed.

(* How many samples are taken at once makes no difference. *)
Lemma pop_loop_app c n m : forall st, pop_loop c (n + m) st =
  (r <- pop_loop c n st ;; q <- pop_loop c m (snd r) ;; Ok (fst r ++ fst q, snd q)).
Proof.
  assert (U : forall st k, qt_frame c <=? r_sample st = true -> pop_loop c k st = Ok ([], st)).
  { intros st [|k] H; cbn [pop_loop]; [reflexivity|rewrite H; reflexivity]. }
  induction n as [|n IH]; intros st.
  - cbn [Nat.add pop_loop bind fst snd app]. destruct (pop_loop c m st) as [[a b]| |]; reflexivity.
  - cbn [Nat.add pop_loop]. destruct (qt_frame c <=? r_sample st) eqn:L.
    + cbn [bind fst snd]. rewrite U by exact L. reflexivity.
    + destruct (resample c _) as [x| |]; cbn [bind]; try reflexivity. rewrite IH.
      destruct (pop_loop c n _) as [y| |]; cbn [bind]; try reflexivity. cbn [fst snd].
      destruct (pop_loop c m (snd y)) as [z| |]; cbn [bind]; reflexivity.
Qed.
Theorem C57_portions : forall (c : cfg) (st : rs) (n m : nat), run c st [Pop (n + m)] = run c st [Pop n; Pop m].
Proof.
  intros c st n m. cbn [run step]. unfold pop. destruct (r_ready st <? 3) eqn:R.
  - cbn [bind fst snd]. rewrite R. reflexivity.
  - rewrite pop_loop_app. destruct (pop_loop c n st) as [y| |] eqn:Y; cbn [bind fst snd]; try reflexivity.
    assert (RR : r_ready (snd y) = r_ready st).
    { clear R. revert st y Y. induction n as [|n IH]; intros st y Y; cbn [pop_loop] in Y.
      - assert (y = ([], st)) as -> by congruence. reflexivity.
      - destruct (qt_frame c <=? r_sample st); [assert (y = ([], st)) as -> by congruence; reflexivity|].
        destruct (resample c _) as [x| |]; cbn [bind] in Y; try discriminate Y.
        destruct (pop_loop c n _) as [z| |] eqn:Z1; cbn [bind] in Y; try discriminate Y.
        apply IH in Z1. assert (y = (x :: fst z, snd z)) as -> by congruence. cbn [snd]. rewrite Z1. reflexivity. }
    rewrite RR, R. destruct (pop_loop c m (snd y)) as [z| |]; cbn [bind fst snd]; try reflexivity.
    rewrite !app_nil_r. reflexivity.
Qed.

(* Outputs are made of input pushed before, only. *)
Fixpoint pushes (os : list op) : Z := match os with [] => 0 | Push :: os => 1 + pushes os | _ :: os => pushes os end.
Lemma pushes_nn os : 0 <= pushes os. Proof. induction os as [|[i o m| |n] os IH]; cbn [pushes]; lia. Qed.
Lemma due_bound n limit dt : 0 <= dt -> forall t x, In x (fst (due n limit t dt)) -> t <= x < limit.
Proof.
  intros D. induction n as [|n IH]; intros t x H; cbn [due] in H; [contradiction|].
  destruct (Z.leb_spec limit t); [contradiction|]. cbn [fst] in H. destruct H as [<-|H]; [lia|]. apply IH in H. lia.
Qed.
Lemma due_next n limit dt : 0 <= dt -> forall t, t <= snd (due n limit t dt).
Proof.
  intros D. induction n as [|n IH]; intros t; cbn [due]; [cbn; lia|]. destruct (Z.leb_spec limit t); cbn [snd]; [lia|]. specialize (IH (t + dt)). lia.
Qed.
Lemma times_bound c os : frame_ok c -> Forall number os -> forall t k p, par_ok c p -> c_frame c * unit <= t -> 0 <= k ->
  forall x, In x (times c t k p os) -> par_ok c (snd x) /\ c_frame c * unit <= fst x < (k + pushes os - 1) * c_frame c * unit.
Proof.
  intros F. pose proof (frame_cfg c F) as C. unfold cfg_ok in C. induction os as [|o os IH]; intros N t k p P T K x H; [contradiction|].
  pose proof (Forall_inv N) as N1. pose proof (Forall_inv_tail N) as N2. destruct o as [i o m| |n]; cbn [times pushes] in *.
  - apply IH in H; auto. destruct (scaling_ok c i o m F N1) as (r & E & Q). rewrite E. destruct r as [q|]; [apply (Q q eq_refl)|exact P].
  - apply IH in H; auto; try lia.
    + replace (k + (1 + pushes os) - 1) with (k + 1 + pushes os - 1) by ring. exact H.
    + destruct ((3 <=? k) && (t <? (k - 1) * c_frame c * unit)); unfold unit in *; lia.
  - apply in_app_iff in H. pose proof (pushes_nn os). destruct H as [H|H].
    + apply in_map_iff in H. destruct H as (y & <- & H). cbn [fst snd]. split; [exact P|].
      destruct (k <? 3); [contradiction|]. apply due_bound in H; [|apply P]. unfold unit in *. nia.
    + apply IH in H; auto. destruct (k <? 3); cbn [snd]; [exact T|]. pose proof (due_next n ((k - 1) * c_frame c * unit) (p_dt p) ltac:(apply P) t). lia.
Qed.
Theorem C57_input_used : forall (c : cfg) (in_rate out_rate : Z) (mult : f32) (p : params) (os : list op) (outs : list (list term)) (st : rs) (o : list term) (t : term),
  frame_ok c -> set_scaling c in_rate out_rate mult = Ok (Some p) -> number (Scale in_rate out_rate mult) -> Forall number os ->
  run c rs_new (Scale in_rate out_rate mult :: os) = Ok (outs, st) ->
  In o outs -> In t o -> 0 <= t_pos t < c_frame c * pushes os.
Proof.
  intros c i o m p os outs st l t F S N NS R L T.
  assert (P : par_ok c p).
  { destruct (scaling_ok c i o m F N) as (r & E & Q). rewrite S in E. apply (Q p). congruence. }
  rewrite (C57_outputs c i o m p os outs st F S N NS R) in L. unfold outputs in L. apply in_map_iff in L. destruct L as (x & <- & X).
  apply (times_bound c os F NS _ _ _ P) in X; [|lia|lia]. destruct X as (PX & XB).
  apply (in_map t_pos) in T. apply C57_window in T. destruct PX as (_ & H2 & _). unfold unit in *. nia.
Qed.

(* a case: 44100 to 44100, low profile *)
Definition cfg0 : cfg := mkCfg Low 24.
Definition ops0 : list op := [Push; Push; Push; Pop 2; Push; Pop 100].
Definition par0 : params := mkPar 18641352 943718 1048576.
Example cfg0_real : frame_size Low 44100 44100 = Ok (c_frame cfg0). Proof. vm_compute. reflexivity. Qed.
Example C57_case : frame_ok cfg0 /\ set_scaling cfg0 44100 44100 (f32_of_Z 1) = Ok (Some par0) /\ number (Scale 44100 44100 (f32_of_Z 1)) /\ Forall number ops0 /\
  exists outs st, run cfg0 rs_new (Scale 44100 44100 (f32_of_Z 1) :: ops0) = Ok (outs, st) /\ length outs = 24%nat /\ map (@length term) (firstn 3 outs) = [35; 35; 35]%nat.
Proof.
  split; [unfold frame_ok; cbn; lia|]. split; [vm_compute; reflexivity|]. split; [vm_compute; reflexivity|].
  split; [repeat constructor|]. eexists. eexists. split; [vm_compute; reflexivity|]. split; vm_compute; reflexivity.
Qed.

(* A history with rates and a scaling as in use, on which the resampler reads past
   the end of a frame: 44100 to 44100 with the scaling 0.99505, within the default
   limit 0.005 of the deviation from 1. The frame is the one the resampler makes for
   these rates. *)
Definition mult1 : f32 := f32_make 1043384 (-20).
Definition ops1 : list op := [Push; Push] ++ concat (repeat [Push; Pop 30] 25).
Theorem C57_safe_refuted :
  frame_size Low 44100 44100 = Ok 24 /\ frame_ok (mkCfg Low 24) /\ (0.995 <= f32_val mult1 <= 1)%R /\
  (exists p, set_scaling (mkCfg Low 24) 44100 44100 mult1 = Ok (Some p)) /\
  run (mkCfg Low 24) rs_new (Scale 44100 44100 mult1 :: ops1) = UB.
Proof.
  split; [vm_compute; reflexivity|]. split; [unfold frame_ok; cbn; lia|]. split.
  { destruct (f32_make_exact 1043384 (-20) ltac:(lia) ltac:(lia)) as [A _]. unfold mult1. rewrite A. unfold F2R. cbn [Fnum Fexp].
    rewrite (bpow_opp radix2 20 : bpow radix2 (-20) = _), bpow20. lra. }
  split; [eexists; vm_compute; reflexivity|]. vm_compute. reflexivity.
Qed.

(* The frame the resampler makes is too short for the window if the output rate is
   much higher than the input rate: the scaling is accepted, and the first output
   sample stops the program. *)
Theorem C57_frame_refuted :
  frame_size Low 16000 48000 = Ok 8 /\ (exists p, set_scaling (mkCfg Low 8) 16000 48000 (f32_of_Z 1) = Ok (Some p)) /\
  run (mkCfg Low 8) rs_new [Scale 16000 48000 (f32_of_Z 1); Push; Push; Push; Pop 1] = Panic.
Proof. split; [vm_compute; reflexivity|]. split; [eexists; vm_compute; reflexivity|]. vm_compute. reflexivity. Qed.

(* The fraction for the interpolation in the table is not that of the argument. *)
Theorem C57_fraction_refuted :
  exists st o outs t, run cfg0 rs_new [Scale 44100 44100 (f32_of_Z 1); Push; Push; Push; Pop 1] = Ok (o :: outs, st) /\ In t o /\
    t_arg t = 0 /\ t_fract t <> fractional cfg0 (t_arg t).
Proof.
  eexists. eexists. eexists. exists (mkTerm 24 0 209280). split; [vm_compute; reflexivity|]. split; [do 17 right; left; reflexivity|].
  split; [reflexivity|]. vm_compute. discriminate.
Qed.

(* A scaling that is not a number is not rejected. *)
Theorem C57_nan_refuted : set_scaling cfg0 44100 44100 B754_nan = UB.
Proof. vm_compute. reflexivity. Qed.

Print Assumptions C57_outputs.
Print Assumptions C57_safe.
Print Assumptions C57_rate.
Print Assumptions C57_window.
Print Assumptions C57_portions.
Print Assumptions C57_input_used.
Print Assumptions C57_safe_refuted.
Print Assumptions C57_frame_refuted.
Print Assumptions C57_fraction_refuted.
Print Assumptions C57_nan_refuted.
