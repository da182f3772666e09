(* C66: the frequency estimator. *)
From Coq Require Import Reals ZArith List Bool Arith Lia Lra.
From Verif Require Import Base FreqEst_model FreqEst_spec FreqEst_proof.
Import ListNotations.
Local Open Scope Z_scope.
Local Open Scope res_scope.

(* For every arithmetic, so also for IEEE doubles, and every sequence of
   latencies: no update reads or writes outside of the buffers, and the
   coefficient is that of the controller for the filtered latencies. *)
Theorem C66_exact : forall A p target xs, Z.of_nat (length xs) < 2 ^ 64 ->
  exists e0 e, fe_new A p target = Ok e0 /\ fe_run A e0 xs = Ok e /\
    e_coeff e = control A (c_P (make_config A p)) (c_I (make_config A p)) (dZ A target) (filtered A p target (rev xs)).
Proof.
  intros A p target xs H. destruct (run_state A p target (rev xs)) as (e0 & e & N & R & S); [rewrite rev_length; exact H|].
  exists e0, e. rewrite rev_involutive in R. split; [exact N|]. split; [exact R|]. apply S.
Qed.
Print Assumptions C66_exact.

(* The coefficient is computed once in ten (responsive) or hundred (gradual)
   updates and stays the same in between. *)
Definition period (p : fe_profile) : nat := match p with FeResponsive => 10 | FeGradual => 100 end.

Lemma filtered_len A p target xs : length (filtered A p target xs) = (length xs / period p)%nat.
Proof.
  destruct p; cbn [filtered period]; rewrite !decimate_len, map_length; [reflexivity|].
  rewrite Nat.div_div by lia. reflexivity.
Qed.

Lemma filtered_same A p target x xs : (S (length xs) mod period p <> 0)%nat -> filtered A p target (x :: xs) = filtered A p target xs.
Proof.
  intros H. destruct p; cbn [filtered period map] in *.
  - cbn [decimate length]. rewrite map_length. destruct (Nat.eqb_spec (S (length xs) mod 10) 0); [lia|reflexivity].
  - cbn [decimate length]. rewrite map_length. destruct (Nat.eqb_spec (S (length xs) mod 10) 0) as [E|E]; [|reflexivity].
    cbn [decimate length]. rewrite decimate_len, map_length.
    destruct (Nat.eqb_spec (S (length xs / 10) mod 10) 0) as [E2|E2]; [|reflexivity]. exfalso. clear - H E E2. lia.
Qed.

Theorem C66_cadence : forall A p target xs x, Z.of_nat (length xs) + 1 < 2 ^ 64 ->
  (S (length xs) mod period p <> 0)%nat ->
  exists e0 e e', fe_new A p target = Ok e0 /\ fe_run A e0 xs = Ok e /\ fe_run A e0 (xs ++ [x]) = Ok e' /\ e_coeff e' = e_coeff e.
Proof.
  intros A p target xs x H N. destruct (C66_exact A p target xs) as (e0 & e & N1 & R1 & C1); [lia|].
  destruct (C66_exact A p target (xs ++ [x])) as (e0' & e' & N2 & R2 & C2); [rewrite app_length; cbn; lia|].
  assert (e0' = e0) by congruence. subst e0'. exists e0, e, e'. repeat (split; [assumption|]).
  rewrite C1, C2. f_equal. rewrite rev_unit. apply filtered_same. rewrite rev_length. exact N.
Qed.
Print Assumptions C66_cadence.

(* Latencies whose number is a multiple of the period are looked at once, with
   the weight of the newest, and then forgotten: two histories that differ only in
   such latencies have the same filtered value afterwards. *)
Fixpoint same_but (k : nat) (xs ys : list Z) : Prop :=
  match xs, ys with
  | [], [] => True
  | x :: xs', y :: ys' => ((length xs mod k <> 0)%nat -> x = y) /\ same_but k xs' ys'
  | _, _ => False
  end.

Lemma same_len k xs : forall ys, same_but k xs ys -> length xs = length ys.
Proof. induction xs as [|x xs IH]; intros [|y ys] H; try elim H; [reflexivity|]. intros _ S. cbn. f_equal. apply IH. exact S. Qed.

Lemma same_kept A k xs : forall ys, same_but k xs ys -> kept k (map (dZ A) xs) = kept k (map (dZ A) ys).
Proof.
  induction xs as [|x xs IH]; intros [|y ys] H; try elim H; [reflexivity|]. intros E SB. cbn [map]. rewrite !kept_cons, !map_length.
  pose proof (same_len _ _ _ SB) as L. cbn [length] in E. rewrite <- L. destruct (Nat.eqb_spec (S (length xs) mod k) 0) as [Q|Q].
  - apply IH. exact SB.
  - rewrite (E Q). f_equal. apply IH. exact SB.
Qed.

Theorem C66_forgotten : forall A target xs ys x, same_but 10 xs ys -> (S (length xs) mod 10 = 0)%nat ->
  exists v rest rest', filtered A FeResponsive target (x :: xs) = v :: rest /\ filtered A FeResponsive target (x :: ys) = v :: rest'.
Proof.
  intros A target xs ys x SB E. pose proof (same_len _ _ _ SB) as L. cbn [filtered map decimate length]. rewrite !map_length, <- L.
  rewrite E. cbn [Nat.eqb line]. rewrite (same_kept A 10 xs ys SB). eauto.
Qed.
Print Assumptions C66_forgotten.

(* Real arithmetic *)
Definition RA : arith := mkArith R IZR Rplus Rminus Rmult Rdiv.

(* The value computed from integers *)
Definition dotZj (t : Z) (l : list Z) (js : list nat) (acc : Z) : Z :=
  fold_left (fun acc j => acc + nth j decim_h 0 * nth j l t) js acc.
Definition dotZ (t : Z) (l : list Z) : Z := dotZj t l (seq 0 256) 0.


Lemma nth_table j : nth j (table RA) 0%R = (IZR (nth j decim_h 0%Z) / IZR decim_unit)%R.
Proof.
  unfold table. cbn [dZ ddiv RA D]. assert (E : (0 = IZR 0 / IZR decim_unit)%R) by (unfold Rdiv; rewrite Rmult_0_l; reflexivity).
  rewrite E at 1. exact (map_nth (fun z => (IZR z / IZR decim_unit)%R) decim_h 0 j).
Qed.

Definition dotR (h : nat -> R) (l : list R) (t : R) (js : list nat) (acc : R) : R :=
  fold_left (fun acc j => (acc + h j * nth j l t)%R) js acc.

Lemma mean_unfold (t : R) (l : list R) : mean RA t l = (dotR (fun j => nth j (table RA) 0%R) l t (seq 0 256) 0 / gain RA)%R.
Proof. reflexivity. Qed.

Lemma dotR_Z t l js : forall acc, dotR (fun j => nth j (table RA) 0%R) (map IZR l) (IZR t) js (IZR acc / IZR decim_unit)%R =
     (IZR (dotZj t l js acc) / IZR decim_unit)%R.
Proof.
  unfold dotR, dotZj. induction js as [|j js IH]; intros acc; [reflexivity|]. cbn [fold_left]. rewrite <- IH. f_equal.
  rewrite nth_table, map_nth, plus_IZR, mult_IZR. unfold Rdiv. ring.
Qed.

Lemma quot_unit x u g : u <> 0%R -> g <> 0%R -> (x / u / (g / u) = x / g)%R.
Proof. intros H1 H2. field. auto. Qed.

Lemma mean_Z t l : mean RA (IZR t) (map IZR l) = (IZR (dotZ t l) / IZR decim_gain)%R.
Proof.
  rewrite mean_unfold. pose proof (dotR_Z t l (seq 0 256) 0) as G.
  assert (E : (IZR 0 / IZR decim_unit = 0)%R) by (unfold Rdiv; rewrite Rmult_0_l; reflexivity).
  rewrite E in G. rewrite G. change (gain RA) with (IZR decim_gain / IZR decim_unit)%R.
  unfold dotZ. rewrite quot_unit; [reflexivity| |]; apply IZR_neq; unfold decim_gain, decim_unit; lia.
Qed.

(* So what is computed is not the weighted mean of the last 256 latencies: the
   tenth one is missing in the second value. *)
Definition one_high : list Z := repeat 0 10 ++ [1] ++ repeat 0 9.   (* newest first *)
Theorem C66_all_count_refuted :
  ~ (forall target xs, (length xs mod 10 = 0)%nat -> xs <> [] ->
       exists rest, filtered RA FeResponsive target xs = mean RA (IZR target) (map IZR xs) :: rest).
Proof.
  intros H. destruct (H 0 one_high eq_refl ltac:(discriminate)) as (rest & E).
  assert (F : filtered RA FeResponsive 0 one_high = mean RA (IZR 0) (map IZR (0 :: repeat 0 9 ++ repeat 0 9)) ::
              [mean RA (IZR 0) (map IZR (1 :: repeat 0 9))]) by reflexivity.
  rewrite F in E. rewrite !mean_Z in E.
  assert (Q : (IZR (dotZ 0 (0 :: repeat 0 9 ++ repeat 0 9)%Z) / IZR decim_gain = IZR (dotZ 0 one_high) / IZR decim_gain)%R) by congruence.
  assert (G : IZR decim_gain <> 0%R) by (apply IZR_neq; unfold decim_gain; lia).
  assert (Q2 : IZR (dotZ 0 (0 :: repeat 0 9 ++ repeat 0 9)) = IZR (dotZ 0 one_high)).
  { apply (f_equal (fun r => (r * IZR decim_gain)%R)) in Q. unfold Rdiv in Q. rewrite !Rmult_assoc, Rinv_l, !Rmult_1_r in Q by exact G. exact Q. }
  apply eq_IZR in Q2. vm_compute in Q2. discriminate Q2.
Qed.
Print Assumptions C66_all_count_refuted.

(* Sums over the table *)
Definition sumR (f : nat -> R) (js : list nat) : R := fold_left (fun acc j => (acc + f j)%R) js 0%R.

Lemma fold_shift (f : nat -> R) js acc : fold_left (fun acc j => (acc + f j)%R) js acc = (acc + sumR f js)%R.
Proof.
  unfold sumR. revert acc. induction js as [|j js IH]; intros acc; cbn [fold_left]; [ring|]. rewrite IH, (IH (0 + f j)%R). ring.
Qed.
Lemma sum_cons f j js : sumR f (j :: js) = (f j + sumR f js)%R.
Proof. unfold sumR at 1. cbn [fold_left]. rewrite fold_shift. ring. Qed.

Definition hR (j : nat) : R := (IZR (nth j decim_h 0%Z) / IZR decim_unit)%R.
Lemma mean_sum (t : R) (l : list R) : mean RA t l = (sumR (fun j => hR j * nth j l t)%R (seq 0 256) / gain RA)%R.
Proof.
  rewrite mean_unfold. unfold dotR. rewrite (fold_shift (fun j => (nth j (table RA) 0 * nth j l t)%R)). rewrite Rplus_0_l. f_equal.
Qed.

Lemma sum_Z (f : nat -> Z) js : sumR (fun j => (IZR (f j) / IZR decim_unit)%R) js = (IZR (fold_left (fun a j => (a + f j)%Z) js 0%Z) / IZR decim_unit)%R.
Proof.
  assert (G : forall js' a, (IZR a / IZR decim_unit + sumR (fun j => (IZR (f j) / IZR decim_unit)%R) js')%R = (IZR (fold_left (fun a j => (a + f j)%Z) js' a) / IZR decim_unit)%R).
  { induction js' as [|j js' IH]; intros a; [unfold sumR; cbn [fold_left]; ring|]. rewrite sum_cons. cbn [fold_left]. rewrite <- IH, plus_IZR. unfold Rdiv. ring. }
  rewrite <- G. unfold Rdiv at 2. rewrite Rmult_0_l. ring.
Qed.

Lemma sum_h : sumR hR (seq 0 256) = (IZR 104110636377036000 / IZR decim_unit)%R.
Proof. unfold hR. rewrite (sum_Z (fun j => nth j decim_h 0%Z)). f_equal. Qed.

Lemma sum_abs : sumR (fun j => Rabs (hR j)) (seq 0 256) = (IZR 169396578629128000 / IZR decim_unit)%R.
Proof.
  assert (E : forall js, sumR (fun j => Rabs (hR j)) js = sumR (fun j => (IZR (Z.abs (nth j decim_h 0%Z)) / IZR decim_unit)%R) js).
  { induction js as [|j js IH]; [reflexivity|]. rewrite !sum_cons, IH. f_equal. unfold hR, Rdiv. rewrite Rabs_mult, abs_IZR. f_equal.
    apply Rabs_pos_eq. left. apply Rinv_0_lt_compat. apply IZR_lt. unfold decim_unit. lia. }
  rewrite E, (sum_Z (fun j => Z.abs (nth j decim_h 0%Z))). f_equal.
Qed.

(* the filter's gain for constant latencies is one, less 10^-15 *)
Definition unity : R := (104110636377036000 / 104110636377036100)%R.

Lemma gain_val : gain RA = (104110636377036100 / IZR decim_unit)%R.
Proof. reflexivity. Qed.
Lemma unit_pos : (0 < IZR decim_unit)%R.
Proof. apply IZR_lt. unfold decim_unit. lia. Qed.

Lemma mean_const (v t : R) (l : list R) : (256 <= length l)%nat -> Forall (fun x => x = v) (firstn 256 l) -> mean RA t l = (v * unity)%R.
Proof.
  intros L H. rewrite mean_sum.
  assert (E : forall js, (forall j, In j js -> (j < 256)%nat) -> sumR (fun j => (hR j * nth j l t)%R) js = (sumR hR js * v)%R).
  { induction js as [|j js IH]; intros B; [unfold sumR; cbn [fold_left]; ring|]. rewrite !sum_cons, IH by (intros k K; apply B; right; exact K).
    assert (N : nth j l t = v).
    { assert (J : (j < 256)%nat) by (apply B; left; reflexivity). rewrite <- (firstn_skipn 256 l). rewrite app_nth1 by (rewrite firstn_length; lia).
      rewrite Forall_forall in H. apply H. apply nth_In. rewrite firstn_length. lia. }
    rewrite N. ring. }
  rewrite E by (intros j J; apply in_seq in J; lia). rewrite sum_h, gain_val. unfold unity. pose proof unit_pos as U. apply Rgt_not_eq in U. set (u := IZR decim_unit) in *. clearbody u.
  match goal with |- ?a = ?b => change (@eq R a b) end. field. exact U.
Qed.

Lemma mean_bound (t : R) (l : list R) (d : R) : (0 <= d)%R -> Forall (fun x => (Rabs (x - t) <= d)%R) l -> (Rabs (mean RA t l - t * unity) <= d * 1628 / 1000)%R.
Proof.
  intros D0 H. rewrite mean_sum.
  assert (E : forall js, (Rabs (sumR (fun j => (hR j * nth j l t)%R) js - sumR hR js * t) <= sumR (fun j => Rabs (hR j)) js * d)%R).
  { induction js as [|j js IH]; [unfold sumR; cbn [fold_left]; rewrite Rmult_0_l, Rminus_0_r, Rabs_R0; lra|].
    rewrite !sum_cons. replace (hR j * nth j l t + sumR (fun j0 => (hR j0 * nth j0 l t)%R) js - (hR j + sumR hR js) * t)%R
      with (hR j * (nth j l t - t) + (sumR (fun j0 => (hR j0 * nth j0 l t)%R) js - sumR hR js * t))%R by ring.
    eapply Rle_trans; [apply Rabs_triang|]. rewrite Rmult_plus_distr_r. apply Rplus_le_compat; [|exact IH].
    rewrite Rabs_mult. apply Rmult_le_compat_l; [apply Rabs_pos|].
    destruct (Nat.lt_ge_cases j (length l)) as [J|J].
    - rewrite Forall_forall in H. apply H. apply nth_In. exact J.
    - rewrite nth_overflow by exact J. replace (t - t)%R with 0%R by ring. rewrite Rabs_R0. exact D0. }
  specialize (E (seq 0 256)). rewrite sum_h, sum_abs in E.
  set (X := sumR (fun j => (hR j * nth j l t)%R) (seq 0 256)) in *. clearbody X. rewrite gain_val.
  replace (X / (104110636377036100 / IZR decim_unit) - t * unity)%R with
    ((X - 104110636377036000 / IZR decim_unit * t) * (IZR decim_unit / 104110636377036100))%R by (unfold unity; pose proof unit_pos as U; apply Rgt_not_eq in U; set (u := IZR decim_unit) in *; clearbody u; field; exact U).
  rewrite Rabs_mult. rewrite (Rabs_pos_eq (IZR decim_unit / _)) by (change (IZR decim_unit) with 100000000000000000%R; lra).
  eapply Rle_trans; [apply Rmult_le_compat_r; [change (IZR decim_unit) with 100000000000000000%R; lra|exact E]|].
  change (IZR decim_unit) with 100000000000000000%R. 
  replace (169396578629128000 / 100000000000000000 * d * (100000000000000000 / 104110636377036100))%R with (d * (169396578629128000 / 104110636377036100))%R by field.
  replace (d * 1628 / 1000)%R with (d * (1628 / 1000))%R by field. apply Rmult_le_compat_l; [exact D0|lra].
Qed.

(* When every latency is within [d] of the target, the filtered latency is within
   1.628 d, apart from rounding in the table: 1.628 is the sum of the absolute
   weights (some of them are negative). *)
Definition widen (t d : R) : R := (d * 1628 / 1000 + Rabs t / 1000000000000000)%R.
Definition reach (p : fe_profile) (t d : R) : R :=
  match p with FeResponsive => widen t d | FeGradual => widen t (widen t d) end.

Lemma near_unity (t z e : R) : (Rabs (z - t * unity) <= e -> Rabs (z - t) <= e + Rabs t / 1000000000000000)%R.
Proof.
  intros H. replace (z - t)%R with ((z - t * unity) + t * (unity - 1))%R by ring. eapply Rle_trans; [apply Rabs_triang|].
  apply Rplus_le_compat; [exact H|]. rewrite Rabs_mult. unfold Rdiv. apply Rmult_le_compat_l; [apply Rabs_pos|].
  apply Rabs_le. unfold unity. lra.
Qed.

Lemma kept_forall {X} (P : X -> Prop) k xs : Forall P xs -> Forall P (kept k xs).
Proof.
  induction xs as [|x xs IH]; intros H; [constructor|]. inversion H; subst. rewrite kept_cons. destruct (_ =? 0)%nat; [auto|]. constructor; auto.
Qed.
Lemma line_forall {X} (P : X -> Prop) k xs : Forall P xs -> Forall P (line k xs).
Proof. destruct xs as [|x xs]; intros H; [constructor|]. inversion H; subst. constructor; [assumption|]. apply kept_forall. assumption. Qed.
Lemma decimate_forall {X Y} (P : X -> Prop) (Q : Y -> Prop) (f : list X -> Y) xs :
  (forall l, Forall P l -> Q (f l)) -> Forall P xs -> Forall Q (decimate f xs).
Proof.
  intros F. induction xs as [|x xs IH]; intros H; [constructor|]. inversion H; subst. cbn [decimate]. destruct (_ =? 0)%nat; [|auto].
  constructor; [apply F; exact H|auto].
Qed.

Lemma widen_pos (t d : R) : (0 <= d -> 0 <= widen t d)%R.
Proof. intros H. unfold widen. pose proof (Rabs_pos t). lra. Qed.

Lemma stage_near (t : R) k d xs : (0 <= d)%R -> Forall (fun x => (Rabs (x - t) <= d)%R) xs ->
  Forall (fun z => (Rabs (z - t) <= widen t d)%R) (decimate (fun ys => mean RA t (line k ys)) xs).
Proof.
  intros D0. apply decimate_forall. intros l L. apply near_unity. apply mean_bound; [exact D0|]. apply line_forall. exact L.
Qed.

Lemma filtered_near p target d xs : (0 <= d)%R -> Forall (fun x => (Rabs (IZR x - IZR target) <= d)%R) xs ->
  Forall (fun z => (Rabs (z - IZR target) <= reach p (IZR target) d)%R) (filtered RA p target xs).
Proof.
  intros D0 H. assert (M : Forall (fun x => (Rabs (x - IZR target) <= d)%R) (map IZR xs)).
  { apply Forall_map. exact H. }
  destruct p; cbn [filtered reach].
  - apply stage_near; [exact D0|exact M].
  - apply stage_near; [apply widen_pos; exact D0|]. apply stage_near; [exact D0|exact M].
Qed.

Lemma errors_near (t e : R) zs : (0 <= e)%R -> Forall (fun z => (Rabs (z - t) <= e)%R) zs -> (Rabs (errors RA t zs) <= INR (length zs) * e)%R.
Proof.
  intros E0. induction zs as [|z zs IH]; intros H.
  - cbn. rewrite Rabs_R0. lra.
  - inversion H; subst. cbn [errors length]. rewrite S_INR. cbn [dadd dsub RA]. eapply Rle_trans; [apply Rabs_triang|].
    specialize (IH ltac:(assumption)). lra.
Qed.

Definition fe_P : R := (1 / 1000000)%R.
Definition fe_I (p : fe_profile) : R := match p with FeResponsive => (1 / 10000000000)%R | FeGradual => (5 / 1000000000)%R end.
Lemma cfg_P p : c_P (make_config RA p) = fe_P. Proof. destruct p; reflexivity. Qed.
Lemma cfg_I p : c_I (make_config RA p) = fe_I p. Proof. destruct p; reflexivity. Qed.
Lemma fe_I_pos p : (0 < fe_I p)%R. Proof. destruct p; unfold fe_I; lra. Qed.

Theorem C66_bound : forall p target d xs, Z.of_nat (length xs) < 2 ^ 64 -> (0 <= d)%R ->
  Forall (fun x => (Rabs (IZR x - IZR target) <= d)%R) xs ->
  exists e0 e, fe_new RA p target = Ok e0 /\ fe_run RA e0 xs = Ok e /\
    (Rabs (e_coeff e - 1) <= (fe_P + fe_I p * INR (length xs / period p)) * reach p (IZR target) d)%R.
Proof.
  intros p target d xs H D0 F. destruct (C66_exact RA p target xs H) as (e0 & e & N & R & C). exists e0, e. split; [exact N|]. split; [exact R|].
  rewrite C, cfg_P, cfg_I. assert (F' : Forall (fun x => (Rabs (IZR x - IZR target) <= d)%R) (rev xs)) by (apply Forall_rev; exact F).
  pose proof (filtered_near p target d (rev xs) D0 F') as G. pose proof (filtered_len RA p target (rev xs)) as L. rewrite rev_length in L.
  set (zs := filtered RA p target (rev xs)) in *. clearbody zs. set (r := reach p (IZR target) d) in *.
  assert (R0 : (0 <= r)%R) by (unfold r, reach; destruct p; repeat apply widen_pos; exact D0).
  clearbody r. pose proof (fe_I_pos p) as IP. rewrite <- L. pose proof (pos_INR (length zs)) as LP.
  destruct zs as [|z zs]; [cbn [control length]; cbn [dZ RA]; rewrite Rminus_diag_eq by reflexivity; rewrite Rabs_R0; cbn [INR]; unfold fe_P; nra|].
  pose proof (errors_near (IZR target) r (z :: zs) R0 G) as EN. inversion G; subst. cbn [control]. set (er := errors RA (dZ RA target) (z :: zs)).
  change (errors RA (IZR target) (z :: zs)) with er in EN. clearbody er. set (n := INR (length (z :: zs))) in *. assert (EN' : (Rabs er <= n * r)%R) by exact EN. clearbody n.
  cbn [dadd dmul dsub dZ RA]. replace (1 + fe_P * (z - IZR target) + fe_I p * er - 1)%R with (fe_P * (z - IZR target) + fe_I p * er)%R by ring.
  eapply Rle_trans; [apply Rabs_triang|]. rewrite !Rabs_mult, (Rabs_pos_eq (fe_I p)), (Rabs_pos_eq fe_P) by (unfold fe_P; lra).
  assert (A1 : (fe_P * Rabs (z - IZR target) <= fe_P * r)%R) by (apply Rmult_le_compat_l; [unfold fe_P; lra|assumption]).
  assert (A2 : (fe_I p * Rabs er <= fe_I p * (n * r))%R) by (apply Rmult_le_compat_l; [lra|exact EN']). lra.
Qed.
Print Assumptions C66_bound.

(* A constant latency *)
Lemma kept_repeat {X} k (c : X) n ys : (k <> 0)%nat ->
  kept k (repeat c n ++ ys) = repeat c (n - ((length ys + n) / k - length ys / k)) ++ kept k ys.
Proof.
  intros K. induction n as [|n IH]; [rewrite Nat.add_0_r, Nat.sub_diag; reflexivity|].
  cbn [repeat app]. rewrite kept_cons, app_length, repeat_length, IH.
  assert (Q : (length ys / k <= (length ys + n) / k)%nat) by (apply Nat.div_le_mono; lia).
  assert (Q2 : ((length ys + n) / k - length ys / k <= n)%nat).
  { assert ((length ys + n) / k <= length ys / k + n)%nat; [|lia].
    eapply Nat.le_trans; [apply Nat.div_le_mono with (b := (length ys + n * k)%nat); [exact K|nia]|]. rewrite Nat.div_add by exact K. lia. }
  replace (length ys + S n)%nat with (S (length ys + n)) by lia. replace (n + length ys)%nat with (length ys + n)%nat by lia.
  pose proof (Nat.div_mod (length ys + n) k K) as D1. pose proof (Nat.mod_upper_bound (length ys + n) k K) as M1.
  destruct (Nat.eqb_spec (S (length ys + n) mod k) 0) as [E|E].
  - assert (D2 : (S (length ys + n) / k = S ((length ys + n) / k))%nat).
    { pose proof (Nat.div_mod (S (length ys + n)) k K) as D2. rewrite E in D2.
      set (a := (S (length ys + n) / k)%nat) in *. set (b := ((length ys + n) / k)%nat) in *. set (m := ((length ys + n) mod k)%nat) in *. clearbody a b m.
      clear - D1 D2 M1. assert (b < a)%nat by nia. assert (a <= S b)%nat by nia. lia. }
    rewrite D2. f_equal. f_equal. lia.
  - assert (D2 : (S (length ys + n) / k = (length ys + n) / k)%nat).
    { pose proof (Nat.div_mod (S (length ys + n)) k K) as D2. pose proof (Nat.mod_upper_bound (S (length ys + n)) k K) as M2.
      set (a := (S (length ys + n) / k)%nat) in *. set (b := ((length ys + n) / k)%nat) in *. set (m := ((length ys + n) mod k)%nat) in *.
      set (m2 := (S (length ys + n) mod k)%nat) in *. clearbody a b m m2.
      clear - D1 D2 M1 M2 E. assert (b <= a)%nat by nia. assert (a <= b)%nat by nia. lia. }
    rewrite D2. replace (S n - ((length ys + n) / k - length ys / k))%nat with (S (n - ((length ys + n) / k - length ys / k))) by lia. reflexivity.
Qed.

Lemma stage_const (c t : R) k n ys : (10 <= k)%nat -> (300 <= n)%nat -> mean RA t (line k (repeat c n ++ ys)) = (c * unity)%R.
Proof.
  intros K N. destruct n as [|n]; [lia|]. cbn [repeat app line]. rewrite kept_repeat by lia.
  set (r := (n - ((length ys + n) / k - length ys / k))%nat).
  assert (B : (255 <= r)%nat).
  { unfold r. assert ((length ys + n) / k <= length ys / k + (n / 10 + 1))%nat.
    { assert (D1 := Nat.div_mod (length ys) k ltac:(lia)). assert (M1 := Nat.mod_upper_bound (length ys) k ltac:(lia)).
      apply Nat.lt_succ_r. apply Nat.div_lt_upper_bound; [lia|]. set (a := (length ys / k)%nat) in *. set (m := (length ys mod k)%nat) in *. clearbody a m.
      rewrite D1. assert (Q : (n < 10 * (n / 10 + 1))%nat) by (clear; lia). set (b := (n / 10)%nat) in *. clearbody b.
      assert (10 * (b + 1) <= k * (b + 1))%nat by (apply Nat.mul_le_mono_r; lia). nia. }
    clear - H N. lia. }
  clearbody r. change (c :: repeat c r ++ kept k ys) with (repeat c (S r) ++ kept k ys).
  apply mean_const.
  - rewrite app_length, repeat_length. lia.
  - rewrite firstn_app, repeat_length. replace (256 - S r)%nat with 0%nat by lia. rewrite firstn_O, app_nil_r.
    apply Forall_forall. intros x I. apply (repeat_spec (S r) c). rewrite <- (firstn_skipn 256 (repeat c (S r))). apply in_or_app. left. exact I.
Qed.

Lemma decimate_repeat {X Y} (f : list X -> Y) c v m ys : (forall n, (m <= n)%nat -> f (repeat c n ++ ys) = v) ->
  forall n j, (m <= n)%nat -> decimate f (repeat c (j + n) ++ ys) =
    repeat v ((j + n + length ys) / 10 - (n + length ys) / 10) ++ decimate f (repeat c n ++ ys).
Proof.
  intros F n j N. induction j as [|j IH]; [cbn [Nat.add]; rewrite Nat.sub_diag; reflexivity|].
  pose proof (F (S (j + n)) ltac:(lia)) as F1. cbn [Nat.add repeat app] in F1. cbn [Nat.add repeat app decimate length].
  rewrite app_length, repeat_length, F1, IH. set (a := (j + n + length ys)%nat). assert (A : (n + length ys <= a)%nat) by (unfold a; lia). clearbody a.
  set (b := (n + length ys)%nat) in *. clearbody b. clear - A. destruct (Nat.eqb_spec (S a mod 10) 0) as [E|E].
  - replace (S a / 10 - b / 10)%nat with (S (a / 10 - b / 10)) by lia. reflexivity.
  - replace (S a / 10 - b / 10)%nat with (a / 10 - b / 10)%nat by lia. reflexivity.
Qed.

(* The number of latencies after which a constant latency fills the filters *)
Definition warm (p : fe_profile) : nat := match p with FeResponsive => 310 | FeGradual => 3410 end.
Definition settled (p : fe_profile) (c : R) : R := match p with FeResponsive => (c * unity)%R | FeGradual => (c * unity * unity)%R end.

Lemma filtered_const p target c n ys : (warm p <= n)%nat ->
  filtered RA p target (repeat c (period p + n) ++ ys) = settled p (IZR c) :: filtered RA p target (repeat c n ++ ys) /\
  exists rest, filtered RA p target (repeat c n ++ ys) = settled p (IZR c) :: rest.
Proof.
  intros N. cbn [filtered]. assert (M : forall j, map (dZ RA) (repeat c j ++ ys) = repeat (IZR c) j ++ map IZR ys).
  { intros j. rewrite map_app. f_equal. induction j as [|j IH]; [reflexivity|]. cbn [repeat map]. rewrite IH. reflexivity. }
  assert (ST : forall k xs m, (10 <= k)%nat -> (300 <= m)%nat -> forall x, mean RA (IZR target) (line k (repeat x m ++ xs)) = (x * unity)%R).
  { intros k xs m K H x. apply stage_const; assumption. }
  destruct p; cbn [warm period settled filtered] in *.
  - rewrite !M. cbn [dZ RA].
    pose proof (decimate_repeat (fun zs => mean RA (IZR target) (line 10 zs)) (IZR c) (IZR c * unity)%R 300 (map IZR ys) ltac:(intros; apply ST; lia)) as DR.
    change (D RA) with R in *. change (dZ RA target) with (IZR target) in *.
    split.
    + rewrite (DR n 10%nat) by lia. replace ((10 + n + length (map IZR ys)) / 10 - (n + length (map IZR ys)) / 10)%nat with 1%nat by (clear; lia). reflexivity.
    + replace n with ((n - 300) + 300)%nat by lia. rewrite (DR 300%nat (n - 300)%nat) by lia.
      destruct ((n - 300 + 300 + length (map IZR ys)) / 10 - (300 + length (map IZR ys)) / 10)%nat eqn:Q; [exfalso; clear - Q N; lia|].
      cbn [repeat app]. eauto.
  - rewrite !M. cbn [dZ RA].
    pose proof (decimate_repeat (fun zs => mean RA (IZR target) (line 100 zs)) (IZR c) (IZR c * unity)%R 300 (map IZR ys) ltac:(intros; apply ST; lia)) as DR.
    change (D RA) with R in *. change (dZ RA target) with (IZR target) in *.
    set (f1 := @decimate R R (fun zs : list R => mean RA (IZR target) (@line R 100 zs))) in *.
    set (ws := f1 (repeat (IZR c) 300 ++ map IZR ys)) in *.
    assert (D1 : exists q, (310 <= q)%nat /\ f1 (repeat (IZR c) n ++ map IZR ys) = repeat (IZR c * unity)%R q ++ ws /\
                           f1 (repeat (IZR c) (100 + n) ++ map IZR ys) = repeat (IZR c * unity)%R (10 + q) ++ ws).
    { exists ((n - 300 + 300 + length (map IZR ys)) / 10 - (300 + length (map IZR ys)) / 10)%nat. split; [clear - N; lia|]. split.
      - replace n with ((n - 300) + 300)%nat at 1 by lia.
        rewrite (DR 300%nat (n - 300)%nat) by lia. reflexivity.
      - replace (100 + n)%nat with ((n - 200) + 300)%nat at 1 by lia.
        rewrite (DR 300%nat (n - 200)%nat) by lia. f_equal. f_equal.
        clear - N. lia. }
    destruct D1 as (q & Q1 & E1 & E2). rewrite E1, E2.
    pose proof (decimate_repeat (fun zs => mean RA (IZR target) (line 10 zs)) (IZR c * unity)%R (IZR c * unity * unity)%R 300 ws ltac:(intros; apply ST; lia)) as DR2.
    change (D RA) with R in *.
    clearbody ws. clear DR E1 E2. split.
    + rewrite (DR2 q 10%nat) by lia. replace ((10 + q + length ws) / 10 - (q + length ws) / 10)%nat with 1%nat by (clear; lia). reflexivity.
    + replace q with ((q - 300) + 300)%nat by lia. rewrite (DR2 300%nat (q - 300)%nat) by lia.
      destruct ((q - 300 + 300 + length ws) / 10 - (300 + length ws) / 10)%nat eqn:Q; [exfalso; clear - Q Q1; lia|].
      cbn [repeat app]. eauto.
Qed.

Lemma rev_repeat {X} (c : X) n : rev (repeat c n) = repeat c n.
Proof. induction n as [|n IH]; [reflexivity|]. cbn [repeat rev]. rewrite IH. symmetry. apply repeat_cons. Qed.

(* Whatever happened before, once the latency has been constant for long enough
   every period moves the coefficient by the same amount, without limit. *)
Theorem C66_slope : forall p target xs c n, Z.of_nat (length xs + (period p + n)) < 2 ^ 64 -> (warm p <= n)%nat ->
  exists e0 e e', fe_new RA p target = Ok e0 /\ fe_run RA e0 (xs ++ repeat c n) = Ok e /\
    fe_run RA e0 (xs ++ repeat c (period p + n)) = Ok e' /\
    (e_coeff e' = e_coeff e + fe_I p * (settled p (IZR c) - IZR target))%R.
Proof.
  intros p target xs c n H N. destruct (C66_exact RA p target (xs ++ repeat c n)) as (e0 & e & N1 & R1 & C1); [rewrite app_length, repeat_length; lia|].
  destruct (C66_exact RA p target (xs ++ repeat c (period p + n))) as (e0' & e' & N2 & R2 & C2); [rewrite app_length, repeat_length; lia|].
  assert (e0' = e0) by congruence. subst e0'. exists e0, e, e'. repeat (split; [assumption|]).
  rewrite rev_app_distr, rev_repeat in C1, C2. destruct (filtered_const p target c n (rev xs) N) as (F1 & rest & F2).
  rewrite F1 in C2. rewrite F2 in C1, C2. rewrite C1, C2, cfg_P, cfg_I. clear. cbn [control errors dadd dmul dsub dZ RA].
  match goal with |- ?a = ?b => change (@eq R a b) end. ring.
Qed.
Print Assumptions C66_slope.

(* That amount has the sign of the deviation, for latencies up to 10^14 *)
Theorem C66_sign : forall p target c, 0 <= c <= 10 ^ 14 ->
  (target < c -> (IZR target < settled p (IZR c))%R) /\ (c < target -> (settled p (IZR c) < IZR target)%R).
Proof.
  unfold settled. intros p target c C. destruct C as (C0 & C1). apply IZR_le in C0, C1. change (IZR (10 ^ 14)) with 100000000000000%R in C1.
  assert (U : (1 - 1 / 1000000000000000 <= unity < 1)%R) by (unfold unity; lra).
  set (u := unity) in *. clearbody u.
  assert (W : (1 - 2 / 1000000000000000 <= u * u < 1)%R) by nra.
  assert (SV : forall x w, (0 <= x <= 100000000000000 -> 1 - 2 / 1000000000000000 <= w < 1 -> x - 2 / 10 <= x * w <= x)%R).
  { intros x w X V. assert (0 <= x * (1 - w) <= 100000000000000 * (2 / 1000000000000000))%R; [|lra]. split; [apply Rmult_le_pos; lra|]. apply Rmult_le_compat; lra. }
  assert (SU : forall x, (0 <= x <= 100000000000000 -> x - 2 / 10 <= x * u * u <= x /\ x - 2 / 10 <= x * u <= x)%R).
  { intros x X. split; [rewrite Rmult_assoc; apply SV; assumption|apply SV; [assumption|lra]]. }
  specialize (SU (IZR c) (conj C0 C1)).
  split; intros L; [assert (L1 : target + 1 <= c) by lia|assert (L1 : c + 1 <= target) by lia]; apply IZR_le in L1; rewrite plus_IZR in L1;
    destruct p; lra.
Qed.
Print Assumptions C66_sign.

(* A target of 100 ms at 48 kHz: latencies within 10 samples for 1000 updates
   change the clock by less than 20 parts per million *)
Example bound_case : forall xs, length xs = 1000%nat -> Forall (fun x => (Rabs (IZR x - IZR 4800) <= 10)%R) xs ->
  exists e0 e, fe_new RA FeResponsive 4800 = Ok e0 /\ fe_run RA e0 xs = Ok e /\ (Rabs (e_coeff e - 1) <= 20 / 1000000)%R.
Proof.
  intros xs L F. destruct (C66_bound FeResponsive 4800 10 xs) as (e0 & e & N & R & B); [rewrite L; reflexivity|lra|exact F|].
  exists e0, e. split; [exact N|]. split; [exact R|]. eapply Rle_trans; [exact B|]. rewrite L. change (1000 / period FeResponsive)%nat with 100%nat.
  replace (INR 100) with 100%R by (rewrite INR_IZR_INZ; reflexivity). unfold fe_P, fe_I, reach, widen. rewrite Rabs_pos_eq by lra. lra.
Qed.

(* One sample above the target for ever: each further hundred latencies raise the coefficient *)
Example slope_case : forall n, (3410 <= n)%nat -> Z.of_nat (100 + n) < 2 ^ 64 ->
  exists e0 e e', fe_new RA FeGradual 4800 = Ok e0 /\ fe_run RA e0 (repeat 4801 n) = Ok e /\
    fe_run RA e0 (repeat 4801 (100 + n)) = Ok e' /\ (e_coeff e < e_coeff e')%R.
Proof.
  intros n N L. destruct (C66_slope FeGradual 4800 [] 4801 n L N) as (e0 & e & e' & H1 & H2 & H3 & H4).
  exists e0, e, e'. repeat (split; [assumption|]). change (@eq R (e_coeff e') (e_coeff e + fe_I FeGradual * (settled FeGradual (IZR 4801) - IZR 4800))%R) in H4.
  rewrite H4. destruct (C66_sign FeGradual 4800 4801) as (S1 & _); [lia|]. specialize (S1 ltac:(lia)). pose proof (fe_I_pos FeGradual). nra.
Qed.
(* The tenth latency does not matter for the twentieth *)
Example forgotten_case : same_but 10 (repeat 5 9 ++ [77] ++ repeat 5 9) (repeat 5 9 ++ [99] ++ repeat 5 9) /\
  (S (length (repeat 5 9 ++ [77] ++ repeat 5 9)) mod 10 = 0)%nat.
Proof. cbn. repeat split; intros; try reflexivity; exfalso; lia. Qed.
