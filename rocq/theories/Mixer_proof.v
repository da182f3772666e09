From Coq Require Import Reals Lra.
From Flocq Require Import Core.Core IEEE754.BinarySingleNaN.
From Verif Require Import Base Base_lemmas Float32 Mixer_model Mixer_spec.
Open Scope res_scope.
Open Scope Z_scope.

Section Gen.
Context {A : Type} (ar : arith A).

Lemma map2_seq f (a b : nat -> A) n s : map2 f (map a (seq s n)) (map b (seq s n)) = map (fun k => f (a k) (b k)) (seq s n).
Proof. revert s. induction n; intros s; cbn; [reflexivity|]. now rewrite IHn. Qed.

Definition col (ins : list (input A)) (k : nat) (acc : A) : A := fold_left (mix1 ar) (column (a_zero ar) ins k) acc.
Definition fl (ins : list (input A)) (f : Z) : Z := fold_left Z.lor (map in_flags (filter in_ok ins)) f.

Lemma mix_loop_spec n ins : forall (acc : nat -> A) f,
  mix_loop ar n ins (map acc (seq 0 n)) f = (map (fun k => col ins k (acc k)) (seq 0 n), fl ins f).
Proof.
  induction ins as [|i ins IH]; intros acc f; cbn [mix_loop].
  - unfold col, column, fl. cbn. reflexivity.
  - destruct (in_ok i) eqn:E.
    + unfold in_next. rewrite map2_seq, IH. unfold col, column, fl. cbn [filter]. rewrite E. reflexivity.
    + rewrite IH. unfold col, column, fl. cbn [filter]. rewrite E. reflexivity.
Qed.
Lemma repeat_seq (x : A) n s : repeat x n = map (fun _ => x) (seq s n).
Proof. revert s. induction n; intros s; cbn; [reflexivity|]. now rewrite (IHn (S s)). Qed.

Lemma in_skip_ok (i : input A) n : in_ok (in_skip i n) = in_ok i.
Proof. unfold in_skip. destruct (in_ok i) eqn:E; cbn; auto. Qed.
Lemma in_skip_flags (i : input A) n : in_flags (in_skip i n) = in_flags i.
Proof. unfold in_skip. destruct (in_ok i) eqn:E; cbn; auto. Qed.
Lemma nth_skip (l : list A) n k d : nth k (skipn n l) d = nth (n + k) l d.
Proof. revert l. induction n; intros [|x l]; cbn; auto. now destruct k. Qed.
Lemma column_skip ins n k : column (a_zero ar) (map (fun i => in_skip i n) ins) k = column (a_zero ar) ins (n + k).
Proof.
  unfold column. induction ins as [|i ins IH]; cbn [map filter]; [reflexivity|]. rewrite in_skip_ok. destruct (in_ok i) eqn:E; [|exact IH].
  cbn [map]. rewrite IH. f_equal. unfold in_skip. rewrite E. cbn [in_smp]. apply nth_skip.
Qed.
Lemma fl_skip ins n f : fl (map (fun i => in_skip i n) ins) f = fl ins f.
Proof.
  unfold fl. revert f. induction ins as [|i ins IH]; intros f; cbn [map filter]; [reflexivity|]. rewrite in_skip_ok. destruct (in_ok i) eqn:E; [|apply IH].
  cbn [map fold_left]. rewrite in_skip_flags. apply IH.
Qed.
Lemma lor_absorb l : forall a b, fold_left Z.lor l (Z.lor a b) = Z.lor a (fold_left Z.lor l b).
Proof. induction l as [|x l IH]; intros a b; cbn; [reflexivity|]. now rewrite <- Z.lor_assoc, IH. Qed.
Lemma fl_idem ins f : fl ins (fl ins f) = fl ins f.
Proof.
  unfold fl. set (l := map in_flags (filter in_ok ins)). clearbody l.
  assert (E : forall g, fold_left Z.lor l g = Z.lor g (fold_left Z.lor l 0)) by (intros g; rewrite <- (Z.lor_0_r g) at 1; apply lor_absorb).
  rewrite (E (fold_left Z.lor l f)), (E f), <- Z.lor_assoc, Z.lor_diag. reflexivity.
Qed.

Lemma skip_skip (ins : list (input A)) a b : map (fun i => in_skip i b) (map (fun i => in_skip i a) ins) = map (fun i => in_skip i (a + b)) ins.
Proof.
  rewrite map_map. apply map_ext. intros i. unfold in_skip. destruct i as [d [] f l]; cbn; [rewrite skipn_skipn; f_equal; f_equal; lia|reflexivity].
Qed.

Lemma mx_loop_spec fuel : forall max n ins out f, (0 < max)%nat -> (n <= fuel)%nat ->
  mx_loop ar fuel max n ins out f =
    Ok (out ++ map (fun k => col ins k (a_zero ar)) (seq 0 n), if (n =? 0)%nat then f else fl ins f, map (fun i => in_skip i n) ins).
Proof.
  induction fuel as [|fuel IH]; intros max n ins out f Hm Hf.
  - replace n with 0%nat by lia. cbn. rewrite app_nil_r. f_equal. f_equal.
    symmetry. transitivity (map (fun i : input A => i) ins); [|apply map_id]. apply map_ext. intros i. unfold in_skip. destruct i as [a [] b c]; reflexivity.
  - cbn [mx_loop]. destruct (Nat.eqb_spec n 0) as [->|Hn].
    { cbn. rewrite app_nil_r. f_equal. f_equal. symmetry. transitivity (map (fun i : input A => i) ins); [|apply map_id].
      apply map_ext. intros i. unfold in_skip. destruct i as [a [] b c]; reflexivity. }
    unfold mx_chunk. destruct (Nat.eqb_spec (Nat.min n max) 0); [lia|].
    rewrite (repeat_seq _ _ 0), mix_loop_spec. cbn [bind]. rewrite IH by lia. rewrite skip_skip, fl_skip.
    set (k := Nat.min n max). replace (k + (n - k))%nat with n by lia.
    replace (if (n - k =? 0)%nat then fl ins f else fl ins (fl ins f)) with (fl ins f) by (rewrite fl_idem; now destruct (n - k =? 0)%nat).
    f_equal. f_equal. f_equal. rewrite <- app_assoc. f_equal.
    assert (Sn : seq 0 n = seq 0 k ++ map (Nat.add k) (seq 0 (n - k))).
    { replace n with (k + (n - k))%nat at 1 by lia. rewrite seq_app. f_equal. cbn.
      clear. generalize (n - k)%nat. intros m. rewrite <- (Nat.add_0_r k) at 1. generalize 0%nat. induction m; intros z; cbn; [reflexivity|]. f_equal.
      rewrite plus_n_Sm. apply IHm. }
    rewrite Sn, map_app. f_equal. rewrite map_map. apply map_ext. intros j. unfold col. now rewrite column_skip.
Qed.
End Gen.

(** * Exact arithmetic *)
Lemma mix1_z lim acc x : 0 <= lim -> mix1 (z_arith lim) acc x = clamp (- lim) lim (acc + x).
Proof.
  intros H. unfold mix1, std_max, std_min, clamp, z_arith. cbn [a_lt a_add a_max a_min].
  destruct (Z.ltb_spec lim (acc + x)); [destruct (Z.ltb_spec lim (- lim)); lia|]. destruct (Z.ltb_spec (acc + x) (- lim)); lia.
Qed.

(** Sums of the first inputs stay in range. *)
Lemma fold_exact lim l : 0 <= lim -> forall acc, (forall k, (k <= length l)%nat -> - lim <= acc + zsum (firstn k l) <= lim) ->
  fold_left (mix1 (z_arith lim)) l acc = acc + zsum l.
Proof.
  intros Hl. induction l as [|x l IH]; intros acc H; cbn [fold_left zsum fold_right]; [lia|].
  rewrite mix1_z by assumption. pose proof (H 1%nat ltac:(cbn; lia)) as H1. cbn in H1. unfold clamp.
  rewrite Z.min_r, Z.max_r by lia. rewrite IH; [unfold zsum; lia|].
  intros k Hk. pose proof (H (S k) ltac:(cbn; lia)) as H2. cbn in H2. unfold zsum. lia.
Qed.
Lemma fold_nonneg lim l : 0 <= lim -> forall acc, 0 <= acc <= lim -> Forall (fun x => 0 <= x) l ->
  fold_left (mix1 (z_arith lim)) l acc = clamp (- lim) lim (acc + zsum l).
Proof.
  intros Hl. induction l as [|x l IH]; intros acc Ha F; cbn [fold_left zsum fold_right]; [unfold clamp; lia|].
  rewrite mix1_z by assumption. inversion F; subst.
  assert (0 <= zsum l). { clear - H2. induction H2; cbn; [lia|]. unfold zsum in IHForall. lia. }
  unfold zsum in *. rewrite IH; auto; unfold clamp; lia.
Qed.

(** * Single precision *)
Definition inrange (x : f32) : Prop := f32_fin x = true /\ (-1 <= f32_val x <= 1)%R.
Definition one_spec := f32_of_Z_exact 1 ltac:(cbn; lia).
Definition mone_spec := f32_of_Z_exact (-1) ltac:(cbn; lia).

Lemma lt_dec_f x y : f32_fin x = true -> f32_fin y = true ->
  (f32_lt x y = true /\ (f32_val x < f32_val y)%R) \/ (f32_lt x y = false /\ (f32_val y <= f32_val x)%R).
Proof.
  intros Fx Fy. pose proof (f32_lt_spec x y Fx Fy) as H. destruct (f32_lt x y); [left|right]; split; auto.
  - now apply H.
  - destruct (Rlt_or_le (f32_val x) (f32_val y)) as [C|C]; [apply H in C; discriminate|exact C].
Qed.

Lemma clamp_fin s : f32_fin s = true -> let r := std_max f32_arith (std_min f32_arith s (f32_of_Z 1)) (f32_of_Z (-1)) in
  f32_fin r = true /\ f32_val r = rclamp (f32_val s).
Proof.
  intros F. destruct one_spec as [V1 F1]. destruct mone_spec as [V2 F2]. cbv zeta. unfold std_max, std_min. cbn [a_lt f32_arith].
  destruct (lt_dec_f (f32_of_Z 1) s F1 F) as [[-> H]|[-> H]]; rewrite V1 in H.
  - destruct (lt_dec_f (f32_of_Z 1) (f32_of_Z (-1)) F1 F2) as [[-> G]|[-> G]]; rewrite V1, V2 in G; [lra|].
    split; [exact F1|]. rewrite V1. unfold rclamp. rewrite Rmin_right, Rmax_right; lra.
  - destruct (lt_dec_f s (f32_of_Z (-1)) F F2) as [[-> G]|[-> G]]; rewrite V2 in G.
    + split; [exact F2|]. rewrite V2. unfold rclamp. rewrite Rmin_left, Rmax_left; lra.
    + split; [exact F|]. unfold rclamp. rewrite Rmin_left, Rmax_right; lra.
Qed.
Lemma clamp_inf s b : s = B754_infinity b -> let r := std_max f32_arith (std_min f32_arith s (f32_of_Z 1)) (f32_of_Z (-1)) in
  f32_fin r = true /\ f32_val r = if b then (-1)%R else 1%R.
Proof.
  intros ->. destruct one_spec as [V1 F1]. destruct mone_spec as [V2 F2]. cbv zeta. unfold std_max, std_min. cbn [a_lt f32_arith].
  destruct b.
  - replace (f32_lt (f32_of_Z 1) (B754_infinity true)) with false by (vm_compute; reflexivity).
    replace (f32_lt (B754_infinity true) (f32_of_Z (-1))) with true by (vm_compute; reflexivity). auto.
  - replace (f32_lt (f32_of_Z 1) (B754_infinity false)) with true by (vm_compute; reflexivity).
    replace (f32_lt (f32_of_Z 1) (f32_of_Z (-1))) with false by (vm_compute; reflexivity). auto.
Qed.
Lemma rclamp_range r : (-1 <= rclamp r <= 1)%R.
Proof. unfold rclamp. destruct (Rle_dec r 1); [rewrite Rmin_left by lra|rewrite Rmin_right by lra]; destruct (Rle_dec (-1) r); try (rewrite Rmax_right by lra; lra); rewrite Rmax_left by lra; lra. Qed.

(** Adding a finite sample to a sample in range. *)
Lemma mix1_f32 acc x : inrange acc -> f32_fin x = true ->
  inrange (mix1 f32_arith acc x) /\ f32_val (mix1 f32_arith acc x) = rclamp (rnd32 (f32_val acc + f32_val x)).
Proof.
  intros [Fa Ra] Fx. unfold mix1. cbn [a_add a_min a_max f32_arith].
  pose proof (Bplus_correct 24 128 _ _ mode_NE acc x Fa Fx) as H. fold (f32_add acc x) in H.
  change (round radix2 (SpecFloat.fexp 24 128) (round_mode mode_NE) (B2R acc + B2R x)) with (rnd32 (f32_val acc + f32_val x)) in H.
  destruct (Rlt_bool_spec (Rabs (rnd32 (f32_val acc + f32_val x))) (bpow radix2 128)) as [L|L].
  - destruct H as (H1 & H2 & _). destruct (clamp_fin (f32_add acc x) H2) as [C1 C2].
    unfold f32_val in C2 at 2. rewrite H1 in C2. split; [|exact C2]. split; [exact C1|]. rewrite C2. apply rclamp_range.
  - destruct H as [H1 H2]. 
    assert (E : f32_add acc x = B754_infinity (Bsign acc)).
    { apply B2SF_inj. rewrite H1. reflexivity. }
    destruct (clamp_inf _ _ E) as [C1 C2].
    assert (Big : (bpow radix2 128 >= 4)%R). { change 4%R with (bpow radix2 2). apply Rle_ge, bpow_le. lia. }
    assert (Sg : rclamp (rnd32 (f32_val acc + f32_val x)) = if Bsign acc then (-1)%R else 1%R).
    { (* the sign of the sum is that of x, hence of acc *)
      assert (Mono : forall a b, (a <= b)%R -> (rnd32 a <= rnd32 b)%R) by (intros a b Hab; apply round_le; [apply fexp_correct; reflexivity|apply valid_rnd_N|exact Hab]).
      assert (Z0 : rnd32 0 = 0%R) by (apply round_0; apply valid_rnd_N).
      unfold f32_val in *. destruct (Bsign acc) eqn:Sa.
      - assert (B2R acc <= 0)%R. { clear - Sa Fa. destruct acc as [b|b| |b m e p]; cbn in *; try discriminate; try lra. subst b. cbn. apply F2R_le_0. cbn. lia. }
        assert (B2R x <= 0)%R. { clear - H2 Fx Sa. destruct x as [b|b| |b m e p]; cbn in *; try discriminate; try lra. rewrite <- H2. apply F2R_le_0. cbn. lia. }
        pose proof (Mono (B2R acc + B2R x)%R 0%R ltac:(lra)) as M. rewrite Z0 in M. rewrite Rabs_left1 in L by exact M.
        unfold rclamp. rewrite Rmin_left, Rmax_left; lra.
      - assert (0 <= B2R acc)%R. { clear - Sa Fa. destruct acc as [b|b| |b m e p]; cbn in *; try discriminate; try lra. subst b. cbn. apply F2R_ge_0. cbn. lia. }
        assert (0 <= B2R x)%R. { clear - H2 Fx Sa. destruct x as [b|b| |b m e p]; cbn in *; try discriminate; try lra. rewrite <- H2. apply F2R_ge_0. cbn. lia. }
        pose proof (Mono 0%R (B2R acc + B2R x)%R ltac:(lra)) as M. rewrite Z0 in M. rewrite Rabs_pos_eq in L by exact M.
        unfold rclamp. rewrite Rmin_right, Rmax_right; lra. }
    rewrite <- Sg in C2. split; [|exact C2]. split; [exact C1|]. rewrite C2. apply rclamp_range.
Qed.
(** Adding anything but NaN keeps the range. *)
Lemma mix1_range acc x : inrange acc -> f32_nan x = false -> inrange (mix1 f32_arith acc x).
Proof.
  intros Ha Hx. destruct (f32_fin x) eqn:F; [now apply mix1_f32|].
  destruct x as [b|b| |b m e p]; try discriminate.
  assert (E : f32_add acc (B754_infinity b) = B754_infinity b). { destruct Ha as [Fa _]. destruct acc; try discriminate; reflexivity. }
  unfold mix1. cbn [a_add a_min a_max f32_arith]. destruct (clamp_inf _ _ E) as [C1 C2]. split; [exact C1|]. rewrite C2. destruct b; lra.
Qed.
