(* Proofs about the frequency estimator. *)
From Coq Require Import ZArith List Bool Arith Lia.
From Verif Require Import Base FreqEst_model FreqEst_spec.
Import ListNotations.
Local Open Scope Z_scope.
Local Open Scope res_scope.

Lemma land_mask x : Z.land x decim_mask = x mod 256.
Proof. change decim_mask with (Z.ones 8). rewrite Z.land_ones by lia. reflexivity. Qed.

Lemma next_idx i : 0 <= i < 256 -> Z.land (sz (i + 1)) decim_mask = (i + 1) mod 256.
Proof. intros H. rewrite land_mask. unfold sz. rewrite (Z.mod_small (i + 1)) by lia. reflexivity. Qed.

Lemma prev_idx i : 0 <= i < 256 -> Z.land (sz (i - 1)) decim_mask = (i - 1) mod 256.
Proof.
  intros H. rewrite land_mask. unfold sz. destruct (Z.eq_dec i 0) as [->|N]; [reflexivity|]. rewrite (Z.mod_small (i - 1)) by lia. reflexivity.
Qed.

Lemma table_len A : length (table A) = 256%nat.
Proof. unfold table. rewrite map_length. reflexivity. Qed.

Lemma load_nth {X} (l : list X) i d : 0 <= i < Z.of_nat (length l) -> load l i = Ok (nth (Z.to_nat i) l d).
Proof.
  intros H. unfold load. destruct (Z.ltb_spec i 0); [lia|].
  rewrite (nth_error_nth' l d) by lia. reflexivity.
Qed.

(* A ring buffer whose slots before [i] hold [older], newest first *)
Definition ring {X} (t : X) (b : list X) (i : Z) (older : list X) : Prop :=
  length b = 256%nat /\ 0 <= i < 256 /\ forall j, (1 <= j <= 255)%nat -> nth (Z.to_nat ((i - Z.of_nat j) mod 256)) b t = nth (j - 1) older t.
(* and whose slots from [i] backwards hold [l] *)
Definition full {X} (t : X) (b : list X) (i : Z) (l : list X) : Prop :=
  length b = 256%nat /\ 0 <= i < 256 /\ forall j, (j <= 255)%nat -> nth (Z.to_nat ((i - Z.of_nat j) mod 256)) b t = nth j l t.

Lemma ring_new {X} (t : X) : ring t (repeat t decim_len) 0 [].
Proof.
  split; [reflexivity|]. split; [lia|]. intros j H. rewrite nth_repeat. destruct (j - 1)%nat; reflexivity.
Qed.

Lemma store_full {X} (t : X) b i older x : ring t b i older ->
  exists b', store b i x = Ok b' /\ full t b' i (x :: older).
Proof.
  intros (L & B & H). unfold store. rewrite L.
  destruct (Z.leb_spec 0 i); [|lia]. destruct (Z.ltb_spec i (Z.of_nat 256)); [|lia]. cbn [andb].
  eexists. split; [reflexivity|]. set (n := Z.to_nat i). assert (N : (n < 256)%nat) by lia.
  assert (FL : length (firstn n b) = n) by (rewrite firstn_length; lia).
  split; [rewrite app_length; cbn [length]; rewrite skipn_length; lia|]. split; [exact B|].
  intros j HJ. destruct j as [|j].
  - rewrite Z.sub_0_r, Z.mod_small by lia. fold n. rewrite app_nth2 by lia. rewrite FL, Nat.sub_diag. reflexivity.
  - specialize (H (S j) ltac:(lia)). cbn [nth]. rewrite <- (Nat.sub_0_r j) at 2. replace (j - 0)%nat with (S j - 1)%nat by lia. rewrite <- H.
    set (k := Z.to_nat ((i - Z.of_nat (S j)) mod 256)) in *.
    assert (KN : k <> n /\ (k < 256)%nat) by (unfold k, n; lia). destruct KN as (KN & KB).
    destruct (Nat.lt_ge_cases k n) as [G|G].
    + rewrite app_nth1 by lia. rewrite <- (firstn_skipn n b) at 2. rewrite app_nth1 by lia. reflexivity.
    + rewrite app_nth2 by lia. rewrite FL. replace (k - n)%nat with (S (k - S n)) by lia. cbn [nth].
      rewrite <- (firstn_skipn (S n) b) at 2. rewrite app_nth2; rewrite firstn_length, Nat.min_l by lia; [reflexivity|lia].
Qed.

Lemma full_next {X} (t : X) b i l : full t b i l -> ring t b ((i + 1) mod 256) l.
Proof.
  intros (L & B & H). split; [exact L|]. split; [lia|]. intros j HJ. specialize (H (j - 1)%nat ltac:(lia)). rewrite <- H.
  f_equal. f_equal. rewrite Zminus_mod_idemp_l. f_equal. lia.
Qed.

Lemma full_stay {X} (t : X) b i x older : full t b i (x :: older) -> ring t b i older.
Proof.
  intros (L & B & H). split; [exact L|]. split; [exact B|]. intros j HJ. rewrite (H j) by lia.
  destruct j as [|j]; [lia|]. cbn [nth]. f_equal. lia.
Qed.

Lemma full_load {X} (t : X) b i x older : full t b i (x :: older) -> load b i = Ok x.
Proof.
  intros (L & B & H). rewrite (load_nth b i t) by lia. f_equal. specialize (H 0%nat ltac:(lia)).
  rewrite Z.sub_0_r, Z.mod_small in H by lia. exact H.
Qed.

Lemma dot_full A t b i l n : full t b i l -> forall j acc, (j + n = 256)%nat ->
  dot A (table A) b ((i - Z.of_nat j) mod 256) (Z.of_nat j) n acc =
  Ok (fold_left (fun acc j => dadd A acc (dmul A (nth j (table A) (dZ A 0)) (nth j l t))) (seq j n) acc).
Proof.
  intros (L & B & H). induction n as [|n IH]; intros j acc E; [reflexivity|].
  cbn [dot seq fold_left]. rewrite (load_nth (table A) (Z.of_nat j) (dZ A 0)) by (rewrite table_len; lia). cbn [bind].
  rewrite (load_nth b _ t) by lia. cbn [bind]. rewrite Nat2Z.id, (H j) by lia.
  rewrite prev_idx by lia. rewrite Zminus_mod_idemp_l. replace (i - Z.of_nat j - 1) with (i - Z.of_nat (S j)) by lia.
  replace (sz (Z.of_nat j + 1)) with (Z.of_nat (S j)) by (unfold sz; rewrite Z.mod_small; lia).
  apply IH. lia.
Qed.

Lemma dot_mean A t b i l : full t b i l ->
  (d <- dot A (table A) b i 0 decim_len (dZ A 0) ;; Ok (ddiv A d (gain A))) = Ok (mean A t l).
Proof.
  intros H. pose proof (dot_full A t b i l 256 H 0 (dZ A 0) eq_refl) as E. change (Z.of_nat 0) with 0 in E.
  destruct H as (_ & B & _). rewrite Z.sub_0_r, Z.mod_small in E by lia. unfold decim_len. rewrite E. reflexivity.
Qed.

Lemma kept_cons {X} k (x : X) older : kept k (x :: older) = if (S (length older) mod k =? 0)%nat then kept k older else x :: kept k older.
Proof. reflexivity. Qed.

Lemma decimate_len {X Y} (f : list X -> Y) xs : length (decimate f xs) = (length xs / 10)%nat.
Proof.
  induction xs as [|x xs IH]; [reflexivity|]. cbn [decimate]. set (n := length (x :: xs)). assert (N : n = S (length xs)) by reflexivity.
  destruct (Nat.eqb_spec (n mod 10) 0) as [E|E]; cbn [length]; rewrite IH; clearbody n; subst n; clear - E; lia.
Qed.

(* What the estimator's state is after the latencies xs, newest first *)
Definition state_of (A : arith) (p : fe_profile) (target : Z) (e : estimator A) (xs : list Z) : Prop :=
  e_cfg e = make_config A p /\ e_target e = dZ A target /\
  e_coeff e = control A (c_P (make_config A p)) (c_I (make_config A p)) (dZ A target) (filtered A p target xs) /\
  e_accum e = errors A (dZ A target) (filtered A p target xs) /\
  match p with
  | FeResponsive => e_count e = Z.of_nat (length xs) /\ ring (dZ A target) (e_b1 e) (e_i1 e) (kept 10 (map (dZ A) xs)) /\
                    length (e_b2 e) = 256%nat /\ e_i2 e = 0
  | FeGradual => e_count e = Z.of_nat (length xs) mod 100 /\ ring (dZ A target) (e_b1 e) (e_i1 e) (kept 100 (map (dZ A) xs)) /\
                 ring (dZ A target) (e_b2 e) (e_i2 e) (kept 10 (decimate (fun ys => mean A (dZ A target) (line 100 ys)) (map (dZ A) xs)))
  end.

Lemma new_state A p target : exists e, fe_new A p target = Ok e /\ state_of A p target e [].
Proof.
  unfold fe_new. destruct p; cbn [make_config c_f1 c_f2 decim_max]; cbn [Z.ltb Z.compare Pos.compare Pos.compare_cont orb];
  (eexists; split; [reflexivity|]); unfold state_of; cbn [e_cfg e_target e_coeff e_accum e_count e_b1 e_i1 e_b2 e_i2];
  repeat (split; [reflexivity|]).
  - split; [apply ring_new|]. split; reflexivity.
  - split; apply ring_new.
Qed.

Lemma store_len {X} (l l' : list X) i v : store l i v = Ok l' -> length l' = length l.
Proof.
  unfold store. destruct (Z.leb_spec 0 i); cbn [andb]; [|discriminate]. destruct (Z.ltb_spec i (Z.of_nat (length l))); [|discriminate].
  intros E. assert (G : l' = firstn (Z.to_nat i) l ++ v :: skipn (S (Z.to_nat i)) l) by congruence. rewrite G.
  rewrite app_length, firstn_length. cbn [length]. rewrite skipn_length. lia.
Qed.

Lemma store_load {X} (l l' : list X) i v : store l i v = Ok l' -> load l' i = Ok v.
Proof.
  intros E. pose proof (store_len _ _ _ _ E) as L. revert E. unfold store. destruct (Z.leb_spec 0 i); cbn [andb]; [|discriminate].
  destruct (Z.ltb_spec i (Z.of_nat (length l))); [|discriminate].
  intros E. assert (G : l' = firstn (Z.to_nat i) l ++ v :: skipn (S (Z.to_nat i)) l) by congruence.
  rewrite (load_nth l' i v) by lia. f_equal. rewrite G. rewrite app_nth2; rewrite firstn_length, Nat.min_l by lia; [|lia]. rewrite Nat.sub_diag. reflexivity.
Qed.

Lemma update_state A p target e xs x : Z.of_nat (length xs) + 1 < 2 ^ 64 -> state_of A p target e xs ->
  exists e', fe_update A e x = Ok e' /\ state_of A p target e' (x :: xs).
Proof.
  intros HL (EC & ET & EF & EA & HP). unfold fe_update, run_decimators. rewrite EC.
  destruct p.
  - destruct HP as (CN & R1 & L2 & I2). rewrite CN.
    assert (SZ : sz (Z.of_nat (length xs) + 1) = Z.of_nat (S (length xs))) by (unfold sz; rewrite Z.mod_small; lia). rewrite SZ.
    destruct (store_full _ _ _ _ (dZ A x) R1) as (b1 & S1 & F1). rewrite S1. cbn [bind].
    cbn [make_config c_f1 c_f2 c_P c_I]. unfold decim_max.
    assert (LM : length (map (dZ A) (x :: xs)) = S (length xs)) by (rewrite map_length; reflexivity).
    assert (EB : (Z.of_nat (S (length xs)) mod 10 =? 0) = (S (length xs) mod 10 =? 0)%nat).
    { destruct (Z.eqb_spec (Z.of_nat (S (length xs)) mod 10) 0); destruct (Nat.eqb_spec (S (length xs) mod 10) 0); auto; exfalso; clear - n e0; lia. }
    rewrite EB. destruct (S (length xs) mod 10 =? 0)%nat eqn:EM.
    + pose proof (dot_mean A _ _ _ _ F1) as DM.
      destruct (dot A (table A) b1 (e_i1 e) 0 decim_len (dZ A 0)) as [d| |]; cbn [bind] in DM |- *; try discriminate DM.
      assert (DV : ddiv A d (gain A) = mean A (dZ A target) (dZ A x :: kept 10 (map (dZ A) xs))) by congruence. rewrite DV.
      assert (S2 : exists b2, store (e_b2 e) (e_i2 e) (mean A (dZ A target) (dZ A x :: kept 10 (map (dZ A) xs))) = Ok b2).
      { unfold store. rewrite I2, L2. eexists. reflexivity. }
      destruct S2 as (b2 & S2). rewrite S2. cbn [bind Z.eqb]. rewrite (store_load _ _ _ _ S2). cbn [bind].
      eexists. split; [reflexivity|]. unfold state_of. cbn [e_cfg e_target e_coeff e_accum e_count e_b1 e_i1 e_b2 e_i2].
      assert (FE : filtered A FeResponsive target (x :: xs) = mean A (dZ A target) (dZ A x :: kept 10 (map (dZ A) xs)) :: filtered A FeResponsive target xs).
      { unfold filtered. cbn [map decimate length]. rewrite map_length, EM. reflexivity. }
      rewrite FE. cbn [errors control]. rewrite <- EA, ET.
      split; [reflexivity|]. split; [reflexivity|]. split; [reflexivity|]. split; [reflexivity|].
      split; [reflexivity|]. split; [|split; [rewrite (store_len _ _ _ _ S2); exact L2|exact I2]].
      cbn [map]. rewrite kept_cons, map_length, EM. eapply full_stay. exact F1.
    + eexists. split; [reflexivity|]. unfold state_of. cbn [e_cfg e_target e_coeff e_accum e_count e_b1 e_i1 e_b2 e_i2].
      assert (FE : filtered A FeResponsive target (x :: xs) = filtered A FeResponsive target xs).
      { unfold filtered. cbn [map decimate length]. rewrite map_length, EM. reflexivity. }
      rewrite FE. split; [reflexivity|]. split; [exact ET|]. split; [exact EF|]. split; [exact EA|].
      split; [reflexivity|]. split; [|split; [exact L2|exact I2]].
      cbn [map]. rewrite kept_cons, map_length, EM. rewrite next_idx by (apply R1). apply full_next. exact F1.
  - destruct HP as (CN & R1 & R2). rewrite CN.
    set (zs := decimate (fun ys => mean A (dZ A target) (line 100 ys)) (map (dZ A) xs)) in *.
    assert (ZL : length zs = (length xs / 10)%nat) by (unfold zs; rewrite decimate_len, map_length; reflexivity).
    assert (SZ : sz (Z.of_nat (length xs) mod 100 + 1) = Z.of_nat (length xs) mod 100 + 1) by (unfold sz; rewrite Z.mod_small; lia). rewrite SZ.
    destruct (store_full _ _ _ _ (dZ A x) R1) as (b1 & S1 & F1). rewrite S1. cbn [bind].
    cbn [make_config c_f1 c_f2 c_P c_I]. unfold decim_max.
    assert (EB : ((Z.of_nat (length xs) mod 100 + 1) mod 10 =? 0) = (S (length xs) mod 10 =? 0)%nat).
    { destruct (Z.eqb_spec ((Z.of_nat (length xs) mod 100 + 1) mod 10) 0); destruct (Nat.eqb_spec (S (length xs) mod 10) 0); auto; exfalso; clear - n e0; lia. }
    assert (EB2 : ((Z.of_nat (length xs) mod 100 + 1) mod (10 * 10) =? 0) = (S (length xs) mod 100 =? 0)%nat).
    { change (10 * 10) with 100. destruct (Z.eqb_spec ((Z.of_nat (length xs) mod 100 + 1) mod 100) 0); destruct (Nat.eqb_spec (S (length xs) mod 100) 0); auto; exfalso; clear - n e0; lia. }
    rewrite EB, EB2. destruct (S (length xs) mod 10 =? 0)%nat eqn:EM.
    + pose proof (dot_mean A _ _ _ _ F1) as DM.
      destruct (dot A (table A) b1 (e_i1 e) 0 decim_len (dZ A 0)) as [d| |]; cbn [bind] in DM |- *; try discriminate DM.
      set (z := mean A (dZ A target) (dZ A x :: kept 100 (map (dZ A) xs))) in *.
      assert (DV : ddiv A d (gain A) = z) by congruence. rewrite DV.
      destruct (store_full _ _ _ _ z R2) as (b2 & S2 & F2). rewrite S2. cbn [bind Z.eqb].
      assert (ZE : decimate (fun ys => mean A (dZ A target) (line 100 ys)) (map (dZ A) (x :: xs)) = z :: zs).
      { cbn [map decimate length]. rewrite map_length, EM. reflexivity. }
      assert (LZ : (length (z :: zs) mod 10 =? 0)%nat = (S (length xs) mod 100 =? 0)%nat).
      { cbn [length]. rewrite ZL. apply Nat.eqb_eq in EM.
        destruct (Nat.eqb_spec (S (length xs / 10) mod 10) 0); destruct (Nat.eqb_spec (S (length xs) mod 100) 0); auto; exfalso; clear - n e0 EM; lia. }
      destruct (S (length xs) mod 100 =? 0)%nat eqn:EH.
      * pose proof (dot_mean A _ _ _ _ F2) as DM2.
        destruct (dot A (table A) b2 (e_i2 e) 0 decim_len (dZ A 0)) as [d2| |]; cbn [bind] in DM2 |- *; try discriminate DM2.
        assert (DV2 : ddiv A d2 (gain A) = mean A (dZ A target) (z :: kept 10 zs)) by congruence. rewrite DV2.
        eexists. split; [reflexivity|]. unfold state_of. cbn [e_cfg e_target e_coeff e_accum e_count e_b1 e_i1 e_b2 e_i2].
        assert (FE : filtered A FeGradual target (x :: xs) = mean A (dZ A target) (z :: kept 10 zs) :: filtered A FeGradual target xs).
        { unfold filtered. rewrite ZE. cbn [decimate]. rewrite LZ. reflexivity. }
        rewrite FE. cbn [errors control]. rewrite <- EA, ET.
        split; [reflexivity|]. split; [reflexivity|]. split; [reflexivity|]. split; [reflexivity|].
        split. { cbn [length]. apply Nat.eqb_eq in EH. clear - EH. lia. }
        split.
        { cbn [map]. rewrite kept_cons, map_length, EH. eapply full_stay. exact F1. }
        rewrite ZE. rewrite kept_cons. cbn [length] in LZ. rewrite LZ. eapply full_stay. exact F2.
      * eexists. split; [reflexivity|]. unfold state_of. cbn [e_cfg e_target e_coeff e_accum e_count e_b1 e_i1 e_b2 e_i2].
        assert (FE : filtered A FeGradual target (x :: xs) = filtered A FeGradual target xs).
        { unfold filtered. rewrite ZE. cbn [decimate]. rewrite LZ. reflexivity. }
        rewrite FE. split; [reflexivity|]. split; [exact ET|]. split; [exact EF|]. split; [exact EA|].
        split. { cbn [length]. apply Nat.eqb_neq in EH. clear - EH. lia. }
        split.
        { cbn [map]. rewrite kept_cons, map_length, EH. rewrite next_idx by (apply R1). apply full_next. exact F1. }
        rewrite ZE. rewrite kept_cons. cbn [length] in LZ. rewrite LZ. rewrite next_idx by (apply R2). apply full_next. exact F2.
    + eexists. split; [reflexivity|]. unfold state_of. cbn [e_cfg e_target e_coeff e_accum e_count e_b1 e_i1 e_b2 e_i2].
      assert (ZE : decimate (fun ys => mean A (dZ A target) (line 100 ys)) (map (dZ A) (x :: xs)) = zs).
      { cbn [map decimate length]. rewrite map_length, EM. reflexivity. }
      assert (EH : (S (length xs) mod 100 =? 0)%nat = false).
      { apply Nat.eqb_neq in EM. apply Nat.eqb_neq. clear - EM. lia. }
      assert (FE : filtered A FeGradual target (x :: xs) = filtered A FeGradual target xs).
      { unfold filtered. rewrite ZE. reflexivity. }
      rewrite FE. split; [reflexivity|]. split; [exact ET|]. split; [exact EF|]. split; [exact EA|].
      split. { cbn [length]. apply Nat.eqb_neq in EH. clear - EH. lia. }
      split.
      { cbn [map]. rewrite kept_cons, map_length, EH. rewrite next_idx by (apply R1). apply full_next. exact F1. }
      rewrite ZE. exact R2.
Qed.

Lemma run_app A e xs ys : fe_run A e (xs ++ ys) = (e1 <- fe_run A e xs ;; fe_run A e1 ys).
Proof.
  revert e. induction xs as [|x xs IH]; intros e; [reflexivity|]. cbn [app fe_run]. destruct (fe_update A e x); cbn [bind]; auto.
Qed.

Lemma run_state A p target xs : Z.of_nat (length xs) < 2 ^ 64 -> exists e0 e, fe_new A p target = Ok e0 /\ fe_run A e0 (rev xs) = Ok e /\ state_of A p target e xs.
Proof.
  destruct (new_state A p target) as (e0 & N & S0). intros H. exists e0. 
  induction xs as [|x xs IH].
  - exists e0. auto.
  - cbn [length] in H. destruct IH as (e & _ & R & S); [lia|]. destruct (update_state A p target e xs x ltac:(lia) S) as (e' & U & S').
    exists e'. split; [exact N|]. split; [|exact S']. cbn [rev]. rewrite run_app, R. cbn [bind fe_run]. rewrite U. reflexivity.
Qed.
