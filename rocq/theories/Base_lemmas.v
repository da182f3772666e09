(** Lemmas about [Base]. *)
From Verif Require Import Base.

Lemma wrapu_range n x : 0 <= n -> 0 <= wrapu n x < 2 ^ n.
Proof. intros; unfold wrapu. apply Z.mod_pos_bound. apply Z.pow_pos_nonneg; lia. Qed.

Lemma wrapu_small n x : 0 <= x < 2 ^ n -> wrapu n x = x.
Proof. intros; unfold wrapu; apply Z.mod_small; assumption. Qed.

Lemma pow2_split n : 0 < n -> 2 ^ n = 2 * 2 ^ (n - 1).
Proof. intros. replace n with (Z.succ (n - 1)) at 1 by lia. rewrite Z.pow_succ_r; lia. Qed.

Lemma wraps_range n x : 0 < n -> - 2 ^ (n - 1) <= wraps n x < 2 ^ (n - 1).
Proof.
  intros Hn. unfold wraps. pose proof (pow2_split n Hn) as E.
  assert (0 < 2 ^ (n - 1)) by (apply Z.pow_pos_nonneg; lia).
  pose proof (Z.mod_pos_bound x (2 ^ n) ltac:(lia)).
  cbv zeta. destruct (Z.ltb_spec (x mod 2 ^ n) (2 ^ (n - 1))); lia.
Qed.

Lemma wraps_small n x : 0 < n -> - 2 ^ (n - 1) <= x < 2 ^ (n - 1) -> wraps n x = x.
Proof.
  intros Hn Hx. unfold wraps. pose proof (pow2_split n Hn) as E.
  assert (0 < 2 ^ (n - 1)) by (apply Z.pow_pos_nonneg; lia).
  cbv zeta. destruct (Z.leb_spec 0 x).
  - rewrite (Z.mod_small x) by lia. destruct (Z.ltb_spec x (2 ^ (n - 1))); lia.
  - assert (x mod 2 ^ n = x + 2 ^ n) as ->.
    { symmetry. apply (Z.mod_unique_pos x (2 ^ n) (-1)); lia. }
    destruct (Z.ltb_spec (x + 2 ^ n) (2 ^ (n - 1))); lia.
Qed.

Lemma wraps_mod n x : 0 < n -> (wraps n x) mod 2 ^ n = x mod 2 ^ n.
Proof.
  intros Hn. unfold wraps. cbv zeta.
  assert (0 < 2 ^ n) by (apply Z.pow_pos_nonneg; lia).
  destruct (Z.ltb_spec (x mod 2 ^ n) (2 ^ (n - 1))).
  - apply Z.mod_mod; lia.
  - replace (x mod 2 ^ n - 2 ^ n) with (x mod 2 ^ n + (-1) * 2 ^ n) by lia.
    rewrite Z_mod_plus_full. apply Z.mod_mod; lia.
Qed.

Lemma wraps_mod_eq n x y : x mod 2 ^ n = y mod 2 ^ n -> wraps n x = wraps n y.
Proof. unfold wraps. intros ->. reflexivity. Qed.

Lemma wraps_wrapu n x : 0 <= n -> wraps n (wrapu n x) = wraps n x.
Proof. intros. apply wraps_mod_eq. unfold wrapu. apply Z.mod_mod. pose proof (Z.pow_pos_nonneg 2 n); lia. Qed.

Lemma length_upd {A} (l : list A) i x : length (upd l i x) = length l.
Proof. revert i; induction l as [|h t IH]; intros [|i]; cbn; auto. Qed.

Lemma nth_error_upd_eq {A} (l : list A) i x :
  (i < length l)%nat -> nth_error (upd l i x) i = Some x.
Proof. revert i; induction l as [|h t IH]; intros [|i]; cbn; intros; try lia; auto. apply IH; lia. Qed.

Lemma nth_error_upd_neq {A} (l : list A) i j x :
  i <> j -> nth_error (upd l i x) j = nth_error l j.
Proof. revert i j; induction l as [|h t IH]; intros [|i] [|j]; cbn; intros; try lia; auto. Qed.

Lemma upd_out {A} (l : list A) i x : (length l <= i)%nat -> upd l i x = l.
Proof. revert i; induction l as [|h t IH]; intros [|i]; cbn; intros; try lia; auto. rewrite IH; auto; lia. Qed.

Lemma upd_app_l {A} (l1 l2 : list A) i x :
  (i < length l1)%nat -> upd (l1 ++ l2) i x = upd l1 i x ++ l2.
Proof. revert i; induction l1 as [|h t IH]; intros [|i]; cbn; intros; try lia; auto. rewrite IH; auto; lia. Qed.

Lemma upd_app_r {A} (l1 l2 : list A) i x :
  (length l1 <= i)%nat -> upd (l1 ++ l2) i x = l1 ++ upd l2 (i - length l1) x.
Proof. revert i; induction l1 as [|h t IH]; intros [|i]; cbn; intros; try lia; auto. rewrite IH; auto; lia. Qed.

Lemma upd_split {A} (l : list A) i x y :
  nth_error l i = Some y -> upd l i x = firstn i l ++ x :: skipn (S i) l.
Proof. revert i; induction l as [|h t IH]; intros [|i]; cbn; intros; try discriminate; auto. erewrite IH; eauto. Qed.

Lemma nth_error_ext {A} (l1 l2 : list A) :
  (forall i, nth_error l1 i = nth_error l2 i) -> l1 = l2.
Proof.
  revert l2; induction l1 as [|a t IH]; intros [|b t2] H; auto.
  - specialize (H O); discriminate.
  - specialize (H O); discriminate.
  - f_equal. { specialize (H O); cbn in H; congruence. }
    apply IH. intros i. apply (H (S i)).
Qed.

Lemma byte_of_range x k : byte_ok (byte_of x k).
Proof. unfold byte_ok, byte_of. apply Z.mod_pos_bound; lia. Qed.

Lemma be16_put16 x : 0 <= x < 65536 -> be16 (byte_of x 1) (byte_of x 0) = x.
Proof.
  intros. unfold be16, byte_of.
  change (2 ^ (8 * 1)) with 256. change (2 ^ (8 * 0)) with 1. lia.
Qed.

Lemma be32_put32 x : 0 <= x < 2 ^ 32 ->
  be32 (byte_of x 3) (byte_of x 2) (byte_of x 1) (byte_of x 0) = x.
Proof.
  intros. unfold be32, byte_of.
  change (2 ^ (8 * 3)) with 16777216. change (2 ^ (8 * 2)) with 65536.
  change (2 ^ (8 * 1)) with 256. change (2 ^ (8 * 0)) with 1.
  change (2 ^ 32) with 4294967296 in *.
  assert (x / 65536 = x / 256 / 256) as ->.
  { rewrite Z.div_div by lia. reflexivity. }
  assert (x / 16777216 = x / 256 / 256 / 256) as ->.
  { rewrite !Z.div_div by lia. reflexivity. }
  rewrite Z.div_1_r.
  pose proof (Z.div_mod x 256 ltac:(lia)) as E0.
  pose proof (Z.div_mod (x / 256) 256 ltac:(lia)) as E1.
  pose proof (Z.div_mod (x / 256 / 256) 256 ltac:(lia)) as E2.
  assert (x / 256 / 256 / 256 < 256).
  { rewrite !Z.div_div by lia. apply Z.div_lt_upper_bound; lia. }
  assert (0 <= x / 256 / 256 / 256) by (rewrite !Z.div_div by lia; apply Z.div_pos; lia).
  rewrite (Z.mod_small (x / 256 / 256 / 256)) by lia. lia.
Qed.

Lemma bind_ok {A B} (r : res A) (f : A -> res B) b :
  bind r f = Ok b -> exists a, r = Ok a /\ f a = Ok b.
Proof. destruct r; cbn; intros; try discriminate. eauto. Qed.

Lemma rd_ok {A} (l : list A) i : (i < length l)%nat -> exists a, rd l i = Ok a.
Proof.
  intros H. unfold rd. destruct (nth_error l i) eqn:E; eauto.
  apply nth_error_None in E. lia.
Qed.

Lemma rd_lt {A} (l : list A) i a : rd l i = Ok a -> (i < length l)%nat.
Proof. unfold rd. destruct (nth_error l i) eqn:E; try discriminate. intros _. apply nth_error_Some. congruence. Qed.

Lemma skipn_skipn {A} (x y : nat) (l : list A) : skipn x (skipn y l) = skipn (x + y) l.
Proof.
  revert x l. induction y as [|y IH]; intros x l.
  - rewrite Nat.add_0_r. reflexivity.
  - destruct l as [|a l].
    + rewrite !skipn_nil. reflexivity.
    + cbn [skipn]. rewrite IH. rewrite Nat.add_succ_r. reflexivity.
Qed.

Lemma concat_nil_Forall {A} (l : list (list A)) : Forall (fun x => x = []) l -> concat l = [].
Proof. induction 1; cbn; auto. subst. auto. Qed.

Lemma nth_error_repeat_lt {A} (x : A) n i : (i < n)%nat -> nth_error (repeat x n) i = Some x.
Proof. revert i; induction n as [|n IH]; intros [|i] H; cbn; try lia; auto. apply IH; lia. Qed.

(** Disjoint bit fields: "or" is addition. *)
Lemma lor_shiftl_add a b n : 0 <= n -> 0 <= b < 2 ^ n -> Z.lor (Z.shiftl a n) b = a * 2 ^ n + b.
Proof.
  intros Hn Hb.
  assert (E : Z.land (Z.shiftl a n) b = 0).
  { apply Z.bits_inj'. intros i Hi. rewrite Z.land_spec, Z.bits_0.
    destruct (Z.ltb_spec i n).
    - rewrite Z.shiftl_spec_low by lia. reflexivity.
    - replace b with (b mod 2 ^ n) by (apply Z.mod_small; auto).
      rewrite Z.mod_pow2_bits_high by lia. apply andb_false_r. }
  rewrite <- Z.lxor_lor, <- Z.add_nocarry_lxor by exact E.
  rewrite Z.shiftl_mul_pow2 by lia. reflexivity.
Qed.

Lemma land_255 x : Z.land x 255 = x mod 256.
Proof. change 255 with (Z.ones 8). rewrite Z.land_ones by lia. reflexivity. Qed.

Lemma shiftr_div x n : 0 <= n -> Z.shiftr x n = x / 2 ^ n.
Proof. intros. apply Z.shiftr_div_pow2. auto. Qed.

Lemma nth_error_firstn {A} (n i : nat) (l : list A) :
  nth_error (firstn n l) i = if (i <? n)%nat then nth_error l i else None.
Proof.
  revert n l. induction i as [|i IH]; intros [|n] [|x l]; try reflexivity.
  - cbn [firstn nth_error]. destruct (S i <? S n)%nat; reflexivity.
  - cbn [firstn nth_error]. rewrite IH. reflexivity.
Qed.

Lemma nth_error_skipn {A} (n i : nat) (l : list A) : nth_error (skipn n l) i = nth_error l (n + i).
Proof.
  revert l. induction n as [|n IH]; intros [|x l]; try reflexivity.
  - cbn. destruct i; reflexivity.
  - cbn. apply IH.
Qed.
