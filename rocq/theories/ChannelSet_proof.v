From Verif Require Import Base Base_lemmas ChannelSet_model ChannelSet_spec.

Lemma bit_test : forall n m, 0 <= n -> Z.testbit (bit n) m = (m =? n).
Proof.
  intros n m H. unfold bit. rewrite Z.shiftl_1_l. destruct (Z.ltb_spec m 0).
  - rewrite Z.testbit_neg_r by lia. symmetry. apply Z.eqb_neq. lia.
  - rewrite Z.pow2_bits_eqb by lia. apply Z.eqb_sym.
Qed.

Lemma land_bit : forall w n, 0 <= n -> negb (Z.land w (bit n) =? 0) = Z.testbit w n.
Proof.
  intros w n H. destruct (Z.testbit w n) eqn:T.
  - apply negb_true_iff, Z.eqb_neq. intros E. assert (X : Z.testbit (Z.land w (bit n)) n = true) by (rewrite Z.land_spec, T, bit_test, Z.eqb_refl; auto; lia).
    rewrite E, Z.bits_0 in X. discriminate.
  - apply negb_false_iff, Z.eqb_eq. apply Z.bits_inj'. intros m Hm. rewrite Z.land_spec, bit_test, Z.bits_0 by lia.
    destruct (Z.eqb_spec m n) as [->|]; [now rewrite T|apply andb_false_r].
Qed.

Definition words_ok (ws : list Z) : Prop := length ws = num_words /\ Forall (fun w => 0 <= w < 2 ^ 64) ws.
(** Bit [c] of a word array. *)
Definition wbit (ws : list Z) (c : Z) : bool := Z.testbit (word ws c) (c mod 64).

Lemma word_idx : forall c, 0 <= c < 1024 -> (Z.to_nat (c / 64) < 16)%nat.
Proof. intros. lia. Qed.

Lemma no_words_ok : words_ok no_words.
Proof. split; [reflexivity|]. repeat constructor; lia. Qed.
Lemma wbit_no : forall c, wbit no_words c = false.
Proof. intros. unfold wbit, word, no_words. rewrite nth_repeat. apply Z.bits_0. Qed.

Lemma upd_ok : forall ws i w, words_ok ws -> 0 <= w < 2 ^ 64 -> words_ok (upd ws i w).
Proof.
  intros ws i w [L F] W. split; [now rewrite length_upd|]. apply Forall_forall. intros x Hx. apply In_nth_error in Hx. destruct Hx as [j Hj].
  rewrite Forall_forall in F. destruct (Nat.eq_dec j i) as [->|N].
  - assert (i < length ws)%nat by (rewrite <- (length_upd ws i w); apply nth_error_Some; congruence).
    rewrite nth_error_upd_eq in Hj by auto. congruence.
  - rewrite nth_error_upd_neq in Hj by congruence. apply F. eapply nth_error_In; eauto.
Qed.

Lemma nth_upd_z : forall (ws : list Z) i j w, (i < length ws)%nat -> nth j (upd ws i w) 0 = if Nat.eqb j i then w else nth j ws 0.
Proof.
  intros ws i j w H. destruct (Nat.eqb_spec j i) as [E|N].
  - subst j. apply nth_error_nth. now apply nth_error_upd_eq.
  - destruct (nth_error ws j) as [x|] eqn:E.
    + rewrite (nth_error_nth _ _ 0 E). apply nth_error_nth. now rewrite nth_error_upd_neq by congruence.
    + apply nth_error_None in E. rewrite !nth_overflow; auto. now rewrite length_upd.
Qed.

Lemma word_range : forall ws n, words_ok ws -> 0 <= word ws n < 2 ^ 64.
Proof.
  intros ws n [L F]. unfold word. rewrite Forall_forall in F. destruct (nth_in_or_default (Z.to_nat (n / word_bits)) ws 0) as [X| ->]; [auto|lia].
Qed.

Lemma bits_lt : forall w n, 0 <= n -> (forall m, n <= m -> Z.testbit w m = false) -> 0 <= w -> w < 2 ^ n.
Proof.
  intros w n N H W. destruct (Z.eq_dec w 0) as [->|NZ]; [apply Z.pow_pos_nonneg; lia|].
  destruct (Z.lt_ge_cases w (2 ^ n)) as [|G]; auto. exfalso.
  assert (L : n <= Z.log2 w) by (apply Z.log2_le_pow2; lia).
  assert (X : Z.testbit w (Z.log2 w) = true) by (apply Z.bit_log2; lia). rewrite H in X; [discriminate|auto].
Qed.
Lemma lt_bits : forall w n m, 0 <= w < 2 ^ n -> n <= m -> Z.testbit w m = false.
Proof.
  intros w n m W L. destruct (Z.eq_dec w 0) as [->|NZ]; [apply Z.bits_0|]. apply Z.bits_above_log2; [lia|].
  assert (Z.log2 w < n) by (apply Z.log2_lt_pow2; lia). lia.
Qed.

Lemma set_bit_ok : forall ws n, words_ok ws -> 0 <= n < 1024 -> words_ok (set_bit ws n).
Proof.
  intros ws n W N. apply upd_ok; auto. pose proof (word_range ws n W) as R.
  assert (P : 0 <= Z.lor (word ws n) (bit (n mod word_bits))).
  { apply Z.lor_nonneg. split; [lia|]. unfold bit. apply Z.shiftl_nonneg. lia. }
  split; auto. apply bits_lt; auto; [lia|]. intros m Hm. rewrite Z.lor_spec, (lt_bits _ 64 m R Hm), bit_test by (unfold word_bits; lia).
  cbn. apply Z.eqb_neq. unfold word_bits. lia.
Qed.
Lemma clr_bit_ok : forall ws n, words_ok ws -> 0 <= n < 1024 -> words_ok (clr_bit ws n).
Proof.
  intros ws n W N. apply upd_ok; auto. pose proof (word_range ws n W) as R.
  assert (P : 0 <= Z.ldiff (word ws n) (bit (n mod word_bits))) by (apply Z.ldiff_nonneg; lia).
  split; auto. apply bits_lt; auto; [lia|]. intros m Hm. rewrite Z.ldiff_spec, (lt_bits _ 64 m R Hm). reflexivity.
Qed.

Lemma idx_eq : forall c n, 0 <= c -> 0 <= n -> (Z.to_nat (c / 64) =? Z.to_nat (n / 64))%nat = (c / 64 =? n / 64).
Proof. intros. destruct (Nat.eqb_spec (Z.to_nat (c / 64)) (Z.to_nat (n / 64))), (Z.eqb_spec (c / 64) (n / 64)); auto; lia. Qed.
Lemma pos_eq : forall c n, (c / 64 =? n / 64) && (c mod 64 =? n mod 64) = (c =? n).
Proof. intros. destruct (Z.eqb_spec (c / 64) (n / 64)), (Z.eqb_spec (c mod 64) (n mod 64)), (Z.eqb_spec c n); cbn; auto; subst; try congruence; lia. Qed.

Lemma set_bit_spec : forall ws n c, words_ok ws -> 0 <= n < 1024 -> 0 <= c -> wbit (set_bit ws n) c = (c =? n) || wbit ws c.
Proof.
  intros ws n c [L F] N C. unfold wbit, word, set_bit, set_word, word_bits. rewrite nth_upd_z by (rewrite L; apply word_idx; auto).
  rewrite idx_eq by lia. rewrite <- (pos_eq c n). destruct (Z.eqb_spec (c / 64) (n / 64)) as [E|E]; cbn [andb]; auto.
  rewrite Z.lor_spec, bit_test by lia. rewrite orb_comm. unfold word, word_bits. now rewrite E.
Qed.
Lemma clr_bit_spec : forall ws n c, words_ok ws -> 0 <= n < 1024 -> 0 <= c -> wbit (clr_bit ws n) c = negb (c =? n) && wbit ws c.
Proof.
  intros ws n c [L F] N C. unfold wbit, word, clr_bit, set_word, word_bits. rewrite nth_upd_z by (rewrite L; apply word_idx; auto).
  rewrite idx_eq by lia. rewrite <- (pos_eq c n). destruct (Z.eqb_spec (c / 64) (n / 64)) as [E|E]; cbn [andb negb]; auto.
  rewrite Z.ldiff_spec, bit_test by lia. rewrite andb_comm. unfold word, word_bits. now rewrite E.
Qed.

Lemma range_set : forall k ws n c, words_ok ws -> 0 <= n -> n + Z.of_nat k <= 1024 -> 0 <= c ->
  words_ok (range_loop set_bit ws n k) /\ wbit (range_loop set_bit ws n k) c = ((n <=? c) && (c <? n + Z.of_nat k)) || wbit ws c.
Proof.
  induction k as [|k IH]; intros ws n c W N K C; cbn [range_loop].
  - split; auto. replace ((n <=? c) && (c <? n + Z.of_nat 0)) with false; auto. symmetry. apply andb_false_iff. destruct (Z.leb_spec n c); auto. right. apply Z.ltb_ge. lia.
  - destruct (IH (set_bit ws n) (n + 1) c) as [A B]; try lia; [apply set_bit_ok; auto; lia|].
    split; auto. rewrite B, set_bit_spec by (auto; lia). destruct (wbit ws c); [now rewrite !orb_true_r|]. rewrite !orb_false_r.
    destruct (Z.leb_spec (n + 1) c), (Z.ltb_spec c (n + 1 + Z.of_nat k)), (Z.eqb_spec c n), (Z.leb_spec n c), (Z.ltb_spec c (n + Z.of_nat (S k))); cbn; auto; lia.
Qed.
Lemma range_clr : forall k ws n c, words_ok ws -> 0 <= n -> n + Z.of_nat k <= 1024 -> 0 <= c ->
  words_ok (range_loop clr_bit ws n k) /\ wbit (range_loop clr_bit ws n k) c = negb ((n <=? c) && (c <? n + Z.of_nat k)) && wbit ws c.
Proof.
  induction k as [|k IH]; intros ws n c W N K C; cbn [range_loop].
  - split; auto. replace ((n <=? c) && (c <? n + Z.of_nat 0)) with false; auto. symmetry. apply andb_false_iff. destruct (Z.leb_spec n c); auto. right. apply Z.ltb_ge. lia.
  - destruct (IH (clr_bit ws n) (n + 1) c) as [A B]; try lia; [apply clr_bit_ok; auto; lia|].
    split; auto. rewrite B, clr_bit_spec by (auto; lia). destruct (wbit ws c); [|now rewrite !andb_false_r]. rewrite !andb_true_r.
    destruct (Z.leb_spec (n + 1) c), (Z.ltb_spec c (n + 1 + Z.of_nat k)), (Z.eqb_spec c n), (Z.leb_spec n c), (Z.ltb_spec c (n + Z.of_nat (S k))); cbn; auto; lia.
Qed.

(** Scan of a bit sequence. *)
Definition visit (m : Z -> bool) (a : ixs) (c : Z) : ixs :=
  let '(num, has, first, last, nch) := a in
  if m c then (u16 (num + 1), true, (if has then first else u16 nch), u16 nch, nch + 1) else (num, has, first, last, nch + 1).

Definition zrange (n k : nat) : list Z := map Z.of_nat (seq n k).

Lemma index_word_visit : forall w m n a, (forall b, 0 <= b < 64 -> m (Z.of_nat n + b) = Z.testbit w b) ->
  index_word a w = fold_left (visit m) (zrange n 64) a.
Proof.
  intros w m n a H. unfold index_word. destruct (Z.eqb_spec w 0) as [->|NZ].
  - unfold zrange. assert (G : forall k j a, (j + k <= n + 64)%nat -> (n <= j)%nat -> fold_left (visit m) (map Z.of_nat (seq j k)) a =
      let '(num, has, first, last, nch) := a in (num, has, first, last, nch + Z.of_nat k)).
    { induction k as [|k IH]; intros j [[[[num has] first] last] nch] J1 J2; cbn [seq map fold_left]; [now rewrite Z.add_0_r|].
      unfold visit at 2. replace (Z.of_nat j) with (Z.of_nat n + (Z.of_nat j - Z.of_nat n)) by lia. rewrite H by lia. rewrite Z.bits_0.
      rewrite IH by lia. f_equal. lia. }
    rewrite G by lia. destruct a as [[[[num has] first] last] nch]. reflexivity.
  - unfold zrange. assert (G : forall k j a, (j + k <= 64)%nat -> fold_left (index_bit w) (map Z.of_nat (seq j k)) a = fold_left (visit m) (map Z.of_nat (seq (n + j) k)) a).
    { induction k as [|k IH]; intros j b J; cbn [seq map fold_left]; auto.
      replace (S (n + j)) with (n + S j)%nat by lia. rewrite <- IH by lia. f_equal.
      destruct b as [[[[num has] first] last] nch]. cbn [index_bit visit].
      replace (Z.of_nat (n + j)) with (Z.of_nat n + Z.of_nat j) by lia. rewrite H by lia. rewrite <- land_bit by lia.
      destruct (Z.land w (bit (Z.of_nat j)) =? 0); reflexivity. }
    rewrite (G 64%nat 0%nat) by lia. now rewrite Nat.add_0_r.
Qed.

Lemma index_words_visit : forall ws m n a,
  (forall i b, (i < length ws)%nat -> 0 <= b < 64 -> m (Z.of_nat n + 64 * Z.of_nat i + b) = Z.testbit (nth i ws 0) b) ->
  fold_left index_word ws a = fold_left (visit m) (zrange n (64 * length ws)) a.
Proof.
  induction ws as [|w ws IH]; intros m n a H; [reflexivity|].
  cbn [fold_left length]. rewrite (index_word_visit w m n).
  - replace (64 * S (length ws))%nat with (64 + 64 * length ws)%nat by lia. unfold zrange. rewrite seq_app, map_app, fold_left_app.
    rewrite <- (IH m (n + 64)%nat); [reflexivity|]. intros i b Hi Hb. assert (X := H (S i) b ltac:(cbn [length]; lia) Hb). cbn [nth] in X. rewrite <- X. f_equal. lia.
  - intros b Hb. assert (X := H 0%nat b ltac:(cbn [length]; lia) Hb). cbn [nth] in X. rewrite <- X. f_equal. lia.
Qed.

Lemma last_snoc : forall {A} (l : list A) x d, last (l ++ [x]) d = x.
Proof. induction l as [|a l IH]; intros x d; cbn; auto. rewrite IH. destruct (l ++ [x]) eqn:E; auto. destruct l; discriminate. Qed.

Lemma visit_all : forall m k, (k <= Z.to_nat 1024)%nat -> let l := filter m (zrange 0 k) in
  fold_left (visit m) (zrange 0 k) (0, false, 0, 0, 0) = (Z.of_nat (length l), negb (Nat.eqb (length l) 0), hd 0 l, last l 0, Z.of_nat k).
Proof.
  intros m k. induction k as [|k IH]; intros K l; [reflexivity|]. subst l.
  assert (E : zrange 0 (S k) = zrange 0 k ++ [Z.of_nat k]) by (unfold zrange; rewrite seq_S, map_app; reflexivity).
  rewrite E, fold_left_app, IH by lia. rewrite filter_app. cbn [fold_left visit filter].
  set (l := filter m (zrange 0 k)).
  assert (LE : (length l <= k)%nat).
  { unfold l. transitivity (length (zrange 0 k)); [|unfold zrange; rewrite map_length, seq_length; lia].
    clear. induction (zrange 0 k) as [|x r IH]; cbn; auto. destruct (m x); cbn; lia. }
  destruct (m (Z.of_nat k)) eqn:M.
  - rewrite last_snoc, app_length. cbn [length]. unfold u16. rewrite !wrapu_small by lia.
    replace (Z.of_nat (length l + 1)) with (Z.of_nat (length l) + 1) by lia.
    replace (Z.of_nat (S k)) with (Z.of_nat k + 1) by lia.
    replace (Nat.eqb (length l + 1) 0) with false by (symmetry; apply Nat.eqb_neq; lia).
    destruct l; reflexivity.
  - rewrite app_nil_r. replace (Z.of_nat (S k)) with (Z.of_nat k + 1) by lia. reflexivity.
Qed.

Lemma index_spec : forall ws l o, words_ok ws -> let cs := filter (wbit ws) (zrange 0 (Z.to_nat 1024)) in
  index ws l o = mkCh ws (Z.of_nat (length cs)) (hd 0 cs) (last cs 0) l o.
Proof.
  intros ws l o [L F] cs. unfold index.
  rewrite (index_words_visit ws (wbit ws) 0%nat).
  - rewrite L. change (64 * num_words)%nat with (Z.to_nat 1024). rewrite visit_all by lia. reflexivity.
  - intros i b Hi Hb. unfold wbit, word, word_bits. replace (Z.of_nat 0 + 64 * Z.of_nat i + b) with (Z.of_nat i * 64 + b) by lia.
    rewrite Z.div_add_l, Z.div_small, Z.add_0_r, Nat2Z.id by lia. rewrite Z.add_comm, Z.mod_add, Z.mod_small by lia. reflexivity.
Qed.

Definition ok (s : chset) : Prop :=
  words_ok (ch_words s) /\ s = index (ch_words s) (ch_layout s) (ch_order s).

Lemma index_ok : forall ws l o, words_ok ws -> ok (index ws l o).
Proof. intros ws l o W. unfold ok. pose proof (index_spec ws l o W) as E. cbv zeta in E. rewrite E. cbn [ch_words ch_layout ch_order]. split; auto. Qed.
Lemma index_words : forall ws l o, words_ok ws -> ch_words (index ws l o) = ws.
Proof. intros ws l o W. pose proof (index_spec ws l o W) as E. cbv zeta in E. now rewrite E. Qed.

Lemma map2_ok : forall f a b, words_ok a -> words_ok b -> (forall x y, 0 <= x < 2 ^ 64 -> 0 <= y < 2 ^ 64 -> 0 <= f x y < 2 ^ 64) -> words_ok (map2 f a b).
Proof.
  intros f a b [La Fa] [Lb Fb] H. split; [unfold map2; rewrite map_length, combine_length; lia|].
  unfold map2. apply Forall_forall. intros x Hx. apply in_map_iff in Hx. destruct Hx as ([u v] & <- & Hp).
  rewrite Forall_forall in Fa, Fb. apply H; [apply Fa; eapply in_combine_l|apply Fb; eapply in_combine_r]; eauto.
Qed.
Lemma map2_nth : forall f a b i, length a = length b -> (i < length a)%nat -> nth i (map2 f a b) 0 = f (nth i a 0) (nth i b 0).
Proof.
  intros f a b i L H. unfold map2. rewrite (nth_indep _ 0 (f 0 0)) by (rewrite map_length, combine_length; lia).
  rewrite (map_nth (fun p => f (fst p) (snd p)) (combine a b) (0, 0)). rewrite combine_nth by auto. reflexivity.
Qed.
Lemma wbit_map2 : forall f g a b c, words_ok a -> words_ok b -> 0 <= c < 1024 ->
  (forall x y n, Z.testbit (f x y) n = g (Z.testbit x n) (Z.testbit y n)) -> wbit (map2 f a b) c = g (wbit a c) (wbit b c).
Proof.
  intros f g a b c [La _] [Lb _] C H. unfold wbit, word. rewrite map2_nth; [apply H|congruence|]. rewrite La. apply word_idx. auto.
Qed.
Lemma op_range : forall f g, (forall x y n, Z.testbit (f x y) n = g (Z.testbit x n) (Z.testbit y n)) -> g false false = false ->
  (forall x y, 0 <= x -> 0 <= y -> 0 <= f x y) -> forall x y, 0 <= x < 2 ^ 64 -> 0 <= y < 2 ^ 64 -> 0 <= f x y < 2 ^ 64.
Proof.
  intros f g H G P x y X Y. split; [apply P; lia|]. apply bits_lt; [lia| |apply P; lia].
  intros m Hm. rewrite H, (lt_bits _ _ _ X Hm), (lt_bits _ _ _ Y Hm). auto.
Qed.
Definition land_range := op_range Z.land andb Z.land_spec eq_refl.
Definition lor_range := op_range Z.lor orb Z.lor_spec eq_refl.
Definition lxor_range := op_range Z.lxor xorb Z.lxor_spec eq_refl.
Lemma and_ok : forall a b, words_ok a -> words_ok b -> words_ok (map2 Z.land a b).
Proof. intros. apply map2_ok; auto. apply land_range. intros. apply Z.land_nonneg. auto. Qed.
Lemma or_ok : forall a b, words_ok a -> words_ok b -> words_ok (map2 Z.lor a b).
Proof. intros. apply map2_ok; auto. apply lor_range. intros. apply Z.lor_nonneg. auto. Qed.
Lemma xor_ok : forall a b, words_ok a -> words_ok b -> words_ok (map2 Z.lxor a b).
Proof. intros. apply map2_ok; auto. apply lxor_range. intros. apply Z.lxor_nonneg. intuition lia. Qed.

Lemma mask_ok : forall mask, 0 <= mask < 2 ^ 32 -> words_ok (upd no_words 0 mask).
Proof. intros. apply upd_ok; [apply no_words_ok|]. lia. Qed.

Lemma set_mask_spec : forall s mask, 0 <= mask < 2 ^ 32 -> ok (ch_set_mask s mask).
Proof. intros. apply index_ok, mask_ok. auto. Qed.

Lemma set_range_ok : forall s from to s', 0 <= from -> 0 <= to -> ch_set_range s from to = Ok s' -> ok s'.
Proof.
  intros s from to s' F T H. unfold ch_set_range, max_chans in H. destruct (Z.leb_spec 1024 from); [discriminate|]. destruct (Z.leb_spec 1024 to); [discriminate|].
  cbn [orb] in H. destruct (Z.ltb_spec to from); [discriminate|].
  assert (X : s' = reindex s (range_loop set_bit no_words from (Z.to_nat (to - from + 1)))) by congruence. rewrite X. apply index_ok.
  apply (range_set _ no_words from 0 no_words_ok); lia.
Qed.

Lemma built_ok : forall s, built s -> ok s.
Proof.
  induction 1.
  - apply index_ok, no_words_ok.
  - unfold ch_make in H0. destruct (layout_eqb l LNone); [discriminate|]. match type of H0 with (if ?c then _ else _) = _ => destruct c end; [discriminate|].
    destruct (mask =? 0); [discriminate|]. assert (X : s = index (upd no_words 0 mask) l o) by congruence. rewrite X. apply index_ok, mask_ok. auto.
  - unfold ch_set_layout in H0. destruct (layout_eqb l LNone); [discriminate|]. injection H0 as <-.
    destruct IHbuilt as [W E]. split; cbn; auto. pose proof (index_spec _ (ch_layout s) (ch_order s) W) as I1. pose proof (index_spec _ l (ch_order s) W) as I2. cbv zeta in I1, I2.
    rewrite I2. rewrite I1 in E. rewrite E at 2 3 4. reflexivity.
  - destruct IHbuilt as [W E]. split; cbn; auto. pose proof (index_spec _ (ch_layout s) (ch_order s) W) as I1. pose proof (index_spec _ (ch_layout s) o W) as I2. cbv zeta in I1, I2.
    unfold ch_set_order. rewrite I2. rewrite I1 in E. rewrite E at 2 3 4. reflexivity.
  - now apply set_mask_spec.
  - eapply set_range_ok; [| |eauto]; auto.
  - unfold ch_set_count in H1. destruct (max_chans <=? n); [discriminate|].
    do 8 (match type of H1 with (if ?c then _ else _) = _ => destruct c end; [injection H1 as <-; apply set_mask_spec; vm_compute; split; congruence|]).
    destruct (Z.eq_dec n 0) as [->|]; [cbn in H1; discriminate|]. eapply set_range_ok; [| |eauto]; lia.
  - unfold ch_toggle, max_chans in H1. destruct (Z.leb_spec 1024 n); [discriminate|].
    match type of H1 with Ok ?y = Ok ?x => assert (X : x = y) by congruence end. rewrite X. apply index_ok. destruct IHbuilt. destruct e; [apply set_bit_ok|apply clr_bit_ok]; auto.
  - unfold ch_toggle_range, max_chans in H2. destruct (Z.leb_spec 1024 from); [discriminate|]. destruct (Z.leb_spec 1024 to); [discriminate|].
    cbn [orb] in H2. destruct (Z.ltb_spec to from); [discriminate|].
    match type of H2 with Ok ?y = Ok ?x => assert (X : x = y) by congruence end. rewrite X. apply index_ok. destruct IHbuilt. destruct e; [apply (range_set _ _ from 0)|apply (range_clr _ _ from 0)]; auto; lia.
  - apply index_ok, and_ok; [apply IHbuilt1|apply IHbuilt2].
  - apply index_ok, or_ok; [apply IHbuilt1|apply IHbuilt2].
  - apply index_ok, xor_ok; [apply IHbuilt1|apply IHbuilt2].
Qed.

Lemma mem_wbit : forall s c, 0 <= c -> mem s c = (c <? 1024) && wbit (ch_words s) c.
Proof.
  intros s c C. unfold mem, has_channel, max_chans. destruct (Z.leb_spec 1024 c), (Z.ltb_spec c 1024); try lia; auto.
  rewrite land_bit; [reflexivity|unfold word_bits; lia].
Qed.

Lemma members_eq : forall s, members s = filter (wbit (ch_words s)) (zrange 0 (Z.to_nat 1024)).
Proof.
  intros s. unfold members, zrange. apply filter_ext_in. intros c H. apply in_map_iff in H. destruct H as (n & <- & Hn). apply in_seq in Hn.
  rewrite mem_wbit by lia. replace (Z.of_nat n <? 1024) with true by lia. reflexivity.
Qed.

Lemma ok_index : forall s, ok s -> ch_num s = Z.of_nat (length (members s)) /\ ch_first s = hd 0 (members s) /\ ch_last s = last (members s) 0.
Proof.
  intros s [W E]. pose proof (index_spec _ (ch_layout s) (ch_order s) W) as I1. cbv zeta in I1. rewrite <- members_eq in I1. rewrite I1 in E. rewrite E at 1 3 5. auto.
Qed.

Lemma in_members : forall s c, In c (members s) <-> 0 <= c < 1024 /\ mem s c = true.
Proof.
  intros s c. unfold members. rewrite filter_In, in_map_iff. split.
  - intros [(n & <- & Hn) M]. apply in_seq in Hn. split; auto. lia.
  - intros [R M]. split; auto. exists (Z.to_nat c). split; [lia|]. apply in_seq. lia.
Qed.

Lemma sorted_members : forall m n k, let l := filter m (zrange n k) in
  l <> [] -> In (hd 0 l) l /\ In (last l 0) l /\ (forall c, In c l -> hd 0 l <= c <= last l 0).
Proof.
  intros m n k. revert n. induction k as [|k IH]; intros n l N; [destruct N; reflexivity|]. subst l.
  change (zrange n (S k)) with (Z.of_nat n :: zrange (S n) k) in *. cbn [filter] in *.
  assert (LB : forall c, In c (filter m (zrange (S n) k)) -> Z.of_nat n < c).
  { intros c H. apply filter_In in H. destruct H as [H _]. apply in_map_iff in H. destruct H as (j & <- & Hj). apply in_seq in Hj. lia. }
  specialize (IH (S n)). cbv zeta in IH.
  destruct (m (Z.of_nat n)) eqn:M; [|apply IH; auto].
  destruct (filter m (zrange (S n) k)) as [|x r] eqn:E.
  - cbn. split; auto. split; auto. intros c [->|[]]. lia.
  - destruct IH as (A & B & C); [discriminate|].
    change (last (Z.of_nat n :: x :: r) 0) with (last (x :: r) 0). cbn [hd].
    split; [now left|]. split; [now right|]. intros c [<-|H].
    + pose proof (LB _ B). lia.
    + pose proof (LB _ H). pose proof (C _ H). lia.
Qed.

Lemma wbit_mask : forall mask c, 0 <= mask < 2 ^ 32 -> 0 <= c -> wbit (upd no_words 0 mask) c = Z.testbit mask c.
Proof.
  intros mask c M C. unfold wbit, word, word_bits. rewrite nth_upd_z by (cbn; lia).
  destruct (Nat.eqb_spec (Z.to_nat (c / 64)) 0) as [E|E].
  - rewrite Z.mod_small by lia. reflexivity.
  - unfold no_words. rewrite nth_repeat, Z.bits_0. symmetry. apply (lt_bits _ 32); auto. lia.
Qed.

Lemma word0 : forall s c, 0 <= c < 64 -> Z.testbit (word (ch_words s) 0) c = mem s c.
Proof.
  intros s c H. rewrite mem_wbit by lia. replace (c <? 1024) with true by lia. cbn [andb]. unfold wbit, word, word_bits.
  rewrite Z.mod_small by lia. replace (c / 64) with 0 by lia. reflexivity.
Qed.

Lemma last_ge64 : forall s, ok s -> (64 <= ch_last s <-> exists c, 64 <= c < 1024 /\ mem s c = true).
Proof.
  intros s O. destruct (ok_index s O) as (_ & _ & L). rewrite L. split.
  - intros H. destruct (members s) as [|x r] eqn:E; [cbn in H; lia|].
    exists (last (members s) 0). rewrite E in *. assert (I : In (last (x :: r) 0) (members s)).
    { rewrite E. pose proof (sorted_members (wbit (ch_words s)) 0 (Z.to_nat 1024)) as S. cbv zeta in S. rewrite <- members_eq, E in S. apply S. discriminate. }
    apply in_members in I. split; [lia|tauto].
  - intros (c & Hc & M). assert (I : In c (members s)) by (apply in_members; split; auto; lia).
    pose proof (sorted_members (wbit (ch_words s)) 0 (Z.to_nat 1024)) as S. cbv zeta in S. rewrite <- members_eq in S.
    destruct S as (_ & _ & S); [intros X; now rewrite X in I|]. specialize (S c I). lia.
Qed.

Lemma words_ext : forall a b, words_ok a -> words_ok b -> (forall c, 0 <= c < 1024 -> wbit a c = wbit b c) -> a = b.
Proof.
  intros a b [La Fa] [Lb Fb] H. apply (nth_ext a b 0 0); [congruence|]. intros i Hi.
  assert (I16 : (i < 16)%nat) by (rewrite La in Hi; exact Hi).
  apply Z.bits_inj'. intros n Hn. destruct (Z.lt_ge_cases n 64).
  - specialize (H (Z.of_nat i * 64 + n)). unfold wbit, word, word_bits in H.
    rewrite Z.div_add_l, Z.div_small, Z.add_0_r, Nat2Z.id in H by lia. rewrite Z.add_comm, Z.mod_add, Z.mod_small in H by lia. apply H. lia.
  - rewrite Forall_forall in Fa, Fb. rewrite !(lt_bits _ 64); auto; [apply Fb|apply Fa]; apply nth_In; rewrite ?La, ?Lb; auto.
Qed.

Lemma words_eqb_spec : forall a b, words_eqb a b = true <-> a = b.
Proof.
  intros a b. unfold words_eqb. rewrite andb_true_iff, Nat.eqb_eq. revert b. induction a as [|x a IH]; intros [|y b]; cbn; split; try (intros []; congruence); try discriminate; auto.
  - intros [L F]. apply andb_true_iff in F. destruct F as [E F]. apply Z.eqb_eq in E. f_equal; auto. apply IH. split; auto.
  - intros E. injection E as -> ->. split; auto. rewrite Z.eqb_refl. apply (IH b). auto.
Qed.
