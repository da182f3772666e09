(** Lemmas about the matrices of the channel mapper. *)
From Coq Require Import QArith Permutation Lqa.
From Verif Require Import Base Base_lemmas ChannelSet_model ChanMap_tables ChanMap_model.
Open Scope Z_scope.

Definition inr (c : Z) : Prop := 0 <= c < 17.
Definition sumQ {A} (f : A -> Q) (l : list A) : Q := fold_right (fun a s => f a + s)%Q 0%Q l.

Lemma sumQ_cons {A} (f : A -> Q) a l : sumQ f (a :: l) = (f a + sumQ f l)%Q.
Proof. reflexivity. Qed.
Lemma sumQ_nil {A} (f : A -> Q) : sumQ f [] = 0%Q.
Proof. reflexivity. Qed.
Lemma sumQ_ext {A} (f g : A -> Q) l : (forall a, In a l -> f a == g a)%Q -> (sumQ f l == sumQ g l)%Q.
Proof. induction l; intros H; [reflexivity|]. rewrite !sumQ_cons, (H a), IHl; [reflexivity| |now left]. intros; apply H; now right. Qed.
Lemma sumQ_zero {A} (f : A -> Q) l : (forall a, In a l -> f a == 0)%Q -> (sumQ f l == 0)%Q.
Proof. induction l; intros H; [reflexivity|]. rewrite !sumQ_cons, (H a), IHl; [reflexivity| |now left]. intros; apply H; now right. Qed.
Lemma sumQ_perm {A} (f : A -> Q) l l' : Permutation l l' -> (sumQ f l == sumQ f l')%Q.
Proof. induction 1; rewrite ?sumQ_cons; try reflexivity; [now rewrite IHPermutation|lra|etransitivity; eauto]. Qed.
Lemma sumQ_map {A B} (f : B -> Q) (g : A -> B) l : sumQ f (map g l) = sumQ (fun a => f (g a)) l.
Proof. induction l; [reflexivity|]. cbn [map]. now rewrite !sumQ_cons, IHl. Qed.
Lemma sumQ_div {A} (f : A -> Q) l s : (sumQ (fun a => f a / s) l == sumQ f l / s)%Q.
Proof. induction l; [rewrite !sumQ_nil; unfold Qdiv; ring|]. rewrite !sumQ_cons, IHl. unfold Qdiv. ring. Qed.
Lemma sumQ_nonneg {A} (f : A -> Q) l : (forall a, In a l -> 0 <= f a)%Q -> (0 <= sumQ f l)%Q.
Proof.
  induction l; intros H; [rewrite sumQ_nil; lra|]. rewrite sumQ_cons. pose proof (H a (or_introl eq_refl)).
  assert (0 <= sumQ f l)%Q by (apply IHl; intros; apply H; now right). lra.
Qed.
Lemma sumQ_le1 {A} (f : A -> Q) l a : (forall a, In a l -> 0 <= f a)%Q -> In a l -> (f a <= sumQ f l)%Q.
Proof.
  induction l as [|b l IH]; intros H I; [destruct I|]. rewrite sumQ_cons.
  assert (0 <= sumQ f l)%Q by (apply sumQ_nonneg; intros; apply H; now right).
  pose proof (H b (or_introl eq_refl)). destruct I as [->|I]; [lra|].
  assert (f a <= sumQ f l)%Q by (apply IH; auto; intros; apply H; now right). lra.
Qed.
Lemma sumQ_pos {A} (f : A -> Q) l a : (forall a, In a l -> 0 <= f a)%Q -> In a l -> (0 < f a)%Q -> (0 < sumQ f l)%Q.
Proof. intros. pose proof (sumQ_le1 f l a H H0). lra. Qed.
Lemma sumQ_zero_inv {A} (f : A -> Q) l : (forall a, In a l -> 0 <= f a)%Q -> (sumQ f l == 0)%Q -> forall a, In a l -> (f a == 0)%Q.
Proof. intros H E a I. pose proof (sumQ_le1 f l a H I). pose proof (H a I). lra. Qed.

Lemma in_chans c : In c chans <-> inr c.
Proof. unfold inr, chans. cbn. split; [intros H; repeat (destruct H as [<-|H]; [lia|]); tauto|]. intros H. lia. Qed.
Lemma len_chans : length chans = 17%nat. Proof. reflexivity. Qed.
Lemma nth_chans c : inr c -> nth_error chans (Z.to_nat c) = Some c.
Proof.
  intros H. assert (E : chans = map Z.of_nat (seq 0 17)) by reflexivity. rewrite E, nth_error_map.
  rewrite nth_error_nth' with (d := 0%nat) by (rewrite seq_length; unfold inr in H; lia).
  rewrite seq_nth by (unfold inr in H; lia). cbn. f_equal. unfold inr in H. lia.
Qed.
Lemma nth_map_chans {B} (f : Z -> B) d c : inr c -> nth (Z.to_nat c) (map f chans) d = f c.
Proof. intros H. apply nth_error_nth. now rewrite nth_error_map, nth_chans. Qed.

Definition wf (m : mat) : Prop := length m = 17%nat /\ Forall (fun r => length r = 17%nat) m.
Lemma get_tab f o i : inr o -> inr i -> get (tab f) o i = f o i.
Proof. intros O I. unfold get, tab. rewrite nth_map_chans by auto. now rewrite nth_map_chans. Qed.
Lemma wf_tab f : wf (tab f).
Proof. split; [reflexivity|]. unfold tab. apply Forall_forall. intros r H. apply in_map_iff in H as (o & <- & _). now rewrite map_length. Qed.
Lemma wf_row m o : wf m -> inr o -> length (nth (Z.to_nat o) m []) = 17%nat.
Proof. intros [L F] O. rewrite Forall_forall in F. apply F. apply nth_In. unfold inr in O. lia. Qed.

Lemma row_sum_acc r s : (fold_left (fun s x => Qred (s + x)) r s == s + sumQ (fun x => x) r)%Q.
Proof. revert s. induction r as [|x r IH]; intros s; cbn [fold_left]; [rewrite sumQ_nil; lra|]. rewrite IH, Qred_correct, sumQ_cons. lra. Qed.
Lemma row_sum_sum r : (row_sum r == sumQ (fun x => x) r)%Q.
Proof. unfold row_sum. rewrite row_sum_acc. lra. Qed.

Lemma list_chans (r : list Q) : length r = 17%nat -> r = map (fun i => nth (Z.to_nat i) r 0%Q) chans.
Proof.
  intros L. do 17 (destruct r as [|? r]; [discriminate L|]). destruct r; [|discriminate L]. reflexivity.
Qed.
Lemma row_sum_get m o : wf m -> inr o -> (row_sum (nth (Z.to_nat o) m []) == sumQ (get m o) chans)%Q.
Proof.
  intros W O. rewrite row_sum_sum. rewrite (list_chans _ (wf_row m o W O)) at 1. rewrite sumQ_map. reflexivity.
Qed.
Lemma nth_norm m o : wf m -> inr o -> nth (Z.to_nat o) (normalize m) [] = norm_row (nth (Z.to_nat o) m []).
Proof.
  intros [L _] O. unfold normalize. rewrite nth_indep with (d' := norm_row []) by (rewrite map_length; unfold inr in O; lia).
  apply map_nth.
Qed.
Lemma get_norm m o i : wf m -> inr o -> inr i ->
  ((sumQ (get m o) chans == 0)%Q -> get (normalize m) o i = get m o i) /\
  (~ (sumQ (get m o) chans == 0)%Q -> (get (normalize m) o i == get m o i / sumQ (get m o) chans)%Q).
Proof.
  intros W O I. unfold get at 2 5. rewrite nth_norm by auto. unfold norm_row. cbv zeta.
  pose proof (row_sum_get m o W O) as E. destruct (Qeq_bool _ 0) eqn:B.
  - apply Qeq_bool_eq in B. split; [reflexivity|]. intros N. contradict N. now rewrite <- E.
  - apply Qeq_bool_neq in B. split; [intros N; contradict B; now rewrite E|]. intros _.
    rewrite nth_indep with (d' := Qred (0 / row_sum (nth (Z.to_nat o) m []))) by (rewrite map_length, wf_row; auto; unfold inr in I; lia).
    rewrite (map_nth (fun x => Qred (x / row_sum (nth (Z.to_nat o) m [])))). rewrite Qred_correct, E. reflexivity.
Qed.
Lemma wf_norm m : wf m -> wf (normalize m).
Proof.
  intros [L F]. split; [unfold normalize; now rewrite map_length|]. unfold normalize. apply Forall_forall. intros r H.
  apply in_map_iff in H as (x & <- & I). rewrite Forall_forall in F. unfold norm_row. cbv zeta.
  destruct (Qeq_bool _ 0); [|rewrite map_length]; auto.
Qed.

Definition nn (m : mat) : Prop := forall o i, inr o -> inr i -> (0 <= get m o i)%Q.
Definition avg (m : mat) : Prop := forall o, inr o -> (sumQ (get m o) chans == 1)%Q \/ forall i, inr i -> (get m o i == 0)%Q.
Definition supp (m : mat) (inp : Z) : Prop := forall o i, inr o -> inr i -> has inp i = false -> (get m o i == 0)%Q.

Lemma norm_nn m : wf m -> nn m -> nn (normalize m).
Proof.
  intros W N o i O I. destruct (get_norm m o i W O I) as [A B].
  assert (P : (0 <= sumQ (get m o) chans)%Q) by (apply sumQ_nonneg; intros a J; apply N; auto; now apply in_chans).
  destruct (Qeq_dec (sumQ (get m o) chans) 0) as [E|E]; [rewrite A; auto|]. rewrite B by auto.
  apply Qle_shift_div_l; [lra|]. rewrite Qmult_0_l. auto.
Qed.
Lemma norm_avg m : wf m -> nn m -> avg (normalize m).
Proof.
  intros W N o O. destruct (Qeq_dec (sumQ (get m o) chans) 0) as [E|E].
  - right. intros i I. destruct (get_norm m o i W O I) as [A _]. rewrite A by auto.
    apply (sumQ_zero_inv (get m o) chans); auto; [|now apply in_chans]. intros a J. apply N; auto. now apply in_chans.
  - left. rewrite (sumQ_ext _ (fun i => get m o i / sumQ (get m o) chans)%Q).
    + rewrite sumQ_div. field. auto.
    + intros i I. apply in_chans in I. destruct (get_norm m o i W O I) as [_ B]. auto.
Qed.
Lemma norm_zero m o i : wf m -> inr o -> inr i -> (get m o i == 0)%Q -> (get (normalize m) o i == 0)%Q.
Proof.
  intros W O I Z. destruct (get_norm m o i W O I) as [A B]. destruct (Qeq_dec (sumQ (get m o) chans) 0) as [E|E]; [rewrite A; auto|].
  rewrite B, Z by auto. unfold Qdiv. lra.
Qed.
Lemma norm_pos m o i : wf m -> nn m -> inr o -> inr i -> (0 < get m o i)%Q -> (0 < get (normalize m) o i)%Q.
Proof.
  intros W N O I P. destruct (get_norm m o i W O I) as [A B].
  assert (S : (0 < sumQ (get m o) chans)%Q).
  { apply (sumQ_pos (get m o) chans i); auto; [|now apply in_chans]. intros a J. apply N; auto. now apply in_chans. }
  rewrite B by lra. apply Qlt_shift_div_l; auto. lra.
Qed.
Lemma norm_supp m inp : wf m -> supp m inp -> supp (normalize m) inp.
Proof. intros W S o i O I H. apply norm_zero; auto. Qed.

(** Combining. *)
Lemma comb_fold prev next o p l s :
  (fold_left (fun s n => if Qeq_bool (get next o n) 0 then s
                         else if Qeq_bool (get prev n p) 0 then s
                         else Qred (s + get next o n * get prev n p)) l s ==
   s + sumQ (fun n => get next o n * get prev n p) l)%Q.
Proof.
  revert s. induction l as [|n l IH]; intros s; cbn [fold_left]; [rewrite sumQ_nil; lra|].
  rewrite IH, sumQ_cons.
  destruct (Qeq_bool (get next o n) 0) eqn:A.
  { apply Qeq_bool_eq in A. rewrite A. lra. }
  destruct (Qeq_bool (get prev n p) 0) eqn:B.
  { apply Qeq_bool_eq in B. rewrite B. lra. }
  rewrite Qred_correct. lra.
Qed.
Definition comb0 (prev next : mat) : mat := tab (fun o p =>
    fold_left (fun s n => if Qeq_bool (get next o n) 0 then s
                          else if Qeq_bool (get prev n p) 0 then s
                          else Qred (s + get next o n * get prev n p)%Q) chans 0%Q).
Lemma combine_comb0 prev next : combine_maps prev next = normalize (comb0 prev next).
Proof. reflexivity. Qed.
Lemma get_comb0 prev next o p : inr o -> inr p -> (get (comb0 prev next) o p == sumQ (fun n => get next o n * get prev n p) chans)%Q.
Proof. intros O P. unfold comb0. rewrite get_tab by auto. rewrite comb_fold. lra. Qed.
Lemma comb0_nn prev next : nn prev -> nn next -> nn (comb0 prev next).
Proof.
  intros A B o i O I. rewrite get_comb0 by auto. apply sumQ_nonneg. intros n J. apply in_chans in J.
  apply Qmult_le_0_compat; auto.
Qed.
Lemma comb0_supp prev next inp : supp prev inp -> supp (comb0 prev next) inp.
Proof.
  intros S o i O I H. rewrite get_comb0 by auto. apply sumQ_zero. intros n J. apply in_chans in J. rewrite (S n i); auto. lra.
Qed.
Lemma comb0_pos prev next c : nn prev -> nn next -> inr c -> (0 < get prev c c)%Q -> (0 < get next c c)%Q -> (0 < get (comb0 prev next) c c)%Q.
Proof.
  intros A B C P N. rewrite get_comb0 by auto. apply (sumQ_pos _ chans c); [|now apply in_chans|].
  - intros n J. apply in_chans in J. apply Qmult_le_0_compat; auto.
  - cbv beta. nra.
Qed.

(** Filling from a table. *)
Lemma nth_same {A} (l l' : list A) i d : nth_error l i = nth_error l' i -> nth i l d = nth i l' d.
Proof. intros H. rewrite <- !nth_default_eq. unfold nth_default. now rewrite H. Qed.
Lemma get_put m o i q o' i' : wf m -> inr o -> inr i -> inr o' -> inr i' ->
  get (put m o i q) o' i' = if (o =? o') && (i =? i') then q else get m o' i'.
Proof.
  intros W O I O' I'. destruct W as [L F]. pose proof (wf_row m o (conj L F) O) as R.
  unfold get, put. destruct (Z.eqb_spec o o') as [<-|N].
  - assert (E : nth (Z.to_nat o) (upd m (Z.to_nat o) (upd (nth (Z.to_nat o) m []) (Z.to_nat i) q)) [] = upd (nth (Z.to_nat o) m []) (Z.to_nat i) q).
    { apply nth_error_nth. apply nth_error_upd_eq. unfold inr in O. lia. }
    rewrite E. cbn [andb]. destruct (Z.eqb_spec i i') as [<-|N'].
    + apply nth_error_nth. apply nth_error_upd_eq. unfold inr in I. lia.
    + assert (X : nth_error (upd (nth (Z.to_nat o) m []) (Z.to_nat i) q) (Z.to_nat i') = nth_error (nth (Z.to_nat o) m []) (Z.to_nat i')).
      { apply nth_error_upd_neq. unfold inr in *. lia. }
      now apply nth_same.
  - cbn [andb]. f_equal. 
    assert (X : nth_error (upd m (Z.to_nat o) (upd (nth (Z.to_nat o) m []) (Z.to_nat i) q)) (Z.to_nat o') = nth_error m (Z.to_nat o')).
    { apply nth_error_upd_neq. unfold inr in *. lia. }
    now apply nth_same.
Qed.
Lemma Forall_upd {A} (P : A -> Prop) l i x : Forall P l -> P x -> Forall P (upd l i x).
Proof. revert i. induction l; intros i F H; destruct i; cbn; auto; pose proof (Forall_inv F); pose proof (Forall_inv_tail F); constructor; auto. Qed.
Lemma wf_put m o i q : wf m -> inr o -> wf (put m o i q).
Proof.
  intros [L F] O. unfold put. split; [now rewrite length_upd|]. apply Forall_upd; auto. rewrite length_upd. apply (wf_row m o); auto. split; auto.
Qed.
Lemma wf_zero : wf zero_mat. Proof. apply wf_tab. Qed.
Lemma get_zero o i : inr o -> inr i -> get zero_mat o i = 0%Q. Proof. intros. unfold zero_mat. now rewrite get_tab. Qed.

Definition rules_ok (rs : list (Z * Z * Q)) : Prop := Forall (fun r => inr (fst (fst r)) /\ inr (snd (fst r)) /\ (0 < snd r)%Q) rs.
Lemma fill_rules_nn rs m : rules_ok rs -> wf m -> nn m -> wf (fill_rules rs m) /\ nn (fill_rules rs m).
Proof.
  revert m. induction rs as [|[[o i] q] rs IH]; intros m R W N; cbn; auto.
  pose proof (Forall_inv R) as (O & I & Q). cbn in O, I, Q. apply Forall_inv_tail in R.
  destruct (Qeq_bool q 0) eqn:B; auto. apply IH; auto; [apply wf_put; auto|].
  intros o' i' O' I'. rewrite get_put by auto. destruct ((o =? o') && (i =? i')); [lra|auto].
Qed.

Definition tmat (t : table) : mat := normalize (fill_rules (t_rules t) zero_mat).
Definition fill0 (t : table) (down : bool) (inp out : Z) : mat := tab (fun o i =>
    if negb (has out o) || negb (has inp i) then 0%Q
    else if down then get (tmat t) o i else get (tmat t) i o).
Lemma fill_fill0 t down inp out : fill t down inp out = normalize (fill0 t down inp out).
Proof. reflexivity. Qed.
Lemma tmat_nn t : rules_ok (t_rules t) -> wf (tmat t) /\ nn (tmat t).
Proof.
  intros R. destruct (fill_rules_nn _ zero_mat R wf_zero) as [W N]; [intros o i O I; rewrite get_zero by auto; lra|].
  unfold tmat. split; [apply wf_norm|apply norm_nn]; auto.
Qed.
Lemma get_fill0 t down inp out o i : inr o -> inr i -> get (fill0 t down inp out) o i =
    if negb (has out o) || negb (has inp i) then 0%Q
    else if down then get (tmat t) o i else get (tmat t) i o.
Proof. intros. unfold fill0. now rewrite get_tab. Qed.
Lemma fill0_nn t down inp out : rules_ok (t_rules t) -> nn (fill0 t down inp out).
Proof.
  intros R o i O I. rewrite get_fill0 by auto. destruct (tmat_nn t R) as [_ N]. destruct (negb _ || negb _); [lra|]. destruct down; auto.
Qed.
Lemma fill0_supp t down inp out : supp (fill0 t down inp out) inp.
Proof. intros o i O I H. rewrite get_fill0 by auto. rewrite H. rewrite orb_true_r. reflexivity. Qed.

Definition good (m : mat) (inp : Z) : Prop := wf m /\ nn m /\ avg m /\ supp m inp.
Lemma good_fill t down inp out : rules_ok (t_rules t) -> good (fill t down inp out) inp.
Proof.
  intros R. rewrite fill_fill0. pose proof (wf_tab (fun o i =>
    if negb (has out o) || negb (has inp i) then 0%Q
    else if down then get (tmat t) o i else get (tmat t) i o)) as W. fold (fill0 t down inp out) in W.
  pose proof (fill0_nn t down inp out R) as N.
  split; [apply wf_norm; auto|]. split; [apply norm_nn; auto|]. split; [apply norm_avg; auto|]. apply norm_supp; auto. apply fill0_supp.
Qed.
Lemma good_comb prev next inp x : good prev inp -> good next x -> good (combine_maps prev next) inp.
Proof.
  intros (W & N & A & S) (W' & N' & A' & S'). rewrite combine_comb0.
  assert (W0 : wf (comb0 prev next)) by apply wf_tab. pose proof (comb0_nn prev next N N') as N0.
  split; [apply wf_norm; auto|]. split; [apply norm_nn; auto|]. split; [apply norm_avg; auto|]. apply norm_supp; auto. apply comb0_supp; auto.
Qed.
Lemma get_fallback o i : inr o -> inr i -> get fallback o i = if o =? i then 1%Q else 0%Q.
Proof. intros. unfold fallback. now rewrite get_tab. Qed.

(** All rules of all tables are about channels below 17 and have positive coefficients. *)
Definition rules_okb (rs : list (Z * Z * Q)) : bool :=
  forallb (fun r => (0 <=? fst (fst r)) && (fst (fst r) <? 17) && (0 <=? snd (fst r)) && (snd (fst r) <? 17) && negb (Qle_bool (snd r) 0)) rs.
Lemma rules_okb_ok rs : rules_okb rs = true -> rules_ok rs.
Proof.
  unfold rules_okb, rules_ok. rewrite forallb_forall, Forall_forall. intros H r I. specialize (H r I).
  rewrite !andb_true_iff, negb_true_iff in H. destruct H as ((((A & B) & C) & D) & E). unfold inr.
  split; [lia|]. split; [lia|]. destruct (Qlt_le_dec 0 (snd r)) as [|G]; auto. apply Qle_bool_iff in G. congruence.
Qed.
Lemma tables_ok t : In t tables -> rules_ok (t_rules t).
Proof.
  assert (H : forallb (fun t => rules_okb (t_rules t)) tables = true) by (vm_compute; reflexivity).
  rewrite forallb_forall in H. intros I. apply rules_okb_ok. auto.
Qed.
