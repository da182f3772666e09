(** Playing a whole stream (C14). *)
From Coq Require Import Permutation.
From Verif Require Import Base Base_lemmas Seqnum_model Seqnum_proof RtpFilter_proof SortedQueue_model SortedQueue_proof MemLimiter_proof FecReader_model FecReader_spec FecReader_proof FecReaderRun_proof FecRecover_spec.
Open Scope res_scope.
Local Open Scope Z_scope.

(** * Queues of packets named by their places *)
Section Queue.
Variable g : place -> rpk.
Variable key : place -> Z.
Definition pcmp (x y : place) : Z := pk_cmp (g x) (g y).
Lemma insert_map x l : sq_insert pk_cmp (g x) (map g l) = option_map (map g) (sq_insert pcmp x l).
Proof.
  induction l as [|y l IH]; cbn; [reflexivity|]. unfold pcmp at 1 3. destruct (_ <? 0).
  - rewrite IH. destruct (sq_insert pcmp x l); reflexivity.
  - destruct (_ =? 0); reflexivity.
Qed.
Lemma write_map q x l : sq_list q = map g l -> sq_max q = O -> desc key l -> (forall y, In y l -> agree pcmp key x y) ->
  (forall y, In y l -> key y = key x -> y = x) ->
  exists l', sq_list (sq_write pk_cmp q (g x)) = map g l' /\ sq_max (sq_write pk_cmp q (g x)) = O /\ desc key l' /\ forall y, In y l' <-> y = x \/ In y l.
Proof.
  intros Eq Em D Ag Inj. unfold sq_write. rewrite Em. cbn [Nat.ltb Nat.leb andb]. rewrite Eq, insert_map.
  pose proof (insert_spec pcmp key x l D Ag) as H. destruct (sq_insert pcmp x l) as [l'|]; cbn [option_map sq_list sq_max].
  - destruct H as (_ & Hp & Hd). exists l'. splits; auto. intros y. split; intros Hy.
    + apply (Permutation_in _ Hp) in Hy. destruct Hy as [<- |Hy]; auto.
    + apply (Permutation_in _ (Permutation_sym Hp)). destruct Hy as [-> |Hy]; [left|right]; auto.
  - destruct H as (z & Hz & Ek). exists l. splits; auto. intros y. split; auto. intros [-> |Hy]; auto. rewrite <- (Inj z Hz Ek). exact Hz.
Qed.
Lemma head_map q l : sq_list q = map g l -> (l = [] /\ sq_head q = None) \/
  exists t x, l = t ++ [x] /\ sq_head q = Some (g x) /\ sq_list (fst (sq_read q)) = map g t /\ sq_max (fst (sq_read q)) = sq_max q.
Proof.
  intros E. unfold sq_head, sq_read. rewrite E. destruct (list_back_cases l) as [[-> _]|(t & x & -> & _ & _)]; [left; auto|right].
  exists t, x. rewrite map_app. cbn [map]. rewrite list_back_app, removelast_last. auto.
Qed.
End Queue.

(** * Counting *)
Lemma cnt_empty l : empty l -> cnt l = O.
Proof.
  induction l as [|[p|] l IH]; intros H; [reflexivity|exfalso; exact (H O p eq_refl)|]. unfold cnt. cbn. apply IH. intros i p Hi. exact (H (S i) p Hi).
Qed.
Lemma cnt_some l : (0 < cnt l)%nat -> exists i p, nth_error l i = Some (Some p).
Proof.
  induction l as [|[p|] l IH]; intros H; [inversion H|exists O, p; reflexivity|]. destruct IH as (i & p & Hi); [exact H|]. exists (S i), p. exact Hi.
Qed.
Lemma cnt_le l : (cnt l <= length l)%nat.
Proof. induction l as [|[p|] l IH]; unfold cnt in *; cbn; lia. Qed.
Lemma cnt_lt l i : nth_error l i = Some None -> (cnt l < length l)%nat.
Proof.
  revert i. induction l as [|[p|] l IH]; intros i H; [destruct i; discriminate| |].
  - destruct i; [discriminate|]. apply IH in H. unfold cnt in *. cbn. lia.
  - pose proof (cnt_le l). unfold cnt in *. cbn. lia.
Qed.
Lemma existsb_place x l : existsb (place_eqb x) l = true <-> In x l.
Proof.
  rewrite existsb_exists. split.
  - intros (y & Hy & E). unfold place_eqb in E. apply andb_prop in E as [E1 E2]. apply Nat.eqb_eq in E1, E2. destruct x, y; cbn in *; subst; auto.
  - intros H. exists x. split; auto. unfold place_eqb. rewrite !Nat.eqb_refl. reflexivity.
Qed.
Lemma among_cnt A b l : forall i, (forall k, (k < length l)%nat -> In (b, i + k)%nat A -> exists p, nth_error l k = Some (Some p)) ->
  (among A b i (length l) <= cnt l)%nat.
Proof.
  induction l as [|o l IH]; intros i H; [apply le_n|]. unfold among in *. cbn [length seq filter].
  specialize (IH (S i)). assert (G : (length (filter (fun k => existsb (place_eqb (b, k)) A) (seq (S i) (length l))) <= cnt l)%nat).
  { apply IH. intros k Hk Hin. destruct (H (S k)) as (p & Hp); [cbn; lia|replace (i + S k)%nat with (S i + k)%nat by lia; exact Hin|]. exists p. exact Hp. }
  destruct (existsb (place_eqb (b, i)) A) eqn:E.
  - apply existsb_place in E. destruct (H O) as (p & Hp); [cbn; lia|rewrite Nat.add_0_r; exact E|]. injection Hp as ->. unfold cnt in *. cbn. lia.
  - destruct o; unfold cnt in *; cbn; lia.
Qed.
Lemma among_zero A b i n : (forall k, (i <= k < i + n)%nat -> ~ In (b, k) A) -> among A b i n = O.
Proof.
  unfold among. revert i. induction n as [|n IH]; intros i H; [reflexivity|]. cbn [seq filter].
  destruct (existsb (place_eqb (b, i)) A) eqn:E; [apply existsb_place in E; exfalso; apply (H i); [lia|exact E]|]. apply IH. intros k Hk. apply H. lia.
Qed.

(** * Places *)
Section Places.
Variable s : sender.
Variable e : renv.
Variables s0 q0 : Z.
Hypothesis SD : sends s e s0 q0.
Notation first := (first s).
Notation index := (index s).
Notation len := (len s).
Lemma first_mono a b : (a <= b)%nat -> (first a + (b - a) <= first b)%nat.
Proof.
  induction b as [|b IH]; intros H; [replace a with O by lia; cbn; lia|]. destruct (Nat.eq_dec a (S b)) as [-> |]; [lia|]. cbn [FecRecover_spec.first].
  destruct (sd_len _ _ _ _ SD b) as ((Hl & _) & _). specialize (IH ltac:(lia)). lia.
Qed.
Lemma index_block x y : source_place s x -> source_place s y -> (index x <= index y)%nat -> (fst x <= fst y)%nat.
Proof.
  unfold source_place, FecRecover_spec.index. intros Hx Hy H. destruct (Nat.le_gt_cases (fst x) (fst y)); auto.
  pose proof (first_mono (S (fst y)) (fst x) ltac:(lia)) as M. cbn [FecRecover_spec.first] in M. lia.
Qed.
Lemma index_inj x y : source_place s x -> source_place s y -> index x = index y -> x = y.
Proof.
  intros Hx Hy H. assert (E : fst x = fst y) by (apply Nat.le_antisymm; apply index_block; auto; lia).
  unfold FecRecover_spec.index in H. rewrite E in H. destruct x, y; cbn in *; f_equal; lia.
Qed.
(** Blocks are not further apart than packets. *)
Lemma index_dist x y : source_place s x -> source_place s y -> Z.abs (Z.of_nat (fst x) - Z.of_nat (fst y)) <= Z.abs (Z.of_nat (index x) - Z.of_nat (index y)).
Proof.
  assert (G : forall x y, source_place s x -> source_place s y -> (fst x <= fst y)%nat -> Z.abs (Z.of_nat (fst x) - Z.of_nat (fst y)) <= Z.abs (Z.of_nat (index x) - Z.of_nat (index y))).
  { clear x y. unfold source_place, FecRecover_spec.index. intros x y Hx Hy H. destruct (Nat.eq_dec (fst x) (fst y)) as [-> |N]; [lia|].
    pose proof (first_mono (S (fst x)) (fst y) ltac:(lia)) as M. cbn [FecRecover_spec.first] in M. lia. }
  intros Hx Hy. destruct (Nat.le_gt_cases (fst x) (fst y)); [apply G; auto|]. rewrite <- (Z.abs_opp (_ - _)), <- (Z.abs_opp (Z.of_nat (index x) - _)).
  replace (- (Z.of_nat (fst x) - Z.of_nat (fst y))) with (Z.of_nat (fst y) - Z.of_nat (fst x)) by lia.
  replace (- (Z.of_nat (index x) - Z.of_nat (index y))) with (Z.of_nat (index y) - Z.of_nat (index x)) by lia. apply G; auto. lia.
Qed.
Definition skey (x : place) : Z := Z.of_nat (index x).
Definition rkey (x : place) : Z := Z.of_nat (fst x) * 2 ^ 64 + Z.of_nat (snd x).
Lemma agree_s x y : source_place s x -> source_place s y -> - 32768 < skey x - skey y < 32768 -> agree (pcmp (sp s)) skey x y.
Proof.
  intros Hx Hy H. unfold agree, pcmp, pk_cmp. destruct (sd_src _ _ _ _ SD x Hx) as (-> & _). destruct (sd_src _ _ _ _ SD y Hy) as (-> & _).
  rewrite rtp_compare_pos; [|unfold skey in H; lia]. f_equal. unfold skey. lia.
Qed.
Lemma agree_r x y : repair_place s x -> repair_place s y -> - 32768 < Z.of_nat (fst x) - Z.of_nat (fst y) < 32768 -> agree (pcmp (rp s)) rkey x y.
Proof.
  intros Hx Hy H. unfold agree, pcmp, pk_cmp. destruct (sd_rep _ _ _ _ SD x Hx) as (-> & ->). destruct (sd_rep _ _ _ _ SD y Hy) as (_ & ->).
  cbn [c_sbn c_esi]. destruct (sd_len _ _ _ _ SD (fst x)) as (_ & _ & Bx & _). destruct (sd_len _ _ _ _ SD (fst y)) as (_ & _ & By & _).
  unfold repair_place in *. rewrite fec_compare_pos by lia. f_equal. unfold rkey. lia.
Qed.
Lemma rkey_inj x y : repair_place s x -> repair_place s y -> rkey x = rkey y -> x = y.
Proof.
  intros Hx Hy H. destruct (sd_len _ _ _ _ SD (fst x)) as (_ & _ & Bx & _). destruct (sd_len _ _ _ _ SD (fst y)) as (_ & _ & By & _).
  unfold repair_place, rkey in *. change (2 ^ 64) with 18446744073709551616 in H. destruct x, y; cbn in *. f_equal; lia.
Qed.
Lemma rkey_block x y : repair_place s x -> repair_place s y -> rkey x <= rkey y -> (fst x <= fst y)%nat.
Proof.
  intros Hx Hy H. destruct (sd_len _ _ _ _ SD (fst x)) as (_ & _ & Bx & _). destruct (sd_len _ _ _ _ SD (fst y)) as (_ & _ & By & _).
  unfold repair_place, rkey in *. change (2 ^ 64) with 18446744073709551616 in H. lia.
Qed.
End Places.
