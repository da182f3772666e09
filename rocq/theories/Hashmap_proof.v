From Verif Require Import Base Base_lemmas Hashmap_model Hashmap_spec.
Open Scope res_scope.

Lemma rem_in n l x : In x (rem n l) <-> In x l /\ x <> n.
Proof. unfold rem. rewrite filter_In. split; intros [H1 H2]; split; auto; destruct (Nat.eqb_spec x n); cbn in *; congruence. Qed.
Lemma rem_nodup n l : NoDup l -> NoDup (rem n l).
Proof. apply NoDup_filter. Qed.
Lemma rem_out n l : ~ In n l -> rem n l = l.
Proof.
  induction l as [|x l IH]; cbn; intros H; [reflexivity|]. destruct (Nat.eqb_spec x n) as [->|]; [tauto|]. cbn. f_equal. apply IH. tauto.
Qed.
Lemma rem_length n l : NoDup l -> In n l -> (length (rem n l) + 1 = length l)%nat.
Proof.
  induction 1 as [|x l Hx Hn IH]; cbn; [tauto|]. intros [->|Hi].
  - rewrite Nat.eqb_refl. cbn. fold (rem n l). rewrite rem_out by exact Hx. lia.
  - destruct (Nat.eqb_spec x n) as [->|]; [tauto|]. cbn. fold (rem n l). specialize (IH Hi). lia.
Qed.

Lemma concat_upd {A} (l : list (list A)) j b b' : nth_error l j = Some b ->
  (length (concat (upd l j b')) + length b = length (concat l) + length b')%nat.
Proof.
  revert j. induction l as [|x l IH]; intros [|j]; cbn; intros H; try discriminate.
  - injection H as ->. rewrite !app_length. lia.
  - rewrite !app_length. specialize (IH j H). lia.
Qed.
Lemma concat_in {A} (l : list (list A)) j b x : nth_error l j = Some b -> In x b -> (0 < length (concat l))%nat.
Proof.
  intros H Hx. apply in_split in Hx. destruct Hx as (u & v & ->). pose proof (concat_upd l j _ [] H) as E. rewrite app_length in E. cbn in E. lia.
Qed.
Lemma concat_nil {A} (l : list (list A)) : (forall j b, nth_error l j = Some b -> b = []) -> length (concat l) = 0%nat.
Proof.
  induction l as [|x l IH]; intros H; cbn; [reflexivity|]. rewrite (H 0%nat x eq_refl). cbn. apply IH. intros j b Hj. apply (H (S j) b Hj).
Qed.

Lemma nodup_snoc {A} (l : list A) x : NoDup l -> ~ In x l -> NoDup (l ++ [x]).
Proof.
  induction 1 as [|y l Hy Hl IH]; cbn; intros Hx; [repeat constructor; auto|].
  constructor; [rewrite in_app_iff; cbn; intuition|apply IH; tauto].
Qed.

Section P.
Variable keyof : nat -> Z.
Variable hash : Z -> Z.
Variable other : nat -> bool.

Record hcore (s : hm) (M : nat -> Prop) : Prop := mkHc {
  c_curr : forall j b n, nth_error (hm_curr s) j = Some b -> In n b ->
    M n /\ hn_bucket (hm_nodes s n) = Some (hm_cid s, j) /\ j = slot (hm_curr s) (hash (keyof n));
  c_prev : forall j b n, nth_error (hm_prev s) j = Some b -> In n b ->
    M n /\ hn_bucket (hm_nodes s n) = Some (hm_pid s, j) /\ j = slot (hm_prev s) (hash (keyof n));
  c_in : forall n, M n -> hn_hash (hm_nodes s n) = hash (keyof n) /\
    ((exists b, nth_error (hm_curr s) (slot (hm_curr s) (hash (keyof n))) = Some b /\ In n b) \/
     (exists b, nth_error (hm_prev s) (slot (hm_prev s) (hash (keyof n))) = Some b /\ In n b));
  c_out : forall n, ~ M n -> if other n then exists j, hn_bucket (hm_nodes s n) = Some (-1, j) else hn_bucket (hm_nodes s n) = None;
  c_own : forall n, M n -> other n = false;
  c_ids : 0 <= hm_next_id s /\ (hm_curr s <> [] -> 0 <= hm_cid s < hm_next_id s) /\
    (hm_prev s <> [] -> 0 <= hm_pid s < hm_next_id s /\ hm_pid s <> hm_cid s /\ hm_curr s <> []);
  c_ndc : forall j b, nth_error (hm_curr s) j = Some b -> NoDup b;
  c_ndp : forall j b, nth_error (hm_prev s) j = Some b -> NoDup b;
  c_remain : hm_remain s = Z.of_nat (length (concat (hm_prev s))) }.

Lemma hcore_ext s M M' : (forall x, M x <-> M' x) -> hcore s M -> hcore s M'.
Proof.
  intros E [A B C D O I N1 N2 R]. constructor; auto.
  - intros j b n H1 H2. destruct (A j b n H1 H2) as (X & Y). rewrite <- E. auto.
  - intros j b n H1 H2. destruct (B j b n H1 H2) as (X & Y). rewrite <- E. auto.
  - intros n Hn. apply C, E, Hn.
  - intros n Hn. apply D. rewrite E. exact Hn.
  - intros n Hn. apply O, E, Hn.
Qed.

Definition frame (s s' : hm) : Prop :=
  hm_prealloc s' = hm_prealloc s /\ hm_cid s' = hm_cid s /\ hm_pid s' = hm_pid s /\ hm_next_id s' = hm_next_id s /\
  hm_all s' = hm_all s /\ hm_size s' = hm_size s /\ hm_pos s' = hm_pos s /\ length (hm_curr s') = length (hm_curr s) /\
  length (hm_prev s') = length (hm_prev s).
Definition cnt (s : hm) : Z := Z.of_nat (length (concat (hm_curr s))) + Z.of_nat (length (concat (hm_prev s))).

Lemma slot_len b b' h : length b = length b' -> slot b h = slot b' h.
Proof. unfold slot, nbuckets. intros ->. reflexivity. Qed.
Lemma slot_lt b h : b <> [] -> (slot b h < length b)%nat.
Proof. intros H. unfold slot, nbuckets. destruct b; [congruence|]. cbn [length]. pose proof (Z.mod_pos_bound h (Z.of_nat (S (length b)))). lia. Qed.

Lemma nil_len {A} (l : list A) : l <> [] <-> (0 < length l)%nat.
Proof. destruct l; cbn; split; intros; try congruence; lia. Qed.

Lemma member_prev s M n : hcore s M -> M n ->
  hm_member_of (hm_pid s) (hm_prev s) (hm_nodes s n) = true ->
  exists b, nth_error (hm_prev s) (slot (hm_prev s) (hash (keyof n))) = Some b /\ In n b.
Proof.
  intros C Hn Hm. destruct C as [A B Ci _ _ I _ _ _]. destruct (Ci n Hn) as [_ [(b & Hb & Hi)|H]]; [|exact H].
  destruct (A _ _ _ Hb Hi) as (_ & E & _). unfold hm_member_of in Hm. rewrite E in Hm.
  apply andb_true_iff in Hm. destruct Hm as [H1 H2]. apply Nat.ltb_lt in H2.
  assert (hm_prev s <> []) by (apply nil_len; lia). destruct I as (_ & _ & I). destruct (I H) as (_ & I' & _). apply Z.eqb_eq in H1. congruence.
Qed.
Lemma member_curr s M n : hcore s M -> M n ->
  hm_member_of (hm_pid s) (hm_prev s) (hm_nodes s n) = false ->
  exists b, nth_error (hm_curr s) (slot (hm_curr s) (hash (keyof n))) = Some b /\ In n b.
Proof.
  intros C Hn Hm. destruct C as [A B Ci _ _ I _ _ _]. destruct (Ci n Hn) as [_ [H|(b & Hb & Hi)]]; [exact H|].
  destruct (B _ _ _ Hb Hi) as (_ & E & _). unfold hm_member_of in Hm. rewrite E, Z.eqb_refl in Hm. cbn in Hm.
  apply Nat.ltb_ge in Hm. assert (nth_error (hm_prev s) (slot (hm_prev s) (hash (keyof n))) = None) by (apply nth_error_None; exact Hm). congruence.
Qed.

Lemma contains_spec s M n : hcore s M -> (hm_contains s n = true <-> M n) .
Proof.
  intros C. split.
  - intros H. destruct C as [A B Ci D O I _ _ _]. unfold hm_contains in H.
    destruct (other n) eqn:Eo.
    + (* foreign *)
      exfalso. assert (Hn : ~ M n) by (intros X; apply O in X; congruence). specialize (D n Hn). rewrite Eo in D. destruct D as (j & Ej).
      unfold hm_member_of in H. rewrite Ej in H. destruct I as (_ & I1 & I2).
      apply orb_true_iff in H. destruct H as [H|H]; apply andb_true_iff in H; destruct H as [H1 H2]; apply Nat.ltb_lt in H2; apply Z.eqb_eq in H1.
      * assert (hm_curr s <> []) by (apply nil_len; lia). specialize (I1 H). lia.
      * assert (hm_prev s <> []) by (apply nil_len; lia). specialize (I2 H). lia.
    + destruct (hn_bucket (hm_nodes s n)) as [[i j]|] eqn:Eb; [|unfold hm_member_of in H; rewrite Eb in H; discriminate].
      (* either M n or bucket None *)
      assert (Dn : ~ ~ M n) by (intros X; specialize (D n X); rewrite Eo in D; congruence).
      (* decide: n is in its bucket lists *)
      destruct (in_dec Nat.eq_dec n (concat (hm_curr s))) as [Hi|Hi].
      * apply in_concat in Hi. destruct Hi as (b & Hb & Hnb). apply In_nth_error in Hb. destruct Hb as (k & Hk). apply (A _ _ _ Hk Hnb).
      * destruct (in_dec Nat.eq_dec n (concat (hm_prev s))) as [Hp|Hp].
        -- apply in_concat in Hp. destruct Hp as (b & Hb & Hnb). apply In_nth_error in Hb. destruct Hb as (k & Hk). apply (B _ _ _ Hk Hnb).
        -- exfalso. apply Dn. intros Hm. destruct (Ci n Hm) as [_ [(b & Hb & Hnb)|(b & Hb & Hnb)]]; [apply Hi|apply Hp]; apply in_concat; exists b; split; eauto using nth_error_In.
  - intros Hn. unfold hm_contains. destruct (hm_member_of (hm_pid s) (hm_prev s) (hm_nodes s n)) eqn:E; [apply orb_true_r|].
    destruct (member_curr s M n C Hn E) as (b & Hb & Hi). destruct C as [A _ _ _ _ _ _ _ _]. destruct (A _ _ _ Hb Hi) as (_ & Eb & _).
    unfold hm_member_of at 1. rewrite Eb, Z.eqb_refl. cbn [andb]. rewrite orb_false_r. apply Nat.ltb_lt. apply nth_error_Some. congruence.
Qed.

Lemma nupd_eq f n d : nupd f n d n = d.
Proof. unfold nupd. rewrite Nat.eqb_refl. reflexivity. Qed.
Lemma nupd_neq f n d m : m <> n -> nupd f n d m = f m.
Proof. unfold nupd. intros H. destruct (Nat.eqb_spec m n); congruence. Qed.

Lemma upd_cases {A} (l : list A) i x j y : nth_error (upd l i x) j = Some y ->
  (j = i /\ y = x /\ (i < length l)%nat) \/ (j <> i /\ nth_error l j = Some y).
Proof.
  intros H. destruct (Nat.eq_dec j i) as [->|Hn].
  - left. assert (i < length l)%nat by (rewrite <- (length_upd l i x); apply nth_error_Some; congruence).
    rewrite nth_error_upd_eq in H by assumption. split; [reflexivity|]. split; [congruence|assumption].
  - right. rewrite nth_error_upd_neq in H by congruence. auto.
Qed.
Lemma upd_nil {A} (l : list A) i x : upd l i x <> [] <-> l <> [].
Proof. rewrite !nil_len, length_upd. reflexivity. Qed.

Lemma bucket_remove_sound s M n : hcore s M -> M n ->
  exists s', hm_bucket_remove s n = Ok s' /\ hcore s' (fun x => M x /\ x <> n) /\ frame s s' /\ cnt s' = cnt s - 1 /\
    hn_hash (hm_nodes s' n) = hash (keyof n) /\ hn_bucket (hm_nodes s' n) = None /\
    (hm_member_of (hm_pid s) (hm_prev s) (hm_nodes s n) = true ->
      hm_remain s' = hm_remain s - 1 /\ 0 < hm_remain s /\ hm_curr s' = hm_curr s /\
      exists j b, nth_error (hm_prev s) j = Some b /\ In n b /\ hm_prev s' = upd (hm_prev s) j (rem n b)) /\
    (hm_member_of (hm_pid s) (hm_prev s) (hm_nodes s n) = false -> hm_remain s' = hm_remain s /\ hm_prev s' = hm_prev s).
Proof.
  intros C Hn. unfold hm_bucket_remove.
  destruct (hm_member_of (hm_pid s) (hm_prev s) (hm_nodes s n)) eqn:Em.
  - destruct (member_prev s M n C Hn Em) as (b & Hb & Hi). destruct C as [A B Ci D O I N1 N2 R].
    destruct (B _ _ _ Hb Hi) as (_ & Ebk & Ej). rewrite Ebk. set (j := slot (hm_prev s) (hash (keyof n))) in *.
    unfold rd. rewrite Hb. cbn [bind]. assert (Hj : (j < length (hm_prev s))%nat) by (apply nth_error_Some; congruence).
    unfold wr. replace (j <? length (hm_prev s))%nat with true by (symmetry; apply Nat.ltb_lt; exact Hj). cbn [bind].
    pose proof (concat_in _ _ _ _ Hb Hi) as Hpos.
    replace (hm_remain s <=? 0) with false by (symmetry; apply Z.leb_gt; lia).
    pose proof (concat_upd (hm_prev s) j b (rem n b) Hb) as Ec. pose proof (rem_length n b (N2 _ _ Hb) Hi) as El.
    eexists. split; [reflexivity|]. split; [|split; [|split; [|split; [|split; [|split]]]]].
    + constructor; cbn [hm_curr hm_prev hm_nodes hm_cid hm_pid hm_next_id hm_remain set_nodes set_remain set_prev].
      * intros j0 b0 x H1 H2. destruct (A _ _ _ H1 H2) as (X & Y & Z0). destruct (Nat.eq_dec x n) as [->|Hx].
        -- exfalso. rewrite Ebk in Y. injection Y as Y1 Y2.
           assert (hm_prev s <> []) by (apply nil_len; lia). destruct I as (_ & _ & I). destruct (I H) as (_ & I' & _). congruence.
        -- rewrite nupd_neq by exact Hx. auto.
      * intros j0 b0 x H1 H2. rewrite (slot_len _ (hm_prev s)) by apply length_upd. apply upd_cases in H1. destruct H1 as [(-> & -> & _)|(Hne & H1)].
        -- apply rem_in in H2. destruct H2 as [H2 Hx]. destruct (B _ _ _ Hb H2) as (X & Y & Z0). rewrite nupd_neq by exact Hx. auto.
        -- destruct (B _ _ _ H1 H2) as (X & Y & Z0). destruct (Nat.eq_dec x n) as [->|Hx]; [exfalso; congruence|]. rewrite nupd_neq by exact Hx. auto.
      * intros x [Hx Hne]. rewrite nupd_neq by exact Hne. destruct (Ci x Hx) as [Hh [H|(b0 & H1 & H2)]]; (split; [exact Hh|]); [left; exact H|right].
        rewrite (slot_len (upd _ _ _) (hm_prev s)) by apply length_upd. destruct (Nat.eq_dec (slot (hm_prev s) (hash (keyof x))) j) as [E|E].
        -- exists (rem n b). rewrite E, nth_error_upd_eq by exact Hj. split; [reflexivity|]. apply rem_in. split; [|exact Hne]. rewrite E in H1. congruence.
        -- exists b0. rewrite nth_error_upd_neq by congruence. auto.
      * intros x Hx. destruct (Nat.eq_dec x n) as [->|Hne]; [rewrite nupd_eq, (O n Hn); reflexivity|]. rewrite nupd_neq by exact Hne. apply D. tauto.
      * intros x [Hx _]. auto.
      * rewrite upd_nil. exact I.
      * exact N1.
      * intros j0 b0 H. apply upd_cases in H. destruct H as [(-> & -> & _)|(_ & H)]; [apply rem_nodup|]; eauto.
      * rewrite R. lia.
    + unfold frame. cbn. rewrite length_upd. repeat split.
    + unfold cnt. cbn [hm_curr hm_prev set_nodes set_remain set_prev]. lia.
    + cbn. rewrite nupd_eq. cbn. apply Ci, Hn.
    + cbn. rewrite nupd_eq. reflexivity.
    + intros _. cbn [hm_remain hm_curr hm_prev set_nodes set_remain set_prev]. split; [lia|]. split; [lia|]. split; [reflexivity|]. exists j, b. auto.
    + discriminate.
  - destruct (member_curr s M n C Hn Em) as (b & Hb & Hi). destruct C as [A B Ci D O I N1 N2 R].
    destruct (A _ _ _ Hb Hi) as (_ & Ebk & Ej). rewrite Ebk. set (j := slot (hm_curr s) (hash (keyof n))) in *.
    unfold rd. rewrite Hb. cbn [bind]. assert (Hj : (j < length (hm_curr s))%nat) by (apply nth_error_Some; congruence).
    unfold wr. replace (j <? length (hm_curr s))%nat with true by (symmetry; apply Nat.ltb_lt; exact Hj). cbn [bind].
    pose proof (concat_upd (hm_curr s) j b (rem n b) Hb) as Ec. pose proof (rem_length n b (N1 _ _ Hb) Hi) as El.
    eexists. split; [reflexivity|]. split; [|split; [|split; [|split; [|split; [|split]]]]].
    + constructor; cbn [hm_curr hm_prev hm_nodes hm_cid hm_pid hm_next_id hm_remain set_nodes set_curr].
      * intros j0 b0 x H1 H2. rewrite (slot_len _ (hm_curr s)) by apply length_upd. apply upd_cases in H1. destruct H1 as [(-> & -> & _)|(Hne & H1)].
        -- apply rem_in in H2. destruct H2 as [H2 Hx]. destruct (A _ _ _ Hb H2) as (X & Y & Z0). rewrite nupd_neq by exact Hx. auto.
        -- destruct (A _ _ _ H1 H2) as (X & Y & Z0). destruct (Nat.eq_dec x n) as [->|Hx]; [exfalso; congruence|]. rewrite nupd_neq by exact Hx. auto.
      * intros j0 b0 x H1 H2. destruct (B _ _ _ H1 H2) as (X & Y & Z0). destruct (Nat.eq_dec x n) as [->|Hx].
        -- exfalso. unfold hm_member_of in Em. rewrite Y, Z.eqb_refl in Em. cbn in Em. apply Nat.ltb_ge in Em.
           assert (nth_error (hm_prev s) j0 = None) by (apply nth_error_None; exact Em). congruence.
        -- rewrite nupd_neq by exact Hx. auto.
      * intros x [Hx Hne]. rewrite nupd_neq by exact Hne. destruct (Ci x Hx) as [Hh [(b0 & H1 & H2)|H]]; (split; [exact Hh|]); [left|right; exact H].
        rewrite (slot_len (upd _ _ _) (hm_curr s)) by apply length_upd. destruct (Nat.eq_dec (slot (hm_curr s) (hash (keyof x))) j) as [E|E].
        -- exists (rem n b). rewrite E, nth_error_upd_eq by exact Hj. split; [reflexivity|]. apply rem_in. split; [|exact Hne]. rewrite E in H1. congruence.
        -- exists b0. rewrite nth_error_upd_neq by congruence. auto.
      * intros x Hx. destruct (Nat.eq_dec x n) as [->|Hne]; [rewrite nupd_eq, (O n Hn); reflexivity|]. rewrite nupd_neq by exact Hne. apply D. tauto.
      * intros x [Hx _]. auto.
      * rewrite upd_nil. exact I.
      * intros j0 b0 H. apply upd_cases in H. destruct H as [(-> & -> & _)|(_ & H)]; [apply rem_nodup|]; eauto.
      * exact N2.
      * exact R.
    + unfold frame. cbn. rewrite length_upd. repeat split.
    + unfold cnt. cbn [hm_curr hm_prev set_nodes set_curr]. lia.
    + cbn. rewrite nupd_eq. cbn. apply Ci, Hn.
    + cbn. rewrite nupd_eq. reflexivity.
    + discriminate.
    + intros _. split; reflexivity.
Qed.

Lemma bucket_insert_sound s M n : hcore s M -> ~ M n -> other n = false -> hm_curr s <> [] ->
  hn_hash (hm_nodes s n) = hash (keyof n) ->
  exists s', hm_bucket_insert s n = Ok s' /\ hcore s' (fun x => M x \/ x = n) /\ frame s s' /\ cnt s' = cnt s + 1 /\
    hm_remain s' = hm_remain s /\ hm_prev s' = hm_prev s.
Proof.
  intros C Hn Ho Hc Hh. unfold hm_bucket_insert. assert (Lc : (0 < length (hm_curr s))%nat) by (apply nil_len; exact Hc).
  replace (nbuckets (hm_curr s) =? 0) with false by (symmetry; apply Z.eqb_neq; unfold nbuckets; lia). rewrite Hh.
  set (j := slot (hm_curr s) (hash (keyof n))). assert (Hj : (j < length (hm_curr s))%nat) by (apply slot_lt; exact Hc).
  destruct (nth_error (hm_curr s) j) as [b|] eqn:Hb; [|apply nth_error_None in Hb; lia]. unfold rd. rewrite Hb. cbn [bind].
  unfold wr. replace (j <? length (hm_curr s))%nat with true by (symmetry; apply Nat.ltb_lt; exact Hj). cbn [bind].
  pose proof (concat_upd (hm_curr s) j b (b ++ [n]) Hb) as Ec. rewrite app_length in Ec. cbn in Ec.
  destruct C as [A B Ci D O I N1 N2 R].
  eexists. split; [reflexivity|]. split; [|split; [|split; [|split]]].
  - constructor; cbn [hm_curr hm_prev hm_nodes hm_cid hm_pid hm_next_id hm_remain set_nodes set_curr].
    + intros j0 b0 x H1 H2. rewrite (slot_len _ (hm_curr s)) by apply length_upd. apply upd_cases in H1. destruct H1 as [(-> & -> & _)|(Hne & H1)].
      * apply in_app_or in H2. destruct H2 as [H2|[<-|[]]].
        -- destruct (A _ _ _ Hb H2) as (X & Y & Z0). rewrite nupd_neq by (intros ->; tauto). auto.
        -- rewrite nupd_eq. auto.
      * destruct (A _ _ _ H1 H2) as (X & Y & Z0). rewrite nupd_neq by (intros ->; tauto). auto.
    + intros j0 b0 x H1 H2. destruct (B _ _ _ H1 H2) as (X & Y & Z0). rewrite nupd_neq by (intros ->; tauto). auto.
    + intros x Hx. rewrite (slot_len (upd _ _ _) (hm_curr s)) by apply length_upd. destruct (Nat.eq_dec x n) as [->|Hne].
      * rewrite nupd_eq. split; [reflexivity|]. left. exists (b ++ [n]). fold j. rewrite nth_error_upd_eq by exact Hj. split; [reflexivity|]. apply in_or_app. right. left. reflexivity.
      * destruct Hx as [Hx|]; [|congruence]. rewrite nupd_neq by exact Hne. destruct (Ci x Hx) as [Hh' [(b0 & H1 & H2)|H]]; (split; [exact Hh'|]); [left|right; exact H].
        destruct (Nat.eq_dec (slot (hm_curr s) (hash (keyof x))) j) as [E|E].
        -- exists (b ++ [n]). rewrite E, nth_error_upd_eq by exact Hj. split; [reflexivity|]. apply in_or_app. left. rewrite E in H1. congruence.
        -- exists b0. rewrite nth_error_upd_neq by congruence. auto.
    + intros x Hx. rewrite nupd_neq by tauto. apply D. tauto.
    + intros x [Hx| ->]; auto.
    + rewrite upd_nil. exact I.
    + intros j0 b0 H. apply upd_cases in H. destruct H as [(-> & -> & _)|(_ & H)]; [|eauto].
      apply nodup_snoc; [eauto|]. intros X. apply Hn. apply (A _ _ _ Hb X).
    + exact N2.
    + exact R.
  - unfold frame. cbn. rewrite length_upd. repeat split.
  - unfold cnt. cbn [hm_curr hm_prev set_nodes set_curr]. lia.
  - reflexivity.
  - reflexivity.
Qed.

Lemma migrate_sound s M n j b : hcore s M -> nth_error (hm_prev s) j = Some b -> In n b ->
  exists s', hm_migrate s n = Ok s' /\ hcore s' M /\ frame s s' /\ cnt s' = cnt s /\
    hm_remain s' = hm_remain s - 1 /\ 0 < hm_remain s /\ hm_prev s' = upd (hm_prev s) j (rem n b).
Proof.
  intros C Hb Hi. assert (Hn : M n) by apply (c_prev _ _ C _ _ _ Hb Hi).
  assert (Em : hm_member_of (hm_pid s) (hm_prev s) (hm_nodes s n) = true).
  { destruct (c_prev _ _ C _ _ _ Hb Hi) as (_ & E & _). unfold hm_member_of. rewrite E, Z.eqb_refl. cbn. apply Nat.ltb_lt, nth_error_Some. congruence. }
  unfold hm_migrate. destruct (bucket_remove_sound s M n C Hn) as (s1 & -> & C1 & F1 & K1 & Hh & Hbk & Hp & _). cbn [bind].
  destruct (Hp Em) as (Rm & Rp & Ec & j1 & b1 & Hb1 & Hi1 & Ep).
  assert (j1 = j) as -> by (destruct (c_prev _ _ C _ _ _ Hb1 Hi1) as (_ & _ & ->); destruct (c_prev _ _ C _ _ _ Hb Hi) as (_ & _ & ->); reflexivity).
  assert (b1 = b) as -> by congruence.
  assert (Hc : hm_curr s1 <> []).
  { rewrite Ec. apply (c_ids _ _ C). apply nil_len. assert (j < length (hm_prev s))%nat by (apply nth_error_Some; congruence). lia. }
  destruct (bucket_insert_sound s1 _ n C1) as (s2 & -> & C2 & F2 & K2 & R2 & P2); auto; [tauto|apply (c_own _ _ C n Hn)|].
  exists s2. split; [reflexivity|]. split.
  { apply (hcore_ext _ (fun x => (M x /\ x <> n) \/ x = n)); [|exact C2]. intros x. split; [intros [[H _]| ->]; auto|]. intros H. destruct (Nat.eq_dec x n); auto. }
  split; [unfold frame in *; intuition congruence|]. split; [lia|]. split; [lia|]. split; [exact Rp|]. congruence.
Qed.

(** Frame of the rehashing loop. *)
Definition frame' (s s' : hm) : Prop :=
  hm_prealloc s' = hm_prealloc s /\ hm_cid s' = hm_cid s /\ hm_next_id s' = hm_next_id s /\
  hm_all s' = hm_all s /\ hm_size s' = hm_size s /\ length (hm_curr s') = length (hm_curr s).
Definition below_empty (s : hm) : Prop := forall j b, (j < hm_pos s)%nat -> nth_error (hm_prev s) j = Some b -> b = [].

Lemma rehash_sound M : forall fuel s num, hcore s M -> (hm_pos s < length (hm_prev s))%nat -> below_empty s -> 0 <= num ->
  (length (hm_prev s) - hm_pos s + Z.to_nat num < fuel)%nat ->
  exists s', hm_rehash_loop fuel s num = Ok s' /\ hcore s' M /\ frame' s s' /\ cnt s' = cnt s /\ below_empty s' /\
    ((hm_prev s' = [] /\ hm_pos s' = 0%nat /\ hm_remain s' = 0) \/
     ((hm_pos s' < length (hm_prev s'))%nat /\ 0 < hm_remain s' /\ hm_remain s' = hm_remain s - num)).
Proof.
  induction fuel as [|fuel IH]; intros s num C Hp Hb Hn Hf; [lia|]. cbn [hm_rehash_loop].
  replace (length (hm_prev s) <=? hm_pos s)%nat with false by (symmetry; apply Nat.leb_gt; exact Hp).
  destruct (nth_error (hm_prev s) (hm_pos s)) as [b|] eqn:Eb; [|apply nth_error_None in Eb; lia].
  unfold rd at 1. rewrite Eb. cbn [bind]. destruct b as [|n b].
  - destruct (Nat.eqb_spec (S (hm_pos s)) (length (hm_prev s))) as [E|E].
    + assert (Z0 : length (concat (hm_prev s)) = 0%nat).
      { apply concat_nil. intros j b Hj. destruct (Nat.lt_ge_cases j (hm_pos s)) as [Hl|Hl]; [apply (Hb j b Hl Hj)|].
        assert (j < length (hm_prev s))%nat by (apply nth_error_Some; congruence). assert (j = hm_pos s) by lia. subst j. congruence. }
      pose proof (c_remain _ _ C) as R. rewrite Z0 in R. rewrite R. cbn [Z.of_nat Z.eqb negb]. eexists. split; [reflexivity|].
      split; [|split; [|split; [|split]]].
      * destruct C as [A B Ci D O I N1 N2 R']. constructor; cbn [hm_curr hm_prev hm_nodes hm_cid hm_pid hm_next_id hm_remain set_prev set_pos]; auto.
        -- intros [|j] b0 x H; discriminate.
        -- intros x Hx. destruct (Ci x Hx) as [Hh [H|(b0 & H1 & H2)]]; [auto|]. pose proof (concat_in _ _ _ _ H1 H2). lia.
        -- destruct I as (I0 & I1 & _). split; [exact I0|]. split; [exact I1|]. congruence.
        -- intros [|j] b0 H; discriminate.
      * unfold frame'. cbn. repeat split.
      * unfold cnt. cbn [hm_curr hm_prev set_prev set_pos concat length]. lia.
      * intros j b0 H. cbn in H. lia.
      * left. cbn. auto.
    + destruct (IH (set_pos s (S (hm_pos s))) num) as (s' & Es & C' & F' & K' & B' & O').
      * destruct C. constructor; assumption.
      * cbn. lia.
      * intros j b0 Hj H. cbn in *. destruct (Nat.eq_dec j (hm_pos s)) as [->|]; [congruence|]. apply (Hb j b0); [lia|exact H].
      * exact Hn.
      * cbn [hm_prev hm_pos set_pos]. lia.
      * exists s'. split; [exact Es|]. split; [exact C'|]. split; [exact F'|]. split; [exact K'|]. split; [exact B'|]. exact O'.
  - destruct (Z.eqb_spec num 0) as [->|Hnz].
    + exists s. split; [reflexivity|]. split; [exact C|]. split; [unfold frame'; repeat split|]. split; [reflexivity|]. split; [exact Hb|].
      right. split; [exact Hp|]. split; [|lia]. rewrite (c_remain _ _ C). pose proof (concat_in _ _ _ n Eb (or_introl eq_refl)). lia.
    + destruct (migrate_sound s M n (hm_pos s) (n :: b) C Eb (or_introl eq_refl)) as (s1 & -> & C1 & F1 & K1 & R1 & Rp & P1). cbn [bind].
      assert (Lp : length (hm_prev s1) = length (hm_prev s)) by (rewrite P1; apply length_upd).
      assert (Ep : hm_pos s1 = hm_pos s) by (unfold frame in F1; tauto).
      destruct (IH s1 (num - 1) C1) as (s' & Es & C' & F' & K' & B' & O').
      * lia.
      * intros j b0 Hj H. rewrite P1 in H. apply upd_cases in H. destruct H as [(-> & _)|(_ & H)]; [lia|]. apply (Hb j b0); [lia|exact H].
      * lia.
      * lia.
      * exists s'. split; [exact Es|]. split; [exact C'|]. split; [unfold frame', frame in *; intuition congruence|]. split; [lia|]. split; [exact B'|].
        destruct O' as [O'|(O1 & O2 & O3)]; [left; exact O'|right; split; [exact O1|]; split; [exact O2|lia]].
Qed.

(** Whole-map invariant; [nr]: nothing has been removed so far. *)
Record hinv (s : hm) (m : list nat) (nr : bool) : Prop := mkHi {
  i_core : hcore s (fun n => In n m);
  i_all : hm_all s = m;
  i_size : hm_size s = Z.of_nat (length m);
  i_nd : NoDup m;
  i_keys : NoDup (map keyof m);
  i_cap : hm_size s <= hm_capacity s;
  i_cnt : cnt s = hm_size s;
  i_pos : (hm_prev s = [] /\ hm_pos s = 0%nat) \/ (hm_pos s < length (hm_prev s))%nat;
  i_below : below_empty s;
  i_full : hm_size s = hm_capacity s -> hm_remain s = 0;
  i_nr : nr = true -> hm_remain s = 0 -> hm_pos s = 0%nat }.

Lemma find_spec s m nr k : hinv s m nr -> hm_find keyof hash s k = lookup keyof k m.
Proof.
  intros [C _ _ ND NK _ _ _ _ _ _]. unfold hm_find, hm_find_node.
  assert (Uniq : forall a b, In a m -> In b m -> keyof a = keyof b -> a = b).
  { clear - NK. induction m as [|x m IH]; cbn; intros a b Ha Hb E; [tauto|]. cbn in NK. inversion NK as [|? ? N1 N2]; subst.
    destruct Ha as [->|Ha], Hb as [->|Hb]; auto; exfalso; apply N1; [rewrite E|rewrite <- E]; apply in_map; assumption. }
  assert (Sound : forall b n, find_in_bucket keyof s b (hash k) k = Some n -> In n b /\ keyof n = k).
  { intros b n H. unfold find_in_bucket in H. apply find_some in H. destruct H as [H1 H2]. split; [exact H1|]. apply andb_true_iff in H2. destruct H2. lia. }
  assert (Arr : forall b n, (b = hm_curr s \/ b = hm_prev s) ->
    (if nbuckets b =? 0 then None else find_in_bucket keyof s (nth (slot b (hash k)) b []) (hash k) k) = Some n -> In n m /\ keyof n = k).
  { intros b n Hb H. destruct (nbuckets b =? 0); [discriminate|]. apply Sound in H. destruct H as [H1 H2]. split; [|exact H2].
    destruct (nth_error b (slot b (hash k))) as [c|] eqn:E.
    - rewrite (nth_error_nth _ _ [] E) in H1. destruct Hb as [->| ->]; [apply (c_curr _ _ C _ _ _ E H1)|apply (c_prev _ _ C _ _ _ E H1)].
    - apply nth_error_None in E. rewrite nth_overflow in H1 by exact E. destruct H1. }
  unfold lookup. destruct (List.find (fun n => keyof n =? k) m) as [n|] eqn:F.
  - apply find_some in F. destruct F as [Hn Hk]. apply Z.eqb_eq in Hk.
    assert (Got : forall b x, find_in_bucket keyof s b (hash k) k = x -> In n b -> x <> None).
    { intros b x Hx Hin ->. unfold find_in_bucket in Hx. apply (find_none _ _ Hx) in Hin. cbn in Hin.
      rewrite (proj1 (c_in _ _ C n Hn)), Hk, !Z.eqb_refl in Hin. discriminate. }
    destruct (if nbuckets (hm_curr s) =? 0 then None else _) as [x|] eqn:E1.
    + apply Arr in E1; [|left; reflexivity]. f_equal. apply Uniq; [tauto|tauto|]. destruct E1; congruence.
    + destruct (if nbuckets (hm_prev s) =? 0 then None else _) as [x|] eqn:E2.
      * apply Arr in E2; [|right; reflexivity]. f_equal. apply Uniq; [tauto|tauto|]. destruct E2; congruence.
      * exfalso. destruct (c_in _ _ C n Hn) as [_ [(b & Hb & Hi)|(b & Hb & Hi)]]; rewrite Hk in Hb.
        -- assert (slot (hm_curr s) (hash k) < length (hm_curr s))%nat by (apply nth_error_Some; congruence).
           replace (nbuckets (hm_curr s) =? 0) with false in E1 by (symmetry; apply Z.eqb_neq; unfold nbuckets; lia).
           rewrite (nth_error_nth _ _ [] Hb) in E1. apply (Got b None E1 Hi eq_refl).
        -- assert (slot (hm_prev s) (hash k) < length (hm_prev s))%nat by (apply nth_error_Some; congruence).
           replace (nbuckets (hm_prev s) =? 0) with false in E2 by (symmetry; apply Z.eqb_neq; unfold nbuckets; lia).
           rewrite (nth_error_nth _ _ [] Hb) in E2. apply (Got b None E2 Hi eq_refl).
  - assert (None' : forall n, In n m -> keyof n <> k) by (intros n Hn E; apply (find_none _ _ F) in Hn; lia).
    destruct (if nbuckets (hm_curr s) =? 0 then None else _) as [x|] eqn:E1.
    + apply Arr in E1; [|left; reflexivity]. exfalso. apply (None' x); tauto.
    + destruct (if nbuckets (hm_prev s) =? 0 then None else _) as [x|] eqn:E2; [|reflexivity].
      apply Arr in E2; [|right; reflexivity]. exfalso. apply (None' x); tauto.
Qed.

(** * Growth *)
Lemma embedded_gt ps c p x : embedded_count ps c p = Some x -> c < x.
Proof.
  induction ps as [|a ps IH]; cbn; [discriminate|]. destruct ps as [|b ps]; [discriminate|].
  destruct (p <? a); [discriminate|]. destruct ((c <? a) && (p <? b)) eqn:E; [intros H; injection H as <-; lia|exact IH].
Qed.
Lemma next_count_gt p c : 0 <= c -> c < hm_next_count p c.
Proof.
  intros H. unfold hm_next_count. destruct (if c <? p then embedded_count prime_counts c p else None) as [x|] eqn:E.
  - destruct (c <? p); [|discriminate]. apply embedded_gt in E. exact E.
  - destruct (arena_count c) as [x|] eqn:F.
    + apply find_some in F. lia.
    + assert (c <> 0); [|lia]. intros ->. vm_compute in F. discriminate.
Qed.
Lemma grow_loop_first p n size fuel : 0 <= n -> size = hm_capacity_of n -> hm_grow_loop (S fuel) p n size = hm_next_count p n.
Proof.
  intros Hn Hs. cbn [hm_grow_loop]. pose proof (next_count_gt p n Hn) as G.
  replace (hm_capacity_of (hm_next_count p n) <=? size) with false; [reflexivity|]. symmetry. apply Z.leb_gt. subst size. unfold hm_capacity_of. lia.
Qed.

Lemma nbuckets_nil b : nbuckets b = 0 <-> b = [].
Proof. unfold nbuckets. destruct b; cbn; split; intros; try congruence; lia. Qed.

Lemma realloc_sound s m nr n ok : hinv s m nr -> hm_remain s = 0 -> hm_pos s = 0%nat -> nbuckets (hm_curr s) < n ->
  hm_size s = hm_capacity s ->
  exists b s', hm_realloc s n ok = Ok (b, s') /\ hinv s' m nr /\ (ok = true -> b = true) /\
    (b = true -> nbuckets (hm_curr s') = n).
Proof.
  intros [C Ea Es ND NK Ec Ek Hp Hb Hf Hr] R P Hn Hfull. unfold hm_realloc.
  assert (0 <= nbuckets (hm_curr s)) by (unfold nbuckets; lia).
  replace (n <=? 0) with false by (symmetry; apply Z.leb_gt; lia). rewrite P, R. cbn [Nat.eqb negb Z.eqb].
  destruct (negb ((n <=? hm_prealloc s) && (nbuckets (hm_curr s) =? 0)) && negb ok) eqn:Eo.
  - exists false, s. split; [reflexivity|]. split; [constructor; auto|]. split; [intros ->; rewrite andb_false_r in Eo; discriminate|discriminate].
  - assert (Lr : nbuckets (repeat [] (Z.to_nat n)) = n) by (unfold nbuckets; rewrite repeat_length; lia).
    assert (Er : forall j (b : list nat), nth_error (repeat [] (Z.to_nat n)) j = Some b -> b = []).
    { intros j b Hj. apply nth_error_In in Hj. apply repeat_spec in Hj. exact Hj. }
    assert (Cr : length (concat (repeat ([] : list nat) (Z.to_nat n))) = 0%nat) by (apply concat_nil; exact Er).
    assert (Cp : length (concat (hm_prev s)) = 0%nat) by (pose proof (c_remain _ _ C); lia).
    destruct (Z.eqb_spec (nbuckets (hm_curr s)) 0) as [E0|E0].
    + apply nbuckets_nil in E0. eexists true, _. split; [reflexivity|]. split; [|split; [auto|intros _; exact Lr]].
      assert (Pn : hm_prev s = []) by (destruct (hm_prev s) eqn:E; [reflexivity|]; destruct (c_ids _ _ C) as (_ & _ & I); rewrite E in I; destruct I as (_ & _ & I); [discriminate|congruence]).
      assert (m = []) as ->. { destruct m; [reflexivity|]. unfold hm_capacity in Hfull. rewrite E0 in Hfull. cbn in Hfull. rewrite Es in Hfull. cbn [length] in Hfull. change (hm_capacity_of 0) with 0 in Hfull. lia. }
      constructor; cbn [hm_prealloc hm_curr hm_cid hm_prev hm_pid hm_next_id hm_all hm_size hm_pos hm_remain hm_nodes]; auto.
      * destruct C as [A B Ci D O I N1 N2 R']. constructor; cbn [hm_prealloc hm_curr hm_cid hm_prev hm_pid hm_next_id hm_all hm_size hm_pos hm_remain hm_nodes]; auto.
        -- intros j b x H1 H2. apply Er in H1. subst b. destruct H2.
        -- intros x [].
        -- destruct I as (I0 & _). split; [lia|]. split; [intros _; lia|]. rewrite Pn. congruence.
        -- intros j b H1. apply Er in H1. subst b. constructor.
        -- rewrite Cp. reflexivity.
      * unfold hm_capacity. cbn [hm_curr]. rewrite Lr, Es. unfold hm_capacity_of. cbn [length]. lia.
      * unfold cnt. cbn [hm_curr hm_prev]. rewrite Cr, Cp, Es. reflexivity.
      * intros j b Hj. cbn in Hj. lia.
    + eexists true, _. split; [reflexivity|]. split; [|split; [auto|intros _; exact Lr]].
      assert (Cn : hm_curr s <> []) by (rewrite <- nbuckets_nil; exact E0).
      assert (Cc : Z.of_nat (length (concat (hm_curr s))) = hm_size s) by (unfold cnt in Ek; lia).
      constructor; cbn [hm_prealloc hm_curr hm_cid hm_prev hm_pid hm_next_id hm_all hm_size hm_pos hm_remain hm_nodes]; auto.
      * destruct C as [A B Ci D O I N1 N2 R']. constructor; cbn [hm_prealloc hm_curr hm_cid hm_prev hm_pid hm_next_id hm_all hm_size hm_pos hm_remain hm_nodes]; auto.
        -- intros j b x H1 H2. apply Er in H1. subst b. destruct H2.
        -- intros x Hx. destruct (Ci x Hx) as [Hh [H1|(b & H1 & H2)]]; [auto|]. pose proof (concat_in _ _ _ _ H1 H2). lia.
        -- destruct I as (I0 & I1 & _). specialize (I1 Cn). split; [lia|]. split; [intros _; lia|]. intros _. split; [lia|]. split; [lia|].
           intros E. apply nbuckets_nil in E. lia.
        -- intros j b H1. apply Er in H1. subst b. constructor.
      * unfold hm_capacity at 1. cbn [hm_curr]. rewrite Lr. rewrite Hfull. unfold hm_capacity, hm_capacity_of. lia.
      * unfold cnt. cbn [hm_curr hm_prev]. rewrite Cr. lia.
      * right. apply nil_len. exact Cn.
      * intros j b Hj. cbn in Hj. lia.
      * unfold hm_capacity at 1. cbn [hm_curr]. rewrite Lr, Hfull. unfold hm_capacity, hm_capacity_of. lia.
Qed.

Lemma grow_sound s m nr ok : hinv s m nr ->
  (hm_grow s ok = Panic /\ hm_size s = hm_capacity s /\ nr = false) \/
  exists b s', hm_grow s ok = Ok (b, s') /\ hinv s' m nr /\ (ok = true -> b = true) /\ (b = true -> hm_size s' < hm_capacity s').
Proof.
  intros I. unfold hm_grow. pose proof (i_cap _ _ _ I) as Ic. replace (hm_capacity s <? hm_size s) with false by (symmetry; apply Z.ltb_ge; lia).
  destruct (Z.eqb_spec (hm_size s) (hm_capacity s)) as [E|E].
  - rewrite grow_loop_first; [|unfold nbuckets; lia|exact E]. set (n := hm_next_count (hm_prealloc s) (nbuckets (hm_curr s))).
    pose proof (next_count_gt (hm_prealloc s) (nbuckets (hm_curr s)) ltac:(unfold nbuckets; lia)) as G. fold n in G.
    pose proof (i_full _ _ _ I E) as R. destruct (Nat.eq_dec (hm_pos s) 0) as [P|P].
    + right. destruct (realloc_sound s m nr n ok I R P G E) as (b & s' & -> & I' & Hb & Hn). cbn [bind fst snd]. exists b, s'.
      destruct b; [|split; [reflexivity|]; split; [exact I'|]; split; [exact Hb|discriminate]].
      assert (hm_size s' = hm_size s) by (rewrite (i_size _ _ _ I'), (i_size _ _ _ I); reflexivity).
      assert (hm_size s < hm_capacity s') by (unfold hm_capacity at 1; rewrite Hn by reflexivity; rewrite E; unfold hm_capacity, hm_capacity_of; lia).
      replace (hm_capacity s' <=? hm_size s) with false by (symmetry; apply Z.leb_gt; lia).
      split; [reflexivity|]. split; [exact I'|]. split; [auto|]. intros _. lia.
    + left. split; [|split; [exact E|]].
      * unfold hm_realloc. assert (0 <= nbuckets (hm_curr s)) by (unfold nbuckets; lia). replace (n <=? 0) with false by (symmetry; apply Z.leb_gt; lia).
        replace (hm_pos s =? 0)%nat with false by (symmetry; apply Nat.eqb_neq; exact P). reflexivity.
      * destruct nr; [|reflexivity]. exfalso. apply P. apply (i_nr _ _ _ I); auto.
  - right. exists true, s. split; [reflexivity|]. split; [exact I|]. split; [auto|]. intros _. lia.
Qed.

(** * Insertion and removal *)
Lemma proceed_sound s M ins : hcore s M -> below_empty s ->
  (hm_prev s = [] /\ hm_pos s = 0%nat) \/ (hm_pos s < length (hm_prev s))%nat ->
  hm_size s <= hm_capacity s ->
  exists s', hm_proceed s ins = Ok s' /\ hcore s' M /\ frame' s s' /\ cnt s' = cnt s /\ below_empty s' /\
    ((hm_prev s' = [] /\ hm_pos s' = 0%nat) \/ (hm_pos s' < length (hm_prev s'))%nat) /\
    (ins = true -> hm_size s = hm_capacity s -> hm_remain s' = 0) /\
    (hm_remain s = 0 -> s' = s) /\ (hm_remain s <> 0 -> hm_remain s' = 0 -> hm_pos s' = 0%nat) /\ hm_remain s' <= hm_remain s.
Proof.
  intros C B P Hc. unfold hm_proceed. pose proof (c_remain _ _ C) as R. destruct (Z.eqb_spec (hm_remain s) 0) as [E|E].
  - exists s. split; [reflexivity|]. split; [exact C|]. split; [unfold frame'; repeat split|]. split; [reflexivity|]. split; [exact B|]. split; [exact P|].
    split; [auto|]. split; [auto|]. split; [congruence|lia].
  - destruct P as [[P0 _]|P]; [rewrite P0 in R; cbn in R; lia|].
    match goal with |- context [hm_rehash_loop _ s ?x] => set (num := x) end.
    assert (Hnum : 0 <= num <= hm_remain s /\ (ins = true -> hm_size s = hm_capacity s -> num = hm_remain s)).
    { unfold num. destruct ins; [|split; [lia|discriminate]]. destruct (Z.eqb_spec (hm_capacity s - hm_size s) 0) as [Z0|Z0]; [split; lia|].
      split; [|intros _; lia]. set (u := hm_capacity s - hm_size s) in *. assert (0 < u) by (unfold u in *; lia). split; [apply Z.div_pos; lia|].
      apply Z.div_le_upper_bound; nia. }
    destruct Hnum as [Hnum Hall].
    destruct (rehash_sound M (length (hm_prev s) + Z.to_nat num + 1) s num C P B) as (s' & -> & C' & F' & K' & B' & O'); [lia|lia|].
    exists s'. split; [reflexivity|]. split; [exact C'|]. split; [exact F'|]. split; [exact K'|]. split; [exact B'|].
    split; [destruct O' as [(O1 & O2 & _)|(O1 & _)]; auto|]. split.
    { intros Hi Hs. specialize (Hall Hi Hs). destruct O' as [(_ & _ & O')|(_ & O1 & O2)]; lia. }
    split; [congruence|]. split; [intros _ Z0; destruct O' as [(_ & O' & _)|(_ & O1 & _)]; [exact O'|lia]|].
    destruct O' as [(_ & _ & O')|(_ & _ & O')]; lia.
Qed.

Lemma hcore_all s M l z : hcore s M -> hcore (set_all s l z) M.
Proof. intros []. constructor; assumption. Qed.

Lemma lookup_none k m : lookup keyof k m = None <-> ~ In k (map keyof m).
Proof.
  unfold lookup. split.
  - intros F H. apply in_map_iff in H. destruct H as (x & <- & Hx). apply (find_none _ _ F) in Hx. lia.
  - intros H. destruct (List.find (fun n => keyof n =? k) m) as [x|] eqn:F; [|reflexivity]. apply find_some in F. exfalso. apply H. apply in_map_iff. exists x. split; [lia|tauto].
Qed.
Lemma mem_spec n m : mem n m = true <-> In n m.
Proof. unfold mem. rewrite existsb_exists. split; [intros (x & Hx & E); apply Nat.eqb_eq in E; congruence|]. intros H. exists n. split; [exact H|apply Nat.eqb_refl]. Qed.

Lemma insert_sound s m nr n ok : hinv s m nr ->
  (hm_insert keyof hash s n ok = Panic /\ (misuse keyof other m (HInsert n ok) \/ hm_size s = hm_capacity s /\ nr = false)) \/
  exists b s' m', hm_insert keyof hash s n ok = Ok (b, s') /\ map_step keyof other m (HInsert n ok) b = Some m' /\ hinv s' m' nr.
Proof.
  intros I. unfold hm_insert.
  assert (G : ((if hm_capacity s <=? hm_size s then hm_grow s ok else Ok (true, s)) = Panic /\ hm_size s = hm_capacity s /\ nr = false) \/
    exists b s', (if hm_capacity s <=? hm_size s then hm_grow s ok else Ok (true, s)) = Ok (b, s') /\ hinv s' m nr /\ (ok = true -> b = true) /\ (b = true -> hm_size s' < hm_capacity s')).
  { destruct (Z.leb_spec (hm_capacity s) (hm_size s)); [apply grow_sound; exact I|]. right. exists true, s. auto. }
  destruct G as [(-> & E & N)|(b & s1 & -> & I1 & Hok & Hlt)]; [left; auto|]. cbn [bind fst snd].
  destruct b; cbn [negb].
  2:{ right. exists false, s1, m. split; [reflexivity|]. split; [|exact I1]. cbn. destruct ok; [discriminate (Hok eq_refl)|reflexivity]. }
  specialize (Hlt eq_refl). destruct I1 as [C Ea Es ND NK Ec Ek Hp Hb Hf Hr].
  destruct (hn_bucket (hm_nodes s1 n)) as [[i j]|] eqn:Ebk.
  { left. split; [reflexivity|]. left. cbn. destruct (in_dec Nat.eq_dec n m) as [Hin|Hin]; [left; exact Hin|right; left].
    pose proof (c_out _ _ C n Hin) as D. destruct (other n); [reflexivity|congruence]. }
  assert (Hnm : ~ In n m).
  { intros Hin. destruct (c_in _ _ C n Hin) as [_ [(b & H1 & H2)|(b & H1 & H2)]]; [destruct (c_curr _ _ C _ _ _ H1 H2) as (_ & X & _)|destruct (c_prev _ _ C _ _ _ H1 H2) as (_ & X & _)]; congruence. }
  assert (Ho : other n = false).
  { pose proof (c_out _ _ C n Hnm) as D. destruct (other n); [destruct D as (j & D); congruence|reflexivity]. }
  pose proof (find_spec s1 m nr (keyof n) (mkHi s1 m nr C Ea Es ND NK Ec Ek Hp Hb Hf Hr)) as Fs. unfold hm_find in Fs. rewrite Fs.
  destruct (lookup keyof (keyof n) m) as [x|] eqn:El.
  { left. split; [reflexivity|]. left. right. right. unfold lookup in El. apply find_some in El. exists x. split; [tauto|lia]. }
  set (s2 := set_nodes s1 (nupd (hm_nodes s1) n (mkHn (hash (keyof n)) None))).
  assert (Cn : hm_curr s1 <> []).
  { intros E. unfold hm_capacity in Hlt. rewrite E in Hlt. cbn in Hlt. change (hm_capacity_of 0) with 0 in Hlt. lia. }
  assert (C2 : hcore s2 (fun x => In x m)).
  { destruct C as [A B Ci D O Ii N1 N2 R']. constructor; cbn [s2 hm_prealloc hm_curr hm_cid hm_prev hm_pid hm_next_id hm_all hm_size hm_pos hm_remain hm_nodes set_nodes]; auto.
    - intros j b x H1 H2. destruct (A _ _ _ H1 H2) as (X & Y). rewrite nupd_neq by (intros ->; tauto). auto.
    - intros j b x H1 H2. destruct (B _ _ _ H1 H2) as (X & Y). rewrite nupd_neq by (intros ->; tauto). auto.
    - intros x Hx. rewrite nupd_neq by (intros ->; tauto). apply Ci, Hx.
    - intros x Hx. destruct (Nat.eq_dec x n) as [->|Hne]; [rewrite nupd_eq, Ho; reflexivity|]. rewrite nupd_neq by exact Hne. apply D, Hx. }
  destruct (bucket_insert_sound s2 _ n C2) as (s3 & E3 & C3 & F3 & K3 & R3 & P3); auto.
  { cbn. rewrite nupd_eq. reflexivity. }
  fold s2. rewrite E3. cbn [bind]. set (s4 := set_all s3 (hm_all s3 ++ [n]) (hm_size s3 + 1)).
  unfold frame in F3. cbn in F3. destruct F3 as (f1 & f2 & f3 & f4 & f5 & f6 & f7 & f8 & f9).
  assert (Cap4 : hm_capacity s4 = hm_capacity s1) by (unfold hm_capacity, nbuckets; cbn [s4 hm_curr set_all]; rewrite f8; reflexivity).
  destruct (proceed_sound s4 (fun x => In x m \/ x = n) true) as (s5 & E5 & C5 & F5 & K5 & B5 & P5 & Q5 & Z5 & W5 & L5).
  { apply hcore_all. exact C3. }
  { intros j b Hj H. cbn in Hj, H. rewrite P3 in H. cbn in H. apply (Hb j b); [lia|exact H]. }
  { cbn [s4 hm_prev hm_pos set_all]. rewrite P3, f7. exact Hp. }
  { rewrite Cap4. cbn [s4 hm_size set_all]. lia. }
  rewrite E5. cbn [bind]. right. exists true, s5, (m ++ [n]). split; [reflexivity|]. split.
  { cbn [map_step]. replace (mem n m) with false by (symmetry; apply not_true_iff_false; rewrite mem_spec; exact Hnm). rewrite Ho, El. reflexivity. }
  unfold frame' in F5. cbn [s4 hm_prealloc hm_cid hm_next_id hm_all hm_size hm_curr set_all] in F5. destruct F5 as (g1 & g2 & g3 & g4 & g5 & g6).
  assert (Cap5 : hm_capacity s5 = hm_capacity s1) by (unfold hm_capacity, nbuckets; rewrite g6, f8; reflexivity).
  constructor.
  - apply (hcore_ext _ (fun x => In x m \/ x = n)); [|exact C5]. intros x. rewrite in_app_iff. cbn. intuition.
  - congruence.
  - rewrite app_length. cbn [length]. lia.
  - apply nodup_snoc; assumption.
  - rewrite map_app. cbn [map]. apply nodup_snoc; [exact NK|]. apply lookup_none. exact El.
  - lia.
  - rewrite K5. change (cnt s4) with (cnt s3). rewrite K3. change (cnt s2) with (cnt s1). lia.
  - exact P5.
  - exact B5.
  - intros E. apply Q5; [reflexivity|]. rewrite Cap4. cbn [s4 hm_size set_all]. lia.
  - intros Hnr R5. destruct (Z.eq_dec (hm_remain s4) 0) as [Z0|Z0]; [|apply W5; assumption].
    rewrite (Z5 Z0). cbn [s4 hm_pos set_all]. rewrite f7. apply Hr; [exact Hnr|]. change (hm_remain s1) with (hm_remain s2). rewrite <- R3. exact Z0.
Qed.

Lemma nodup_map_filter (f : nat -> bool) (m : list nat) : NoDup (map keyof m) -> NoDup (map keyof (filter f m)).
Proof.
  induction m as [|x m IH]; cbn; intros H; [constructor|]. inversion H as [|? ? H1 H2]; subst. destruct (f x); cbn; [|auto].
  constructor; [|auto]. intros Hi. apply H1. apply in_map_iff in Hi. destruct Hi as (y & <- & Hy). apply in_map. apply filter_In in Hy. tauto.
Qed.

Lemma remove_sound s m nr n : hinv s m nr ->
  (hm_remove s n = Panic /\ misuse keyof other m (HRemove n)) \/
  exists s', hm_remove s n = Ok s' /\ In n m /\ hinv s' (rem n m) false.
Proof.
  intros [C Ea Es ND NK Ec Ek Hp Hb Hf Hr]. unfold hm_remove. destruct (hm_contains s n) eqn:Hc.
  2:{ left. split; [reflexivity|]. cbn. intros H. apply (contains_spec s _ n C) in H. congruence. }
  apply (contains_spec s _ n C) in Hc. right.
  destruct (bucket_remove_sound s _ n C Hc) as (s1 & -> & C1 & F1 & K1 & _ & _ & Hm1 & Hm2). cbn [bind].
  unfold frame in F1. destruct F1 as (f1 & f2 & f3 & f4 & f5 & f6 & f7 & f8 & f9).
  set (s2 := set_all s1 (rem n (hm_all s1)) (hm_size s1 - 1)).
  assert (Cap2 : hm_capacity s2 = hm_capacity s) by (unfold hm_capacity, nbuckets; cbn [s2 hm_curr set_all]; rewrite f8; reflexivity).
  assert (B2 : below_empty s2).
  { intros j b Hj H. cbn in Hj, H. destruct (hm_member_of (hm_pid s) (hm_prev s) (hm_nodes s n)) eqn:Em.
    - destruct (Hm1 eq_refl) as (_ & _ & _ & j1 & b1 & Hb1 & Hi1 & Ep). rewrite Ep in H. apply upd_cases in H. destruct H as [(-> & -> & _)|(_ & H)].
      + rewrite f7 in Hj. rewrite (Hb _ _ Hj Hb1). reflexivity.
      + apply (Hb j b); [lia|exact H].
    - destruct (Hm2 eq_refl) as (_ & Ep). rewrite Ep in H. apply (Hb j b); [lia|exact H]. }
  destruct (proceed_sound s2 (fun x => In x m /\ x <> n) false) as (s3 & E3 & C3 & F3 & K3 & B3 & P3 & Q3 & Z3 & W3 & L3).
  { apply hcore_all. exact C1. }
  { exact B2. }
  { cbn [s2 hm_prev hm_pos set_all]. rewrite f7, f9. destruct Hp as [(P0 & P1)|P]; [left|right; exact P]. split; [|exact P1].
    apply length_zero_iff_nil. rewrite f9, P0. reflexivity. }
  { rewrite Cap2. cbn [s2 hm_size set_all]. lia. }
  exists s3. split; [exact E3|]. split; [exact Hc|].
  unfold frame' in F3. cbn [s2 hm_prealloc hm_cid hm_next_id hm_all hm_size hm_curr set_all] in F3. destruct F3 as (g1 & g2 & g3 & g4 & g5 & g6).
  assert (Cap3 : hm_capacity s3 = hm_capacity s) by (unfold hm_capacity, nbuckets; rewrite g6, f8; reflexivity).
  pose proof (rem_length n m ND Hc) as Lr.
  constructor.
  - apply (hcore_ext _ (fun x => In x m /\ x <> n)); [|exact C3]. intros x. rewrite rem_in. reflexivity.
  - congruence.
  - lia.
  - apply rem_nodup, ND.
  - apply nodup_map_filter, NK.
  - lia.
  - rewrite K3. change (cnt s2) with (cnt s1). lia.
  - exact P3.
  - exact B3.
  - intros E. lia.
  - discriminate.
Qed.
End P.
