(** Invariant of the intrusive list. *)
From Verif Require Import Base Base_lemmas List_model List_spec.
Open Scope res_scope.

Fixpoint fwd (f : ptr -> option ptr) (p : ptr) (s : list nat) (z : ptr) : Prop :=
  match s with
  | [] => f p = Some z
  | e :: s' => f p = Some (Node e) /\ fwd f (Node e) s' z
  end.
Fixpoint bwd (g : ptr -> option ptr) (p : ptr) (s : list nat) (z : ptr) : Prop :=
  match s with
  | [] => g z = Some p
  | e :: s' => g (Node e) = Some p /\ bwd g (Node e) s' z
  end.
Definition lastp (p : ptr) (s : list nat) : ptr := last (map Node s) p.
Definition firstp (s : list nat) (z : ptr) : ptr := match s with [] => z | e :: _ => Node e end.

Lemma fset_same {B} (f : ptr -> B) p v : fset f p v p = v.
Proof. unfold fset. destruct (ptr_dec p p); congruence. Qed.
Lemma fset_other {B} (f : ptr -> B) p v q : q <> p -> fset f p v q = f q.
Proof. unfold fset. destruct (ptr_dec q p); congruence. Qed.
Lemma nset_same {B} (f : nat -> B) p v : nset f p v p = v.
Proof. unfold nset. destruct (Nat.eq_dec p p); congruence. Qed.
Lemma nset_other {B} (f : nat -> B) p v q : q <> p -> nset f p v q = f q.
Proof. unfold nset. destruct (Nat.eq_dec q p); congruence. Qed.

Lemma lastp_cons p e s : lastp p (e :: s) = lastp (Node e) s.
Proof.
  unfold lastp. cbn [map]. destruct (map Node s) eqn:E; [reflexivity|].
  change (last (p0 :: l) p = last (p0 :: l) (Node e)). clear E. revert p0. induction l as [|x l IH]; intros; [reflexivity|].
  change (last (x :: l) p = last (x :: l) (Node e)). apply IH.
Qed.
Lemma lastp_in p s : lastp p s = p \/ exists e, In e s /\ lastp p s = Node e.
Proof.
  revert p. induction s as [|e s IH]; intros p; [left; reflexivity|]. rewrite lastp_cons. right.
  destruct (IH (Node e)) as [->|(x & Hx & ->)]; [exists e|exists x]; cbn; auto.
Qed.

Lemma fwd_app f s1 s2 z : forall p, fwd f p (s1 ++ s2) z <-> fwd f p s1 (firstp s2 z) /\ fwd f (lastp p s1) s2 z.
Proof.
  induction s1 as [|e s1 IH]; intros p.
  - cbn [app fwd]. change (lastp p []) with p. destruct s2; cbn [fwd firstp]; tauto.
  - rewrite lastp_cons. cbn [app fwd]. rewrite IH. tauto.
Qed.
Lemma bwd_app g s1 s2 z : forall p, bwd g p (s1 ++ s2) z <-> bwd g p s1 (firstp s2 z) /\ bwd g (lastp p s1) s2 z.
Proof.
  induction s1 as [|e s1 IH]; intros p.
  - cbn [app bwd]. change (lastp p []) with p. destruct s2; cbn [bwd firstp]; tauto.
  - rewrite lastp_cons. cbn [app bwd]. rewrite IH. tauto.
Qed.

Lemma fwd_frame f q v s z : forall p, q <> p -> (forall e, In e s -> q <> Node e) -> fwd f p s z -> fwd (fset f q v) p s z.
Proof.
  induction s as [|e s IH]; intros p Hp Hs; cbn [fwd]; rewrite (fset_other _ _ _ p) by congruence; [auto|].
  intros [A B]. split; [exact A|]. apply IH; [apply Hs; left; reflexivity|intros; apply Hs; right; assumption|exact B].
Qed.
Lemma bwd_frame g q v s z : forall p, q <> z -> (forall e, In e s -> q <> Node e) -> bwd g p s z -> bwd (fset g q v) p s z.
Proof.
  induction s as [|e s IH]; intros p Hp Hs; cbn [bwd].
  - rewrite fset_other by congruence. auto.
  - intros [A B]. rewrite fset_other by (intros E0; eapply Hs; [left; reflexivity|congruence]).
    split; [exact A|]. apply IH; [exact Hp|intros; apply Hs; right; assumption|exact B].
Qed.

(** Replace the end of a forward segment / the start of a backward one. *)
Lemma fwd_set_end f s z z' : forall p, NoDup s -> (forall e, In e s -> p <> Node e) ->
  fwd f p s z -> fwd (fset f (lastp p s) (Some z')) p s z'.
Proof.
  induction s as [|e s IH]; intros p Nd Hp.
  - intros _. cbn. apply fset_same.
  - rewrite lastp_cons. intros [A B]. inversion Nd; subst.
    assert (Hl : p <> lastp (Node e) s).
    { destruct (lastp_in (Node e) s) as [->|(x & Hx & ->)]; apply Hp; [left; reflexivity|right; exact Hx]. }
    split; [rewrite fset_other by exact Hl; exact A|].
    apply IH; [assumption|intros x Hx [= ->]; contradiction|exact B].
Qed.
Lemma bwd_set_start g s z p p' : NoDup s -> (forall e, In e s -> z <> Node e) ->
  bwd g p s z -> bwd (fset g (firstp s z) (Some p')) p' s z.
Proof.
  destruct s as [|e s]; intros Nd Hz; [intros _; cbn; apply fset_same|].
  intros [A B]. cbn [firstp bwd]. split; [apply fset_same|]. inversion Nd; subst.
  apply bwd_frame; [intros E; eapply Hz; [left; reflexivity|congruence]|intros x Hx [= ->]; contradiction|exact B].
Qed.

Lemma bwd_first g s z p : bwd g p s z -> g (firstp s z) = Some p.
Proof. destruct s; cbn; tauto. Qed.
Lemma fwd_last f s z : forall p, fwd f p s z -> f (lastp p s) = Some z.
Proof. induction s as [|e s IH]; intros p; [auto|]. rewrite lastp_cons. intros [_ B]. apply IH, B. Qed.
Lemma fwd_first f s z p : fwd f p s z -> f p = Some (firstp s z).
Proof. destruct s; cbn; tauto. Qed.
Lemma bwd_last g s z : forall p, bwd g p s z -> g z = Some (lastp p s).
Proof. induction s as [|e s IH]; intros p; [auto|]. rewrite lastp_cons. intros [_ B]. apply IH, B. Qed.

Record inv (h : heap) (s : seqs) : Prop := mkInv {
  inv_fwd : forall k, (k < length s)%nat -> fwd (nx h) (Head k) (content s k) (Head k);
  inv_bwd : forall k, (k < length s)%nat -> bwd (pv h) (Head k) (content s k) (Head k);
  inv_size : forall k, (k < length s)%nat -> sz h k = length (content s k);
  inv_owh : forall k, (k < length s)%nat -> ow h (Head k) = Some k;
  inv_own : forall n k, ow h (Node n) = Some k <-> (k < length s)%nat /\ In n (content s k);
  inv_nodup : forall k, NoDup (content s k);
  inv_disj : forall j k n, In n (content s j) -> In n (content s k) -> j = k }.

Lemma content_lt s k n : In n (content s k) -> (k < length s)%nat.
Proof.
  unfold content. destruct (lt_dec k (length s)); [auto|]. rewrite nth_overflow by lia. intros [].
Qed.
Lemma content_upd_same s k v : (k < length s)%nat -> content (upd s k v) k = v.
Proof. intros H. unfold content. apply nth_error_nth. apply nth_error_upd_eq; exact H. Qed.
Lemma content_upd_other s k v j : j <> k -> content (upd s k v) j = content s j.
Proof.
  intros H. unfold content. destruct (nth_error s j) eqn:E.
  - rewrite (nth_error_nth _ _ _ E). apply nth_error_nth. rewrite nth_error_upd_neq by congruence. exact E.
  - apply nth_error_None in E. rewrite !nth_overflow; [reflexivity|exact E|rewrite length_upd; exact E].
Qed.

Lemma in_list_spec e l : in_list e l = true <-> In e l.
Proof.
  unfold in_list. rewrite existsb_exists. split.
  - intros (x & Hx & E). apply Nat.eqb_eq in E. subst. exact Hx.
  - intros H. exists e. split; [exact H|apply Nat.eqb_refl].
Qed.
Lemma member_spec e s : member e s = true <-> exists k, In e (content s k).
Proof.
  unfold member. rewrite existsb_exists. split.
  - intros (l & Hl & E). apply in_list_spec in E. destruct (In_nth _ _ [] Hl) as (k & Hk & Ek). exists k. unfold content. rewrite Ek. exact E.
  - intros (k & Hk). exists (content s k). split; [apply nth_In, (content_lt s k e Hk)|apply in_list_spec, Hk].
Qed.

(** Inserting between two parts of a list. *)
Lemma insert_mid h s k e s1 s2 : inv h s -> (k < length s)%nat -> content s k = s1 ++ s2 ->
  ow h (Node e) = None ->
  exists h', impl_insert h k (Node e) (firstp s2 (Head k)) = Ok h' /\ inv h' (upd s k (s1 ++ e :: s2)).
Proof.
  intros I Hk Es Ee. destruct I as [IF IB IS IH IN IU ID].
  assert (Fresh : forall j, ~ In e (content s j)).
  { intros j Hj. assert (ow h (Node e) = Some j) by (apply IN; split; [eapply content_lt, Hj|exact Hj]). congruence. }
  assert (F1 : ~ In e (s1 ++ s2)) by (rewrite <- Es; apply Fresh).
  pose proof (IF k Hk) as Hf. pose proof (IB k Hk) as Hb. rewrite Es in Hf, Hb.
  apply fwd_app in Hf. apply bwd_app in Hb. destruct Hf as [Hf1 Hf2], Hb as [Hb1 Hb2].
  pose proof (IU k) as Nd. rewrite Es in Nd.
  set (x := lastp (Head k) s1) in *. set (b := firstp s2 (Head k)) in *.
  assert (Obe : b <> Node e).
  { unfold b. destruct s2; cbn; [discriminate|]. intros [= ->]. apply F1. apply in_or_app. right. left. reflexivity. }
  assert (Oxe : x <> Node e).
  { unfold x. destruct (lastp_in (Head k) s1) as [->|(y & Hy & ->)]; [discriminate|]. intros [= ->]. apply F1, in_or_app. auto. }
  assert (Owb : ow h b = Some k).
  { unfold b. destruct s2 as [|y s2]; cbn; [apply IH, Hk|]. apply IN. split; [exact Hk|]. rewrite Es. apply in_or_app. right. left. reflexivity. }
  pose proof (bwd_first _ _ _ _ Hb2) as Pb. fold b in Pb.
  unfold impl_insert. unfold check_member at 1. rewrite Ee. cbn [bind]. unfold check_member. rewrite Owb, Nat.eqb_refl. cbn [bind nx pv ow sz].
  rewrite (fset_other _ _ _ b Obe), Pb. cbn [ld bind nx pv ow sz].
  eexists. split; [reflexivity|].
  assert (Nd1 : NoDup s1 /\ NoDup s2 /\ (forall y, In y s1 -> ~ In y s2)).
  { clear -Nd. induction s1 as [|y s1 IH1]; cbn in Nd; [repeat split; auto; constructor|]. inversion Nd as [|? ? N1 N2]; subst. destruct (IH1 N2) as (A & B & C).
    rewrite in_app_iff in N1. repeat split; [constructor; tauto|exact B|]. intros z [->|Hz]; [tauto|apply C, Hz]. }
  destruct Nd1 as (Nd1 & Nd2 & Dj).
  assert (Xs2 : forall y, In y s2 -> x <> Node y).
  { intros y Hy. unfold x. destruct (lastp_in (Head k) s1) as [->|(w & Hw & ->)]; [discriminate|]. intros [= ->]. exact (Dj _ Hw Hy). }
  assert (Bs1 : forall y, In y s1 -> b <> Node y).
  { intros y Hy. unfold b. destruct s2 as [|w s2]; cbn; [discriminate|]. intros [= ->]. apply (Dj _ Hy). left. reflexivity. }
  constructor; cbn [nx pv ow sz].
  - intros j Hj. rewrite length_upd in Hj. destruct (Nat.eq_dec j k) as [->|Nj].
    + rewrite content_upd_same by exact Hk. apply fwd_app. cbn [firstp fwd]. fold x. split; [|split].
      * apply fwd_set_end with (z := b); [exact Nd1|intros; discriminate|].
        apply fwd_frame; [discriminate|intros y Hy [= ->]; apply F1, in_or_app; auto|exact Hf1].
      * apply fset_same.
      * destruct s2 as [|w s2].
        -- cbn [fwd]. rewrite fset_other by congruence. apply fset_same.
        -- cbn [fwd]. split; [rewrite fset_other by congruence; apply fset_same|].
           apply fwd_frame; [apply Xs2; left; reflexivity|intros; apply Xs2; right; assumption|].
           apply fwd_frame; [intros [= ->]; apply F1, in_or_app; right; left; reflexivity|intros y Hy [= ->]; apply F1, in_or_app; right; right; exact Hy|apply Hf2].
    + rewrite content_upd_other by exact Nj.
      apply fwd_frame.
      { unfold x. destruct (lastp_in (Head k) s1) as [->|(w & Hw & ->)]; congruence. }
      { intros y Hy. unfold x. destruct (lastp_in (Head k) s1) as [->|(w & Hw & ->)]; [discriminate|]. intros [= ->].
        apply Nj. eapply ID; [exact Hy|rewrite Es; apply in_or_app; left; exact Hw]. }
      apply fwd_frame; [discriminate|intros y Hy [= ->]; exact (Fresh _ Hy)|apply IF, Hj].
  - intros j Hj. rewrite length_upd in Hj. destruct (Nat.eq_dec j k) as [->|Nj].
    + rewrite content_upd_same by exact Hk. apply bwd_app. cbn [firstp bwd]. fold x. split; [|split].
      * apply bwd_frame; [exact Obe|intros y Hy; apply Bs1, Hy|].
        assert (G : forall g, bwd g (Head k) s1 b -> bwd (fset g (Node e) (Some x)) (Head k) s1 (Node e)).
        { clear -F1 Nd1. assert (F2 : ~ In e s1) by (intros H; apply F1, in_or_app; auto). clear F1. unfold x. revert F2 Nd1. generalize (Head k) as p.
          induction s1 as [|y t IHt]; intros p F2 Nd1 g Hg.
          - cbn. apply fset_same.
          - rewrite lastp_cons. destruct Hg as [A B]. cbn [bwd]. split.
            + rewrite fset_other; [exact A|]. intros [= ->]. apply F2. left. reflexivity.
            + apply IHt; [intros H; apply F2; right; exact H|inversion Nd1; assumption|exact B]. }
        rewrite ?Pb. apply G, Hb1.
      * rewrite fset_other by congruence. rewrite ?Pb. apply fset_same.
      * apply (bwd_set_start _ s2 (Head k) x (Node e)); [exact Nd2|intros; discriminate|].
        apply bwd_frame; [discriminate|intros y Hy [= ->]; apply F1, in_or_app; auto|exact Hb2].
    + rewrite content_upd_other by exact Nj.
      apply bwd_frame.
      { unfold b. destruct s2; cbn; congruence. }
      { intros y Hy. unfold b. destruct s2 as [|w s2]; cbn; [discriminate|]. intros [= ->].
        apply Nj. eapply ID; [exact Hy|rewrite Es; apply in_or_app; right; left; reflexivity]. }
      apply bwd_frame; [discriminate|intros y Hy [= ->]; exact (Fresh _ Hy)|apply IB, Hj].
  - intros j Hj. rewrite length_upd in Hj. destruct (Nat.eq_dec j k) as [->|Nj].
    + rewrite content_upd_same, nset_same by exact Hk. rewrite IS, Es by exact Hk. rewrite !app_length. cbn [length]. lia.
    + rewrite content_upd_other, nset_other by exact Nj. apply IS, Hj.
  - intros j Hj. rewrite length_upd in Hj. rewrite fset_other by discriminate. apply IH, Hj.
  - intros n j. rewrite length_upd. destruct (Nat.eq_dec n e) as [->|Ne].
    + rewrite fset_same. split.
      * intros [= <-]. split; [exact Hk|]. rewrite content_upd_same by exact Hk. apply in_or_app. right. left. reflexivity.
      * intros [Hj Hin]. destruct (Nat.eq_dec j k) as [->|Nj]; [reflexivity|]. rewrite content_upd_other in Hin by exact Nj. destruct (Fresh _ Hin).
    + rewrite fset_other by congruence. rewrite IN. destruct (Nat.eq_dec j k) as [->|Nj].
      * rewrite content_upd_same, Es by exact Hk. rewrite !in_app_iff. cbn [In]. split; [tauto|]. intros [A [B|[B|B]]]; try tauto; congruence.
      * rewrite content_upd_other by exact Nj. tauto.
  - intros j. destruct (Nat.eq_dec j k) as [->|Nj].
    + rewrite content_upd_same by exact Hk. apply NoDup_Add with (a := e) (l := s1 ++ s2); [apply Add_app|split; [exact Nd|exact F1]].
    + rewrite content_upd_other by exact Nj. apply IU.
  - intros i j n. destruct (Nat.eq_dec i k) as [->|Ni], (Nat.eq_dec j k) as [->|Nj]; auto.
    + rewrite content_upd_same, content_upd_other by assumption. intros A B. apply in_app_iff in A. cbn [In] in A.
      destruct (Nat.eq_dec n e) as [->|Ne]; [destruct (Fresh _ B)|].
      symmetry. eapply ID; [exact B|]. rewrite Es. apply in_app_iff. destruct A as [A|[A|A]]; auto; congruence.
    + rewrite content_upd_other, content_upd_same by assumption. intros B A. apply in_app_iff in A. cbn [In] in A.
      destruct (Nat.eq_dec n e) as [->|Ne]; [destruct (Fresh _ B)|].
      eapply ID; [exact B|]. rewrite Es. apply in_app_iff. destruct A as [A|[A|A]]; auto; congruence.
    + rewrite !content_upd_other by assumption. apply ID.
Qed.

(** Removing an element. *)
Lemma remove_mid h s k e s1 s2 : inv h s -> (k < length s)%nat -> content s k = s1 ++ e :: s2 ->
  exists h', impl_remove h k (Node e) = Ok h' /\ inv h' (upd s k (s1 ++ s2)).
Proof.
  intros I Hk Es. destruct I as [IF IB IS IH IN IU ID].
  assert (Oe : ow h (Node e) = Some k).
  { apply IN. split; [exact Hk|]. rewrite Es. apply in_or_app. right. left. reflexivity. }
  pose proof (IF k Hk) as Hf. pose proof (IB k Hk) as Hb. rewrite Es in Hf, Hb.
  apply fwd_app in Hf. apply bwd_app in Hb. cbn [firstp fwd bwd] in Hf, Hb. destruct Hf as (Hf1 & Hfe & Hf2), Hb as (Hb1 & Hbe & Hb2).
  pose proof (IU k) as Nd. rewrite Es in Nd.
  assert (NdA : NoDup (s1 ++ s2) /\ ~ In e (s1 ++ s2)) by (apply (NoDup_Add (Add_app e s1 s2)), Nd).
  destruct NdA as [Nd0 F1].
  assert (Nd1 : NoDup s1 /\ NoDup s2 /\ (forall y, In y s1 -> ~ In y s2)).
  { clear -Nd0. induction s1 as [|y s1 IH1]; cbn in Nd0; [repeat split; auto; constructor|]. inversion Nd0 as [|? ? N1 N2]; subst. destruct (IH1 N2) as (A & B & C).
    rewrite in_app_iff in N1. repeat split; [constructor; tauto|exact B|]. intros z [->|Hz]; [tauto|apply C, Hz]. }
  destruct Nd1 as (Nd1 & Nd2 & Dj).
  set (x := lastp (Head k) s1) in *. set (b := firstp s2 (Head k)) in *.
  pose proof (fwd_first _ _ _ _ Hf2) as Nb. fold b in Nb.
  assert (Oxe : x <> Node e).
  { unfold x. destruct (lastp_in (Head k) s1) as [->|(y & Hy & ->)]; [discriminate|]. intros [= ->]. apply F1, in_or_app. auto. }
  assert (Obe : b <> Node e).
  { unfold b. destruct s2; cbn; [discriminate|]. intros [= ->]. apply F1. apply in_or_app. right. left. reflexivity. }
  unfold impl_remove, check_member. rewrite Oe, Nat.eqb_refl. cbn [bind]. rewrite Hbe. cbn [ld bind nx pv ow sz].
  rewrite (fset_other _ _ _ (Node e)) by congruence. rewrite Nb. cbn [ld bind nx pv ow sz].
  eexists. split; [reflexivity|].
  assert (Xs2 : forall y, In y s2 -> x <> Node y).
  { intros y Hy. unfold x. destruct (lastp_in (Head k) s1) as [->|(w & Hw & ->)]; [discriminate|]. intros [= ->]. exact (Dj _ Hw Hy). }
  assert (Bs1 : forall y, In y s1 -> b <> Node y).
  { intros y Hy. unfold b. destruct s2 as [|w s2]; cbn; [discriminate|]. intros [= ->]. apply (Dj _ Hy). left. reflexivity. }
  constructor; cbn [nx pv ow sz].
  - intros j Hj. rewrite length_upd in Hj. destruct (Nat.eq_dec j k) as [->|Nj].
    + rewrite content_upd_same by exact Hk. apply fwd_app. fold x b. split.
      * apply fwd_set_end with (z := Node e); [exact Nd1|intros; discriminate|exact Hf1].
      * destruct s2 as [|w s2]; cbn [fwd].
        -- apply fset_same.
        -- split; [apply fset_same|]. apply fwd_frame; [apply Xs2; left; reflexivity|intros; apply Xs2; right; assumption|apply Hf2].
    + rewrite content_upd_other by exact Nj. apply fwd_frame; [| |apply IF, Hj].
      { unfold x. destruct (lastp_in (Head k) s1) as [->|(w & Hw & ->)]; congruence. }
      { intros y Hy. unfold x. destruct (lastp_in (Head k) s1) as [->|(w & Hw & ->)]; [discriminate|]. intros [= ->].
        apply Nj. eapply ID; [exact Hy|rewrite Es; apply in_or_app; left; exact Hw]. }
  - intros j Hj. rewrite length_upd in Hj. rewrite Hbe. destruct (Nat.eq_dec j k) as [->|Nj].
    + rewrite content_upd_same by exact Hk. apply bwd_app. fold x b. split.
      * assert (G : forall g, bwd g (Head k) s1 (Node e) -> bwd (fset g b (Some x)) (Head k) s1 b).
        { clear -Bs1. unfold x. revert Bs1. generalize (Head k) at 1 2 3 as p.
          induction s1 as [|y t IHt]; intros p Bs1 g Hg.
          - cbn. apply fset_same.
          - rewrite lastp_cons. destruct Hg as [A B]. cbn [bwd]. split.
            + rewrite fset_other; [exact A|]. intros E. eapply Bs1; [left; reflexivity|congruence].
            + apply IHt; [intros; apply Bs1; right; assumption|exact B]. }
        apply G, Hb1.
      * apply (bwd_set_start _ s2 (Head k) (Node e) x); [exact Nd2|intros; discriminate|exact Hb2].
    + rewrite content_upd_other by exact Nj. apply bwd_frame; [| |apply IB, Hj].
      { unfold b. destruct s2; cbn; congruence. }
      { intros y Hy. unfold b. destruct s2 as [|w s2]; cbn; [discriminate|]. intros [= ->].
        apply Nj. eapply ID; [exact Hy|rewrite Es; apply in_or_app; right; right; left; reflexivity]. }
  - intros j Hj. rewrite length_upd in Hj. destruct (Nat.eq_dec j k) as [->|Nj].
    + rewrite content_upd_same, nset_same by exact Hk. rewrite IS, Es by exact Hk. rewrite !app_length. cbn [length]. lia.
    + rewrite content_upd_other, nset_other by exact Nj. apply IS, Hj.
  - intros j Hj. rewrite length_upd in Hj. rewrite fset_other by discriminate. apply IH, Hj.
  - intros n j. rewrite length_upd. destruct (Nat.eq_dec n e) as [->|Ne].
    + rewrite fset_same. split; [discriminate|]. intros [Hj Hin]. exfalso. destruct (Nat.eq_dec j k) as [->|Nj].
      * rewrite content_upd_same in Hin by exact Hk. exact (F1 Hin).
      * rewrite content_upd_other in Hin by exact Nj. apply Nj. eapply ID; [exact Hin|]. rewrite Es. apply in_or_app. right. left. reflexivity.
    + rewrite fset_other by congruence. rewrite IN. destruct (Nat.eq_dec j k) as [->|Nj].
      * rewrite content_upd_same, Es by exact Hk. rewrite !in_app_iff. cbn [In]. split; [|tauto]. intros [A [B|[B|B]]]; try tauto; congruence.
      * rewrite content_upd_other by exact Nj. tauto.
  - intros j. destruct (Nat.eq_dec j k) as [->|Nj]; [rewrite content_upd_same by exact Hk; exact Nd0|].
    rewrite content_upd_other by exact Nj. apply IU.
  - assert (Sub : forall n j, In n (content (upd s k (s1 ++ s2)) j) -> In n (content s j)).
    { intros n j. destruct (Nat.eq_dec j k) as [->|Nj]; [|rewrite content_upd_other by exact Nj; auto].
      rewrite content_upd_same, Es by exact Hk. rewrite !in_app_iff. cbn [In]. tauto. }
    intros i j n A B. eapply ID; apply Sub; eassumption.
Qed.

Lemma inv_member h s e : inv h s -> (ow h (Node e) = None <-> member e s = false).
Proof.
  intros I. pose proof (inv_own h s I e) as IN. pose proof (member_spec e s) as M. split; intros H.
  - destruct (member e s); [|reflexivity]. destruct (proj1 M eq_refl) as (k & Hk). assert (ow h (Node e) = Some k) by (apply IN; split; [eapply content_lt, Hk|exact Hk]). congruence.
  - destruct (ow h (Node e)) as [k|] eqn:E; [|reflexivity]. destruct (proj1 (IN k) eq_refl) as [_ Hk].
    assert (member e s = true) by (apply M; eauto). congruence.
Qed.

Lemma insert_member h s k e b : inv h s -> member e s = true -> impl_insert h k (Node e) b = Panic.
Proof.
  intros I M. unfold impl_insert, check_member at 1. destruct (ow h (Node e)) eqn:E; [reflexivity|].
  apply (inv_member h s e I) in E. congruence.
Qed.

Lemma insert_foreign h s k e b : inv h s -> (k < length s)%nat -> member e s = false -> in_list b (content s k) = false ->
  impl_insert h k (Node e) (Node b) = Panic.
Proof.
  intros I Hk M Hb. unfold impl_insert. unfold check_member at 1. rewrite (proj2 (inv_member h s e I) M). cbn [bind].
  unfold check_member. destruct (ow h (Node b)) as [j|] eqn:E; [|reflexivity].
  destruct (Nat.eqb_spec j k) as [->|]; [|reflexivity]. apply (inv_own h s I) in E. destruct E as [_ E]. apply in_list_spec in E. congruence.
Qed.

Lemma remove_foreign h s k e : inv h s -> in_list e (content s k) = false -> impl_remove h k (Node e) = Panic.
Proof.
  intros I Hb. unfold impl_remove, check_member. destruct (ow h (Node e)) as [j|] eqn:E; [|reflexivity].
  destruct (Nat.eqb_spec j k) as [->|]; [|reflexivity]. apply (inv_own h s I) in E. destruct E as [_ E]. apply in_list_spec in E. congruence.
Qed.

Lemma put_before_split e b l : In b l -> NoDup l -> exists s1 s2, l = s1 ++ b :: s2 /\ put_before e b l = s1 ++ e :: b :: s2.
Proof.
  induction l as [|x t IH]; intros Hin Nd; [destruct Hin|]. cbn [put_before]. destruct (Nat.eqb_spec x b) as [->|N].
  - exists [], t. auto.
  - destruct Hin as [->|Hin]; [congruence|]. inversion Nd; subst. destruct (IH Hin) as (s1 & s2 & -> & ->); [assumption|]. exists (x :: s1), s2. auto.
Qed.
Lemma put_after_split e b l : In b l -> NoDup l -> exists s1 s2, l = s1 ++ b :: s2 /\ put_after e b l = s1 ++ b :: e :: s2.
Proof.
  induction l as [|x t IH]; intros Hin Nd; [destruct Hin|]. cbn [put_after]. destruct (Nat.eqb_spec x b) as [->|N].
  - exists [], t. auto.
  - destruct Hin as [->|Hin]; [congruence|]. inversion Nd; subst. destruct (IH Hin) as (s1 & s2 & -> & ->); [assumption|]. exists (x :: s1), s2. auto.
Qed.
Lemma remove_split e l : In e l -> NoDup l -> exists s1 s2, l = s1 ++ e :: s2 /\ remove Nat.eq_dec e l = s1 ++ s2.
Proof.
  intros Hin Nd. destruct (in_split _ _ Hin) as (s1 & s2 & ->). exists s1, s2. split; [reflexivity|].
  rewrite remove_app. apply NoDup_remove_2 in Nd. rewrite in_app_iff in Nd.
  rewrite (notin_remove Nat.eq_dec s1) by tauto. cbn [remove]. destruct (Nat.eq_dec e e); [|congruence]. rewrite notin_remove by tauto. reflexivity.
Qed.

Lemma lstep_sound h s o : inv h s -> (on o < length s)%nat ->
  match o with InsertAfter k _ a => In a (content s k) | _ => True end ->
  match spec_step s o with
  | Some s' => exists h', lstep h o = Ok h' /\ inv h' s'
  | None => lstep h o = Panic
  end.
Proof.
  intros I Hk Ha. destruct o as [k e|k e|k|k|k e b|k e a|k e]; cbn [on spec_step lstep] in *.
  - pose proof (fwd_first _ _ _ _ (inv_fwd h s I k Hk)) as E. rewrite E. cbn [ld bind].
    destruct (member e s) eqn:M; [apply (insert_member h s); assumption|].
    apply (insert_mid h s k e [] (content s k)); auto. apply (inv_member h s e I), M.
  - destruct (member e s) eqn:M; [apply (insert_member h s); assumption|].
    apply (insert_mid h s k e (content s k) []); auto; [rewrite app_nil_r; reflexivity|apply (inv_member h s e I), M].
  - unfold impl_pop_front. rewrite (inv_size h s I k Hk). pose proof (fwd_first _ _ _ _ (inv_fwd h s I k Hk)) as E.
    destruct (content s k) as [|x t] eqn:Ec; [reflexivity|]. cbn [length Nat.eqb firstp] in *. rewrite E. cbn [ld bind].
    destruct (remove_mid h s k x [] t I Hk Ec) as (h' & Eh & I'). rewrite Eh. cbn [bind fst]. exists h'. auto.
  - unfold impl_pop_back. rewrite (inv_size h s I k Hk). pose proof (bwd_last _ _ _ _ (inv_bwd h s I k Hk)) as E.
    destruct (content s k) as [|x t] eqn:Ec; [reflexivity|]. cbn [length Nat.eqb].
    destruct (exists_last (l := x :: t)) as (s1 & y & Es); [discriminate|]. rewrite Es in *.
    assert (El : lastp (Head k) (s1 ++ [y]) = Node y) by (unfold lastp; rewrite map_app; cbn [map]; apply last_last).
    rewrite El in E. rewrite E. cbn [ld bind].
    destruct (remove_mid h s k y s1 [] I Hk Ec) as (h' & Eh & I'). rewrite Eh. cbn [bind fst]. exists h'. split; [reflexivity|].
    rewrite removelast_last. rewrite app_nil_r in I'. exact I'.
  - destruct (member e s) eqn:M; cbn [orb]; [apply (insert_member h s); assumption|].
    destruct (in_list b (content s k)) eqn:B; cbn [negb]; [|apply (insert_foreign h s); assumption].
    apply in_list_spec in B. destruct (put_before_split e b _ B (inv_nodup h s I k)) as (s1 & s2 & E1 & ->).
    apply (insert_mid h s k e s1 (b :: s2)); auto. apply (inv_member h s e I), M.
  - assert (B : in_list a (content s k) = true) by (apply in_list_spec, Ha). rewrite B. cbn [negb]. rewrite orb_false_r.
    destruct (put_after_split e a _ Ha (inv_nodup h s I k)) as (s1 & s2 & E1 & ->).
    pose proof (inv_fwd h s I k Hk) as Hf. rewrite E1 in Hf. apply fwd_app in Hf. cbn [fwd firstp] in Hf. destruct Hf as (_ & _ & Hf).
    rewrite (fwd_first _ _ _ _ Hf). cbn [ld bind].
    destruct (member e s) eqn:M; [apply (insert_member h s); assumption|].
    assert (E2 : content s k = (s1 ++ [a]) ++ s2) by (rewrite <- app_assoc; exact E1).
    destruct (insert_mid h s k e (s1 ++ [a]) s2 I Hk E2) as (h' & Eh & I'); [apply (inv_member h s e I), M|].
    exists h'. split; [exact Eh|]. rewrite <- app_assoc in I'. exact I'.
  - destruct (in_list e (content s k)) eqn:B; [|apply (remove_foreign h s); assumption].
    apply in_list_spec in B. destruct (remove_split e _ B (inv_nodup h s I k)) as (s1 & s2 & E1 & ->).
    apply (remove_mid h s k e s1 s2); auto.
Qed.

Lemma spec_step_len s o s' : spec_step s o = Some s' -> length s' = length s.
Proof.
  destruct o; cbn [spec_step]; repeat match goal with |- context [if ?b then _ else _] => destruct b | |- context [match content ?a ?b with _ => _ end] => destruct (content a b) end;
  intros [= <-]; apply length_upd.
Qed.

Lemma lrun_sound ops : forall h s, inv h s -> Forall (fun o => (on o < length s)%nat) ops -> after_ok s ops ->
  match spec_run s ops with
  | Some s' => exists h', lrun h ops = Ok h' /\ inv h' s' /\ length s' = length s
  | None => lrun h ops = Panic
  end.
Proof.
  induction ops as [|o ops IH]; intros h s I Ho Ha; [exists h; auto|]. inversion Ho; subst. cbn [after_ok] in Ha. destruct Ha as [Ha1 Ha2].
  cbn [spec_run lrun]. pose proof (lstep_sound h s o I H1 Ha1) as L. destruct (spec_step s o) as [s'|] eqn:E.
  - destruct L as (h' & -> & I'). cbn [bind]. pose proof (spec_step_len _ _ _ E) as El.
    specialize (IH h' s' I'). rewrite El in IH. apply IH; assumption.
  - rewrite L. reflexivity.
Qed.

Lemma inv0 n : inv heap0 (repeat [] n).
Proof.
  assert (C : forall k, content (repeat [] n) k = []).
  { intros k. unfold content. destruct (lt_dec k n); [apply nth_repeat|apply nth_overflow; rewrite repeat_length; lia]. }
  constructor; intros; rewrite ?C in *; cbn; auto; try constructor; try contradiction; try tauto; try discriminate.
Qed.

(** Walking gives the contents. *)
Lemma collect_fwd h s k : inv h s -> (k < length s)%nat -> forall l s0 f, content s k = s0 ++ l -> (length l <= f)%nat ->
  collect (impl_nextof h k) f (match l with [] => None | e :: _ => Some (Node e) end) = Ok l.
Proof.
  intros I Hk. induction l as [|e l IH]; intros s0 f E Hf; [destruct f; reflexivity|].
  destruct f as [|f]; [cbn in Hf; lia|]. cbn [collect].
  assert (Hin : In e (content s k)) by (rewrite E; apply in_or_app; right; left; reflexivity).
  unfold impl_nextof at 1, check_member. rewrite (proj2 (inv_own h s I e k)) by (split; assumption). rewrite Nat.eqb_refl. cbn [bind].
  pose proof (inv_fwd h s I k Hk) as Hfw. rewrite E in Hfw. apply fwd_app in Hfw. cbn [fwd] in Hfw. destruct Hfw as (_ & _ & Hfw).
  rewrite (fwd_first _ _ _ _ Hfw). cbn [ld bind].
  assert (Ep : (if ptr_eqb (firstp l (Head k)) (Head k) then None else Some (firstp l (Head k))) = match l with [] => None | e :: _ => Some (Node e) end).
  { unfold ptr_eqb. destruct l; cbn [firstp]; [destruct (ptr_dec (Head k) (Head k)); congruence|]. destruct (ptr_dec (Node n) (Head k)); congruence. }
  rewrite Ep, (IH (s0 ++ [e]) f); [reflexivity|rewrite <- app_assoc; exact E|cbn in Hf; lia].
Qed.
Lemma collect_bwd h s k : inv h s -> (k < length s)%nat -> forall l s0 f, content s k = rev l ++ s0 -> (length l <= f)%nat ->
  collect (impl_prevof h k) f (match l with [] => None | e :: _ => Some (Node e) end) = Ok l.
Proof.
  intros I Hk. induction l as [|e l IH]; intros s0 f E Hf; [destruct f; reflexivity|].
  destruct f as [|f]; [cbn in Hf; lia|]. cbn [collect]. cbn [rev] in E. rewrite <- app_assoc in E. cbn [app] in E.
  assert (Hin : In e (content s k)) by (rewrite E; apply in_or_app; right; left; reflexivity).
  unfold impl_prevof at 1, check_member. rewrite (proj2 (inv_own h s I e k)) by (split; assumption). rewrite Nat.eqb_refl. cbn [bind].
  pose proof (inv_bwd h s I k Hk) as Hb. rewrite E in Hb. apply bwd_app in Hb. cbn [firstp bwd] in Hb. destruct Hb as (_ & Hb & _).
  rewrite Hb. cbn [ld bind].
  assert (Ep : (if ptr_eqb (lastp (Head k) (rev l)) (Head k) then None else Some (lastp (Head k) (rev l))) = match l with [] => None | e :: _ => Some (Node e) end).
  { unfold ptr_eqb. destruct l as [|x l]; [change (lastp (Head k) (rev [])) with (Head k); destruct (ptr_dec (Head k) (Head k)); congruence|]. cbn [rev]. unfold lastp. rewrite map_app. cbn [map]. rewrite last_last.
    destruct (ptr_dec (Node x) (Head k)); congruence. }
  rewrite Ep, (IH (e :: s0) f); [reflexivity|exact E|cbn in Hf; lia].
Qed.

Lemma forward_ok h s k : inv h s -> (k < length s)%nat -> forward h k = Ok (content s k).
Proof.
  intros I Hk. unfold forward, impl_front. rewrite (inv_size h s I k Hk).
  pose proof (fwd_first _ _ _ _ (inv_fwd h s I k Hk)) as E.
  pose proof (collect_fwd h s k I Hk (content s k) [] (length (content s k)) eq_refl ltac:(lia)) as C.
  destruct (content s k) as [|e l]; [reflexivity|]. cbn [length Nat.eqb]. rewrite E. cbn [ld bind firstp]. exact C.
Qed.
Lemma backward_ok h s k : inv h s -> (k < length s)%nat -> backward h k = Ok (rev (content s k)).
Proof.
  intros I Hk. unfold backward, impl_back. rewrite (inv_size h s I k Hk).
  pose proof (bwd_last _ _ _ _ (inv_bwd h s I k Hk)) as E.
  assert (Er : content s k = rev (rev (content s k)) ++ []) by (rewrite rev_involutive, app_nil_r; reflexivity).
  pose proof (collect_bwd h s k I Hk (rev (content s k)) [] (length (content s k)) Er ltac:(rewrite rev_length; lia)) as C.
  destruct (content s k) as [|e l] eqn:Ec; [reflexivity|]. cbn [length Nat.eqb]. rewrite E. cbn [ld bind].
  destruct (exists_last (l := e :: l)) as (s1 & y & Es); [discriminate|]. rewrite Es in *. rewrite rev_app_distr in *. cbn [rev app] in *.
  assert (El : lastp (Head k) (s1 ++ [y]) = Node y) by (unfold lastp; rewrite map_app; cbn [map]; apply last_last).
  rewrite El. rewrite app_length in C. cbn [length] in *. assert (length (s1 ++ [y]) = S (length l)) by (rewrite <- Es; reflexivity).
  rewrite app_length in H. cbn [length] in H. rewrite H in C. exact C.
Qed.
