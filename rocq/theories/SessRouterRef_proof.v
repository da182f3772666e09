(* The session router refines the reference table of SessRouter_spec.v. *)
From Coq Require Import ZArith List Bool Lia.
From Verif Require Import Base Base_lemmas SessRouter_model SessRouter_spec SessRouter_proof.
Import ListNotations.
Local Open Scope Z_scope.

Lemma opt_ext {A} (x y : option A) : (forall z, x = Some z <-> y = Some z) -> x = y.
Proof.
  intro H. destruct x as [a |].
  - symmetry. apply H. auto.
  - destruct y as [b |]; auto. apply H. auto.
Qed.

Lemma bool_ext (x y : bool) : (x = true <-> y = true) -> x = y.
Proof. destruct x, y; intuition congruence. Qed.

(* CNAME of an SSRC. *)
Definition cn_of (st : rstate) (s : Z) : option (list Z) :=
  match by_src (st_routes st) s with
  | None => None
  | Some r => match r_cname r with [] => None | c => Some c end
  end.

Definition abs (st : rstate) : view :=
  mkView (find_by_source st) (find_by_address st) (has_session st) (cn_of st).

(* Every route has an SSRC: true as long as no allocation has failed. *)
Definition full (rs : list route) : Prop := forall r, In r rs -> r_srcs r <> [].

Section Char.
Variable st : rstate.
Variable I : inv st.
Notation rs := (st_routes st).

Lemma fs_iff s x : find_by_source st s = Some x <->
  exists r, In r rs /\ In s (r_srcs r) /\ r_sess r = Some x.
Proof.
  unfold find_by_source. split.
  - destruct (by_src rs s) as [r |] eqn:E; [| congruence]. apply by_src_iff in E; auto.
    intro H. exists r. tauto.
  - intros (r & H1 & H2 & H3). assert (E : by_src rs s = Some r) by (apply by_src_iff; auto).
    rewrite E. auto.
Qed.

Lemma fa_iff a x : find_by_address st a = Some x <->
  exists r, In r rs /\ r_addr r = Some a /\ r_sess r = Some x.
Proof.
  unfold find_by_address. split.
  - destruct (by_addr rs (Some a)) as [r |] eqn:E; [| congruence]. apply by_addr_iff in E; auto.
    intro H. exists r. tauto.
  - intros (r & H1 & H2 & H3). assert (E : by_addr rs (Some a) = Some r) by (apply by_addr_iff; auto).
    rewrite E. auto.
Qed.

Lemma hs_iff x : has_session st x = true <-> exists r, In r rs /\ r_sess r = Some x.
Proof.
  unfold has_session, has. split.
  - destruct (by_sess rs (Some x)) as [r |] eqn:E; [| intro H; discriminate H].
    apply by_sess_iff in E; auto. intro H. exists r. tauto.
  - intros (r & H1 & H2). assert (E : by_sess rs (Some x) = Some r) by (apply by_sess_iff; auto).
    rewrite E. auto.
Qed.

Lemma fc_iff s c : cn_of st s = Some c <->
  exists r, In r rs /\ In s (r_srcs r) /\ r_cname r = c /\ c <> [].
Proof.
  unfold cn_of. split.
  - destruct (by_src rs s) as [r |] eqn:E; [| congruence]. apply by_src_iff in E; auto.
    intro H. exists r. destruct (r_cname r) eqn:F; [congruence |].
    assert (c = z :: l) by congruence. subst. splits; try tauto. congruence.
  - intros (r & H1 & H2 & H3 & H4).
    assert (E : by_src rs s = Some r) by (apply by_src_iff; auto).
    rewrite E. destruct (r_cname r); congruence.
Qed.

(* Routes are told apart by any of their keys. *)
Lemma u_src r q s : In r rs -> In q rs -> In s (r_srcs r) -> In s (r_srcs q) -> r = q.
Proof. intros. apply (same _ I); auto. apply I; auto. left. eauto. Qed.

Lemma u_addr r q a : In r rs -> In q rs -> r_addr r = Some a -> r_addr q = Some a -> r = q.
Proof. intros. apply (same _ I); auto. apply I; auto. right; left. split; congruence. Qed.

Lemma u_cname r q c : In r rs -> In q rs -> r_cname r = c -> r_cname q = c -> c <> [] -> r = q.
Proof. intros. apply (same _ I); auto. apply I; auto. right; right; left. split; congruence. Qed.

Lemma u_sess r q x : In r rs -> In q rs -> r_sess r = Some x -> r_sess q = Some x -> r = q.
Proof. intros. apply (same _ I); auto. apply I; auto. right; right; right. split; congruence. Qed.

Lemma addr_sess r a : In r rs -> r_addr r = Some a -> exists x, r_sess r = Some x.
Proof.
  intros H E. destruct (i_wf _ I r H) as (_ & _ & _ & _ & _ & W).
  destruct (r_sess r); eauto. exfalso. apply W; congruence.
Qed.

Lemma bare r s : In r rs -> In s (r_srcs r) -> r_cname r = [] ->
  r_srcs r = [s] /\ r_main r = Some s /\ exists x a, r_sess r = Some x /\ r_addr r = Some a.
Proof.
  intros H Hs E. destruct (i_wf _ I r H) as (_ & _ & _ & _ & W & _).
  destruct W as (t & x & a & W1 & W2 & W3 & W4); auto.
  - intro X. rewrite X in Hs. destruct Hs.
  - assert (t = s). { rewrite W1 in Hs. destruct Hs as [X | []]. auto. }
    subst t. splits; eauto.
Qed.

Lemma fs_none s r : In r rs -> In s (r_srcs r) -> find_by_source st s = r_sess r.
Proof.
  intros H Hs. unfold find_by_source.
  assert (E : by_src rs s = Some r) by (apply by_src_iff; auto). rewrite E. auto.
Qed.

End Char.

Lemma same_refl v : same_view v v.
Proof. unfold same_view; auto. Qed.

Lemma abs_eq st st' : st_routes st' = st_routes st -> same_view (abs st') (abs st).
Proof.
  intro E. unfold same_view, abs; cbn. unfold find_by_source, find_by_address, has_session, cn_of.
  rewrite E. auto.
Qed.

Ltac ext := apply opt_ext; let z := fresh "z" in intro z.

Lemma if_none {A} (b : bool) (o : option A) z :
  (if b then None else o) = Some z <-> b = false /\ o = Some z.
Proof. destruct b; split; intros; intuition congruence. Qed.

Lemma keyn_false x y : keyn x y = false <-> x <> y.
Proof. rewrite <- not_true_iff_false, keyn_eq. tauto. Qed.

(* ---- taking an SSRC away ---- *)

Lemma filter_nil (l : list Z) s :
  Nat.eqb (length (filter (fun x => negb (x =? s)) l)) 0 = true <-> forall t, In t l -> t = s.
Proof.
  rewrite Nat.eqb_eq. split.
  - intros H t Ht. destruct (t =? s) eqn:E; [apply Z.eqb_eq; auto |].
    assert (X : In t (filter (fun x => negb (x =? s)) l)).
    { apply filter_In. rewrite E. auto. }
    destruct (filter _ l); [destruct X | discriminate H].
  - intro H. destruct (filter _ l) as [| t l'] eqn:E; auto. exfalso.
    assert (X : In t (filter (fun x => negb (x =? s)) l)) by (rewrite E; left; auto).
    apply filter_In in X. destruct X as [X1 X2]. apply H in X1. subst.
    rewrite Z.eqb_refl in X2. discriminate X2.
Qed.

Lemma in_filter_ne (l : list Z) s t : In t (filter (fun x => negb (x =? s)) l) <-> In t l /\ t <> s.
Proof. rewrite filter_In, negb_true_iff, Z.eqb_neq. tauto. Qed.

Lemma cut_same r s q :
  r_addr (cut r s q) = r_addr q /\ r_sess (cut r s q) = r_sess q /\ r_cname (cut r s q) = r_cname q.
Proof. unfold cut. destruct (keyz _ _); auto. Qed.

Lemma unlink_refines st s st' :
  inv st -> full (st_routes st) -> unlink_source st s = Ok st' ->
  v_unlink (abs st) s (abs st') /\ full (st_routes st').
Proof.
  intros I F H. destruct (unlink_inv _ _ _ I H) as (I' & _).
  destruct (unlink_ok st s I) as [st1 [E [En [E1 E2]]]].
  assert (st1 = st') by congruence. subst st1.
  destruct (by_src (st_routes st) s) as [r |] eqn:Es.
  2: { rewrite E2 by auto. split; auto. split.
       - intros x [X _]. cbn in X. unfold find_by_source in X. rewrite Es in X. congruence.
       - intros _. unfold same_view, v_detach; cbn. splits; auto; intro t.
         + destruct (t =? s) eqn:Et; auto. apply Z.eqb_eq in Et. subst.
           unfold find_by_source. rewrite Es. auto.
         + destruct (t =? s) eqn:Et; auto. apply Z.eqb_eq in Et. subst.
           unfold cn_of. rewrite Es. auto. }
  specialize (E1 r eq_refl). apply by_src_iff in Es; auto. destruct Es as [Hr Hs].
  destruct (Nat.eqb _ 0) eqn:El.
  - assert (Only : forall t, In t (r_srcs r) -> t = s) by (apply filter_nil; auto).
    assert (Q : forall q, In q (st_routes st') <-> In q (st_routes st) /\ q <> r).
    { intro q. rewrite E1, in_others. split; intros [H1 H2]; split; auto; [congruence |].
      intro X. apply H2. apply (same _ I); auto. }
    split; [| intros q Hq; apply F; apply Q; auto].
    assert (Qs : forall t y, find_by_source st' t = Some y <-> t <> s /\ find_by_source st t = Some y).
    { intros t y. rewrite (fs_iff st' I'), (fs_iff st I). split.
      - intros (q & H1 & H2 & H3). apply Q in H1. split.
        + intros ->. apply (proj2 H1). eapply (u_src st I); eauto; tauto.
        + exists q. tauto.
      - intros (Ht & q & H1 & H2 & H3). exists q. splits; auto. apply Q. split; auto.
        intros ->. auto. }
    assert (Qc : forall t y, cn_of st' t = Some y <-> t <> s /\ cn_of st t = Some y).
    { intros t y. rewrite (fc_iff st' I'), (fc_iff st I). split.
      - intros (q & H1 & H2 & H3). apply Q in H1. split.
        + intros ->. apply (proj2 H1). eapply (u_src st I); eauto; tauto.
        + exists q. tauto.
      - intros (Ht & q & H1 & H2 & H3). exists q. splits; try tauto. apply Q. split; auto.
        intros ->. auto. }
    split.
    + intros x [X1 X2]. cbn in X1, X2.
      assert (Xr : r_sess r = Some x) by (rewrite <- X1; symmetry; apply fs_none; auto).
      unfold same_view; cbn. splits.
      * intro t. ext. rewrite Qs, if_none, keyn_false.
        destruct (t =? s) eqn:Et.
        -- apply Z.eqb_eq in Et. split; intros [? ?]; congruence.
        -- apply Z.eqb_neq in Et. split; intros [H1 H2]; split; auto.
      * intro a. ext. rewrite (fa_iff st' I'), if_none, keyn_false, !(fa_iff st I). split.
        -- intros (q & H1 & H2 & H3). apply Q in H1. split.
           ++ intro Y. destruct Y as (q' & Y1 & Y2 & Y3).
              apply (proj2 H1). assert (q = q') by (eapply (u_addr st I); eauto; tauto). subst q'.
              eapply (u_sess st I); eauto.
           ++ exists q. tauto.
        -- intros (Hn & q & H1 & H2 & H3). exists q. splits; auto. apply Q. split; auto.
           intros ->. apply Hn. exists r. auto.
      * intro y. apply bool_ext. rewrite (hs_iff st' I').
        destruct (Nat.eqb y x) eqn:Ey.
        -- apply Nat.eqb_eq in Ey. subst y. split; [| intro Y; discriminate Y].
           intros (q & H1 & H2). exfalso. apply Q in H1. apply (proj2 H1).
           eapply (u_sess st I); eauto; tauto.
        -- apply Nat.eqb_neq in Ey. rewrite (hs_iff st I). split; intros (q & H1 & H2).
           ++ exists q. split; auto. apply Q; auto.
           ++ exists q. split; auto. apply Q. split; auto. intros ->. congruence.
      * intro t. ext. rewrite Qc, if_none, keyn_false.
        destruct (t =? s) eqn:Et.
        -- apply Z.eqb_eq in Et. split; intros [? ?]; congruence.
        -- apply Z.eqb_neq in Et. split; intros [H1 H2]; split; auto.
    + intro NL. assert (Xr : r_sess r = None).
      { destruct (r_sess r) as [x |] eqn:X; auto. exfalso. apply (NL x). split; cbn.
        - rewrite <- X. apply fs_none; auto.
        - intros t Ht Y. apply (fs_iff st I) in Y. destruct Y as (q & Y1 & Y2 & Y3).
          assert (q = r) by (eapply (u_sess st I); eauto). subst q. auto. }
      unfold same_view; cbn. splits.
      * intro t. ext. rewrite Qs, if_none, Z.eqb_neq. tauto.
      * intro a. ext. rewrite (fa_iff st' I'), (fa_iff st I). split; intros (q & H1 & H2 & H3).
        -- exists q. splits; auto. apply Q; auto.
        -- exists q. splits; auto. apply Q. split; auto. intros ->. congruence.
      * intro y. apply bool_ext. rewrite (hs_iff st' I'), (hs_iff st I).
        split; intros (q & H1 & H2).
        -- exists q. split; auto. apply Q; auto.
        -- exists q. split; auto. apply Q. split; auto. intros ->. congruence.
      * intro t. ext. rewrite Qc, if_none, Z.eqb_neq. tauto.
  - assert (More : exists t, In t (r_srcs r) /\ t <> s).
    { destruct (filter (fun x => negb (x =? s)) (r_srcs r)) as [| t l] eqn:Ef; [discriminate El |].
      exists t. apply in_filter_ne. rewrite Ef. left. auto. }
    assert (Q : forall q', In q' (st_routes st') <->
       exists q, In q (st_routes st) /\ q' = if Nat.eqb (r_id r) (r_id q) then cut r s q else q).
    { intro q. rewrite E1. apply in_on. }
    assert (Qi : forall q, In q (st_routes st) -> exists q', In q' (st_routes st') /\
       r_addr q' = r_addr q /\ r_sess q' = r_sess q /\ r_cname q' = r_cname q /\
       (forall t, In t (r_srcs q') <-> In t (r_srcs q) /\ t <> s)).
    { intros q Hq. exists (if Nat.eqb (r_id r) (r_id q) then cut r s q else q). split.
      - apply Q. eauto.
      - destruct (Nat.eqb (r_id r) (r_id q)) eqn:Ei.
        + destruct (cut_same r s q) as (Y1 & Y2 & Y3). splits; auto. intro t.
          rewrite srcs_cut. apply in_filter_ne.
        + splits; auto. intro t. split; [| tauto]. intro Ht. split; auto. intros ->.
          apply Nat.eqb_neq in Ei. apply Ei. f_equal. eapply (u_src st I); eauto. }
    assert (Qj : forall q', In q' (st_routes st') -> exists q, In q (st_routes st) /\
       r_addr q' = r_addr q /\ r_sess q' = r_sess q /\ r_cname q' = r_cname q /\
       (forall t, In t (r_srcs q') <-> In t (r_srcs q) /\ t <> s)).
    { intros q' Hq'. apply Q in Hq'. destruct Hq' as (q & Hq & ->). exists q. split; auto.
      destruct (Nat.eqb (r_id r) (r_id q)) eqn:Ei.
      - destruct (cut_same r s q) as (Y1 & Y2 & Y3). splits; auto. intro t.
        rewrite srcs_cut. apply in_filter_ne.
      - splits; auto. intro t. split; [| tauto]. intro Ht. split; auto. intros ->.
        apply Nat.eqb_neq in Ei. apply Ei. f_equal. eapply (u_src st I); eauto. }
    split.
    2: { intros q' Hq'. apply Q in Hq'. destruct Hq' as (q & Hq & ->).
         destruct (Nat.eqb (r_id r) (r_id q)) eqn:Ei; [| apply F; auto].
         apply Nat.eqb_eq in Ei. assert (q = r) by (apply (same _ I); auto). subst q.
         rewrite srcs_cut. destruct More as (t & M1 & M2). intro X.
         assert (Y : In t []) by (rewrite <- X; apply in_filter_ne; auto). destruct Y. }
    split.
    + intros x [X1 X2]. exfalso. cbn in X1, X2. destruct More as (t & M1 & M2).
      apply (X2 t M2). rewrite <- X1. rewrite (fs_none st I t r), (fs_none st I s r); auto.
    + intros _. unfold same_view; cbn. splits.
      * intro t. ext. rewrite (fs_iff st' I'), if_none, Z.eqb_neq, (fs_iff st I). split.
        -- intros (q' & H1 & H2 & H3). destruct (Qj q' H1) as (q & A1 & A2 & A3 & A4 & A5).
           apply A5 in H2. split; try tauto. exists q. splits; try tauto. congruence.
        -- intros (Ht & q & H1 & H2 & H3). destruct (Qi q H1) as (q' & A1 & A2 & A3 & A4 & A5).
           exists q'. splits; auto; [apply A5; auto | congruence].
      * intro a. ext. rewrite (fa_iff st' I'), (fa_iff st I). split.
        -- intros (q' & H1 & H2 & H3). destruct (Qj q' H1) as (q & A1 & A2 & A3 & A4 & A5).
           exists q. splits; congruence.
        -- intros (q & H1 & H2 & H3). destruct (Qi q H1) as (q' & A1 & A2 & A3 & A4 & A5).
           exists q'. splits; congruence.
      * intro y. apply bool_ext. rewrite (hs_iff st' I'), (hs_iff st I). split.
        -- intros (q' & H1 & H2). destruct (Qj q' H1) as (q & A1 & A2 & A3 & A4 & A5).
           exists q. split; congruence.
        -- intros (q & H1 & H2). destruct (Qi q H1) as (q' & A1 & A2 & A3 & A4 & A5).
           exists q'. split; congruence.
      * intro t. ext. rewrite (fc_iff st' I'), if_none, Z.eqb_neq, (fc_iff st I). split.
        -- intros (q' & H1 & H2 & H3). destruct (Qj q' H1) as (q & A1 & A2 & A3 & A4 & A5).
           apply A5 in H2. split; try tauto. exists q. splits; try tauto. destruct H3; congruence.
        -- intros (Ht & q & H1 & H2 & H3). destruct (Qi q H1) as (q' & A1 & A2 & A3 & A4 & A5).
           exists q'. splits; auto; [apply A5; auto | | tauto]. destruct H3; congruence.
Qed.

(* ---- removing a session ---- *)

Lemma remove_refines st x st' :
  inv st -> full (st_routes st) -> remove_session st x = Ok st' ->
  same_view (abs st') (v_forget x (abs st)) /\ full (st_routes st').
Proof.
  intros I F H. destruct (remove_run st x I) as (st1 & E & I' & _ & D1 & D2).
  assert (st1 = st') by congruence. subst st1.
  destruct (by_sess (st_routes st) (Some x)) as [r |] eqn:Eb.
  2: { rewrite D2 by auto. split; auto. assert (N := proj1 (by_sess_none _ I x) Eb).
       unfold same_view; cbn. splits.
       - intro t. ext. rewrite if_none, keyn_false. split; [| tauto]. intro X. split; auto.
         intro Y. apply (fs_iff st I) in Y. destruct Y as (q & H1 & _ & H2). eapply N; eauto.
       - intro t. ext. rewrite if_none, keyn_false. split; [| tauto]. intro X. split; auto.
         intro Y. apply (fa_iff st I) in Y. destruct Y as (q & H1 & _ & H2). eapply N; eauto.
       - intro y. destruct (Nat.eqb y x) eqn:Ey; auto. apply Nat.eqb_eq in Ey. subst y.
         unfold has_session. rewrite Eb. auto.
       - intro t. ext. rewrite if_none, keyn_false. split; [| tauto]. intro X. split; auto.
         intro Y. apply (fs_iff st I) in Y. destruct Y as (q & H1 & _ & H2). eapply N; eauto. }
  specialize (D1 r eq_refl). apply by_sess_iff in Eb; auto. destruct Eb as [Hr Xr].
  assert (Q : forall q, In q (st_routes st') <-> In q (st_routes st) /\ r_sess q <> Some x).
  { intro q. rewrite D1, in_others. split; intros [H1 H2]; split; auto.
    - intro X. apply H2. f_equal. eapply (u_sess st I); eauto.
    - intro X. apply H2. rewrite <- Xr. f_equal. apply (same _ I); auto. }
  split; [| intros q Hq; apply F; apply Q; auto].
  unfold same_view; cbn. splits.
  - intro t. ext. rewrite (fs_iff st' I'), if_none, keyn_false, (fs_iff st I t z). split.
    + intros (q & H1 & H2 & H3). apply Q in H1. destruct H1 as [H1 H4]. split.
      * rewrite (fs_none st I t q) by auto. auto.
      * exists q. auto.
    + intros (Hn & q & H1 & H2 & H3). exists q. splits; auto. apply Q. split; auto.
      rewrite <- (fs_none st I t q); auto.
  - intro a. ext. rewrite (fa_iff st' I'), if_none, keyn_false, !(fa_iff st I). split.
    + intros (q & H1 & H2 & H3). apply Q in H1. destruct H1 as [H1 H4]. split.
      * intro Y. destruct Y as (q' & Y1 & Y2 & Y3).
        assert (q = q') by (eapply (u_addr st I); eauto). subst. auto.
      * exists q. auto.
    + intros (Hn & q & H1 & H2 & H3). exists q. splits; auto. apply Q. split; auto.
      intro Y. apply Hn. eauto.
  - intro y. apply bool_ext. rewrite (hs_iff st' I').
    destruct (Nat.eqb y x) eqn:Ey.
    + apply Nat.eqb_eq in Ey. subst y. split; [| intro Y; discriminate Y].
      intros (q & H1 & H2). apply Q in H1. tauto.
    + apply Nat.eqb_neq in Ey. rewrite (hs_iff st I). split; intros (q & H1 & H2); exists q.
      * split; auto. apply Q; auto.
      * split; auto. apply Q. split; auto. congruence.
  - intro t. ext. rewrite (fc_iff st' I'), if_none, keyn_false, (fc_iff st I). split.
    + intros (q & H1 & H2 & H3). apply Q in H1. destruct H1 as [H1 H4]. split.
      * rewrite (fs_none st I t q) by auto. auto.
      * exists q. auto.
    + intros (Hn & q & H1 & H2 & H3). exists q. splits; try tauto. apply Q. split; auto.
      rewrite <- (fs_none st I t q); auto.
Qed.

(* ---- adding a session ---- *)

Lemma if_some {A} (b : bool) (u : A) (o : option A) z :
  (if b then Some u else o) = Some z <-> (b = true /\ u = z) \/ (b = false /\ o = Some z).
Proof. destruct b; split; intros; intuition congruence. Qed.

Lemma same_cname_iff v s t :
  same_cname v s t = true <-> exists c, vc v s = Some c /\ vc v t = Some c.
Proof.
  unfold same_cname. destruct (vc v s) as [c |], (vc v t) as [d |];
    try (split; [intro H; discriminate H | intros (e & H1 & H2); congruence]).
  rewrite keys_eq. split; [intros ->; eauto | intros (e & H1 & H2); congruence].
Qed.

Lemma add_refines st x s a st' :
  inv st -> inv st' -> full (st_routes st) ->
  by_addr (st_routes st) (Some a) = None -> by_sess (st_routes st) (Some x) = None ->
  add_ok st x s a (st_routes st') ->
  (exists u, match find_by_source st s with
             | Some _ => v_unlink (abs st) s u
             | None => same_view u (abs st)
             end /\ same_view (abs st') (v_assign x s a u)) /\ full (st_routes st').
Proof.
  intros I I' F Ea Ex H.
  assert (Na := proj1 (by_addr_none _ I a) Ea). assert (Nx := proj1 (by_sess_none _ I x) Ex).
  inversion H as [r Hr Hs Ar Xr ER | st1 Hu Hl ER]; rewrite ER.
  - (* an existing route gets the session *)
    assert (Q : forall q', In q' (st_routes st') <->
       exists q, In q (st_routes st) /\ q' = if Nat.eqb (r_id r) (r_id q) then fill x a q else q).
    { intro q. rewrite <- ER. apply in_on. }
    assert (Hf : In (fill x a r) (st_routes st')).
    { apply Q. exists r. split; auto. rewrite Nat.eqb_refl. auto. }
    assert (Qo : forall q, In q (st_routes st) -> q <> r -> In q (st_routes st')).
    { intros q Hq Hn. apply Q. exists q. split; auto.
      destruct (Nat.eqb (r_id r) (r_id q)) eqn:Ei; auto. apply Nat.eqb_eq in Ei.
      exfalso. apply Hn. apply (same _ I); auto. }
    assert (Qi : forall q', In q' (st_routes st') -> q' = fill x a r \/
                            (In q' (st_routes st) /\ q' <> r)).
    { intros q' Hq'. apply Q in Hq'. destruct Hq' as (q & Hq & ->).
      destruct (Nat.eqb (r_id r) (r_id q)) eqn:Ei.
      - apply Nat.eqb_eq in Ei. left. f_equal. apply (same _ I); auto.
      - right. split; auto. intros ->. rewrite Nat.eqb_refl in Ei. discriminate Ei. }
    split.
    2: { intros q' Hq'. destruct (Qi q' Hq') as [-> | [Hq _]]; [| apply F; auto].
         cbn. apply F; auto. }
    rewrite (fs_none st I s r) by auto. rewrite Xr. exists (abs st). split; [apply same_refl |].
    assert (Cr : r_cname r <> []).
    { intro X. destruct (bare st I r s Hr Hs X) as (_ & _ & y & b & Y & _). congruence. }
    assert (SC : forall t, (t =? s) || same_cname (abs st) s t = true <-> In t (r_srcs r)).
    { intro t. rewrite orb_true_iff, Z.eqb_eq, same_cname_iff. cbn [vc abs]. split.
      - intros [-> | (c & C1 & C2)]; auto. apply (fc_iff st I) in C1, C2.
        destruct C1 as (q1 & A1 & A2 & A3 & A4), C2 as (q2 & B1 & B2 & B3 & B4).
        assert (q1 = r) by (eapply (u_src st I); eauto). subst q1.
        assert (q2 = r) by (eapply (u_cname st I); eauto). subst q2. auto.
      - intro Ht. right. exists (r_cname r). split; apply (fc_iff st I); exists r; auto. }
    unfold same_view; cbn [vs va vl vc abs v_assign]. splits.
    + intro t. ext. rewrite (fs_iff st' I'), if_some, <- not_true_iff_false, SC, (fs_iff st I). split.
      * intros (q' & H1 & H2 & H3). destruct (Qi q' H1) as [-> | [H4 H5]].
        -- left. cbn in H2, H3. split; congruence.
        -- right. split; [| eauto]. intro Y. apply H5. eapply (u_src st I); eauto.
      * intros [[H1 <-] | [H1 (q & H2 & H3 & H4)]].
        -- exists (fill x a r). auto.
        -- exists q. splits; auto. apply Qo; auto. intros ->. auto.
    + intro b. ext. rewrite (fa_iff st' I'), if_some, Z.eqb_eq, Z.eqb_neq, (fa_iff st I). split.
      * intros (q' & H1 & H2 & H3). destruct (Qi q' H1) as [-> | [H4 H5]].
        -- left. cbn in H2, H3. split; congruence.
        -- right. split; [| eauto]. intros ->. eapply Na; eauto.
      * intros [[-> <-] | [H1 (q & H2 & H3 & H4)]].
        -- exists (fill x a r). auto.
        -- exists q. splits; auto. apply Qo; auto. congruence.
    + intro y. apply bool_ext. rewrite (hs_iff st' I'). split.
      * intros (q' & H1 & H2). destruct (Nat.eqb y x) eqn:Ey; auto. apply Nat.eqb_neq in Ey.
        apply (hs_iff st I). destruct (Qi q' H1) as [-> | [H4 H5]]; eauto.
        cbn in H2. congruence.
      * destruct (Nat.eqb y x) eqn:Ey.
        -- apply Nat.eqb_eq in Ey. intros _. exists (fill x a r). subst. auto.
        -- intro Y. apply (hs_iff st I) in Y. destruct Y as (q & H1 & H2). exists q.
           split; auto. apply Qo; auto. congruence.
    + intro t. ext. rewrite (fc_iff st' I'), (fc_iff st I). split.
      * intros (q' & H1 & H2 & H3). destruct (Qi q' H1) as [-> | [H4 H5]]; eauto.
      * intros (q & H1 & H2 & H3). destruct (Nat.eq_dec (r_id q) (r_id r)) as [E | E].
        -- assert (q = r) by (apply (same _ I); auto). subst q. exists (fill x a r). auto.
        -- exists q. splits; try tauto. apply Qo; auto. congruence.
  - (* a new route *)
    destruct (unlink_inv _ _ _ I Hu) as (I1 & _ & _ & _ & N1).
    destruct (unlink_refines st s st1 I F Hu) as [R1 F1].
    assert (Ns := proj1 (by_src_none _ I1 s) N1).
    set (p := new_route (st_next st) s (Some a) None (Some x)) in *.
    assert (Hp : In p (st_routes st')) by (rewrite <- ER; apply in_app_iff; right; left; auto).
    assert (Qi : forall q, In q (st_routes st') <-> q = p \/ In q (st_routes st1)).
    { intro q. rewrite <- ER, in_app_iff. cbn. intuition. }
    split.
    2: { intros q Hq. apply Qi in Hq. destruct Hq as [-> | Hq]; [cbn; congruence | auto]. }
    exists (abs st1). split.
    { destruct (find_by_source st s) as [y |] eqn:Ey; auto.
      assert (X : by_src (st_routes st) s = None).
      { apply (by_src_none _ I). intros r Hr Hs. apply (Hl r Hr Hs).
        rewrite <- (fs_none st I s r); auto. }
      unfold unlink_source in Hu. rewrite X in Hu. assert (st = st1) by congruence. subst.
      apply same_refl. }
    pose proof (unlink_sub _ _ _ I Hu) as U.
    assert (SC : forall t, (t =? s) || same_cname (abs st1) s t = (t =? s)).
    { intro t. destruct (t =? s); auto. cbn [orb]. apply not_true_iff_false.
      rewrite same_cname_iff. intros (c & C1 & _). cbn in C1. apply (fc_iff st1 I1) in C1.
      destruct C1 as (q & H1 & H2 & _). eapply Ns; eauto. }
    unfold same_view; cbn [vs va vl vc abs v_assign]. splits.
    + intro t. rewrite SC. ext. rewrite (fs_iff st' I'), if_some, Z.eqb_eq, Z.eqb_neq, (fs_iff st1 I1).
      split.
      * intros (q & H1 & H2 & H3). apply Qi in H1. destruct H1 as [-> | H1].
        -- left. cbn in H2, H3. destruct H2 as [<- | []]. split; congruence.
        -- right. split; eauto. intros ->. eapply Ns; eauto.
      * intros [[-> <-] | [H1 (q & H2 & H3 & H4)]].
        -- exists p. splits; auto. cbn. auto.
        -- exists q. splits; auto. apply Qi. auto.
    + intro b. ext. rewrite (fa_iff st' I'), if_some, Z.eqb_eq, Z.eqb_neq, (fa_iff st1 I1). split.
      * intros (q & H1 & H2 & H3). apply Qi in H1. destruct H1 as [-> | H1].
        -- left. cbn in H2, H3. split; congruence.
        -- right. split; eauto. intros ->. destruct (U q H1) as (q0 & V1 & V2 & V3 & _).
           apply (Na q0); auto. congruence.
      * intros [[-> <-] | [H1 (q & H2 & H3 & H4)]].
        -- exists p. splits; auto.
        -- exists q. splits; auto. apply Qi. auto.
    + intro y. apply bool_ext. rewrite (hs_iff st' I'). split.
      * intros (q & H1 & H2). destruct (Nat.eqb y x) eqn:Ey; auto. apply Nat.eqb_neq in Ey.
        apply (hs_iff st1 I1). apply Qi in H1. destruct H1 as [-> | H1]; eauto.
        cbn in H2. congruence.
      * destruct (Nat.eqb y x) eqn:Ey.
        -- apply Nat.eqb_eq in Ey. intros _. exists p. subst. auto.
        -- intro Y. apply (hs_iff st1 I1) in Y. destruct Y as (q & H1 & H2). exists q.
           split; auto. apply Qi; auto.
    + intro t. ext. rewrite (fc_iff st' I'), (fc_iff st1 I1). split.
      * intros (q & H1 & H2 & H3 & H4). apply Qi in H1. destruct H1 as [-> | H1]; [| eauto].
        cbn in H3. congruence.
      * intros (q & H1 & H2 & H3). exists q. splits; try tauto. apply Qi; auto.
Qed.

(* ---- linking ---- *)

Lemma has_src rs r : full rs -> In r rs -> exists s, In s (r_srcs r).
Proof.
  intros F H. specialize (F r H). destruct (r_srcs r) as [| s l]; [congruence |].
  exists s. left. auto.
Qed.

Lemma link_refines st s c st' :
  inv st -> inv st' -> full (st_routes st) -> c <> [] ->
  link_ok st s c (st_routes st') ->
  spec_step (abs st) (RLink s c) StOK (abs st') /\ full (st_routes st').
Proof.
  intros I I' F Cn H. cbn [spec_step].
  inversion H as [r Hr Hs Cr ER | Es Ec ER | r Hr Hs Cr Ec ER | r Hr Cr Es ER
                 | ro rc x a Ho Hc Hn So Co Xo Ao Cc ER]; rewrite ER.
  - (* already linked *)
    split; [| rewrite <- ER; auto]. splits; auto.
    + intros _. apply abs_eq. auto.
    + intro X. exfalso. apply X. cbn. apply (fc_iff st I). exists r. auto.
  - (* a new route *)
    set (p := new_route (st_next st) s None (Some c) None) in *.
    assert (Hp : In p (st_routes st')) by (rewrite <- ER; apply in_app_iff; right; left; auto).
    assert (Qi : forall q, In q (st_routes st') <-> q = p \/ In q (st_routes st)).
    { intro q. rewrite <- ER, in_app_iff. cbn. intuition. }
    assert (Ns := proj1 (by_src_none _ I s) Es).
    assert (Nc := proj1 (by_cname_none _ I c Cn) Ec).
    split.
    2: { intros q Hq. apply Qi in Hq. destruct Hq as [-> | Hq]; [cbn; congruence | auto]. }
    assert (V0 : find_by_source st s = None) by (unfold find_by_source; rewrite Es; auto).
    assert (V1 : cn_of st s = None) by (unfold cn_of; rewrite Es; auto).
    splits; auto; cbn [vs va vl vc abs].
    { intro X. congruence. }
    intros _. exists None. split.
    { split; auto. cbn. intros t X. apply (fc_iff st I) in X. destruct X as (q & Y1 & Y2 & Y3 & _).
      exfalso. eapply Nc; eauto. }
    rewrite V0. unfold same_view; cbn [vs va vl vc abs]. splits.
    + intro t. ext. rewrite (fs_iff st' I'), if_none, Z.eqb_neq, (fs_iff st I). split.
      * intros (q & H1 & H2 & H3). apply Qi in H1. destruct H1 as [-> | H1].
        -- cbn in H3. congruence.
        -- split; eauto. intros ->. eapply Ns; eauto.
      * intros [H1 (q & H2 & H3 & H4)]. exists q. splits; auto. apply Qi. auto.
    + intro b. ext. rewrite (fa_iff st' I'), (fa_iff st I). split.
      * intros (q & H1 & H2 & H3). apply Qi in H1. destruct H1 as [-> | H1]; eauto.
        cbn in H3. congruence.
      * intros (q & H2 & H3 & H4). exists q. splits; auto. apply Qi. auto.
    + intro y. apply bool_ext. rewrite (hs_iff st' I'), (hs_iff st I). split.
      * intros (q & H1 & H2). apply Qi in H1. destruct H1 as [-> | H1]; eauto.
        cbn in H2. congruence.
      * intros (q & H2 & H3). exists q. splits; auto. apply Qi. auto.
    + intro t. ext. rewrite (fc_iff st' I'), if_some, Z.eqb_eq, Z.eqb_neq, (fc_iff st I). split.
      * intros (q & H1 & H2 & H3 & H4). apply Qi in H1. destruct H1 as [-> | H1].
        -- left. cbn in H2, H3. destruct H2 as [<- | []]. auto.
        -- right. split; eauto. intros ->. eapply Ns; eauto.
      * intros [[-> <-] | [H1 (q & H2 & H3 & H4)]].
        -- exists p. cbn. auto.
        -- exists q. splits; try tauto. apply Qi. auto.
  - (* the route of the SSRC gets a CNAME *)
    destruct (bare st I r s Hr Hs Cr) as (Sr & _ & x & a & Xr & Ar).
    set (f := fun q => w_cn (Some c) (w_cname c q)) in *.
    assert (Nc := proj1 (by_cname_none _ I c Cn) Ec).
    assert (Q : forall q', In q' (st_routes st') <->
       exists q, In q (st_routes st) /\ q' = if Nat.eqb (r_id r) (r_id q) then f q else q).
    { intro q. rewrite <- ER. apply in_on. }
    assert (Hf : In (f r) (st_routes st')).
    { apply Q. exists r. split; auto. rewrite Nat.eqb_refl. auto. }
    assert (Qo : forall q, In q (st_routes st) -> q <> r -> In q (st_routes st')).
    { intros q Hq Hn. apply Q. exists q. split; auto.
      destruct (Nat.eqb (r_id r) (r_id q)) eqn:Ei; auto. apply Nat.eqb_eq in Ei.
      exfalso. apply Hn. apply (same _ I); auto. }
    assert (Qi : forall q', In q' (st_routes st') -> q' = f r \/
                            (In q' (st_routes st) /\ q' <> r)).
    { intros q' Hq'. apply Q in Hq'. destruct Hq' as (q & Hq & ->).
      destruct (Nat.eqb (r_id r) (r_id q)) eqn:Ei.
      - apply Nat.eqb_eq in Ei. left. f_equal. apply (same _ I); auto.
      - right. split; auto. intros ->. rewrite Nat.eqb_refl in Ei. discriminate Ei. }
    assert (DEC : forall q, In q (st_routes st) -> q = r \/ q <> r).
    { intros q Hq. destruct (Nat.eq_dec (r_id q) (r_id r)) as [E | E].
      - left. apply (same _ I); auto.
      - right. congruence. }
    split.
    2: { intros q' Hq'. destruct (Qi q' Hq') as [-> | [Hq _]]; [| apply F; auto].
         cbn. apply F; auto. }
    assert (V0 : find_by_source st s = Some x) by (rewrite <- Xr; apply fs_none; auto).
    assert (V1 : forall t, cn_of st t <> Some c).
    { intros t X. apply (fc_iff st I) in X. destruct X as (q & Y1 & Y2 & Y3 & _).
      eapply Nc; eauto. }
    splits; auto; cbn [vs va vl vc abs].
    { intro X. exfalso. eapply V1; eauto. }
    intros _. exists None. split.
    { split; auto. cbn. intros t X. exfalso. eapply V1; eauto. }
    rewrite V0. cbv zeta.
    assert (SC : forall t, (t =? s) || same_cname (mkView (find_by_source st) (find_by_address st)
       (has_session st) (fun z => if z =? s then Some c else cn_of st z)) s t = (t =? s)).
    { intro t. destruct (t =? s) eqn:Et; auto. cbn [orb]. apply not_true_iff_false.
      rewrite same_cname_iff. intros (d & C1 & C2). cbn in C1, C2. rewrite Z.eqb_refl in C1.
      rewrite Et in C2. apply (V1 t). congruence. }
    unfold same_view; cbn [vs va vl vc abs]. splits.
    + intro t. rewrite SC. ext. rewrite (fs_iff st' I'), if_some, Z.eqb_eq, Z.eqb_neq, (fs_iff st I).
      split.
      * intros (q & H1 & H2 & H3). apply Qi in H1. destruct H1 as [-> | [H1 H4]].
        -- left. cbn in H2, H3. rewrite Sr in H2. destruct H2 as [<- | []]. split; congruence.
        -- right. split; eauto. intros ->. apply H4. eapply (u_src st I); eauto.
      * intros [[-> <-] | [H1 (q & H2 & H3 & H4)]].
        -- exists (f r). auto.
        -- exists q. splits; auto. apply Qo; auto. intros ->. rewrite Sr in H3.
           destruct H3 as [<- | []]. auto.
    + intro b. ext. rewrite (fa_iff st' I'), (fa_iff st I). split.
      * intros (q & H1 & H2 & H3). apply Qi in H1. destruct H1 as [-> | [H1 H4]]; eauto.
      * intros (q & H2 & H3 & H4). destruct (DEC q H2) as [-> | E]; [exists (f r) | exists q]; auto.
    + intro y. apply bool_ext. rewrite (hs_iff st' I'), (hs_iff st I). split.
      * intros (q & H1 & H2). apply Qi in H1. destruct H1 as [-> | [H1 H4]]; eauto.
      * intros (q & H2 & H3). destruct (DEC q H2) as [-> | E]; [exists (f r) | exists q]; auto.
    + intro t. ext. rewrite (fc_iff st' I'), if_some, Z.eqb_eq, Z.eqb_neq, (fc_iff st I). split.
      * intros (q & H1 & H2 & H3 & H4). apply Qi in H1. destruct H1 as [-> | [H1 H5]].
        -- left. cbn in H2, H3. rewrite Sr in H2. destruct H2 as [<- | []]. auto.
        -- right. split; eauto. intros ->. apply H5. eapply (u_src st I); eauto.
      * intros [[-> <-] | [H1 (q & H2 & H3 & H4 & H5)]].
        -- exists (f r). cbn. auto.
        -- exists q. splits; auto. apply Qo; auto. intros ->. congruence.
  - (* the SSRC joins the route of the CNAME *)
    set (f := fun q => w_srcs (r_srcs q ++ [s]) q) in *.
    assert (Ns := proj1 (by_src_none _ I s) Es).
    assert (Q : forall q', In q' (st_routes st') <->
       exists q, In q (st_routes st) /\ q' = if Nat.eqb (r_id r) (r_id q) then f q else q).
    { intro q. rewrite <- ER. apply in_on. }
    assert (Hf : In (f r) (st_routes st')).
    { apply Q. exists r. split; auto. rewrite Nat.eqb_refl. auto. }
    assert (Qo : forall q, In q (st_routes st) -> q <> r -> In q (st_routes st')).
    { intros q Hq Hn. apply Q. exists q. split; auto.
      destruct (Nat.eqb (r_id r) (r_id q)) eqn:Ei; auto. apply Nat.eqb_eq in Ei.
      exfalso. apply Hn. apply (same _ I); auto. }
    assert (Qi : forall q', In q' (st_routes st') -> q' = f r \/
                            (In q' (st_routes st) /\ q' <> r)).
    { intros q' Hq'. apply Q in Hq'. destruct Hq' as (q & Hq & ->).
      destruct (Nat.eqb (r_id r) (r_id q)) eqn:Ei.
      - apply Nat.eqb_eq in Ei. left. f_equal. apply (same _ I); auto.
      - right. split; auto. intros ->. rewrite Nat.eqb_refl in Ei. discriminate Ei. }
    assert (DEC : forall q, In q (st_routes st) -> q = r \/ q <> r).
    { intros q Hq. destruct (Nat.eq_dec (r_id q) (r_id r)) as [E | E].
      - left. apply (same _ I); auto.
      - right. congruence. }
    assert (FI : forall t, In t (r_srcs (f r)) <-> In t (r_srcs r) \/ t = s).
    { intro t. cbn. rewrite in_app_iff. cbn. intuition. }
    split.
    2: { intros q' Hq'. destruct (Qi q' Hq') as [-> | [Hq _]]; [| apply F; auto].
         cbn. destruct (r_srcs r); cbn; congruence. }
    assert (V0 : find_by_source st s = None) by (unfold find_by_source; rewrite Es; auto).
    assert (V1 : cn_of st s = None) by (unfold cn_of; rewrite Es; auto).
    splits; auto; cbn [vs va vl vc abs].
    { intro X. congruence. }
    intros _. exists (r_sess r). split.
    { split; cbn.
      - intros t X. apply (fc_iff st I) in X. destruct X as (q & Y1 & Y2 & Y3 & _).
        assert (q = r) by (eapply (u_cname st I); eauto). subst q. apply fs_none; auto.
      - intro X. exfalso. destruct (has_src _ r F Hr) as (t & Ht). apply (X t).
        apply (fc_iff st I). exists r. auto. }
    rewrite V0. unfold same_view; cbn [vs va vl vc abs]. splits.
    + intro t. ext. rewrite (fs_iff st' I'). destruct (t =? s) eqn:Et.
      * apply Z.eqb_eq in Et. subst t. split.
        -- intros (q & H1 & H2 & H3). apply Qi in H1. destruct H1 as [-> | [H1 H4]]; auto.
           exfalso. eapply Ns; eauto.
        -- intro X. exists (f r). splits; auto. apply FI. auto.
      * apply Z.eqb_neq in Et. rewrite (fs_iff st I). split.
        -- intros (q & H1 & H2 & H3). apply Qi in H1. destruct H1 as [-> | [H1 H4]]; eauto.
           apply FI in H2. destruct H2; [eauto | congruence].
        -- intros (q & H2 & H3 & H4). destruct (DEC q H2) as [-> | E]; [exists (f r) | exists q]; auto.
           splits; auto. apply FI. auto.
    + intro b. ext. rewrite (fa_iff st' I'), (fa_iff st I). split.
      * intros (q & H1 & H2 & H3). apply Qi in H1. destruct H1 as [-> | [H1 H4]]; eauto.
      * intros (q & H2 & H3 & H4). destruct (DEC q H2) as [-> | E]; [exists (f r) | exists q]; auto.
    + intro y. apply bool_ext. rewrite (hs_iff st' I'), (hs_iff st I). split.
      * intros (q & H1 & H2). apply Qi in H1. destruct H1 as [-> | [H1 H4]]; eauto.
      * intros (q & H2 & H3). destruct (DEC q H2) as [-> | E]; [exists (f r) | exists q]; auto.
    + intro t. ext. rewrite (fc_iff st' I'), if_some, Z.eqb_eq, Z.eqb_neq, (fc_iff st I). split.
      * intros (q & H1 & H2 & H3 & H4). apply Qi in H1. destruct H1 as [-> | [H1 H5]].
        -- cbn in H3. destruct (Z.eq_dec t s) as [E | E]; [left; split; congruence | right].
           apply FI in H2. split; auto. exists r. splits; try tauto; congruence.
        -- right. split; eauto. intros ->. eapply Ns; eauto.
      * intros [[-> <-] | [H1 (q & H2 & H3 & H4 & H5)]].
        -- exists (f r). splits; auto. apply FI. auto.
        -- destruct (DEC q H2) as [-> | E]; [exists (f r) | exists q]; auto.
           splits; auto. apply FI. auto.
  - (* the SSRC moves with its session *)
    set (f := taken s x a) in *.
    assert (Nor : ro <> rc) by congruence.
    assert (Q : forall q', In q' (st_routes st') <->
       exists q, In q (others (r_id ro) (st_routes st)) /\
                 q' = if Nat.eqb (r_id rc) (r_id q) then f q else q).
    { intro q. rewrite <- ER. apply in_on. }
    assert (Oo : forall q, In q (others (r_id ro) (st_routes st)) <-> In q (st_routes st) /\ q <> ro).
    { intro q. rewrite in_others. split; intros [H1 H2]; split; auto; [congruence |].
      intro X. apply H2. apply (same _ I); auto. }
    assert (Hf : In (f rc) (st_routes st')).
    { apply Q. exists rc. split; [apply Oo; auto |]. rewrite Nat.eqb_refl. auto. }
    assert (Qo : forall q, In q (st_routes st) -> q <> ro -> q <> rc -> In q (st_routes st')).
    { intros q Hq Hn1 Hn2. apply Q. exists q. split; [apply Oo; auto |].
      destruct (Nat.eqb (r_id rc) (r_id q)) eqn:Ei; auto. apply Nat.eqb_eq in Ei.
      exfalso. apply Hn2. apply (same _ I); auto. }
    assert (Qi : forall q', In q' (st_routes st') -> q' = f rc \/
                            (In q' (st_routes st) /\ q' <> ro /\ q' <> rc)).
    { intros q' Hq'. apply Q in Hq'. destruct Hq' as (q & Hq & ->). apply Oo in Hq.
      destruct (Nat.eqb (r_id rc) (r_id q)) eqn:Ei.
      - apply Nat.eqb_eq in Ei. left. f_equal. apply (same _ I); auto. tauto.
      - right. splits; try tauto. intros ->. rewrite Nat.eqb_refl in Ei. discriminate Ei. }
    assert (DEC : forall q, In q (st_routes st) -> q = rc \/ q <> rc).
    { intros q Hq. destruct (Nat.eq_dec (r_id q) (r_id rc)) as [E | E].
      - left. apply (same _ I); auto.
      - right. congruence. }
    assert (DEO : forall q, In q (st_routes st) -> q = ro \/ q <> ro).
    { intros q Hq. destruct (Nat.eq_dec (r_id q) (r_id ro)) as [E | E].
      - left. apply (same _ I); auto.
      - right. congruence. }
    assert (FI : forall t, In t (r_srcs (f rc)) <-> In t (r_srcs rc) \/ t = s).
    { intro t. cbn. rewrite in_app_iff. cbn. intuition. }
    split.
    2: { intros q' Hq'. destruct (Qi q' Hq') as [-> | [Hq _]]; [| apply F; auto].
         cbn. destruct (r_srcs rc); cbn; congruence. }
    assert (Hs : In s (r_srcs ro)) by (rewrite So; left; auto).
    assert (V0 : find_by_source st s = Some x) by (rewrite <- Xo; apply fs_none; auto).
    assert (V1 : cn_of st s = None).
    { destruct (cn_of st s) eqn:X; auto. apply (fc_iff st I) in X.
      destruct X as (q & Y1 & Y2 & Y3 & Y4). assert (q = ro) by (eapply (u_src st I); eauto).
      congruence. }
    assert (V2 : forall t, cn_of st t = Some c <-> In t (r_srcs rc)).
    { intro t. rewrite (fc_iff st I). split.
      - intros (q & Y1 & Y2 & Y3 & Y4). assert (q = rc) by (eapply (u_cname st I); eauto).
        subst q. auto.
      - intro Ht. exists rc. auto. }
    splits; auto; cbn [vs va vl vc abs].
    { intro X. congruence. }
    intros _. exists (r_sess rc). split.
    { split; cbn.
      - intros t X. apply V2 in X. apply fs_none; auto.
      - intro X. exfalso. destruct (has_src _ rc F Hc) as (t & Ht). apply (X t). apply V2. auto. }
    rewrite V0. cbv zeta.
    assert (SC : forall t, (t =? s) || same_cname (mkView (find_by_source st) (find_by_address st)
       (has_session st) (fun z => if z =? s then Some c else cn_of st z)) s t = true <->
       t = s \/ In t (r_srcs rc)).
    { intro t. destruct (t =? s) eqn:Et.
      - apply Z.eqb_eq in Et. cbn [orb]. tauto.
      - cbn [orb]. apply Z.eqb_neq in Et. rewrite same_cname_iff. cbn. rewrite Z.eqb_refl.
        apply Z.eqb_neq in Et. rewrite Et. apply Z.eqb_neq in Et.
        split.
        + intros (d & C1 & C2). right. apply V2. congruence.
        + intros [X | X]; [congruence |]. exists c. split; auto. apply V2. auto. }
    assert (KA : forall b z, va match r_sess rc with Some y => v_forget_keys y (abs st)
                             | None => abs st end b = Some z <->
                 find_by_address st b = Some z /\ r_sess rc <> Some z).
    { intros b z. destruct (r_sess rc) as [y |] eqn:Ey; cbn [va v_forget_keys abs].
      - rewrite if_none, keyn_false. split.
        + intros [H1 H2]. split; auto. intro X. apply H1. congruence.
        + intros [H1 H2]. split; auto. intro X. apply H2. congruence.
      - split; [intro X; split; auto; congruence | tauto]. }
    assert (KL : forall z, vl match r_sess rc with Some y => v_forget_keys y (abs st)
                             | None => abs st end z = true <->
                 has_session st z = true /\ r_sess rc <> Some z).
    { intro z. destruct (r_sess rc) as [y |] eqn:Ey; cbn [vl v_forget_keys abs].
      - destruct (Nat.eqb z y) eqn:Ez.
        + apply Nat.eqb_eq in Ez. subst. split; [intro X; discriminate X | intros [_ X]; congruence].
        + apply Nat.eqb_neq in Ez. split; [intro X; split; auto; congruence | tauto].
      - split; [intro X; split; auto; congruence | tauto]. }
    unfold same_view; cbn [vs va vl vc abs]. splits.
    + intro t. ext. rewrite (fs_iff st' I'), if_some, <- not_true_iff_false, SC, (fs_iff st I). split.
      * intros (q & H1 & H2 & H3). apply Qi in H1. destruct H1 as [-> | [H1 [H4 H5]]].
        -- left. apply FI in H2. cbn in H3. split; [tauto | congruence].
        -- right. split; eauto. intros [-> | Y].
           ++ apply H4. eapply (u_src st I); eauto.
           ++ apply H5. eapply (u_src st I); eauto.
      * intros [[H1 <-] | [H1 (q & H2 & H3 & H4)]].
        -- exists (f rc). splits; auto. apply FI. tauto.
        -- exists q. splits; auto. apply Qo; auto; intros ->; apply H1; auto.
           rewrite So in H3. destruct H3 as [<- | []]. auto.
    + intro b. ext. rewrite (fa_iff st' I'). fold (abs st). rewrite KA, (fa_iff st I). split.
      * intros (q & H1 & H2 & H3). apply Qi in H1. destruct H1 as [-> | [H1 [H4 H5]]].
        -- cbn in H2, H3. split.
           ++ exists ro. splits; congruence.
           ++ intro X. apply Nor. eapply (u_sess st I); eauto. congruence.
        -- split; eauto. intro X. apply H5. eapply (u_sess st I); eauto.
      * intros [(q & H2 & H3 & H4) H5]. destruct (DEO q H2) as [-> | E].
        -- exists (f rc). splits; auto; cbn; congruence.
        -- exists q. splits; auto. apply Qo; auto. intros ->. auto.
    + intro y. apply bool_ext. rewrite (hs_iff st' I'). fold (abs st). rewrite KL, (hs_iff st I). split.
      * intros (q & H1 & H2). apply Qi in H1. destruct H1 as [-> | [H1 [H4 H5]]].
        -- cbn in H2. split.
           ++ exists ro. split; congruence.
           ++ intro X. apply Nor. eapply (u_sess st I); eauto. congruence.
        -- split; eauto. intro X. apply H5. eapply (u_sess st I); eauto.
      * intros [(q & H2 & H3) H5]. destruct (DEO q H2) as [-> | E].
        -- exists (f rc). split; auto; cbn; congruence.
        -- exists q. split; auto. apply Qo; auto. intros ->. auto.
    + intro t. ext. rewrite (fc_iff st' I'), if_some, Z.eqb_eq, Z.eqb_neq, (fc_iff st I). split.
      * intros (q & H1 & H2 & H3 & H4). apply Qi in H1. destruct H1 as [-> | [H1 [H5 H6]]].
        -- cbn in H3. destruct (Z.eq_dec t s) as [E | E]; [left; split; congruence | right].
           apply FI in H2. split; auto. exists rc. splits; try tauto; congruence.
        -- right. split; eauto. intros ->. apply H5. eapply (u_src st I); eauto.
      * intros [[-> <-] | [H1 (q & H2 & H3 & H4 & H5)]].
        -- exists (f rc). splits; auto. apply FI. auto.
        -- destruct (DEC q H2) as [-> | E].
           ++ exists (f rc). splits; auto. apply FI. auto.
           ++ exists q. splits; auto. apply Qo; auto. intros ->. congruence.
Qed.

(* ---- steps and histories ---- *)

Lemma step_refines st o k st' :
  inv st -> full (st_routes st) ->
  (match o with RAdd _ _ a => a <> None | RLink s c => c <> [] /\
     (forall r, In r (st_routes st) -> In s (r_srcs r) -> r_cname r = [] \/ r_cname r = c)
   | _ => True end) ->
  rstep st o = Ok (k, st') -> k <> StNoMem ->
  spec_step (abs st) o k (abs st') /\ full (st_routes st').
Proof.
  intros I F P H Hk. destruct o as [x s a | x | s c | s]; cbn [rstep] in H.
  - destruct a as [a |]; [| congruence].
    destruct (add_run st x s a I) as (k1 & st1 & E & I' & _ & _ & D).
    assert (k1 = k /\ st1 = st') by (split; congruence). destruct H0; subst k1 st1.
    destruct D as [[-> [-> D]] | (D1 & D2 & [[-> D] | ->])]; [| | congruence].
    + split; auto. cbn [spec_step]. split.
      * intros _. split; auto. apply same_refl.
      * intros X1 X2. exfalso. cbn in X1, X2. destruct D as [D | D].
        -- destruct (by_addr (st_routes st) (Some a)) as [r |] eqn:Ea; [| congruence].
           apply by_addr_iff in Ea; auto. destruct Ea as [E1 E2].
           destruct (addr_sess st I r a E1 E2) as [y Ey].
           assert (Z : find_by_address st a = Some y) by (apply (fa_iff st I); eauto). congruence.
        -- unfold has_session in X2. destruct (by_sess (st_routes st) (Some x)); [discriminate X2 | congruence].
    + destruct (add_refines st x s a st' I I' F D1 D2 D) as [R F']. split; auto.
      cbn [spec_step]. split.
      * intros [X | X]; exfalso; cbn in X.
        -- apply X. unfold find_by_address. rewrite D1. auto.
        -- unfold has_session in X. rewrite D2 in X. discriminate X.
      * intros _ _. split; auto.
  - destruct (remove_run st x I) as (st1 & E & _). rewrite E in H. cbn [bind] in H.
    assert (k = StOK /\ st1 = st') by (split; congruence). destruct H0; subst k st1.
    destruct (remove_refines st x st' I F E). cbn [spec_step]. auto.
  - destruct P as [P1 P2].
    destruct (link_run st s c I P1 P2) as (k1 & st1 & E & I' & _ & _ & D).
    assert (k1 = k /\ st1 = st') by (split; congruence). destruct H0; subst k1 st1.
    destruct D as [[-> D] | ->]; [| congruence].
    apply link_refines; auto.
  - destruct (unlink_ok st s I) as (st1 & E & _). rewrite E in H. cbn [bind] in H.
    assert (k = StOK /\ st1 = st') by (split; congruence). destruct H0; subst k st1.
    destruct (unlink_refines st s st' I F E). cbn [spec_step]. auto.
Qed.

Lemma inv_new oom : inv (router_new oom).
Proof. split; cbn; try tauto. constructor. Qed.

(* Whole histories; [h] is what happened before, newest first. *)
Lemma run_safe ops : forall h st,
  inv st -> tied (map fst h) (st_routes st) -> known h (st_routes st) ->
  all_polite (map fst h) ops ->
  exists ks st', rrun st ops = Ok (ks, st') /\ length ks = length ops /\ inv st' /\
    known (rev (combine ops ks) ++ h) (st_routes st').
Proof.
  induction ops as [| o ops IH]; intros h st I T K P.
  - exists [], st. cbn. auto.
  - cbn [all_polite] in P. destruct P as [P1 P2].
    destruct (step_run st h o I T K P1) as (k & st1 & E & I1 & T1 & K1).
    destruct (IH ((o, k) :: h) st1 I1) as (ks & st' & E' & L & I' & K'); auto.
    exists (k :: ks), st'. cbn [rrun]. rewrite E. cbn [bind snd]. rewrite E'. cbn [bind fst snd].
    splits; auto; [cbn; congruence |]. cbn [combine rev]. rewrite <- app_assoc. exact K'.
Qed.

Lemma run_refines ops : forall h st ks st',
  inv st -> tied (map fst h) (st_routes st) -> known h (st_routes st) ->
  full (st_routes st) -> all_polite (map fst h) ops ->
  rrun st ops = Ok (ks, st') -> ~ In StNoMem ks ->
  spec_run (abs st) ops ks (abs st').
Proof.
  induction ops as [| o ops IH]; intros h st ks st' I T K F P H Hn.
  - cbn in H. assert (ks = [] /\ st = st') by (split; congruence). destruct H0; subst.
    constructor. apply same_refl.
  - cbn [all_polite] in P. destruct P as [P1 P2].
    destruct (step_run st h o I T K P1) as (k & st1 & E & I1 & T1 & K1).
    cbn [rrun] in H. rewrite E in H. cbn [bind snd] in H.
    destruct (rrun st1 ops) as [[ks1 st2] | |] eqn:E2; cbn [bind fst snd] in H;
      [| discriminate H | discriminate H].
    assert (ks = k :: ks1 /\ st2 = st') by (split; congruence). destruct H0; subst ks st2.
    destruct (step_refines st o k st1 I F) as [S1 F1]; auto.
    { destruct o as [x s a | x | s c | s]; auto. destruct P1 as [P3 P4]. split; auto.
      intros r Hr Hs. destruct (r_cname r) eqn:Ec; auto. right.
      assert (X : linked (map fst h) s = Some (r_cname r)) by (apply T; congruence || auto).
      destruct P4; congruence. }
    { intro X. apply Hn. left. auto. }
    econstructor; [exact S1 |]. apply (IH ((o, k) :: h) st1); auto.
    intro X. apply Hn. right. auto.
Qed.
