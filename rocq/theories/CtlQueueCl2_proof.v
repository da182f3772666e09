From Coq Require Import Lia Sorted.
From Verif Require Import Base Base_lemmas CtlQueue_model CtlQueue_spec CtlQueue_proof CtlQueueInv_proof CtlQueueCl_proof.

Lemma C_run m hc s P C i p s' p' (I : inv m hc s P C) (Hp : nth_error C i = Some p) (H : cstep hc i s p = Next s' p') t : lrun P = Some t -> 0 <= k_eff (tk s' t) <= now s' /\ 0 < k_effv (tk s' t).
Proof.
  intros E. destruct (c_quiet _ _ _ _ _ _ H (RS I Hp) (W I Hp) (lhold I Hp (lrun_lh _ _ E))) as [_ Q]. destruct (Q t) as (-> & -> & _).
  destruct (c_misc _ _ _ _ _ _ H (RS I Hp) (W I Hp)) as (-> & _). apply (i_run _ _ _ _ _ I t E).
Qed.
Lemma C_re m hc s P C i p s' p' (I : inv m hc s P C) (Hp : nth_error C i = Some p) (H : cstep hc i s p = Next s' p') t : lre P = Some t -> 0 <= k_eff (tk s' t).
Proof.
  intros E. destruct (c_quiet _ _ _ _ _ _ H (RS I Hp) (W I Hp) (lhold I Hp (lre_lh _ _ E))) as [_ Q]. destruct (Q t) as (-> & _).
  apply (i_re _ _ _ _ _ I t E).
Qed.
Lemma C_slc m hc s P C i p s' p' (I : inv m hc s P C) (Hp : nth_error C i = Some p) (H : cstep hc i s p = Next s' p') first t : P = LSlCas first t -> ~ In t (sleepq s').
Proof.
  intros E. assert (L : lh P = 1) by (rewrite E; reflexivity). destruct (c_quiet _ _ _ _ _ _ H (RS I Hp) (W I Hp) (lhold I Hp L)) as [-> _].
  apply (i_slc _ _ _ _ _ I first t E).
Qed.
Lemma C_bk m hc s P C i p s' p' (I : inv m hc s P C) (Hp : nth_error C i = Some p) (H : cstep hc i s p = Next s' p') first t n : P = LBack first t n -> ~ (k_eff (tk s' t) = -1 /\ k_effv (tk s' t) = k_ver (tk s' t)).
Proof.
  intros E. assert (L : lh P = 1) by (rewrite E; reflexivity). destruct (c_quiet _ _ _ _ _ _ H (RS I Hp) (W I Hp) (lhold I Hp L)) as [_ Q].
  destruct (Q t) as (-> & -> & _). pose proof (i_bk _ _ _ _ _ I first t n E) as B. pose proof (i_ver _ _ _ _ _ I t).
  destruct (v_mono _ _ _ _ _ _ _ _ _ I Hp H t) as [V1 V2]. intros [X Y]. apply B. split; [exact X|lia].
Qed.
Lemma C_lx m hc s P C i p s' p' (I : inv m hc s P C) (Hp : nth_error C i = Some p) (H : cstep hc i s p = Next s' p') t n : lexp P = Some (t, n) -> st s' t = n \/ st s' t = Ready.
Proof.
  intros E. destruct (c_quiet _ _ _ _ _ _ H (RS I Hp) (W I Hp) (lhold I Hp (lexp_lh _ _ E))) as [_ Q].
  destruct (Q t) as (_ & _ & [-> | ->]); [apply (i_lx _ _ _ _ _ I t n E)|auto].
Qed.
Lemma C_cx m hc s P C i p s' p' (I : inv m hc s P C) (Hp : nth_error C i = Some p) (H : cstep hc i s p = Next s' p') j q t n : nth_error (upd C i p') j = Some q -> cexp q = Some (t, n) -> st s' t = n.
Proof.
  intros X E. destruct (nth' Hp X) as [[-> ->]|[D Y]].
  - pose proof (i_cx _ _ _ _ _ I i p) as V. unfold st in *.
    cc; cbn [cexp kexp] in *; try discriminate E; inversion E; subst; clear E; try (specialize (V _ _ Hp eq_refl)); cbn [cwf kwf] in Hw; cbs; tw; eqbs; try congruence.
    destruct (renewed_state_cases f d) as [[_ Z]|[[Z _]|[Z _]]]; try lia; try tauto. congruence.
  - destruct (cexp_c _ _ _ _ (i_cwf _ _ _ _ _ I j q Y) E) as (G & L & _).
    pose proof (jguard I Hp Y D G) as G'. destruct (c_verdl _ _ _ _ _ _ _ H (RS I Hp) (W I Hp) G') as (_ & _ & -> & _).
    apply (i_cx _ _ _ _ _ I j q _ _ Y E).
Qed.
Lemma rs_del m hc s P C i p s' p' (I : inv m hc s P C) (Hp : nth_error C i = Some p) (H : cstep hc i s p = Next s' p') u : con u p = 0 -> In u (sleepq s) -> In u (sleepq s').
Proof.
  intros N X. assert (D : forall t, con u p = is u t -> u <> t) by (intros t E; rewrite E in N; unfold is, b2z in N; destruct (Nat.eqb_spec t u); congruence).
  cc; cbs; auto; rewrite ?In_insert, ?In_del; specialize (D _ eq_refl); auto.
Qed.
Lemma C_si m hc s P C i p s' p' (I : inv m hc s P C) (Hp : nth_error C i = Some p) (H : cstep hc i s p = Next s' p') t : st s' t = Ready \/ st s' t = Completed \/ (st s' t = Sleeping /\ In t (sleepq s')) \/ lexp P = Some (t, st s' t)
           \/ (exists j q, nth_error (upd C i p') j = Some q /\ cexp q = Some (t, st s' t)).
Proof.
  pose proof (i_si _ _ _ _ _ I t) as S. pose proof (nth_i (p' := p') Hp) as Ni.
  destruct (Z.eq_dec (con t p) 0) as [N|N].
  - assert (Es : st s' t = st s t) by (unfold st; rewrite (c_own _ _ _ _ _ _ _ H (RS I Hp) (W I Hp) N); reflexivity). rewrite Es.
    destruct S as [S|[S|[[S1 S2]|[S|(j & q & Y & E)]]]]; auto.
    + right; right; left. split; [exact S1|]. apply (rs_del _ _ _ _ _ _ _ _ _ I Hp H t N S2).
    + right; right; right; right. exists j, q. split; [|exact E]. apply nth_j; [|exact Y]. intros ->.
      assert (q = p) by congruence. subst q. destruct (cexp_c _ _ _ _ (W I Hp) E) as (_ & _ & X). congruence.
  - destruct (Z.eq_dec (ch p) 0) as [L|L].
    + destruct (c_quiet _ _ _ _ _ _ H (RS I Hp) (W I Hp) L) as [-> Q]. destruct (Q t) as (_ & _ & [-> | ->]); auto.
      destruct S as [S|[S|[[S1 S2]|[S|(j & q & Y & E)]]]]; auto.
      right; right; right; right. exists j, q. split; [|exact E]. apply nth_j; [|exact Y]. intros ->.
      assert (q = p) by congruence. subst q. destruct (cexp_c _ _ _ _ (W I Hp) E) as (_ & X & _). congruence.
    + pose proof (ch_range p). destruct (hold I Hp) as (Lh & _ & O); [lia|].
      assert (S' : st s t = Ready \/ st s t = Completed \/ (st s t = Sleeping /\ In t (sleepq s)) \/ cexp p = Some (t, st s t)).
      { destruct S as [S|[S|[[S1 S2]|[S|(j & q & Y & E)]]]]; auto.
        - apply lexp_lh in S. lia.
        - destruct (Nat.eq_dec j i) as [->|D]; [right; right; right; congruence|]. destruct (cexp_c _ _ _ _ (i_cwf _ _ _ _ _ I j q Y) E) as (_ & X & _).
          rewrite (O j q Y D) in X. discriminate X. }
      pose proof (i_cx _ _ _ _ _ I i p) as V. unfold st in *.
      clear S. cc; cbn [ch con subject cexp kexp cwf kwf] in *; try lia; cbs; try (destruct S' as [S|[S|[S|S]]]; auto; try discriminate S; fail).
      all: unfold con in N; cbn [subject] in N.
      all: try (assert (t0 = t) by (unfold is, b2z in N; destruct (Nat.eqb_spec t0 t); congruence); subst t0).
      all: try match goal with X : kwf _ _ _ |- _ => apply kwf_kt in X end.
      all: repeat match goal with X : _ /\ _ |- _ => destruct X end; subst.
      all: tw; eqbs; try congruence.
      all: try (right; right; right; right; eexists i, _; split; [exact Ni|reflexivity]).
      all: try (specialize (V _ _ Hp eq_refl)).
      all: try (right; right; right; right; eexists i, _; split; [exact Ni|cbn [cexp kexp]; congruence]); auto.
      * right; right; right; right. exists i, (RIK t (K1 t Cancelling)). split; [exact Ni|]. cbn [cexp kexp]. rewrite V.
        destruct (renewed_state_cases f d) as [[_ Z]|[[Z _]|[Z _]]]; try lia; try tauto. congruence.
      * right; right; left. rewrite In_insert. split; [|auto]. destruct (renewed_state_cases f d) as [[Z _]|[[Z _]|[_ Z]]]; try lia; try tauto. congruence.
      * destruct S' as [S|[S|[S|S]]]; [auto|auto|right; right; left; exact S|discriminate S].
Qed.
Lemma crs_pos C t : 1 <= sumf (crs t) C -> exists j d v f, nth_error C j = Some (RISched t d v f).
Proof.
  intros X. destruct (sumf_ex _ _ X) as (j & q & Y & L). destruct q; cbn [crs] in L; try lia. apply is_ge in L. subst. eauto.
Qed.
Lemma crs_other m hc s P C i p s' p' (I : inv m hc s P C) (Hp : nth_error C i = Some p) (H : cstep hc i s p = Next s' p') t : ch p = 1 -> crs t p = 0 -> sumf (crs t) C = 0.
Proof.
  intros L N. destruct (hold I Hp L) as (_ & _ & O). apply sumf_is0. intros j q Y. destruct (Nat.eq_dec j i) as [->|D]; [congruence|].
  specialize (O j q Y D). destruct q; cbn in *; try reflexivity; lia.
Qed.
Lemma C_slq m hc s P C i p s' p' (I : inv m hc s P C) (Hp : nth_error C i = Some p) (H : cstep hc i s p = Next s' p') t : In t (sleepq s') -> 0 < k_eff (tk s' t) /\ 0 < k_effv (tk s' t) /\ (st s' t = Sleeping \/ st s' t = Ready \/ lpop P = Some t \/ 1 <= sumf (crs t) (upd C i p')).
Proof.
  intros X. pose proof (i_slq _ _ _ _ _ I t) as S. destruct (Z.eq_dec (ch p) 0) as [L|L].
  - destruct (c_quiet _ _ _ _ _ _ H (RS I Hp) (W I Hp) L) as [E Q]. rewrite E in X. destruct (Q t) as (-> & -> & Q3). destruct (S X) as (A & B & D).
    splits; auto. destruct Q3 as [-> | ->]; auto. destruct D as [D|[D|[D|D]]]; auto.
    right; right; right. rewrite (up Hp). assert (Z : crs t p = 0) by (destruct p; cbn in L |- *; try reflexivity; lia). pose proof (crs_nn t p'). lia.
  - pose proof (ch_range p). destruct (hold I Hp) as (Lh & _ & O); [lia|]. assert (Lp : lpop P <> Some t) by (intros E; apply lpop_lh in E; lia).
    pose proof (crs_other _ _ _ _ _ _ _ _ _ I Hp H t) as Z. pose proof (i_cx _ _ _ _ _ I i p) as V. pose proof (i_cver _ _ _ _ _ I i p) as V2.
    rewrite (up Hp). pose proof (sumf_nonneg (crs t) C (crs_nn t)) as Nn. pose proof (crs_nn t p') as Nn'. unfold st in *.
    cc; cbn [ch] in *; try lia; cbs; cbn [cexp kexp creq crs] in *; rewrite ?In_insert, ?In_del in X.
    all: try (specialize (S X); destruct S as (A & B & D); splits; auto; rewrite ?Z in * by reflexivity; destruct D as [D|[D|[D|D]]]; auto; lia).
    all: try (specialize (S X); destruct S as (A & B & D); rewrite ?(Z eq_refl eq_refl) in * ).
    all: try (specialize (V _ _ Hp eq_refl)); try (specialize (V2 _ _ _ Hp eq_refl)).
    all: unfold fset; repeat match goal with |- context [Nat.eqb ?a ?b] => destruct (Nat.eqb_spec a b); subst; cbs end.
    all: rewrite ?is_refl; splits; auto; try (right; right; right; lia); try tauto; eqbs; try (destruct D as [D|[D|[D|D]]]; auto; congruence).
    all: cbn [cwf kwf] in Hw.
    all: try (rewrite is_ne by auto).
    all: try (assert (X' : In t (sleepq s)) by tauto; destruct (S X') as (A & B & [D|[D|[D|D]]]); auto; right; right; right; lia).
    all: try lia.
    + destruct D as [D|[D|[D|D]]]; auto; lia.
    + left. destruct (renewed_state_cases f d) as [[Z1 _]|[[Z1 _]|[_ Z1]]]; try lia; try tauto. congruence.
    + destruct Hw as [_ [_ E]]. exfalso. destruct D as [D|[D|[D|D]]]; try congruence. lia.
Qed.
Lemma sorted_ext (R R' : nat -> nat -> Prop) l : (forall a b, In a l -> In b l -> R a b -> R' a b) -> StronglySorted R l -> StronglySorted R' l.
Proof.
  induction l as [|x l IH]; intros E S; [constructor|]. inversion S; subst. constructor.
  - apply IH; [|assumption]. intros a b A B. apply E; right; assumption.
  - apply Forall_forall. intros y Y. apply E; [left; reflexivity|right; exact Y|]. rewrite Forall_forall in H2. auto.
Qed.
Lemma sorted_filter (R : nat -> nat -> Prop) f l : StronglySorted R l -> StronglySorted R (filter f l).
Proof.
  induction l as [|x l IH]; intros S; cbn; [constructor|]. inversion S; subst. destruct (f x); [|auto]. constructor; [auto|].
  apply Forall_forall. intros y Y. apply filter_In in Y. rewrite Forall_forall in H2. apply H2. tauto.
Qed.
Lemma sorted_insert (e : nat -> Z) t l : StronglySorted (fun a b => e a <= e b) l -> StronglySorted (fun a b => e a <= e b) (insert e t (e t) l).
Proof.
  induction l as [|x l IH]; intros S; cbn; [constructor; constructor|]. inversion S; subst. destruct (Z.gtb_spec (e x) (e t)).
  - constructor; [exact S|]. constructor; [lia|]. apply Forall_forall. intros y Y. rewrite Forall_forall in H2. specialize (H2 y Y). cbn in H2. lia.
  - constructor; [auto|]. apply Forall_forall. intros y Y. apply In_insert in Y. destruct Y as [->|Y]; [lia|]. rewrite Forall_forall in H2. auto.
Qed.
Lemma rs_sorted s t d : StronglySorted (le_eff s) (sleepq s) ->
  StronglySorted (fun a b => (if Nat.eqb a t then d else k_eff (tk s a)) <= (if Nat.eqb b t then d else k_eff (tk s b)))
    (insert (fun u => if Nat.eqb u t then d else k_eff (tk s u)) t d (del t (sleepq s))).
Proof.
  intros S. pose proof (sorted_insert (fun u => if Nat.eqb u t then d else k_eff (tk s u)) t (del t (sleepq s))) as X. cbn beta in X. rewrite Nat.eqb_refl in X. apply X.
  apply sorted_ext with (le_eff s).
  - intros a b A B. apply In_del in A. apply In_del in B. destruct (Nat.eqb_spec a t); [tauto|]. destruct (Nat.eqb_spec b t); [tauto|]. auto.
  - apply sorted_filter. exact S.
Qed.
Lemma rs_sorted_del s t : StronglySorted (le_eff s) (sleepq s) -> forall s', (forall u, u <> t -> k_eff (tk s' u) = k_eff (tk s u)) -> StronglySorted (le_eff s') (del t (sleepq s)).
Proof.
  intros S s' E. apply sorted_ext with (le_eff s); [|apply sorted_filter; exact S].
  intros a b A B. apply In_del in A. apply In_del in B. unfold le_eff. rewrite !E by tauto. auto.
Qed.
Lemma C_nd m hc s P C i p s' p' (I : inv m hc s P C) (Hp : nth_error C i = Some p) (H : cstep hc i s p = Next s' p') : NoDup (sleepq s').
Proof.
  pose proof (i_nd _ _ _ _ _ I) as N. cc; cbs; auto; [apply NoDup_del; exact N|apply NoDup_del; exact N|].
  apply NoDup_insert; [apply NoDup_del; exact N|]. rewrite In_del. tauto.
Qed.
Lemma C_sort m hc s P C i p s' p' (I : inv m hc s P C) (Hp : nth_error C i = Some p) (H : cstep hc i s p = Next s' p') : StronglySorted (le_eff s') (sleepq s').
Proof.
  pose proof (i_sort _ _ _ _ _ I) as N. destruct (Z.eq_dec (ch p) 0) as [L|L].
  - destruct (c_quiet _ _ _ _ _ _ H (RS I Hp) (W I Hp) L) as [-> Q]. apply sorted_ext with (le_eff s); [|exact N].
    intros a b _ _. unfold le_eff. destruct (Q a) as (-> & _). destruct (Q b) as (-> & _). auto.
  - cc; cbn [ch] in L; try lia; cbs; auto.
    all: try (apply sorted_ext with (le_eff s); [|exact N]; intros a b _ _; unfold le_eff; cbs; unfold fset;
      repeat match goal with |- context [Nat.eqb ?a ?b] => destruct (Nat.eqb_spec a b); subst; cbs end; auto; fail).
    + apply rs_sorted_del; [exact N|]. intros u D. cbs. rewrite fset_ne by exact D. reflexivity.
    + apply rs_sorted_del; [exact N|]. intros u D. cbs. rewrite fset_ne by exact D. reflexivity.
    + eapply sorted_ext; [|apply rs_sorted; exact N]. intros a b _ _. unfold le_eff. cbs. unfold fset.
      destruct (Nat.eqb a t), (Nat.eqb b t); cbs; auto.
Qed.
Lemma con_mono m hc s P C i p s' p' (I : inv m hc s P C) (Hp : nth_error C i = Some p) (H : cstep hc i s p = Next s' p') t : con t p' <= con t p.
Proof. unfold con. cc; cbn [subject]; try lia; apply is_range. Qed.
Lemma con_is p t u : subject p = Some u -> con t p <> 0 -> u = t.
Proof. unfold con. intros -> N. unfold is, b2z in N. destruct (Nat.eqb_spec u t); congruence. Qed.
Lemma cst2_con t q : cst2 t q <= con t q. Proof. unfold con; destruct q; cbn; try lia; apply is_range. Qed.
Lemma cpf_con t q : cpf t q <= con t q. Proof. unfold con; destruct q; cbn; try lia; apply is_range. Qed.
Lemma crs_con t q : crs t q <= con t q. Proof. unfold con; destruct q; cbn; try lia; apply is_range. Qed.
Lemma ccas_con t q : ccas t q <= con t q. Proof. unfold con; destruct q; cbn; try lia; apply is_range. Qed.
Lemma C_hon m hc s P C i p s' p' (I : inv m hc s P C) (Hp : nth_error C i = Some p) (H : cstep hc i s p = Next s' p') t : 0 <= k_dl (tk s' t) -> k_ver (tk s' t) = 0 \/ executed t (k_ver (tk s' t)) (log s') \/ st s' t = Ready
            \/ 1 <= sumf (cst2 t) (upd C i p') + sumf (cpf t) (upd C i p') + sumf (crs t) (upd C i p')
            \/ (In t (sleepq s') /\ k_effv (tk s' t) = k_ver (tk s' t)) \/ lhon s' t P.
Proof.
  intros D. pose proof (i_hon _ _ _ _ _ I t) as A. rewrite !(up Hp).
  assert (Ex : executed t (k_ver (tk s t)) (log s) -> executed t (k_ver (tk s t)) (log s')).
  { intros X. destruct (c_log _ _ _ _ _ _ H (RS I Hp)) as (l & ->). apply executed_app. exact X. }
  pose proof (cst2_nn t p') as N1. pose proof (cpf_nn t p') as N2. pose proof (crs_nn t p') as N3.
  destruct (Z.eq_dec (con t p) 0) as [N|N].
  - pose proof (c_own _ _ _ _ _ _ _ H (RS I Hp) (W I Hp) N) as Ek. pose proof (cst2_con t p). pose proof (cpf_con t p). pose proof (crs_con t p).
    pose proof (cst2_nn t p). pose proof (cpf_nn t p). pose proof (crs_nn t p).
    assert (Lh : lhon s t P -> lhon s' t P) by (unfold lhon; rewrite Ek; auto). unfold st in *. rewrite Ek in *.
    destruct (A D) as [X|[X|[X|[X|[[X Y]|X]]]]]; auto 10; try (right; right; right; left; lia).
    right; right; right; right; left. split; [|exact Y]. apply (rs_del _ _ _ _ _ _ _ _ _ I Hp H t N X).
  - assert (Hu : forall u, subject p = Some u -> u = t) by (intros u E; apply (con_is p t u E N)).
    pose proof (sumf_nonneg (cst2 t) C (cst2_nn t)) as M1. pose proof (sumf_nonneg (cpf t) C (cpf_nn t)) as M2. pose proof (sumf_nonneg (crs t) C (crs_nn t)) as M3.
    pose proof (i_cver _ _ _ _ _ I i p) as V.
    pose proof (sumf_ge (cst2 t) C i p (cst2_nn t) Hp) as G1. pose proof (sumf_ge (cpf t) C i p (cpf_nn t) Hp) as G2. pose proof (sumf_ge (crs t) C i p (crs_nn t) Hp) as G3.
    pose proof (i_fl _ _ _ _ _ I t) as Fl. unfold st, lhon in *.
    cc; cbs; cbn [subject] in Hu; try (assert (t0 = t) by (apply Hu; reflexivity); subst t0); cbn [cwf kwf] in Hw;
      try match type of Hw with hc _ = false /\ kwf _ _ _ => destruct Hw as [Hw0 Hw]; cbn [kwf] in Hw; try (destruct Hw as [Hw Hw1]); subst end;
      try match type of Hw with hc _ = false /\ _ => destruct Hw as [Hw0 Hw]; try (destruct Hw as [Hw Hw1]); subst end.
    all: cbn [cst2 cpf crs] in *; rewrite ?is_refl in *; unfold fset in *; rewrite ?Nat.eqb_refl in *; cbs; try contradiction.
    all: try (destruct (A D) as [X|[X|[X|[X|[X|X]]]]]; auto 10; right; right; right; left; lia).
    all: try (right; right; right; left; lia).
    all: eqbs; cbn [creq] in V; try (destruct (V _ _ _ Hp eq_refl) as (V0 & V1 & V2)); try lia; auto.
    all: try (destruct Fl as (F1 & _); congruence).
    all: try (destruct (A D) as [X|[X|[X|[X|[X|X]]]]]; auto 10; try congruence; right; right; right; left; lia).
    right; right; right; right; left. rewrite In_insert. auto.
Qed.
Lemma C_h2 m hc s P C i p s' p' (I : inv m hc s P C) (Hp : nth_error C i = Some p) (H : cstep hc i s p = Next s' p') t : k_dl (tk s' t) < 0 -> st s' t <> Sleeping \/ 1 <= sumf (ccas t) (upd C i p') \/ (exists first f d v, P = LVer first t f d v) \/ (exists first n, P = LBack first t n).
Proof.
  intros D. pose proof (i_h2 _ _ _ _ _ I t) as A. rewrite !(up Hp). pose proof (ccas_nn t p') as N1.
  destruct (Z.eq_dec (con t p) 0) as [N|N].
  - pose proof (c_own _ _ _ _ _ _ _ H (RS I Hp) (W I Hp) N) as Ek. pose proof (ccas_con t p). pose proof (ccas_nn t p). unfold st in *. rewrite Ek in *.
    destruct (A D) as [X|[X|X]]; auto. right; left; lia.
  - assert (Hu : forall u, subject p = Some u -> u = t) by (intros u E; apply (con_is p t u E N)).
    pose proof (sumf_nonneg (ccas t) C (ccas_nn t)) as M1. pose proof (i_cver _ _ _ _ _ I i p) as V. pose proof (sumf_ge (ccas t) C i p (ccas_nn t) Hp) as G1.
    unfold st in *.
    cc; cbs; cbn [subject] in Hu; try (assert (t0 = t) by (apply Hu; reflexivity); subst t0); cbn [cwf kwf] in Hw;
      try match type of Hw with hc _ = false /\ _ => destruct Hw as [Hw0 Hw]; try (destruct Hw as [Hw Hw1]); subst end.
    all: cbn [ccas] in *; rewrite ?is_refl in *; unfold fset in *; rewrite ?Nat.eqb_refl in *; cbs; try contradiction.
    all: try (left; discriminate).
    all: try (destruct (A D) as [X|[X|X]]; auto; right; left; lia).
    all: try (right; left; lia).
    all: eqbs; cbn [creq] in V; try (destruct (V _ _ _ Hp eq_refl) as (V0 & V1 & V2)); try lia; auto.
    left. destruct (renewed_state_cases f d) as [[Z1 Z2]|[[Z1 _]|[Z1 _]]]; try lia; try tauto. rewrite Z2. discriminate.
Qed.
Lemma C_cc m hc s P C i p s' p' (I : inv m hc s P C) (Hp : nth_error C i = Some p) (H : cstep hc i s p = Next s' p') t : k_eff (tk s' t) = -1 -> k_effv (tk s' t) = k_ver (tk s' t) -> st s' t <> Ready /\ st s' t <> Sleeping /\ st s' t <> Processing.
Proof.
  intros E1 E2. pose proof (i_cc _ _ _ _ _ I t) as A. pose proof (i_ver _ _ _ _ _ I t) as B.
  destruct (Z.eq_dec (con t p) 0) as [N|N].
  - pose proof (c_own _ _ _ _ _ _ _ H (RS I Hp) (W I Hp) N) as Ek. unfold st in *. rewrite Ek in *. auto.
  - assert (Hu : forall u, subject p = Some u -> u = t) by (intros u E; apply (con_is p t u E N)).
    pose proof (i_cver _ _ _ _ _ I i p) as V. pose proof (i_cx _ _ _ _ _ I i p) as V3. unfold st in *.
    cc; cbs; cbn [subject] in Hu; try (assert (t0 = t) by (apply Hu; reflexivity); subst t0); cbn [cwf kwf] in Hw;
      try match type of Hw with hc _ = false /\ _ => destruct Hw as [Hw0 Hw]; try (destruct Hw as [Hw Hw1]); subst end.
    all: unfold fset in *; rewrite ?Nat.eqb_refl in *; cbs; try contradiction; auto; try lia.
    all: eqbs; cbn [creq cexp kexp] in V, V3; try (destruct (V _ _ _ Hp eq_refl) as (V0 & V1 & V2)); try lia; auto; try (destruct (A E1 E2) as (A1 & A2 & A3); congruence).
    all: try (splits; discriminate).
    specialize (V3 _ _ Hp eq_refl). destruct (renewed_state_cases f d) as [[Z1 Z2]|[[Z1 _]|[Z1 _]]]; try lia; try tauto. rewrite V3, Z2. splits; discriminate.
Qed.
Lemma C_rn m hc s P C i p s' p' (I : inv m hc s P C) (Hp : nth_error C i = Some p) (H : cstep hc i s p = Next s' p') t : lrn P = Some t -> st s' t = Ready \/ 1 <= sumf (cpf t) (upd C i p').
Proof.
  intros E. pose proof (i_rn _ _ _ _ _ I t E) as A. rewrite (up Hp). pose proof (lhold I Hp (lrn_lh _ _ E)) as L. pose proof (cpf_nn t p') as N1. pose proof (i_fl _ _ _ _ _ I) as Fl.
  unfold st in *. cc; cbn [ch] in L; try lia; cbs; cbn [cpf] in *; try (destruct A as [A|A]; auto; right; lia);
    unfold fset; repeat match goal with |- context [Nat.eqb ?a ?b] => destruct (Nat.eqb_spec a b); subst; cbs end; auto; try (destruct A as [A|A]; auto; right; lia).
  - destruct (Fl t0) as (F1 & _). congruence.
  - rewrite is_ne by auto. destruct A as [A|A]; auto; right; lia.
  - rewrite is_ne by auto. destruct A as [A|A]; auto; right; lia.
Qed.
Lemma cnt_app f l l' : ev_count f (l ++ l') = (ev_count f l + ev_count f l')%nat.
Proof. unfold ev_count. rewrite filter_app, app_length. reflexivity. Qed.
Lemma C_compl m hc s P C i p s' p' (I : inv m hc s P C) (Hp : nth_error C i = Some p) (H : cstep hc i s p = Next s' p') t : hc t = true -> cnt_compl t s' + lk t P = cnt_end t s'.
Proof.
  intros E. pose proof (i_compl _ _ _ _ _ I t E) as A. unfold cnt_compl, cnt_end in *.
  cc; cbs; auto; rewrite !cnt_app; cbn [cwf kwf] in Hw; unfold ev_count at 2 4; cbn [filter is_compl is_end length]; try lia.
  - destruct (Nat.eqb_spec t0 t); [subst|cbn [length]; lia]. eqbs. destruct Hw as (_ & _ & Hw & _). rewrite Hw in E by assumption. discriminate E.
  - destruct (Nat.eqb_spec t1 t); [|cbn [length]; lia]. destruct Hw as [Hw ->]. congruence.
Qed.
