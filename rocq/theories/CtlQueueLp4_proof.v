From Coq Require Import Lia Sorted.
From Verif Require Import Base Base_lemmas CtlQueue_model CtlQueue_spec CtlQueue_proof CtlQueueInv_proof CtlQueueCl_proof CtlQueueCl2_proof CtlQueueCl3_proof CtlQueueLp_proof CtlQueueLp2_proof CtlQueueLp3_proof.

Lemma L_G m hc b r s P C s' P' (I : inv m hc s P C) (R : r <> TPause) (H : lstep hc b r s P = Next s' P') : rsize s' <= 0 \/ tdl s' = 0 \/ 1 <= lresp P' + sumf (cresp (tver s')) C.
Proof.
  pose proof (i_G _ _ _ _ _ I) as A. pose proof (sumf_nonneg (cresp (tver s')) C (cresp_nn _)) as N.
  ll; cbs; cbn [lresp] in *; try (right; right; lia); auto.
  left. eqbs. cbn [negb andb] in *. destruct (Z.eqb_spec (rsize s) 0); [lia|]. destruct (Z.eqb_spec d 0); [contradiction|]. discriminate Eb.
Qed.
Lemma L_T m hc b r s P C s' P' (I : inv m hc s P C) (R : r <> TPause) (H : lstep hc b r s P = Next s' P') : timer_ok s' \/ 1 <= lwr (tver s') P' + sumf (cwr (tver s')) C.
Proof.
  pose proof (i_T _ _ _ _ _ I) as A. pose proof (nd_nonneg _ _ _ _ _ I) as Nd. pose proof (i_lu _ _ _ _ _ I) as V. pose proof (i_t3 _ _ _ _ _ I) as T3.
  pose proof (sumf_nonneg (cwr (tver s')) C (cwr_nn _)) as N.
  assert (O : Z.odd (tver s) = true -> lt3 P = 0 -> 1 <= sumf (cwr (tver s)) C).
  { intros O L. rewrite O in T3. cbn [b2z] in T3. destruct (sumf_ex ct3 C) as (j & q & Y & E); [lia|].
    pose proof (sumf_ge (cwr (tver s)) C j q (cwr_nn _) Y). pose proof (ct3_cwr hc (tver s) q (i_cwf _ _ _ _ _ I j q Y) E). lia. }
  ll; cbs; cbn [lwr lwf uwf xwf lu xz lt3 ut3 xt3] in *; try (right; lia); auto.
  all: try match type of Hw with _ /\ _ => destruct Hw end; subst; try (specialize (V _ eq_refl); cbn [uval] in V); eqbs.
  all: rewrite ?Z.eqb_refl in *; cbn [b2z] in *; try (right; lia).
  all: repeat match goal with |- context [?a =? ?b] => destruct (Z.eqb_spec a b); [subst|] | X : context [?a =? ?b] |- _ => destruct (Z.eqb_spec a b); [subst|] end; cbn [b2z negb andb] in *; auto; try (right; lia).
  all: try (specialize (O Eb eq_refl); right; lia); try contradiction.
  all: left; unfold timer_ok; cbs; destruct Nd as [Nd|Nd]; [left; exact Nd|right]; unfold next_deadline in *; cbs; subst; lia.
Qed.
Lemma L_cu m hc b r s P C s' P' (I : inv m hc s P C) (R : r <> TPause) (H : lstep hc b r s P = Next s' P') j q u : nth_error C j = Some q -> cu q = Some u -> uval s' u.
Proof.
  intros Y E. pose proof (i_cu _ _ _ _ _ I j q u Y E) as V. assert (L : lh P = 0).
  { pose proof (lh_range P). destruct (Z.eq_dec (lh P) 0); [assumption|]. exfalso. assert (L1 : lh P = 1) by lia. pose proof (proj2 (Lhold I L1) j q Y) as X. destruct q; cbn in X, E; try discriminate E; lia. }
  destruct (l_quiet _ _ _ _ _ _ _ H L) as (E1 & E2 & _). assert (Nd : next_deadline s' = next_deadline s) by (apply nd_same; [exact E2|intros; rewrite E1; reflexivity]).
  destruct u; cbn [uval] in *; auto; rewrite Nd; exact V.
Qed.
Lemma L_lu m hc b r s P C s' P' (I : inv m hc s P C) (R : r <> TPause) (H : lstep hc b r s P = Next s' P') u : lu P' = Some u -> uval s' u.
Proof.
  intros E. pose proof (i_lu _ _ _ _ _ I) as V. ll; cbn [lu] in *; try discriminate E; injection E as E; subst; cbs; cbn [uval] in *; auto; try (exact (V _ eq_refl)).
  all: specialize (V _ eq_refl); exact V.
Qed.
Lemma L_post m hc b r s P C s' P' (I : inv m hc s P C) (R : r <> TPause) (H : lstep hc b r s P = Next s' P') t : 0 <= k_post (tk s' t).
Proof. pose proof (i_post _ _ _ _ _ I t) as A. ll; cbs; tw; lia. Qed.
Lemma L_ws m hc b r s P C s' P' (I : inv m hc s P C) (R : r <> TPause) (H : lstep hc b r s P = Next s' P') t : 1 <= sumf (cws t) C -> 1 <= b2z (k_sem (tk s' t)) + lsem t P' + sumf (csem t) C + k_post (tk s' t).
Proof.
  intros A0. pose proof (i_ws _ _ _ _ _ I t A0) as A. clear A0. pose proof (i_post _ _ _ _ _ I t) as Po. pose proof (b2z_range (k_sem (tk s t))) as Br. pose proof (sumf_nonneg (csem t) C (csem_nn t)) as Cn.
  ll; cbs; cbn [lsem ksem] in *; auto; unfold is in *; tw; cbn [b2z] in *; auto; try lia.
  all: destruct (k_sem (tk s t0)); cbn [b2z] in *; lia.
Qed.
Lemma l3f_lsub t q : lsub q <> Some t -> l3f t q = 0.
Proof. destruct q; cbn [l3f lsub]; intros N; try reflexivity. destruct k; cbn [k3f kt] in *; try reflexivity; apply is_ne; congruence. Qed.
Lemma L_w4 m hc b r s P C s' P' (I : inv m hc s P C) (R : r <> TPause) (H : lstep hc b r s P = Next s' P') j t : nth_error C j = Some (W4 t) \/ nth_error C j = Some (W6 t) -> k_sem (tk s' t) = true -> st s' t = Completing -> l3f t P' + sumf (c3f t) C = 0.
Proof.
  intros X S E. pose proof (i_w4 _ _ _ _ _ I j t X) as A. pose proof (Lc3f I t) as Z. pose proof (i_lx _ _ _ _ _ I t) as Lx.
  unfold st in *. ll; cbs; cbn [l3f k3f lh lexp kexp lwf] in *; unfold is in *; tw; cbn [b2z] in *; auto; try discriminate; try (rewrite Z by reflexivity; lia).
  all: eqbs; try congruence; try (destruct (Lx _ eq_refl); congruence); try (specialize (A S E); lia).
Qed.
Lemma L_w6 m hc b r s P C s' P' (I : inv m hc s P C) (R : r <> TPause) (H : lstep hc b r s P = Next s' P') j t : nth_error C j = Some (W6 t) -> k_sem (tk s' t) = true -> st s' t <> Completed.
Proof.
  intros X S E. pose proof (i_w6 _ _ _ _ _ I j t X) as A. pose proof (i_w4 _ _ _ _ _ I j t (or_intror X)) as B. pose proof (i_lx _ _ _ _ _ I t) as Lx. pose proof (sumf_nonneg (c3f t) C (c3f_nn t)) as Cn.
  unfold st in *. ll; cbs; cbn [l3f k3f lh lexp kexp lwf] in *; unfold is in *; tw; cbn [b2z] in *; auto; try discriminate.
  all: eqbs; try congruence; try (destruct (Lx _ eq_refl); congruence); try (specialize (A S E); lia).
  - destruct (renewed_state_cases f d) as [[Z1 Z2]|[[Z1 Z2]|[Z1 Z2]]]; try tauto; congruence.
  - specialize (B S Eb). lia.
  - specialize (B S Eb). lia.
Qed.
Lemma L_asem m hc b r s P C s' P' (I : inv m hc s P C) (R : r <> TPause) (H : lstep hc b r s P = Next s' P') : m = Apart -> forall t, b2z (k_sem (tk s' t)) + lsem t P' + sumf (csem t) C + k_post (tk s' t) <= sumf (cws t) C + sumf (cw7 t) C
    /\ lsem t P' + sumf (csem t) C + k_post (tk s' t) <= sumf (cws t) C.
Proof.
  intros M t. pose proof (i_asem _ _ _ _ _ I M t) as A. pose proof (i_post _ _ _ _ _ I t) as Po. pose proof (b2z_range (k_sem (tk s t))) as Br. pose proof (sumf_nonneg (csem t) C (csem_nn t)) as Cn. pose proof (i_lx _ _ _ _ _ I t) as Lx.
  pose proof (sumf_nonneg (cw7 t) C (cw7_nn t)) as Wn. pose proof (sum_w _ _ _ _ _ t I) as Sw.
  assert (K : forall r, P = LK (K2 t) r -> sumf (cw7 t) C = 0).
  { intros r0 E. destruct (Z.eq_dec (sumf (cw7 t) C) 0) as [Z|Z]; [exact Z|]. exfalso. destruct (sumf_ex (cw7 t) C) as (j & q & Y & L); [lia|]. destruct q; cbn [cw7] in L; try lia. apply is_ge in L. subst t0.
    destruct (i_adone _ _ _ _ _ I M t) as (_ & D & _). specialize (D j _ Y (or_intror (or_introl eq_refl))). rewrite E in Lx. destruct (Lx _ eq_refl); congruence. }
  ll; cbs; cbn [lsem ksem] in *; auto; unfold is in *; tw; cbn [b2z] in *; auto; try lia.
  all: try (specialize (K _ eq_refl)). all: destruct (k_sem (tk s t0)); cbn [b2z] in *; lia.
Qed.

Lemma cpf_csch hc t q : cwf hc q -> cpf t q <= csch t q.
Proof.
  unfold csch. destruct q; cbn [cpf scheduling cwf]; intros W; try apply b2z_range; try (cbn; lia); unfold is; destruct (Nat.eqb t0 t); cbn [andb b2z]; try lia; destruct (Z.leb_spec 0 d); cbn; lia.
Qed.
Lemma sumf_le_in {A} (f g : A -> Z) l : (forall i x, nth_error l i = Some x -> f x <= g x) -> sumf f l <= sumf g l.
Proof.
  induction l as [|a l IH]; intros E; [cbn; lia|]. change (f a + sumf f l <= g a + sumf g l). pose proof (E 0%nat a eq_refl). specialize (IH (fun i x => E (S i) x)). lia.
Qed.
Lemma lst_completed m hc b r s P C s' P' (I : inv m hc s P C) (R : r <> TPause) (H : lstep hc b r s P = Next s' P') t : m = Apart -> st s t = Completed -> 1 <= sumf (cwt t) C -> st s' t = Completed.
Proof.
  intros M E L. pose proof (i_apart _ _ _ _ _ I M t L) as A. pose proof (i_rn _ _ _ _ _ I t) as B.
  assert (Cp : sumf (cpf t) C <= 0) by (rewrite <- A; apply sumf_le_in; intros i x X; apply (cpf_csch hc), (i_cwf _ _ _ _ _ I i x X)).
  unfold st in *. ll; cbs; auto; tw; auto; eqbs; try congruence; cbn [lwf kwf lrn] in *.
  - destruct Hw as [X|[X|X]]; congruence.
  - destruct r0; destruct Hw; congruence.
  - destruct Hw as [X|X]; [congruence|]. rewrite X in B. destruct (B eq_refl); [congruence|lia].
Qed.
Lemma L_adone m hc b r s P C s' P' (I : inv m hc s P C) (R : r <> TPause) (H : lstep hc b r s P = Next s' P') : m = Apart -> forall t, (1 <= k_post (tk s' t) -> st s' t = Completed)
   /\ (forall j q, nth_error C j = Some q -> q = W5 t \/ q = W7 t \/ q = W8 t -> st s' t = Completed)
   /\ (forall r0, P' = LK (K4 t true) r0 -> st s' t = Completed) /\ (forall j u, nth_error C j = Some (RIK u (K4 t true)) -> st s' t = Completed).
Proof.
  intros M t. destruct (i_adone _ _ _ _ _ I M t) as (A1 & A2 & A3 & A4). pose proof (i_asem _ _ _ _ _ I M t) as As.
  pose proof (lst_completed _ _ _ _ _ _ _ _ _ I R H t M) as St. pose proof (i_post _ _ _ _ _ I t) as Po. pose proof (lsem_nn t P) as Ln. pose proof (sumf_nonneg (csem t) C (csem_nn t)) as Cn.
  splits.
  - intros L. destruct (Z.leb_spec 1 (k_post (tk s t))) as [Q|Q]; [apply St; [auto|apply cws_sum; lia]|].
    clear St. unfold st in *. ll; cbs; tw; try lia; apply (A3 _ eq_refl).
  - intros j q Y E. apply St; [apply (A2 _ _ Y E)|]. apply (cwt_sum C j q t Y). destruct E as [->|[->| ->]]; cbn [waiting]; apply Nat.eqb_refl.
  - intros r0 E. clear St A2 A4 As Ln. revert E. unfold st in *. ll; intros E; try discriminate E; injection E as Et Ek Er; subst; cbs; tw; eqbs; congruence.
  - intros j u Y. apply St; [apply (A4 _ _ Y)|]. apply cws_sum. pose proof (sumf_ge (csem t) C j _ (csem_nn t) Y) as G. cbn [csem ksem] in G. rewrite is_refl in G. lia.
Qed.
Lemma L_aret m hc b r s P C s' P' (I : inv m hc s P C) (R : r <> TPause) (H : lstep hc b r s P = Next s' P') : m = Apart -> forall j t b0, In (WRet j t b0) (log s') -> b0 = true.
Proof.
  intros M j t b0 X. pose proof (i_aret _ _ _ _ _ I M j t b0) as A.
  ll; cbs; auto; apply in_app_or in X; destruct X as [X|[X|[]]]; auto; discriminate X.
Qed.
Lemma L_dead m hc b r s P C s' P' (I : inv m hc s P C) (R : r <> TPause) (H : lstep hc b r s P = Next s' P') t : k_dead (tk s' t) = true -> m = Apart /\ st s' t = Completed /\ sumf (con t) C = 0 /\ lrn P' <> Some t /\ (forall k r0, P' = LK k r0 -> ktail hc k <> Some t).
Proof.
  destruct (l_wg _ _ _ _ _ _ _ t H (LRS I)) as (_ & _ & ->). intros D. destruct (i_dead _ _ _ _ _ I t D) as (A1 & A2 & A3 & A4 & A5).
  pose proof (i_lx _ _ _ _ _ I t) as Lx. splits; auto.
  - unfold st in *. ll; cbs; auto; tw; auto; eqbs; try congruence; cbn [lwf kwf lrn] in *.
    + destruct Hw as [X|[X|X]]; congruence.
    + destruct r0; destruct Hw; congruence.
    + destruct Hw as [X|X]; [congruence|]. rewrite X in A4. congruence.
  - intros E. ll; cbn [lrn lexp] in *; try discriminate E; try (exact (A4 E)).
    destruct ((k_ver (tk s t0) =? v) && negb (v =? k_effv (tk s t0)) && (0 <=? k_dl (tk s t0))); [|discriminate E]. injection E as ->. destruct (Lx _ eq_refl); congruence.
  - intros k r0 E. revert E. ll; intros E; try discriminate E; injection E as E1 E2; subst; cbn [ktail lexp kexp] in *; try discriminate; intros E.
    all: try (assert (Et : t0 = t) by (destruct (_ || _) in E; congruence); subst t0; destruct (Lx _ eq_refl); congruence).
    all: try (assert (Et : t0 = t) by congruence; subst t0; apply (A5 _ _ eq_refl); cbn [ktail]; rewrite ?Eb, ?orb_true_r; reflexivity).
Qed.
Theorem l_inv m hc b r s P C s' P' (I : inv m hc s P C) (R : r <> TPause) (H : lstep hc b r s P = Next s' P') : inv m hc s' P' C.
Proof.
  constructor.
  - apply (i_cwf _ _ _ _ _ I).
  - apply (L_lwf _ _ _ _ _ _ _ _ _ I R H).
  - apply (L_fl _ _ _ _ _ _ _ _ _ I R H).
  - apply (L_pq _ _ _ _ _ _ _ _ _ I R H).
  - apply (L_guard _ _ _ _ _ _ _ _ _ I R H).
  - apply (L_tok _ _ _ _ _ _ _ _ _ I R H).
  - apply (L_size _ _ _ _ _ _ _ _ _ I R H).
  - apply (L_mtx _ _ _ _ _ _ _ _ _ I R H).
  - apply (L_odd _ _ _ _ _ _ _ _ _ I R H).
  - apply (L_t3 _ _ _ _ _ _ _ _ _ I R H).
  - apply (L_wg _ _ _ _ _ _ _ _ _ I R H).
  - apply (i_wt _ _ _ _ _ I).
  - apply (L_ver _ _ _ _ _ _ _ _ _ I R H).
  - apply (L_cver _ _ _ _ _ _ _ _ _ I R H).
  - apply (L_cneg _ _ _ _ _ _ _ _ _ I R H).
  - apply (L_lver _ _ _ _ _ _ _ _ _ I R H).
  - apply (L_lneg _ _ _ _ _ _ _ _ _ I R H).
  - apply (L_req _ _ _ _ _ _ _ _ _ I R H).
  - apply (L_eff _ _ _ _ _ _ _ _ _ I R H).
  - apply (L_new _ _ _ _ _ _ _ _ _ I R H).
  - apply (L_exec _ _ _ _ _ _ _ _ _ I R H).
  - apply (L_run _ _ _ _ _ _ _ _ _ I R H).
  - apply (L_re _ _ _ _ _ _ _ _ _ I R H).
  - apply (i_ck5 _ _ _ _ _ I).
  - apply (L_k5 _ _ _ _ _ _ _ _ _ I R H).
  - apply (L_slc _ _ _ _ _ _ _ _ _ I R H).
  - apply (L_bk _ _ _ _ _ _ _ _ _ I R H).
  - apply (L_last _ _ _ _ _ _ _ _ _ I R H).
  - apply (L_lx _ _ _ _ _ _ _ _ _ I R H).
  - apply (L_cx _ _ _ _ _ _ _ _ _ I R H).
  - apply (L_si _ _ _ _ _ _ _ _ _ I R H).
  - apply (L_slq _ _ _ _ _ _ _ _ _ I R H).
  - apply (L_nd _ _ _ _ _ _ _ _ _ I R H).
  - apply (L_sort _ _ _ _ _ _ _ _ _ I R H).
  - apply (L_hon _ _ _ _ _ _ _ _ _ I R H).
  - apply (L_h2 _ _ _ _ _ _ _ _ _ I R H).
  - apply (L_cc _ _ _ _ _ _ _ _ _ I R H).
  - apply (L_rn _ _ _ _ _ _ _ _ _ I R H).
  - apply (L_compl _ _ _ _ _ _ _ _ _ I R H).
  - apply (L_cloop _ _ _ _ _ _ _ _ _ I R H).
  - destruct (l_misc _ _ _ _ _ _ _ H (LRS I) (LW I)) as (-> & _). apply (i_now _ _ _ _ _ I).
  - apply (L_G _ _ _ _ _ _ _ _ _ I R H).
  - apply (L_T _ _ _ _ _ _ _ _ _ I R H).
  - apply (L_cu _ _ _ _ _ _ _ _ _ I R H).
  - apply (L_lu _ _ _ _ _ _ _ _ _ I R H).
  - apply (L_post _ _ _ _ _ _ _ _ _ I R H).
  - apply (L_ws _ _ _ _ _ _ _ _ _ I R H).
  - apply (L_w4 _ _ _ _ _ _ _ _ _ I R H).
  - apply (L_w6 _ _ _ _ _ _ _ _ _ I R H).
  - apply (i_apart _ _ _ _ _ I).
  - apply (L_asem _ _ _ _ _ _ _ _ _ I R H).
  - apply (L_adone _ _ _ _ _ _ _ _ _ I R H).
  - apply (L_aret _ _ _ _ _ _ _ _ _ I R H).
  - apply (L_dead _ _ _ _ _ _ _ _ _ I R H).
Qed.
