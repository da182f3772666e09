From Coq Require Import Lia Sorted.
From Verif Require Import Base Base_lemmas CtlQueue_model CtlQueue_spec CtlQueue_proof CtlQueueInv_proof CtlQueueCl_proof CtlQueueCl2_proof CtlQueueCl3_proof.

(** The invariant is preserved by the steps of the event loop. *)
Section Tools.
Variables (m : mode) (hc : nat -> bool) (s : shared) (P : lpc) (C : list cpc).
Hypothesis I : inv m hc s P C.
Lemma LW : lwf P. Proof. exact (i_lwf _ _ _ _ _ I). Qed.
Lemma LRS : rs_fine_l s P.
Proof.
  intros first t f d v E. pose proof LW as Hw. rewrite E in Hw. cbn [lwf] in Hw. apply rs_ok.
  - apply (i_pq _ _ _ _ _ I).
  - tauto.
  - intros X. apply (i_slq _ _ _ _ _ I t X).
  - apply (i_lver _ _ _ _ _ I t d v). rewrite E. reflexivity.
Qed.
Lemma Lhold : lh P = 1 -> mtx s = true /\ forall j q, nth_error C j = Some q -> ch q = 0.
Proof.
  intros E. pose proof (i_mtx _ _ _ _ _ I) as M. pose proof (sumf_nonneg ch C ch_nn). pose proof (b2z_range (mtx s)).
  split; [destruct (mtx s); [reflexivity|cbn in M; lia]|]. apply sumf_all0; [apply ch_nn|lia].
Qed.
Lemma Lcexp j q t n : lh P = 1 -> nth_error C j = Some q -> cexp q = Some (t, n) -> False.
Proof. intros L Y E. destruct (cexp_c _ _ _ _ (i_cwf _ _ _ _ _ I j q Y) E) as (_ & X & _). rewrite (proj2 (Lhold L) j q Y) in X. discriminate X. Qed.
Lemma Lcrs t : lh P = 1 -> sumf (crs t) C = 0.
Proof. intros L. apply sumf_is0. intros j q Y. pose proof (proj2 (Lhold L) j q Y). destruct q; cbn in *; try reflexivity; lia. Qed.
Lemma Lcsem t : lh P = 1 -> sumf (csem t) C = 0.
Proof. intros L. apply sumf_is0. intros j q Y. pose proof (proj2 (Lhold L) j q Y). destruct q; cbn in *; try reflexivity; lia. Qed.
Lemma Lc3f t : lh P = 1 -> sumf (c3f t) C = 0.
Proof. intros L. apply sumf_is0. intros j q Y. pose proof (proj2 (Lhold L) j q Y). destruct q; cbn in *; try reflexivity; lia. Qed.
Lemma Ltok t : 1 <= ltok t P -> st s t = Ready.
Proof.
  intros E. pose proof (i_tok _ _ _ _ _ I t) as T. pose proof (sumf_nonneg (ctok t) C (ctok_nn t)). pose proof (qcnt_nn t (rq s)).
  unfold rdy in T. apply st_eqb_spec. unfold st. destruct (st_eqb (k_st (tk s t)) Ready); [reflexivity|cbn in T; lia].
Qed.
End Tools.
Arguments LW {m hc s P C} I. Arguments LRS {m hc s P C} I. Arguments Lhold {m hc s P C} I L. Arguments Lcexp {m hc s P C} I {j q t n} L Y E.
Arguments Lcrs {m hc s P C} I t L. Arguments Lcsem {m hc s P C} I t L. Arguments Lc3f {m hc s P C} I t L. Arguments Ltok {m hc s P C} I t E.
Ltac ll := match goal with I : inv _ _ _ ?P _, H : lstep _ _ _ _ ?P = _ |- _ =>
  pose proof (LW I) as Hw; pose proof (LRS I) as Hrs; cases_l P H Hrs; try (exfalso; exact Hw) end.

Lemma l_in m hc b r s P C s' P' (I : inv m hc s P C) (R : r <> TPause) (H : lstep hc b r s P = Next s' P') e : In e (log s) -> In e (log s').
Proof. intros X. destruct (l_log _ _ _ _ _ _ _ H (LRS I)) as (l & ->). apply in_or_app. auto. Qed.
Lemma L_lwf m hc b r s P C s' P' (I : inv m hc s P C) (R : r <> TPause) (H : lstep hc b r s P = Next s' P') : lwf P'.
Proof. apply (l_wf _ _ _ _ _ _ _ H R (LRS I) (i_fl _ _ _ _ _ I)); [|apply (LW I)]. intros t. apply (i_ver _ _ _ _ _ I t). Qed.
Lemma L_fl m hc b r s P C s' P' (I : inv m hc s P C) (R : r <> TPause) (H : lstep hc b r s P = Next s' P') : unpaused s'.
Proof.
  intros t. pose proof (i_fl _ _ _ _ _ I t) as U. ll; cbn [lwf] in Hw; try contradiction; cbs; try exact U; unfold fset;
    repeat match goal with |- context [Nat.eqb ?a ?b] => destruct (Nat.eqb_spec a b); subst end; cbs; try exact U; cbn; auto.
  all: try (destruct U as (U1 & U2 & U3); rewrite ?U1, ?U2; splits; auto). all: destruct ok; auto.
Qed.
Lemma L_pq m hc b r s P C s' P' (I : inv m hc s P C) (R : r <> TPause) (H : lstep hc b r s P = Next s' P') : pausedq s' = [].
Proof. destruct (l_misc _ _ _ _ _ _ _ H (LRS I) (LW I)) as (_ & ->). apply (i_pq _ _ _ _ _ I). Qed.
Lemma L_guard m hc b r s P C s' P' (I : inv m hc s P C) (R : r <> TPause) (H : lstep hc b r s P = Next s' P') t : sumf (cg t) C = b2z (k_guard (tk s' t)).
Proof. destruct (l_wg _ _ _ _ _ _ _ t H (LRS I)) as (_ & -> & _). apply (i_guard _ _ _ _ _ I). Qed.
Lemma L_tok m hc b r s P C s' P' (I : inv m hc s P C) (R : r <> TPause) (H : lstep hc b r s P = Next s' P') t : sumf (ctok t) C + ltok t P' + qcnt t (rq s') = rdy s' t.
Proof. pose proof (l_tok _ _ _ _ _ _ _ t H (LRS I) (LW I)). pose proof (i_tok _ _ _ _ _ I t). lia. Qed.
Lemma L_size m hc b r s P C s' P' (I : inv m hc s P C) (R : r <> TPause) (H : lstep hc b r s P = Next s' P') : rsize s' = sumf csz C + lsz P' + Z.of_nat (length (rq s')).
Proof. pose proof (l_size _ _ _ _ _ _ _ H (LRS I)). pose proof (i_size _ _ _ _ _ I). lia. Qed.
Lemma L_mtx m hc b r s P C s' P' (I : inv m hc s P C) (R : r <> TPause) (H : lstep hc b r s P = Next s' P') : sumf ch C + lh P' = b2z (mtx s').
Proof. pose proof (l_mtx _ _ _ _ _ _ _ H (LRS I) (fun E => proj1 (Lhold I E))). pose proof (i_mtx _ _ _ _ _ I). lia. Qed.
Lemma L_odd m hc b r s P C s' P' (I : inv m hc s P C) (R : r <> TPause) (H : lstep hc b r s P = Next s' P') t : sumf (cst2 t) C = b2z (Z.odd (k_ver (tk s' t))).
Proof. destruct (l_odd _ _ _ _ _ _ _ t H (LRS I)) as [-> _]. apply (i_odd _ _ _ _ _ I). Qed.
Lemma L_t3 m hc b r s P C s' P' (I : inv m hc s P C) (R : r <> TPause) (H : lstep hc b r s P = Next s' P') : sumf ct3 C + lt3 P' = b2z (Z.odd (tver s')).
Proof.
  pose proof (i_t3 _ _ _ _ _ I) as T. assert (X : lt3 P = 1 -> Z.odd (tver s) = true).
  { intros E. pose proof (sumf_nonneg ct3 C ct3_nn). destruct (Z.odd (tver s)); [reflexivity|cbn in T; lia]. }
  pose proof (l_t3 _ _ _ _ _ _ _ H (LRS I) (LW I) X). lia.
Qed.
Lemma L_wg m hc b r s P C s' P' (I : inv m hc s P C) (R : r <> TPause) (H : lstep hc b r s P = Next s' P') t : sumf (cwg t) C = b2z (k_wg (tk s' t)).
Proof. destruct (l_wg _ _ _ _ _ _ _ t H (LRS I)) as (-> & _). apply (i_wg _ _ _ _ _ I). Qed.
Lemma L_ver m hc b r s P C s' P' (I : inv m hc s P C) (R : r <> TPause) (H : lstep hc b r s P = Next s' P') t : 0 <= k_effv (tk s' t) <= k_ver (tk s' t) /\ Z.even (k_effv (tk s' t)) = true /\ -1 <= k_dl (tk s' t) /\ (k_effv (tk s' t) = k_ver (tk s' t) -> k_eff (tk s' t) = k_dl (tk s' t)).
Proof.
  pose proof (i_ver _ _ _ _ _ I t) as V. pose proof (i_lver _ _ _ _ _ I) as Lv. ll; cbs; try exact V.
  all: tw; try exact V; cbn [lwf lreq] in *; try (splits; try lia; tauto).
  all: destruct (Lv _ _ _ eq_refl) as (L1 & L2 & L3 & _); eqbs; splits; try tauto; try lia.
Qed.
Lemma L_cver m hc b r s P C s' P' (I : inv m hc s P C) (R : r <> TPause) (H : lstep hc b r s P = Next s' P') j q t d v : nth_error C j = Some q -> creq q = Some (t, d, v) -> 0 < v /\ k_ver (tk s' t) = v /\ k_dl (tk s' t) = d.
Proof. destruct (l_odd _ _ _ _ _ _ _ t H (LRS I)) as [-> ->]. apply (i_cver _ _ _ _ _ I). Qed.
Lemma L_cneg m hc b r s P C s' P' (I : inv m hc s P C) (R : r <> TPause) (H : lstep hc b r s P = Next s' P') j t d v f : nth_error C j = Some (RISched t d v f) -> d < 0 -> ~ (k_eff (tk s' t) = -1 /\ k_effv (tk s' t) = v).
Proof.
  intros Y. assert (L : lh P = 0). { pose proof (lh_range P). destruct (Z.eq_dec (lh P) 0); [assumption|]. assert (L1 : lh P = 1) by lia. pose proof (proj2 (Lhold I L1) j _ Y) as X. discriminate X. }
  destruct (l_quiet _ _ _ _ _ _ _ H L) as (-> & _). apply (i_cneg _ _ _ _ _ I j t d v f Y).
Qed.
Lemma L_lver m hc b r s P C s' P' (I : inv m hc s P C) (R : r <> TPause) (H : lstep hc b r s P = Next s' P') t d v : lreq P' = Some (t, d, v) -> 0 < v /\ k_effv (tk s' t) <= v <= k_ver (tk s' t) /\ (k_ver (tk s' t) = v -> k_dl (tk s' t) = d) /\ In (Req t d v) (log s')
             /\ (d < 0 -> ~ (k_eff (tk s' t) = -1 /\ k_effv (tk s' t) = v)).
Proof.
  intros E. pose proof (i_lver _ _ _ _ _ I t d v) as A. pose proof (Ltok I t) as T. pose proof (i_new _ _ _ _ _ I t) as N. pose proof (i_req _ _ _ _ _ I t) as Rq. pose proof (i_cc _ _ _ _ _ I t) as Cc.
  pose proof (i_ver _ _ _ _ _ I t) as V.
  ll; cbn [lreq ltok lwf] in *; try discriminate E; inversion E; subst; clear E; try (exact (A eq_refl)); cbs.
  - rewrite is_refl in T. specialize (T (Z.le_refl 1)). rewrite T in *. eqbs. subst. destruct Hw as [_ Ev]. apply even_odd' in Ev.
    assert (0 < k_ver (tk s t)) by (apply N; discriminate). splits; auto; try lia. intros _ [X Y]. destruct (Cc X Y) as (Z & _). contradiction.
  - destruct (A eq_refl) as (A1 & A2 & A3 & A4 & A5). tw; splits; auto; lia.
Qed.
Lemma L_lneg m hc b r s P C s' P' (I : inv m hc s P C) (R : r <> TPause) (H : lstep hc b r s P = Next s' P') t d v : lreq' P' = Some (t, d, v) -> d < 0 -> st s' t = Ready -> k_ver (tk s' t) <> v.
Proof.
  intros E D S. pose proof (i_lneg _ _ _ _ _ I t d v) as A. unfold st in *.
  ll; cbn [lreq' lwf] in *; try discriminate E; inversion E; subst; clear E; try (exact (A eq_refl D S)); cbs.
  unfold fset in *. rewrite Nat.eqb_refl in *. cbs. pose proof (renewed_not_ready f d) as X. rewrite S in X. discriminate X.
Qed.
Lemma L_req m hc b r s P C s' P' (I : inv m hc s P C) (R : r <> TPause) (H : lstep hc b r s P = Next s' P') t : Z.odd (k_ver (tk s' t)) = false -> 0 < k_ver (tk s' t) -> In (Req t (k_dl (tk s' t)) (k_ver (tk s' t))) (log s').
Proof. destruct (l_odd _ _ _ _ _ _ _ t H (LRS I)) as [-> ->]. intros O L. apply (l_in _ _ _ _ _ _ _ _ _ I R H). apply (i_req _ _ _ _ _ I t O L). Qed.
Lemma L_last m hc b r s P C s' P' (I : inv m hc s P C) (R : r <> TPause) (H : lstep hc b r s P = Next s' P') t : Z.odd (k_ver (tk s' t)) = false -> last_request t (log s') = if k_ver (tk s' t) =? 0 then None else Some (k_dl (tk s' t), k_ver (tk s' t)).
Proof.
  destruct (l_odd _ _ _ _ _ _ _ t H (LRS I)) as [-> ->]. intros O. rewrite <- (i_last _ _ _ _ _ I t O).
  ll; cbs; rewrite ?lr_app; reflexivity.
Qed.
Lemma L_eff m hc b r s P C s' P' (I : inv m hc s P C) (R : r <> TPause) (H : lstep hc b r s P = Next s' P') t : 0 < k_effv (tk s' t) -> In (Req t (k_eff (tk s' t)) (k_effv (tk s' t))) (log s').
Proof.
  intros L. pose proof (i_eff _ _ _ _ _ I t) as A. pose proof (i_lver _ _ _ _ _ I t) as V. pose proof (l_in _ _ _ _ _ _ _ _ _ I R H) as Li.
  destruct (Z.eq_dec (k_effv (tk s' t)) (k_effv (tk s t))) as [E|E].
  - destruct (Z.eq_dec (k_eff (tk s' t)) (k_eff (tk s t))) as [E'|E']; [rewrite E, E' in *; auto|]. apply Li. clear Li.
    ll; cbs; try lia; unfold fset in *; repeat match goal with |- context [Nat.eqb ?a ?b] => destruct (Nat.eqb_spec a b); subst; cbs end; try lia.
    all: cbn [lreq lwf] in *; try (replace (-1) with d by (eqbs; lia)); apply (V _ _ eq_refl).
  - apply Li. clear Li.
    ll; cbs; try lia; unfold fset in *; repeat match goal with |- context [Nat.eqb ?a ?b] => destruct (Nat.eqb_spec a b); subst; cbs end; try lia.
    all: cbn [lreq lwf] in *; try (replace (-1) with d by (eqbs; lia)); apply (V _ _ eq_refl).
Qed.
