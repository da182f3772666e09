From Coq Require Import Lia Sorted.
From Verif Require Import Base Base_lemmas CtlQueue_model CtlQueue_spec CtlQueue_proof CtlQueueInv_proof.

(** The invariant is preserved by the steps of the clients. *)
Set Implicit Arguments.
Section Tools.
Variables (m : mode) (hc : nat -> bool) (s : shared) (P : lpc) (C : list cpc) (i : nat) (p : cpc) (s' : shared) (p' : cpc).
Hypothesis I : inv m hc s P C.
Hypothesis Hp : nth_error C i = Some p.
Hypothesis H : cstep hc i s p = Next s' p'.

Lemma W : cwf hc p. Proof. exact (i_cwf _ _ _ _ _ I i p Hp). Qed.
Lemma RS : rs_fine_c s p.
Proof.
  intros t d v f E. pose proof W as Hw. rewrite E in Hw. cbn [cwf] in Hw. apply rs_ok.
  - apply (i_pq _ _ _ _ _ I).
  - tauto.
  - intros X. apply (i_slq _ _ _ _ _ I t X).
  - apply (i_cneg _ _ _ _ _ I i t d v f). congruence.
Qed.
Lemma up (f : cpc -> Z) : sumf f (upd C i p') = sumf f C - f p + f p'.
Proof. apply sumf_upd. exact Hp. Qed.
Lemma nth' j q : nth_error (upd C i p') j = Some q -> (j = i /\ q = p') \/ (j <> i /\ nth_error C j = Some q).
Proof.
  intros X. destruct (Nat.eq_dec j i) as [->|D].
  - rewrite nth_error_upd_eq in X; [left; split; congruence|]. apply nth_error_Some. congruence.
  - rewrite nth_error_upd_neq in X by auto. right. auto.
Qed.
Lemma nth_j j q : j <> i -> nth_error C j = Some q -> nth_error (upd C i p') j = Some q.
Proof. intros D X. rewrite nth_error_upd_neq by auto. exact X. Qed.
Lemma nth_i : nth_error (upd C i p') i = Some p'.
Proof. apply nth_error_upd_eq. apply nth_error_Some. congruence. Qed.
Lemma hold : ch p = 1 -> lh P = 0 /\ mtx s = true /\ forall j q, nth_error C j = Some q -> j <> i -> ch q = 0.
Proof.
  intros E. pose proof (i_mtx _ _ _ _ _ I) as M. pose proof (sumf_ge ch C i p ch_nn Hp). pose proof (lh_range P). pose proof (b2z_range (mtx s)).
  splits; [lia|destruct (mtx s); [reflexivity|cbn in M; lia]|]. apply sumf_others with p; [apply ch_nn|exact Hp|lia].
Qed.
Lemma lhold : lh P = 1 -> ch p = 0.
Proof.
  intros E. pose proof (i_mtx _ _ _ _ _ I) as M. pose proof (sumf_ge ch C i p ch_nn Hp). pose proof (ch_range p). pose proof (b2z_range (mtx s)). lia.
Qed.
Lemma jhold j q : nth_error C j = Some q -> j <> i -> ch q = 1 -> ch p = 0.
Proof.
  intros X D E. pose proof (i_mtx _ _ _ _ _ I) as M. pose proof (sumf_two ch C i j p q ch_nn (not_eq_sym D) Hp X). pose proof (ch_range p).
  pose proof (b2z_range (mtx s)). pose proof (lh_range P). lia.
Qed.
Lemma guard1 u : cg u p = 1 -> k_guard (tk s u) = true /\ forall j q, nth_error C j = Some q -> j <> i -> cg u q = 0.
Proof.
  intros E. pose proof (i_guard _ _ _ _ _ I u) as G. pose proof (sumf_ge (cg u) C i p (cg_nn u) Hp). pose proof (b2z_range (k_guard (tk s u))).
  split; [destruct (k_guard (tk s u)); [reflexivity|cbn in G; lia]|]. apply sumf_others with p; [apply cg_nn|exact Hp|lia].
Qed.
Lemma jguard j q u : nth_error C j = Some q -> j <> i -> cg u q = 1 -> cg u p = 0.
Proof.
  intros X D E. pose proof (i_guard _ _ _ _ _ I u) as G. pose proof (sumf_two (cg u) C i j p q (cg_nn u) (not_eq_sym D) Hp X). pose proof (cg_nn u p).
  pose proof (b2z_range (k_guard (tk s u))). lia.
Qed.
Lemma cst2_cg u q : cst2 u q <= cg u q. Proof. destruct q; cbn; try lia; apply is_range. Qed.
Lemma g_even u : cg u p = 1 -> cst2 u p = 0 -> Z.odd (k_ver (tk s u)) = false.
Proof.
  clear H p' s'. intros G E. destruct (guard1 u G) as [_ O]. assert (Z0 : sumf (cst2 u) C = 0).
  { apply sumf_is0. intros j q X. destruct (Nat.eq_dec j i) as [->|D]; [congruence|]. pose proof (O j q X D). pose proof (cst2_cg u q). pose proof (cst2_nn u q). lia. }
  pose proof (i_odd _ _ _ _ _ I u) as X. rewrite Z0 in X. destruct (Z.odd (k_ver (tk s u))); cbn in X; [lia|reflexivity].
Qed.
Lemma wt1 u : cwt u p = 1 -> forall j q, nth_error C j = Some q -> j <> i -> cwt u q = 0.
Proof.
  intros E. pose proof (i_wt _ _ _ _ _ I u). apply sumf_others with p; [apply cwt_nn|exact Hp|lia].
Qed.
Lemma W8g u : p = W8 u -> k_wg (tk s u) = true.
Proof.
  intros E. pose proof (i_wg _ _ _ _ _ I u) as O. pose proof (sumf_ge (cwg u) C i p (cwg_nn u) Hp) as G. rewrite E in G. cbn in G. rewrite is_refl in G.
  destruct (k_wg (tk s u)); [reflexivity|cbn in O; lia].
Qed.
Lemma log_in e : In e (log s) -> In e (log s').
Proof. intros X. destruct (c_log _ _ _ _ _ _ H RS) as (l & ->). apply in_or_app. auto. Qed.
End Tools.
Unset Implicit Arguments.
Arguments nth' {C i p p'} Hp {j q} X.
Arguments up {C i p p'} Hp f.
Arguments nth_j {C i p'} j q D X.
Arguments nth_i {C i p p'} Hp.
Arguments W {m hc s P C i p} I Hp. Arguments RS {m hc s P C i p} I Hp.
Arguments hold {m hc s P C i p} I Hp E. Arguments lhold {m hc s P C i p} I Hp E. Arguments jhold {m hc s P C i p} I Hp {j q} X D E.
Arguments guard1 {m hc s P C i p} I Hp u E. Arguments jguard {m hc s P C i p} I Hp {j q u} X D E. Arguments g_even {m hc s P C i p} I Hp u G E.
Arguments wt1 {m hc s P C i p} I Hp u E j q _ _. Arguments W8g {m hc s P C i p} I Hp u E.
Arguments log_in {m hc s P C i p s' p'} I Hp H e X.

Ltac cc := match goal with I : inv _ _ _ _ _, Hp : nth_error _ _ = Some ?p, H : cstep _ _ _ ?p = _ |- _ =>
  pose proof (W I Hp) as Hw; pose proof (RS I Hp) as Hrs; cases_c p H Hrs end.
Ltac tw := unfold fset in *; rewrite ?Nat.eqb_refl in *; repeat match goal with
  | |- context [Nat.eqb ?a ?b] => destruct (Nat.eqb_spec a b); [subst; rewrite ?Nat.eqb_refl in *|]
  | X : context [Nat.eqb ?a ?b] |- _ => destruct (Nat.eqb_spec a b); [subst; rewrite ?Nat.eqb_refl in *|] end; cbs.

Lemma C_cwf m hc s P C i p s' p' (I : inv m hc s P C) (Hp : nth_error C i = Some p) (H : cstep hc i s p = Next s' p') j q : nth_error (upd C i p') j = Some q -> cwf hc q.
Proof. intros X. destruct (nth' Hp X) as [[-> ->]|[D Y]]; [apply (c_wf _ _ _ _ _ _ H (RS I Hp) (i_fl _ _ _ _ _ I) (W I Hp))|apply (i_cwf _ _ _ _ _ I j q Y)]. Qed.
Lemma C_fl m hc s P C i p s' p' (I : inv m hc s P C) (Hp : nth_error C i = Some p) (H : cstep hc i s p = Next s' p') : unpaused s'.
Proof.
  intros t. pose proof (i_fl _ _ _ _ _ I t) as U. cc; cbn [cwf] in Hw; try contradiction; cbs; try exact U; unfold fset;
    repeat match goal with |- context [Nat.eqb ?a ?b] => destruct (Nat.eqb_spec a b); subst end; cbs; try exact U; cbn; auto.
Qed.
Lemma C_pq m hc s P C i p s' p' (I : inv m hc s P C) (Hp : nth_error C i = Some p) (H : cstep hc i s p = Next s' p') : pausedq s' = [].
Proof. destruct (c_misc _ _ _ _ _ _ H (RS I Hp) (W I Hp)) as (_ & -> & _). apply (i_pq _ _ _ _ _ I). Qed.
Lemma C_guard m hc s P C i p s' p' (I : inv m hc s P C) (Hp : nth_error C i = Some p) (H : cstep hc i s p = Next s' p') t : sumf (cg t) (upd C i p') = b2z (k_guard (tk s' t)).
Proof.
  rewrite (up Hp), (i_guard _ _ _ _ _ I). assert (X : forall u, p = RUnguard u -> k_guard (tk s u) = true).
  { intros u E. apply (guard1 I Hp). rewrite E. cbn. apply is_refl. }
  pose proof (c_guard _ _ _ _ _ _ t H (RS I Hp) X). lia.
Qed.
Lemma C_tok m hc s P C i p s' p' (I : inv m hc s P C) (Hp : nth_error C i = Some p) (H : cstep hc i s p = Next s' p') t : sumf (ctok t) (upd C i p') + ltok t P + qcnt t (rq s') = rdy s' t.
Proof. rewrite (up Hp). pose proof (c_tok _ _ _ _ _ _ t H (RS I Hp) (W I Hp)). pose proof (i_tok _ _ _ _ _ I t). lia. Qed.
Lemma C_size m hc s P C i p s' p' (I : inv m hc s P C) (Hp : nth_error C i = Some p) (H : cstep hc i s p = Next s' p') : rsize s' = sumf csz (upd C i p') + lsz P + Z.of_nat (length (rq s')).
Proof. rewrite (up Hp). pose proof (c_size _ _ _ _ _ _ H (RS I Hp)). pose proof (i_size _ _ _ _ _ I). lia. Qed.
Lemma C_mtx m hc s P C i p s' p' (I : inv m hc s P C) (Hp : nth_error C i = Some p) (H : cstep hc i s p = Next s' p') : sumf ch (upd C i p') + lh P = b2z (mtx s').
Proof. rewrite (up Hp). pose proof (c_mtx _ _ _ _ _ _ H (RS I Hp) (fun E => proj1 (proj2 (hold I Hp E)))). pose proof (i_mtx _ _ _ _ _ I). lia. Qed.
Lemma C_odd m hc s P C i p s' p' (I : inv m hc s P C) (Hp : nth_error C i = Some p) (H : cstep hc i s p = Next s' p') t : sumf (cst2 t) (upd C i p') = b2z (Z.odd (k_ver (tk s' t))).
Proof.
  rewrite (up Hp). pose proof (i_odd _ _ _ _ _ I t).
  assert (X1 : forall d u, p = RStore1 u d -> Z.odd (k_ver (tk s u)) = false).
  { intros d u E. apply (g_even I Hp); rewrite E; cbn; [apply is_refl|reflexivity]. }
  assert (X2 : forall d u, p = RStore2 u d -> Z.odd (k_ver (tk s u)) = true).
  { intros d u E. pose proof (i_odd _ _ _ _ _ I u) as O. pose proof (sumf_ge (cst2 u) C i p (cst2_nn u) Hp) as G. rewrite E in G. cbn in G. rewrite is_refl in G.
    destruct (Z.odd (k_ver (tk s u))); [reflexivity|cbn in O; lia]. }
  pose proof (c_odd _ _ _ _ _ _ t H (RS I Hp) X1 X2). lia.
Qed.
Lemma C_t3 m hc s P C i p s' p' (I : inv m hc s P C) (Hp : nth_error C i = Some p) (H : cstep hc i s p = Next s' p') : sumf ct3 (upd C i p') + lt3 P = b2z (Z.odd (tver s')).
Proof.
  rewrite (up Hp). pose proof (i_t3 _ _ _ _ _ I) as T. assert (X : ct3 p = 1 -> Z.odd (tver s) = true).
  { intros E. pose proof (sumf_ge ct3 C i p ct3_nn Hp). pose proof (lt3_nn P). destruct (Z.odd (tver s)); [reflexivity|cbn in T; lia]. }
  pose proof (c_t3 _ _ _ _ _ _ H (RS I Hp) (W I Hp) X). lia.
Qed.
Lemma C_wg m hc s P C i p s' p' (I : inv m hc s P C) (Hp : nth_error C i = Some p) (H : cstep hc i s p = Next s' p') t : sumf (cwg t) (upd C i p') = b2z (k_wg (tk s' t)).
Proof. rewrite (up Hp). pose proof (i_wg _ _ _ _ _ I t). destruct (c_wg _ _ _ _ _ _ t H (RS I Hp) (W8g I Hp)). lia. Qed.
Lemma C_wt m hc s P C i p s' p' (I : inv m hc s P C) (Hp : nth_error C i = Some p) (H : cstep hc i s p = Next s' p') t : sumf (cwt t) (upd C i p') <= 1.
Proof. rewrite (up Hp). pose proof (i_wt _ _ _ _ _ I t). destruct (c_wg _ _ _ _ _ _ t H (RS I Hp) (W8g I Hp)). lia. Qed.
Lemma C_ver m hc s P C i p s' p' (I : inv m hc s P C) (Hp : nth_error C i = Some p) (H : cstep hc i s p = Next s' p') t : 0 <= k_effv (tk s' t) <= k_ver (tk s' t) /\ Z.even (k_effv (tk s' t)) = true /\ -1 <= k_dl (tk s' t) /\ (k_effv (tk s' t) = k_ver (tk s' t) -> k_eff (tk s' t) = k_dl (tk s' t)).
Proof.
  pose proof (i_ver _ _ _ _ _ I t) as V. cc; cbs; try exact V.
  all: tw; try exact V; cbn [cwf] in Hw; try (splits; try lia; tauto).
  all: destruct (i_cver _ _ _ _ _ I i _ t0 d v Hp eq_refl) as (V0 & V1 & V2);
    (assert (Ev : Z.odd (k_ver (tk s t0)) = false) by (apply (g_even I Hp); cbn; [apply is_refl|reflexivity]));
    rewrite V1 in *; apply even_odd in Ev; splits; auto; lia.
Qed.
Lemma creq_cg q t d v : creq q = Some (t, d, v) -> cg t q = 1.
Proof. destruct q; cbn; intros E; try discriminate E; inversion E; apply is_refl. Qed.
Lemma kexp_kt k t n : kexp k = Some (t, n) -> kt k = t.
Proof. destruct k; cbn; congruence. Qed.
Lemma kwf_kt t n k : kwf t n k -> kt k = t.
Proof. destruct k; cbn; tauto. Qed.
Lemma cexp_c hc q t n : cwf hc q -> cexp q = Some (t, n) -> cg t q = 1 /\ ch q = 1 /\ con t q = 1.
Proof.
  destruct q; cbn [cwf cexp cg ch]; intros W E; try discriminate E; unfold con; cbn [subject].
  - inversion E. subst. rewrite is_refl. auto.
  - apply kexp_kt in E. destruct W as [_ W]. apply kwf_kt in W. assert (X : t0 = t) by congruence. rewrite X. rewrite is_refl. auto.
Qed.
Lemma lreq_lh q x : lreq q = Some x -> lh q = 1. Proof. destruct q; cbn; intros E; try discriminate E; reflexivity. Qed.
Lemma lreq'_lreq q x : lreq' q = Some x -> lreq q = Some x. Proof. destruct q; cbn; intros E; try discriminate E; assumption. Qed.
Lemma lexp_lh q x : lexp q = Some x -> lh q = 1. Proof. destruct q; cbn; intros E; try discriminate E; reflexivity. Qed.
Lemma lrun_lh q x : lrun q = Some x -> lh q = 1. Proof. destruct q; cbn; intros E; try discriminate E; reflexivity. Qed.
Lemma lre_lh q x : lre q = Some x -> lh q = 1. Proof. destruct q; cbn; intros E; try discriminate E; reflexivity. Qed.
Lemma lrn_lh q x : lrn q = Some x -> lh q = 1. Proof. destruct q; cbn; intros E; try discriminate E; reflexivity. Qed.
Lemma lpop_lh q x : lpop q = Some x -> lh q = 1. Proof. destruct q; cbn; intros E; try discriminate E; reflexivity. Qed.
Lemma lpop_lexp q t : lpop q = Some t -> exists n, lexp q = Some (t, n). Proof. destruct q; cbn; intros E; try discriminate E; inversion E; subst; eauto. Qed.

Lemma C_cver m hc s P C i p s' p' (I : inv m hc s P C) (Hp : nth_error C i = Some p) (H : cstep hc i s p = Next s' p') j q t d v : nth_error (upd C i p') j = Some q -> creq q = Some (t, d, v) -> 0 < v /\ k_ver (tk s' t) = v /\ k_dl (tk s' t) = d.
Proof.
  intros X E. destruct (nth' Hp X) as [[-> ->]|[D Y]].
  - pose proof (i_cver _ _ _ _ _ I i p) as V. pose proof (i_ver _ _ _ _ _ I t) as V2.
    cc; cbn [creq] in *; try discriminate E; inversion E; subst; clear E; try (specialize (V _ _ _ Hp eq_refl)); cbs; tw;
      try (exact V); try congruence; eqbs; cbn [cwf] in Hw; lia.
  - pose proof (jguard I Hp Y D (creq_cg _ _ _ _ E)) as G. destruct (c_verdl _ _ _ _ _ _ _ H (RS I Hp) (W I Hp) G) as (-> & -> & _).
    apply (i_cver _ _ _ _ _ I j q _ _ _ Y E).
Qed.
Lemma tokr m hc s P C i p s' p' (I : inv m hc s P C) (Hp : nth_error C i = Some p) (H : cstep hc i s p = Next s' p') t : 1 <= ctok t p -> st s t = Ready.
Proof.
  intros E. pose proof (i_tok _ _ _ _ _ I t) as T. pose proof (sumf_ge (ctok t) C i p (ctok_nn t) Hp). pose proof (ltok_nn t P). pose proof (qcnt_nn t (rq s)).
  unfold rdy in T. apply st_eqb_spec. unfold st. destruct (st_eqb (k_st (tk s t)) Ready); [reflexivity|cbn in T; lia].
Qed.
Lemma C_cneg m hc s P C i p s' p' (I : inv m hc s P C) (Hp : nth_error C i = Some p) (H : cstep hc i s p = Next s' p') j t d v f : nth_error (upd C i p') j = Some (RISched t d v f) -> d < 0 -> ~ (k_eff (tk s' t) = -1 /\ k_effv (tk s' t) = v).
Proof.
  intros X L. destruct (nth' Hp X) as [[-> E]|[D Y]].
  - pose proof (i_cver _ _ _ _ _ I i p) as V. pose proof (i_cc _ _ _ _ _ I t) as V2. pose proof (tokr _ _ _ _ _ _ _ _ _ I Hp H t) as T.
    revert E. cc; intros E; try discriminate E; inversion E; subst; clear E; cbn [creq ctok] in *. rewrite is_refl in T. specialize (T (Z.le_refl 1)). specialize (V _ _ _ Hp eq_refl).
    cbs. tw. intros [A B]. destruct (V2 A) as [V3 _]; [lia|]. contradiction.
  - destruct (c_quiet _ _ _ _ _ _ H (RS I Hp) (W I Hp) (jhold I Hp Y D eq_refl)) as [_ Q]. destruct (Q t) as (-> & -> & _).
    apply (i_cneg _ _ _ _ _ I j t d v f Y L).
Qed.
Lemma v_mono m hc s P C i p s' p' (I : inv m hc s P C) (Hp : nth_error C i = Some p) (H : cstep hc i s p = Next s' p') t : k_ver (tk s t) <= k_ver (tk s' t) /\ (k_ver (tk s' t) = k_ver (tk s t) -> k_dl (tk s' t) = k_dl (tk s t)).
Proof. cc; cbs; tw; split; intros; lia. Qed.
Lemma C_lver m hc s P C i p s' p' (I : inv m hc s P C) (Hp : nth_error C i = Some p) (H : cstep hc i s p = Next s' p') t d v : lreq P = Some (t, d, v) -> 0 < v /\ k_effv (tk s' t) <= v <= k_ver (tk s' t) /\ (k_ver (tk s' t) = v -> k_dl (tk s' t) = d) /\ In (Req t d v) (log s')
             /\ (d < 0 -> ~ (k_eff (tk s' t) = -1 /\ k_effv (tk s' t) = v)).
Proof.
  intros E. destruct (i_lver _ _ _ _ _ I t d v E) as (A1 & A2 & A3 & A4 & A5).
  destruct (c_quiet _ _ _ _ _ _ H (RS I Hp) (W I Hp) (lhold I Hp (lreq_lh _ _ E))) as [_ Q]. destruct (Q t) as (-> & -> & _).
  destruct (v_mono _ _ _ _ _ _ _ _ _ I Hp H t) as [V1 V2]. splits; try lia; auto.
  apply (log_in I Hp H). exact A4.
Qed.
Lemma C_lneg m hc s P C i p s' p' (I : inv m hc s P C) (Hp : nth_error C i = Some p) (H : cstep hc i s p = Next s' p') t d v : lreq' P = Some (t, d, v) -> d < 0 -> st s' t = Ready -> k_ver (tk s' t) <> v.
Proof.
  intros E L R. pose proof (i_lneg _ _ _ _ _ I t d v E L) as A. destruct (i_lver _ _ _ _ _ I t d v (lreq'_lreq _ _ E)) as (_ & A2 & A3 & _).
  assert (A6 : st s t = Cancelling \/ st s t = Ready).
  { apply (i_lx _ _ _ _ _ I). destruct P; cbn in E; try discriminate E; inversion E; subst; clear E; cbn; f_equal; f_equal;
    destruct (i_lwf _ _ _ _ _ I) as (F & _ & D); destruct (renewed_state_cases f d F D) as [[_ Z]|[[Z _]|[Z _]]]; try lia; assumption. }
  pose proof (lhold I Hp (lreq_lh _ _ (lreq'_lreq _ _ E))) as Q. pose proof (i_cver _ _ _ _ _ I i p) as V.
  unfold st in *. cc; cbn [ch cwf] in *; try lia; cbs; auto; tw; auto; try lia; eqbs; try (destruct A6; congruence).
  all: destruct (V _ _ _ Hp eq_refl) as (V0 & V1 & V2); intros Ev; specialize (A3 Ev); lia.
Qed.
Lemma C_req m hc s P C i p s' p' (I : inv m hc s P C) (Hp : nth_error C i = Some p) (H : cstep hc i s p = Next s' p') t : Z.odd (k_ver (tk s' t)) = false -> 0 < k_ver (tk s' t) -> In (Req t (k_dl (tk s' t)) (k_ver (tk s' t))) (log s').
Proof.
  intros O L. pose proof (i_req _ _ _ _ _ I t) as A. pose proof (g_even I Hp t) as G.
  pose proof (log_in I Hp H (Req t (k_dl (tk s t)) (k_ver (tk s t)))) as Lg.
  cc; cbs; auto; unfold fset in *; try (destruct (Nat.eqb_spec t t0); subst; cbs; auto; fail); try (destruct (Nat.eqb_spec t t1); subst; cbs; auto; fail);
   destruct (Nat.eqb_spec t t0); subst; cbs; auto.
  - rewrite odd_succ in O. cbn in G. rewrite is_refl in G. rewrite G in O by reflexivity. discriminate O.
  - apply in_or_app. right. left. reflexivity.
  - apply in_or_app. right. left. reflexivity.
Qed.
Lemma lr_app t l e : last_request t (l ++ [e]) = match e with Req u d v => if Nat.eqb u t then Some (d, v) else last_request t l | _ => last_request t l end.
Proof. unfold last_request. rewrite fold_left_app. cbn. destruct e; reflexivity. Qed.
Lemma C_last m hc s P C i p s' p' (I : inv m hc s P C) (Hp : nth_error C i = Some p) (H : cstep hc i s p = Next s' p') t : Z.odd (k_ver (tk s' t)) = false -> last_request t (log s') = if k_ver (tk s' t) =? 0 then None else Some (k_dl (tk s' t), k_ver (tk s' t)).
Proof.
  intros O. pose proof (i_last _ _ _ _ _ I t) as A. pose proof (g_even I Hp t) as G. pose proof (i_ver _ _ _ _ _ I t) as V.
  cc; cbs; auto; rewrite ?lr_app; unfold fset in *;
    try (destruct (Nat.eqb_spec t t0); subst; cbs; auto; fail); try (destruct (Nat.eqb_spec t t1); subst; cbs; auto; fail);
    destruct (Nat.eqb_spec t t0); subst; cbs; rewrite ?Nat.eqb_refl; auto.
  - rewrite odd_succ in O. cbn in G. rewrite is_refl in G. rewrite G in O by reflexivity. discriminate O.
  - destruct (Z.eqb_spec (k_ver (tk s t0) + 1) 0); [lia|reflexivity].
  - destruct (Nat.eqb_spec t0 t); [congruence|auto].
  - destruct (Z.eqb_spec (k_ver (tk s t0) + 1) 0); [lia|reflexivity].
  - destruct (Nat.eqb_spec t0 t); [congruence|auto].
Qed.
Lemma C_eff m hc s P C i p s' p' (I : inv m hc s P C) (Hp : nth_error C i = Some p) (H : cstep hc i s p = Next s' p') t : 0 < k_effv (tk s' t) -> In (Req t (k_eff (tk s' t)) (k_effv (tk s' t))) (log s').
Proof.
  intros L. pose proof (i_eff _ _ _ _ _ I t) as A. pose proof (g_even I Hp t) as G. pose proof (i_cver _ _ _ _ _ I i p) as V. pose proof (i_req _ _ _ _ _ I t) as R.
  cc; cbs; try (apply in_or_app; left; auto; fail); auto; unfold fset in *;
    try (destruct (Nat.eqb_spec t t0); subst; cbs; auto; fail); try (destruct (Nat.eqb_spec t t1); subst; cbs; auto; fail);
    destruct (Nat.eqb_spec t t0); subst; cbs; auto; try (apply in_or_app; left; auto; fail).
  all: destruct (V _ _ _ Hp eq_refl) as (V0 & V1 & V2); cbn in G; rewrite is_refl in G; rewrite V1, V2 in R; try (apply in_or_app; left); try (replace (-1) with d by (eqbs; cbn [cwf] in Hw; lia)); apply R; auto; rewrite <- V1; apply G; reflexivity.
Qed.
Lemma C_new m hc s P C i p s' p' (I : inv m hc s P C) (Hp : nth_error C i = Some p) (H : cstep hc i s p = Next s' p') t : st s' t <> Completed -> 0 < k_ver (tk s' t).
Proof.
  intros N. pose proof (i_new _ _ _ _ _ I t) as A. pose proof (i_cver _ _ _ _ _ I i p) as V. pose proof (i_ver _ _ _ _ _ I t) as V2. pose proof (tokr _ _ _ _ _ _ _ _ _ I Hp H t) as T. unfold st in *.
  cc; cbs; auto; tw; auto; eqbs; try lia; try (apply A; congruence);
    try (destruct (V _ _ _ Hp eq_refl) as (V0 & V1 & _); lia).
  apply A. destruct Hw as [_ [_ E]]. congruence.
Qed.
Lemma C_exec m hc s P C i p s' p' (I : inv m hc s P C) (Hp : nth_error C i = Some p) (H : cstep hc i s p = Next s' p') t d v n : In (Exec t d v n) (log s') -> v <= k_effv (tk s' t) /\ In (Req t d v) (log s') /\ 0 <= d <= n.
Proof.
  intros X. assert (Y : In (Exec t d v n) (log s)).
  { cc; cbs; auto; apply in_app_or in X; destruct X as [X|[X|[]]]; auto; discriminate X. }
  destruct (i_exec _ _ _ _ _ I t d v n Y) as (A & B & D). splits; try lia; [|apply (log_in I Hp H); exact B].
  pose proof (i_cver _ _ _ _ _ I i p) as V. pose proof (i_ver _ _ _ _ _ I t) as V2.
  clear X B Y. cc; cbs; auto; tw; auto; destruct (V _ _ _ Hp eq_refl) as (V0 & V1 & _); lia.
Qed.
