From Coq Require Import Lia Sorted.
From Verif Require Import Base Base_lemmas CtlQueue_model CtlQueue_spec CtlQueue_proof CtlQueueInv_proof CtlQueueCl_proof CtlQueueCl2_proof CtlQueueCl3_proof CtlQueueLp_proof.

(** The task a step of the loop is about. *)
Definition lsub (p : lpc) : option nat :=
  match p with
  | LFlags _ t | LLd1 _ t _ | LLd2 _ t _ _ | LReadd _ t | LState _ t _ _ _ | LVer _ t _ _ _ | LFl2 _ t _ _ _ | LBack _ t _ | LSched _ t _ _ _ | LDec _ t _
  | LSlCas _ t | LExec t | LRun t | LDone t _ | LDl1 t | LDl2 t _ | LPa1 t | LPa2 t | LPa3 t | LPa4 t _ | LCont t | LReborn t _ | LRbInc t | LRbPush t => Some t
  | LK k _ => Some (kt k)
  | _ => None
  end.
Lemma l_own m hc b r s P C s' P' (I : inv m hc s P C) (R : r <> TPause) (H : lstep hc b r s P = Next s' P') t : lsub P <> Some t -> tk s' t = tk s t.
Proof. intros N. ll; cbn [lsub kt] in N; cbs; try reflexivity; rewrite ?fset_ne; try reflexivity; congruence. Qed.
Lemma cpf_ver m hc s P C t : inv m hc s P C -> 1 <= sumf (cpf t) C -> 0 < k_ver (tk s t) /\ 0 <= k_dl (tk s t).
Proof.
  intros I X. destruct (sumf_ex _ _ X) as (j & q & Y & L). pose proof (i_cwf _ _ _ _ _ I j q Y) as Wq. destruct q; cbn [cpf] in L; try lia; apply is_ge in L; subst t0;
    destruct (i_cver _ _ _ _ _ I j _ t d v Y eq_refl) as (A & B & D); cbn [cwf] in Wq; lia.
Qed.
Lemma L_new m hc b r s P C s' P' (I : inv m hc s P C) (R : r <> TPause) (H : lstep hc b r s P = Next s' P') t : st s' t <> Completed -> 0 < k_ver (tk s' t).
Proof.
  intros N. pose proof (i_new _ _ _ _ _ I t) as A. pose proof (i_rn _ _ _ _ _ I t) as B. pose proof (cpf_ver _ _ _ _ _ t I) as D. unfold st in *.
  ll; cbs; auto; tw; auto; eqbs; try (apply A; congruence).
  - cbn [lwf] in Hw. apply A. destruct Hw as [X|[X|X]]; congruence.
  - cbn [lwf] in Hw. apply A. destruct r0; cbn [kwf] in Hw; destruct Hw; congruence.
  - cbn [lwf lrn] in *. destruct Hw as [X|X]; [apply A; congruence|]. rewrite X in *. destruct (B eq_refl) as [Y|Y]; [apply A; congruence|apply D, Y].
Qed.
Lemma L_exec m hc b r s P C s' P' (I : inv m hc s P C) (R : r <> TPause) (H : lstep hc b r s P = Next s' P') t d v n : In (Exec t d v n) (log s') -> v <= k_effv (tk s' t) /\ In (Req t d v) (log s') /\ 0 <= d <= n.
Proof.
  intros X. pose proof (i_exec _ _ _ _ _ I t d v n) as A. pose proof (i_run _ _ _ _ _ I t) as B. pose proof (i_eff _ _ _ _ _ I t) as E. pose proof (i_lver _ _ _ _ _ I t) as V.
  pose proof (l_in _ _ _ _ _ _ _ _ _ I R H (Req t d v)) as Li.
  assert (Ev : k_effv (tk s t) <= k_effv (tk s' t)).
  { clear - I R H V. ll; cbs; tw; try lia; cbn [lreq] in V; specialize (V _ _ eq_refl); lia. }
  revert Ev Li. ll; cbs; intros Ev Li; try (destruct (A X) as (A1 & A2 & A3); splits; auto; lia).
  all: apply in_app_or in X; destruct X as [X|[X|[]]]; try discriminate X; try (destruct (A X) as (A1 & A2 & A3); splits; auto; lia).
  inversion X; subst; clear X. destruct (B eq_refl) as (B1 & B2). splits; try lia. apply Li. apply E. exact B2.
Qed.
Lemma L_run m hc b r s P C s' P' (I : inv m hc s P C) (R : r <> TPause) (H : lstep hc b r s P = Next s' P') t : lrun P' = Some t -> 0 <= k_eff (tk s' t) <= now s' /\ 0 < k_effv (tk s' t).
Proof.
  intros E. pose proof (i_run _ _ _ _ _ I t) as A. pose proof (i_now _ _ _ _ _ I) as N. pose proof (i_slq _ _ _ _ _ I t) as S. pose proof (i_lver _ _ _ _ _ I t) as V. unfold st in *.
  ll; cbn [lrun] in *; try discriminate E; inversion E; subst; clear E; try (exact (A eq_refl)); cbs; tw; eqbs; try lia; try (exact (A eq_refl)).
  - destruct (V _ _ eq_refl) as (V1 & _). destruct Hw as (_ & _ & Hw). lia.
  - specialize (S (or_introl eq_refl)). rewrite Z.gtb_ltb in Eb. eqbs. lia.
Qed.
Lemma L_re m hc b r s P C s' P' (I : inv m hc s P C) (R : r <> TPause) (H : lstep hc b r s P = Next s' P') t : lre P' = Some t -> 0 <= k_eff (tk s' t).
Proof.
  intros E. pose proof (i_re _ _ _ _ _ I t) as A. pose proof (i_run _ _ _ _ _ I t) as B.
  ll; cbn [lre lrun] in *; try discriminate E; inversion E; subst; clear E; try (exact (A eq_refl)); cbs; tw; eqbs; try lia; try (exact (A eq_refl)).
  all: specialize (B eq_refl); lia.
Qed.
Lemma L_k5 m hc b r s P C s' P' (I : inv m hc s P C) (R : r <> TPause) (H : lstep hc b r s P = Next s' P') t r0 : P' = LK (K5 t) r0 -> hc t = true.
Proof. intros E. revert E. ll; intros E; try discriminate E; congruence. Qed.
Lemma L_slc m hc b r s P C s' P' (I : inv m hc s P C) (R : r <> TPause) (H : lstep hc b r s P = Next s' P') first t : P' = LSlCas first t -> ~ In t (sleepq s').
Proof. intros E. revert E. ll; intros E; try discriminate E. injection E as -> ->. cbs. rewrite <- Esq, In_del. tauto. Qed.
Lemma L_bk m hc b r s P C s' P' (I : inv m hc s P C) (R : r <> TPause) (H : lstep hc b r s P = Next s' P') first t n : P' = LBack first t n -> ~ (k_eff (tk s' t) = -1 /\ k_effv (tk s' t) = k_ver (tk s' t)).
Proof.
  intros E. pose proof (i_lver _ _ _ _ _ I t) as V. pose proof (i_ver _ _ _ _ _ I t) as V0. revert E. ll; intros E; try discriminate E; injection E as -> -> Eb2; cbn [lreq] in V; cbs; destruct (V _ _ eq_refl) as (V1 & V2 & V3 & V4 & V5); eqbs; [lia|].
  intros [E1 E2]. destruct V0 as (_ & _ & _ & V0). specialize (V0 E2). assert (k_ver (tk s t) = v) by lia. specialize (V3 H). apply V5; [lia|]. split; congruence.
Qed.
Ltac rsc A := match type of A with context [renewed_state ?f ?d] => let Z1 := fresh in let Z2 := fresh in
  destruct (renewed_state_cases f d) as [[Z1 Z2]|[[Z1 Z2]|[Z1 Z2]]]; try tauto; try lia; rewrite Z2 in *; try exact A; try tauto; try congruence end.
Lemma L_lx m hc b r s P C s' P' (I : inv m hc s P C) (R : r <> TPause) (H : lstep hc b r s P = Next s' P') t n : lexp P' = Some (t, n) -> st s' t = n \/ st s' t = Ready.
Proof.
  intros E. pose proof (i_lx _ _ _ _ _ I t) as A. pose proof (i_slq _ _ _ _ _ I t) as S. pose proof (Lcrs I t) as Cr. unfold st in *.
  ll; cbn [lexp kexp lwf kwf lpop lh] in *; try discriminate E;
    try match type of E with context [match ?x with Ready => _ | _ => _ end] => destruct x end; try discriminate E;
    inversion E; subst; clear E; try (exact (A _ eq_refl)); cbs; tw; eqbs; auto.
  all: try (specialize (A _ eq_refl)).
  all: try match type of Hw with context [match ?r with KFetch _ _ => _ | _ => _ end] => destruct r end.
  all: repeat match type of Hw with _ /\ _ => destruct Hw as [? Hw] end; subst; try (destruct A; auto; congruence).
  all: auto.
  all: try rsc A.
  - destruct (S (or_introl eq_refl)) as (_ & _ & [X|[X|[X|X]]]); auto; [discriminate X|]. specialize (Cr eq_refl). lia.
Qed.

Lemma L_cx m hc b r s P C s' P' (I : inv m hc s P C) (R : r <> TPause) (H : lstep hc b r s P = Next s' P') j q t n : nth_error C j = Some q -> cexp q = Some (t, n) -> st s' t = n.
Proof.
  intros Y E. assert (L : lh P = 0). { pose proof (lh_range P). destruct (Z.eq_dec (lh P) 0); [assumption|]. exfalso. apply (Lcexp I (t := t) (n := n) (j := j) (q := q)); auto. lia. }
  unfold st. destruct (l_quiet _ _ _ _ _ _ _ H L) as (-> & _). apply (i_cx _ _ _ _ _ I j q t n Y E).
Qed.
Lemma l_slq m hc b r s P C s' P' (I : inv m hc s P C) (R : r <> TPause) (H : lstep hc b r s P = Next s' P') u : lsub P <> Some u -> In u (sleepq s) -> In u (sleepq s') \/ exists first, P' = LSlCas first u.
Proof.
  intros N X. ll; cbn [lsub] in N; cbs; auto; rewrite ?In_insert, ?In_del; try (left; split; congruence); try (left; right; split; congruence).
  all: try (left; rewrite Esq; exact X).
  destruct (Nat.eq_dec n u) as [->|D]; [right; eexists; reflexivity|]. left. auto.
Qed.
Lemma lexp_lsub q t n : lexp q = Some (t, n) -> lsub q = Some t.
Proof. destruct q; cbn; intros E; try discriminate E; try congruence; try (destruct ready; congruence); try (destruct from; congruence). apply kexp_kt in E. congruence. Qed.
Lemma L_si m hc b r s P C s' P' (I : inv m hc s P C) (R : r <> TPause) (H : lstep hc b r s P = Next s' P') t : st s' t = Ready \/ st s' t = Completed \/ (st s' t = Sleeping /\ In t (sleepq s')) \/ lexp P' = Some (t, st s' t)
           \/ (exists j q, nth_error C j = Some q /\ cexp q = Some (t, st s' t)).
Proof.
  pose proof (i_si _ _ _ _ _ I t) as S. destruct (Z.eq_dec (lh P) 0) as [L|L].
  - unfold st in *. destruct (l_quiet _ _ _ _ _ _ _ H L) as (-> & -> & _). destruct S as [S|[S|[S|[S|S]]]]; auto 10. apply lexp_lh in S. lia.
  - assert (L1 : lh P = 1) by (pose proof (lh_range P); lia).
    assert (S' : st s t = Ready \/ st s t = Completed \/ (st s t = Sleeping /\ In t (sleepq s)) \/ lexp P = Some (t, st s t)).
    { destruct S as [S|[S|[S|[S|(j & q & Y & E)]]]]; auto. exfalso. apply (Lcexp I L1 Y E). }
    assert (Q : st s' t = Ready \/ st s' t = Completed \/ (st s' t = Sleeping /\ In t (sleepq s')) \/ lexp P' = Some (t, st s' t)); [|destruct Q as [Q|[Q|[Q|Q]]]; auto 10].
    clear S. assert (D : lsub P = Some t \/ lsub P <> Some t). { destruct (lsub P) as [u|]; [|right; discriminate]. destruct (Nat.eq_dec u t) as [->|D]; [auto|right; congruence]. }
    destruct D as [D|D].
    + pose proof (i_lx _ _ _ _ _ I t) as V. pose proof (i_slq _ _ _ _ _ I t) as Sq. pose proof (Lcrs I t L1) as Cr. unfold st in *.
      ll; cbn [lsub kt lexp kexp lwf kwf lpop] in *; try discriminate D; injection D as D; subst; cbs; try (unfold fset in *; rewrite ?Nat.eqb_refl in *; cbs); eqbs; auto;
        try match type of Hw with context [match ?r with KFetch _ _ => _ | _ => _ end] => destruct r end;
        repeat match type of Hw with _ /\ _ => destruct Hw as [? Hw] end; subst; try (specialize (V _ eq_refl)).
      all: try (destruct S' as [S|[S|[S|S]]]; auto; discriminate S).
      all: try (rewrite ?In_insert).
      all: try (destruct S' as [S|[S|[S|S]]]; auto; injection S as S; auto; congruence).
      all: try (rsc V; destruct V as [V|V]; auto; right; right; right; congruence).
      all: try (rsc V; destruct V as [V|V]; auto; right; right; left; tauto).
      destruct Hw as [-> | ->]; destruct S' as [S|[S|[S|S]]]; auto; try discriminate S; congruence.
    + assert (Es : tk s' t = tk s t) by (apply (l_own _ _ _ _ _ _ _ _ _ I R H t D)). unfold st in *. rewrite Es.
      destruct S' as [S|[S|[[S1 S2]|S]]]; auto.
      * destruct (l_slq _ _ _ _ _ _ _ _ _ I R H t D S2) as [X|(first & X)]; [auto|]. right; right; right. rewrite X. cbn [lexp]. congruence.
      * apply lexp_lsub in S. congruence.
Qed.

Lemma L_slq m hc b r s P C s' P' (I : inv m hc s P C) (R : r <> TPause) (H : lstep hc b r s P = Next s' P') t : In t (sleepq s') -> 0 < k_eff (tk s' t) /\ 0 < k_effv (tk s' t) /\ (st s' t = Sleeping \/ st s' t = Ready \/ lpop P' = Some t \/ 1 <= sumf (crs t) C).
Proof.
  intros X. pose proof (i_slq _ _ _ _ _ I t) as S. destruct (Z.eq_dec (lh P) 0) as [L|L].
  - unfold st in *. destruct (l_quiet _ _ _ _ _ _ _ H L) as (E1 & E2 & _). rewrite E1, E2 in *. destruct (S X) as (A & B & [D|[D|[D|D]]]); splits; auto. apply lpop_lh in D. lia.
  - assert (L1 : lh P = 1) by (pose proof (lh_range P); lia). pose proof (Lcrs I t L1) as Cr. rewrite Cr in *. pose proof (i_lx _ _ _ _ _ I t) as V. pose proof (i_lver _ _ _ _ _ I t) as V2.
    pose proof (i_slc _ _ _ _ _ I) as Sc. unfold st in *.
    ll; cbn [lpop lexp kexp lreq lwf kwf] in *; cbs; rewrite ?In_insert, ?In_del in X; try (exact (S X)); tw; try (specialize (V _ eq_refl)); try (specialize (V2 _ _ eq_refl)).
    all: try (specialize (S X); destruct S as (A & B & D); splits; auto; destruct D as [D|[D|[D|D]]]; auto; try discriminate D; try (injection D as D; subst); eqbs; try congruence; try lia; auto; fail).
    all: eqbs; try (exfalso; tauto).
    all: try (specialize (Sc _ _ eq_refl); contradiction).
    all: try (assert (X' : In t (sleepq s)) by tauto; destruct (S X') as (A & B & D); splits; auto; destruct D as [D|[D|[D|D]]]; auto; try discriminate D; try lia; congruence).
    all: try (rewrite Esq in X; exact (S X)).
    + destruct (S X) as (A & B & D). splits; auto. destruct D as [D|[D|[D|D]]]; auto; try lia. injection D as D. subst t0. destruct (V _ eq_refl); auto. contradiction.
    + splits; try lia. rsc V.
    + exfalso. destruct (S X) as (A & B & D). destruct r0; destruct Hw as [_ Hw]; destruct D as [D|[D|[D|D]]]; try discriminate D; try lia; congruence.
    + destruct X as [X _]. exact (S X).
Qed.

Lemma L_nd m hc b r s P C s' P' (I : inv m hc s P C) (R : r <> TPause) (H : lstep hc b r s P = Next s' P') : NoDup (sleepq s').
Proof.
  pose proof (i_nd _ _ _ _ _ I) as N. ll; cbs; auto; try (rewrite Esq; exact N); try (apply NoDup_del; exact N).
  apply NoDup_insert; [apply NoDup_del; exact N|]. rewrite In_del. tauto.
Qed.
Lemma L_sort m hc b r s P C s' P' (I : inv m hc s P C) (R : r <> TPause) (H : lstep hc b r s P = Next s' P') : StronglySorted (le_eff s') (sleepq s').
Proof.
  pose proof (i_sort _ _ _ _ _ I) as N. ll; cbs; auto.
  all: try (apply sorted_ext with (le_eff s); [|exact N]; intros a1 a2 _ _; unfold le_eff; cbs; unfold fset;
      repeat match goal with |- context [Nat.eqb ?a ?b] => destruct (Nat.eqb_spec a b); subst; cbs end; auto; fail).
  all: try (rewrite Esq; exact N).
  all: try (apply rs_sorted_del; [exact N|]; intros u D; cbs; rewrite ?fset_ne by exact D; reflexivity).
  - eapply sorted_ext; [|apply rs_sorted; exact N]. intros a1 a2 _ _. unfold le_eff. cbs. unfold fset.
    destruct (Nat.eqb a1 t), (Nat.eqb a2 t); cbs; auto.
  - rewrite <- Esq. apply rs_sorted_del; [rewrite Esq; exact N|]. intros u D. cbs. reflexivity.
Qed.
