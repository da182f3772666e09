From Coq Require Import Lia Sorted.
From Verif Require Import Base Base_lemmas CtlQueue_model CtlQueue_spec CtlQueue_proof CtlQueueInv_proof CtlQueueCl_proof CtlQueueCl2_proof CtlQueueCl3_proof CtlQueueLp_proof CtlQueueLp2_proof.

Lemma lsub_dec P t : lsub P = Some t \/ lsub P <> Some t.
Proof. destruct (lsub P) as [u|]; [|right; discriminate]. destruct (Nat.eq_dec u t) as [->|D]; [auto|right; congruence]. Qed.
Lemma lhon_lsub s t P : lhon s t P -> lsub P = Some t.
Proof. destruct P; cbn; try tauto; try (intros [-> _]; reflexivity); try (intros ->; reflexivity). destruct ready; [intros [-> _]; reflexivity|tauto]. Qed.
Lemma exec_app m hc b r s P C s' P' (I : inv m hc s P C) (R : r <> TPause) (H : lstep hc b r s P = Next s' P') t v : executed t v (log s) -> executed t v (log s').
Proof. intros X. destruct (l_log _ _ _ _ _ _ _ H (LRS I)) as (l & ->). apply executed_app. exact X. Qed.
(** A step about task [t]. *)
Ltac lown D Hw := cbn [lsub kt] in D; try discriminate D; injection D as D; subst; cbn [lwf kwf] in Hw;
  try match type of Hw with context [match ?r with KFetch _ _ => _ | _ => _ end] => destruct r; cbn [kwf] in Hw end;
  repeat match type of Hw with _ /\ _ => destruct Hw as [? Hw] end; subst;
  cbs; unfold fset in *; rewrite ?Nat.eqb_refl in *; cbs.
Lemma L_hon m hc b r s P C s' P' (I : inv m hc s P C) (R : r <> TPause) (H : lstep hc b r s P = Next s' P') t : 0 <= k_dl (tk s' t) -> k_ver (tk s' t) = 0 \/ executed t (k_ver (tk s' t)) (log s') \/ st s' t = Ready
            \/ 1 <= sumf (cst2 t) C + sumf (cpf t) C + sumf (crs t) C \/ (In t (sleepq s') /\ k_effv (tk s' t) = k_ver (tk s' t)) \/ lhon s' t P'.
Proof.
  intros D. pose proof (i_hon _ _ _ _ _ I t) as A. pose proof (exec_app _ _ _ _ _ _ _ _ _ I R H t (k_ver (tk s t))) as Ex.
  destruct (lsub_dec P t) as [N|N].
  - pose proof (i_lver _ _ _ _ _ I t) as V. pose proof (i_lx _ _ _ _ _ I t) as Lx. unfold st in *. revert Ex.
    ll; intros Ex; lown N Hw; cbn [lhon lexp kexp lreq] in *; rewrite ?Nat.eqb_refl in *; eqbs; try (specialize (A D)); auto 10.
    all: try (destruct A as [A|[A|[A|[A|[A|A]]]]]; auto 10; try tauto; try congruence; fail).
    all: try (destruct (Lx _ eq_refl); auto; contradiction).
    all: try (destruct (V _ _ eq_refl) as (V1 & V2 & V3 & V4 & V5)).
    all: try (destruct A as [A|[A|[A|[A|[A|A]]]]]; auto 10; try tauto; rewrite ?In_insert; exfalso; lia).
    all: cbs; unfold fset; rewrite ?Nat.eqb_refl; cbs; rewrite ?In_insert.
    + destruct A as [A|[A|[A|[A|[A|A]]]]]; auto 10; assert (v = k_ver (tk s t)) by lia; auto 10.
    + destruct A as [A|[A|[A|[A|[A|A]]]]]; auto 10; assert (v = k_ver (tk s t)) by lia; auto 10.
    + destruct A as [A|[A|[A|[A|[A|A]]]]]; auto 10; try congruence; tauto.
    + destruct A as [A|[A|[A|[A|[A|A]]]]]; auto 10; try congruence; tauto.
    + destruct A as [A|[A|[A|[A|[A|A]]]]]; auto 10. right; left. destruct A as [_ A]. rewrite A. exists (k_eff (tk s t)), (now s). apply in_or_app. right. left. reflexivity.
  - rewrite (l_own _ _ _ _ _ _ _ _ _ I R H t N) in *. unfold st in *. rewrite (l_own _ _ _ _ _ _ _ _ _ I R H t N).
    destruct (A D) as [X|[X|[X|[X|[[X Y]|X]]]]]; auto 10; [|apply lhon_lsub in X; contradiction].
    destruct (l_slq _ _ _ _ _ _ _ _ _ I R H t N X) as [Z|(first & Z)]; [auto 10|]. right; right; right; right; right. rewrite Z. cbn [lhon]. split; [reflexivity|].
    rewrite (l_own _ _ _ _ _ _ _ _ _ I R H t N). exact Y.
Qed.
Lemma L_h2 m hc b r s P C s' P' (I : inv m hc s P C) (R : r <> TPause) (H : lstep hc b r s P = Next s' P') t : k_dl (tk s' t) < 0 -> st s' t <> Sleeping \/ 1 <= sumf (ccas t) C \/ (exists first f d v, P' = LVer first t f d v) \/ (exists first n, P' = LBack first t n).
Proof.
  intros D. pose proof (i_h2 _ _ _ _ _ I t) as A. 
  destruct (lsub_dec P t) as [N|N].
  - pose proof (i_lver _ _ _ _ _ I t) as V. pose proof (i_lx _ _ _ _ _ I t) as Lx. unfold st in *.
    ll; lown N Hw; cbn [lexp kexp lreq] in *; eqbs; try (specialize (A D)); try (left; congruence).
    all: try (right; right; left; repeat eexists; fail). all: try (right; right; right; repeat eexists; fail).
    all: try (destruct A as [A|[A|[(f0 & f1 & f2 & f3 & A)|(f0 & f1 & A)]]]; auto; discriminate A).
    all: try (destruct (V _ _ eq_refl) as (V1 & V2 & V3 & V4 & V5)).
    all: try (destruct (Lx _ eq_refl); left; congruence).
    specialize (V3 Eb). specialize (Lx _ eq_refl). rsc Lx. left. destruct Lx; congruence.
  - rewrite (l_own _ _ _ _ _ _ _ _ _ I R H t N) in *. unfold st in *. rewrite (l_own _ _ _ _ _ _ _ _ _ I R H t N).
    destruct (A D) as [X|[X|[(f0 & f1 & f2 & f3 & X)|(f0 & f1 & X)]]]; auto; rewrite X in N; cbn [lsub] in N; congruence.
Qed.
Lemma L_cc m hc b r s P C s' P' (I : inv m hc s P C) (R : r <> TPause) (H : lstep hc b r s P = Next s' P') t : k_eff (tk s' t) = -1 -> k_effv (tk s' t) = k_ver (tk s' t) -> st s' t <> Ready /\ st s' t <> Sleeping /\ st s' t <> Processing.
Proof.
  intros E1 E2. pose proof (i_cc _ _ _ _ _ I t) as A. pose proof (i_ver _ _ _ _ _ I t) as B.
  destruct (lsub_dec P t) as [N|N].
  - pose proof (i_lver _ _ _ _ _ I t) as V. pose proof (i_lneg _ _ _ _ _ I t) as Ln. pose proof (i_lx _ _ _ _ _ I t) as Lx. pose proof (i_bk _ _ _ _ _ I) as Bk. pose proof (i_re _ _ _ _ _ I t) as Re. unfold st in *.
    ll; lown N Hw; cbn [lexp kexp lreq lreq' lre] in *; eqbs; auto; try lia.
    all: try (destruct (A E1 E2) as (A1 & A2 & A3); congruence).
    all: try (splits; discriminate).
    all: try (destruct (Bk _ _ _ eq_refl); split; assumption).
    all: try (specialize (Re eq_refl); lia).
    destruct (V _ _ eq_refl) as (V1 & V2 & V3 & V4 & V5). specialize (Ln _ _ eq_refl Eb). specialize (Lx _ eq_refl). assert (Nr : k_st (tk s t) <> Ready) by (intros Q; apply (Ln Q); congruence).
    rsc Lx. destruct Lx as [Lx|Lx]; [|contradiction]. rewrite Lx. splits; discriminate.
  - unfold st. rewrite (l_own _ _ _ _ _ _ _ _ _ I R H t N) in *. auto.
Qed.
Lemma lrn_lsub P t : lwf P -> lrn P = Some t -> lsub P = Some t.
Proof. destruct P; cbn [lrn lsub lwf]; intros W E; try discriminate E; [destruct r as [|u []]; try discriminate E; apply kwf_kt in W; congruence|destruct from; try discriminate E; exact E]. Qed.
Lemma L_rn m hc b r s P C s' P' (I : inv m hc s P C) (R : r <> TPause) (H : lstep hc b r s P = Next s' P') t : lrn P' = Some t -> st s' t = Ready \/ 1 <= sumf (cpf t) C.
Proof.
  intros E. pose proof (i_rn _ _ _ _ _ I t) as A. pose proof (i_hon _ _ _ _ _ I t) as Ho. pose proof (i_exec _ _ _ _ _ I t) as Ex. pose proof (Lcrs I t) as Cr. pose proof (i_odd _ _ _ _ _ I t) as Od.
  pose proof (i_ver _ _ _ _ _ I t) as V.
  unfold st in *. ll; cbn [lrn lh lwf] in *; try discriminate E; cbs.
  all: try match type of E with context [match ?r with KFetch _ _ => _ | _ => _ end] => destruct r as [|? []]; try discriminate E end.
  all: try match type of E with context [match ?r with Ready => _ | _ => _ end] => destruct r; try discriminate E end.
  all: try (injection E as E; subst); try (specialize (A eq_refl)); try exact A; tw; auto; eqbs; cbn [kwf] in Hw.
  all: try (destruct A as [A|A]; auto; exfalso; destruct Hw; congruence).
  all: try (destruct A as [A|A]; auto; exfalso; congruence).
  destruct (Z.eqb_spec (k_ver (tk s t0)) v) as [Ev|Ev]; [|discriminate E]. destruct (Z.eqb_spec v (k_effv (tk s t0))) as [Ef|Ef]; [discriminate E|].
  destruct (Z.leb_spec 0 (k_dl (tk s t0))) as [Ed|Ed]; [|discriminate E]. cbn in E. injection E as ->. specialize (Cr eq_refl).
  rewrite Ev, (even_odd' _ Hw) in Od. cbn [b2z] in Od.
  destruct (Ho Ed) as [X|[(d & n & X)|[X|[X|[[_ X]|X]]]]]; auto; try lia; [destruct (Ex _ _ _ X); lia|destruct X].
Qed.
Lemma cnt_one f l e : Z.of_nat (ev_count f (l ++ [e])) = Z.of_nat (ev_count f l) + b2z (f e).
Proof. rewrite cnt_app. unfold ev_count at 2. cbn [filter]. destruct (f e); cbn [length b2z]; lia. Qed.
Lemma L_compl m hc b r s P C s' P' (I : inv m hc s P C) (R : r <> TPause) (H : lstep hc b r s P = Next s' P') t : hc t = true -> cnt_compl t s' + lk t P' = cnt_end t s'.
Proof.
  intros E. pose proof (i_compl _ _ _ _ _ I t E) as A. unfold cnt_compl, cnt_end in *.
  ll; cbs; cbn [lk kt lwf] in *; auto; try lia.
  all: rewrite ?cnt_one; cbn [is_compl is_end b2z]; try lia.
  all: unfold is in *; repeat match goal with |- context [Nat.eqb ?a ?b] => destruct (Nat.eqb_spec a b); subst | X : context [Nat.eqb ?a ?b] |- _ => destruct (Nat.eqb_spec a b); subst end; cbn [b2z] in *; try lia; try congruence.
Qed.
Lemma L_cloop m hc b r s P C s' P' (I : inv m hc s P C) (R : r <> TPause) (H : lstep hc b r s P = Next s' P') t b0 : In (Compl t b0) (log s') -> b0 = true.
Proof.
  intros X. pose proof (i_cloop _ _ _ _ _ I t b0) as A.
  ll; cbs; auto; apply in_app_or in X; destruct X as [X|[X|[]]]; auto; try discriminate X; congruence.
Qed.
