From Coq Require Import Lia Sorted.
From Verif Require Import Base Base_lemmas CtlQueue_model CtlQueue_spec CtlQueue_proof CtlQueueInv_proof CtlQueueCl_proof CtlQueueCl2_proof.

Lemma C_ck5 m hc s P C i p s' p' (I : inv m hc s P C) (Hp : nth_error C i = Some p) (H : cstep hc i s p = Next s' p') j t u : nth_error (upd C i p') j <> Some (RIK t (K5 u)).
Proof.
  intros X. destruct (nth' Hp X) as [[-> E]|[D Y]]; [|exact (i_ck5 _ _ _ _ _ I j t u Y)].
  revert E. cc; intros E; try discriminate E; destruct Hw as [Hw ->]; congruence.
Qed.
Lemma C_cloop m hc s P C i p s' p' (I : inv m hc s P C) (Hp : nth_error C i = Some p) (H : cstep hc i s p = Next s' p') t b : In (Compl t b) (log s') -> b = true.
Proof.
  intros X. pose proof (i_cloop _ _ _ _ _ I t b) as A. pose proof (i_ck5 _ _ _ _ _ I i) as K.
  cc; cbs; auto; try (apply in_app_or in X; destruct X as [X|[X|[]]]; auto; discriminate X). exfalso. eapply K, Hp.
Qed.
(** *** Timer *)
Lemma ct3_cresp hc v q : cwf hc q -> 1 <= ct3 q -> 1 <= cresp v q.
Proof.
  destruct q; cbn [ct3 cwf]; intros W L; try lia; try contradiction.
  - destruct u; cbn [ut3] in L; try lia; destruct x; cbn [xt3] in L; try lia; cbn; try (destruct (d =? 0)); lia.
  - destruct x; cbn [xt3] in L; try lia; cbn; lia.
Qed.
Lemma ct3_cwr hc v q : cwf hc q -> 1 <= ct3 q -> 1 <= cwr v q.
Proof.
  destruct q; cbn [ct3 cwf]; intros W L; try lia; try contradiction.
  - destruct u; cbn [ut3] in L; try lia; destruct x; cbn [xt3] in L; try lia; cbn; lia.
  - destruct x; cbn [xt3] in L; try lia; cbn; lia.
Qed.
Lemma lt3_lresp q : 1 <= lt3 q -> lresp q = 1.
Proof. destruct q; cbn; intros; try lia. Qed.
Lemma lt3_lwr v q : 1 <= lt3 q -> lwr v q = 1.
Proof. destruct q; cbn; intros; try lia. destruct u; cbn in *; try lia; destruct x; cbn in *; lia. Qed.
(** Somebody else is storing a deadline. *)
Lemma other_t3 m hc s P C i p s' p' (I : inv m hc s P C) (Hp : nth_error C i = Some p) (H : cstep hc i s p = Next s' p') : Z.odd (tver s) = true -> ct3 p = 0 ->
  1 <= lt3 P \/ exists j q, j <> i /\ nth_error C j = Some q /\ 1 <= ct3 q.
Proof.
  intros O N. pose proof (i_t3 _ _ _ _ _ I) as T. rewrite O in T. cbn in T. pose proof (lt3_nn P). destruct (Z.eq_dec (lt3 P) 0) as [L|L]; [|left; lia].
  right. destruct (sumf_ex ct3 C) as (j & q & Y & E); [lia|]. exists j, q. splits; auto. intros ->. assert (q = p) by congruence. subst. lia.
Qed.
Lemma C_G m hc s P C i p s' p' (I : inv m hc s P C) (Hp : nth_error C i = Some p) (H : cstep hc i s p = Next s' p') : rsize s' <= 0 \/ tdl s' = 0 \/ 1 <= lresp P + sumf (cresp (tver s')) (upd C i p').
Proof.
  pose proof (i_G _ _ _ _ _ I) as A. rewrite (up Hp). pose proof (lresp_nn P) as L0.
  pose proof (sumf_ge (cresp (tver s')) C i p (cresp_nn _) Hp) as G'.
  assert (O : Z.odd (tver s) = true -> ct3 p = 0 -> 1 <= lresp P + sumf (cresp (tver s)) C - cresp (tver s) p).
  { intros O N. destruct (other_t3 _ _ _ _ _ _ _ _ _ I Hp H O N) as [X|(j & q & D & Y & X)].
    - rewrite (lt3_lresp _ X). pose proof (sumf_ge (cresp (tver s)) C i p (cresp_nn _) Hp). lia.
    - pose proof (sumf_two (cresp (tver s)) C i j p q (cresp_nn _) (not_eq_sym D) Hp Y). pose proof (ct3_cresp hc (tver s) q (i_cwf _ _ _ _ _ I j q Y) X). lia. }
  cc; cbn [cwf uwf xwf] in Hw; try contradiction; cbs; cbn [cresp xz] in *; try (destruct A as [A|[A|A]]; [left; lia|auto|right; right; lia]); try (right; right; lia).
  all: try match type of Hw with _ /\ _ => destruct Hw end; subst; cbn [Z.eqb] in *; auto.
  all: eqbs; cbn [ct3 ut3 xt3] in O.
  all: repeat match goal with |- context [?a =? ?b] => destruct (Z.eqb_spec a b); [subst|] | X : context [?a =? ?b] |- _ => destruct (Z.eqb_spec a b); [subst|] end; cbn [b2z] in *; auto.
  all: try (right; right; lia). all: try (destruct A as [A|[A|A]]; [left; lia|auto|right; right; lia]).
  all: try (specialize (O Eb eq_refl); right; right; lia). all: left; lia.
Qed.

Lemma nd_nonneg m hc s P C : inv m hc s P C -> sleepq s = [] \/ 0 < next_deadline s.
Proof.
  intros I. unfold next_deadline. destruct (sleepq s) as [|t l] eqn:E; [auto|right]. apply (i_slq _ _ _ _ _ I t). rewrite E. left. reflexivity.
Qed.
Lemma nd_same s s' : sleepq s' = sleepq s -> (forall u, k_eff (tk s' u) = k_eff (tk s u)) -> next_deadline s' = next_deadline s.
Proof. intros E F. unfold next_deadline. rewrite E. destruct (sleepq s); [reflexivity|apply F]. Qed.
Lemma C_cu m hc s P C i p s' p' (I : inv m hc s P C) (Hp : nth_error C i = Some p) (H : cstep hc i s p = Next s' p') j q u : nth_error (upd C i p') j = Some q -> cu q = Some u -> uval s' u.
Proof.
  intros X E. destruct (nth' Hp X) as [[-> ->]|[D Y]].
  - pose proof (i_cu _ _ _ _ _ I i p) as V. cc; cbn [cu] in *; try discriminate E; inversion E; subst; clear E; try (specialize (V _ Hp eq_refl)); cbn [uval] in *; auto;
      destruct (rsize s =? 0); auto.
  - assert (L : ch q = 1) by (destruct q; try discriminate E; reflexivity).
    destruct (c_quiet _ _ _ _ _ _ H (RS I Hp) (W I Hp) (jhold I Hp Y D L)) as [E1 Q]. pose proof (i_cu _ _ _ _ _ I j q u Y E) as V.
    assert (Nd : next_deadline s' = next_deadline s) by (apply nd_same; [exact E1|apply Q]). destruct u; cbn [uval] in *; auto; rewrite Nd; exact V.
Qed.
Lemma C_lu m hc s P C i p s' p' (I : inv m hc s P C) (Hp : nth_error C i = Some p) (H : cstep hc i s p = Next s' p') u : lu P = Some u -> uval s' u.
Proof.
  intros E. assert (L : lh P = 1) by (destruct P; try discriminate E; reflexivity).
  destruct (c_quiet _ _ _ _ _ _ H (RS I Hp) (W I Hp) (lhold I Hp L)) as [E1 Q]. pose proof (i_lu _ _ _ _ _ I u E) as V.
  assert (Nd : next_deadline s' = next_deadline s) by (apply nd_same; [exact E1|apply Q]). destruct u; cbn [uval] in *; auto; rewrite Nd; exact V.
Qed.
Lemma C_T m hc s P C i p s' p' (I : inv m hc s P C) (Hp : nth_error C i = Some p) (H : cstep hc i s p = Next s' p') : timer_ok s' \/ 1 <= lwr (tver s') P + sumf (cwr (tver s')) (upd C i p').
Proof.
  pose proof (i_T _ _ _ _ _ I) as A. rewrite (up Hp). pose proof (lwr_nn (tver s') P) as L0. pose proof (nd_nonneg _ _ _ _ _ I) as Nd.
  pose proof (sumf_ge (cwr (tver s')) C i p (cwr_nn _) Hp) as G'. pose proof (i_cu _ _ _ _ _ I i p) as V.
  assert (O : Z.odd (tver s) = true -> ct3 p = 0 -> 1 <= lwr (tver s) P + sumf (cwr (tver s)) C - cwr (tver s) p).
  { intros O N. destruct (other_t3 _ _ _ _ _ _ _ _ _ I Hp H O N) as [X|(j & q & D & Y & X)].
    - rewrite (lt3_lwr _ _ X). pose proof (sumf_ge (cwr (tver s)) C i p (cwr_nn _) Hp). lia.
    - pose proof (sumf_two (cwr (tver s)) C i j p q (cwr_nn _) (not_eq_sym D) Hp Y). pose proof (ct3_cwr hc (tver s) q (i_cwf _ _ _ _ _ I j q Y) X). pose proof (lwr_nn (tver s) P). lia. }
  assert (Tm : next_deadline s' = next_deadline s -> sleepq s' = sleepq s -> tdl s' = tdl s -> timer_ok s -> timer_ok s').
  { unfold timer_ok. intros -> -> ->. auto. }
  cc; cbn [cwf uwf xwf] in Hw; try contradiction; cbs; cbn [cwr xz xt3] in *.
  all: try (assert (Tm' : timer_ok s -> timer_ok s) by auto).
  all: try match goal with |- timer_ok ?x \/ _ => assert (Tk : timer_ok s -> timer_ok x) by
     (apply Tm; [apply nd_same; [reflexivity|intros u; cbs; unfold fset; repeat match goal with |- context [Nat.eqb ?a ?b] => destruct (Nat.eqb_spec a b); subst; cbs end; reflexivity]|reflexivity|reflexivity]) end.
  all: try (destruct A as [A|A]; [left; solve [auto]|right; lia]).
  all: try (right; lia).
  all: eqbs; cbn [ct3 ut3 xt3 cu] in O, V; try (specialize (V _ Hp eq_refl); cbn [uval] in V).
  all: repeat match goal with |- context [?a =? ?b] => destruct (Z.eqb_spec a b); [subst|] | X : context [?a =? ?b] |- _ => destruct (Z.eqb_spec a b); [subst|] end; cbn [b2z] in *; auto.
  all: try (right; lia). all: try (destruct A as [A|A]; [left; solve [auto]|right; lia]).
  all: try (specialize (O Eb eq_refl); right; lia).
  all: left; unfold timer_ok; cbs; destruct Nd as [Nd|Nd]; [left; exact Nd|right]; unfold next_deadline in *; cbs; subst; lia.
Qed.
(** *** Waiting *)
Lemma ksem_con hc t u q : cwf hc (RIK u q) -> ksem t q <= is t u.
Proof. cbn [cwf]. intros [_ W]. apply kwf_kt in W. subst u. destruct q; cbn [ksem kt]; try destruct s; try lia; apply is_range. Qed.
Lemma csem_con hc t q : cwf hc q -> csem t q <= con t q.
Proof. unfold con. destruct q; cbn [csem subject]; intros W; try lia; try apply is_range. apply (ksem_con hc _ _ _ W). Qed.
Lemma c3f_con hc t q : cwf hc q -> c3f t q <= con t q.
Proof.
  unfold con. destruct q; cbn [c3f subject cwf]; intros W; try lia; try apply is_range. destruct W as [_ W]. apply kwf_kt in W. subst t0.
  destruct k; cbn [k3f kt]; try lia; apply is_range.
Qed.
Lemma cws_con t q : cws t q <= con t q. Proof. unfold con; destruct q; cbn; try lia; apply is_range. Qed.
Lemma cw7_con t q : cw7 t q <= con t q. Proof. unfold con; destruct q; cbn; try lia; apply is_range. Qed.
Lemma cws_cwt t q : cws t q + cw7 t q <= cwt t q. Proof. unfold cwt; destruct q; cbn [cws cw7 waiting]; try (cbn; lia); unfold is; pose proof (b2z_range (Nat.eqb t0 t)); lia. Qed.
Lemma csch_con t q : csch t q <= con t q.
Proof. unfold csch, con; destruct q; cbn [scheduling subject]; unfold is; try (cbn; lia); try apply b2z_range; destruct (Nat.eqb t0 t); cbn; try lia; destruct (0 <=? d); cbn; lia. Qed.
Lemma sum_w m hc s P C t : inv m hc s P C -> sumf (cws t) C + sumf (cw7 t) C <= 1.
Proof.
  intros I. pose proof (i_wt _ _ _ _ _ I t). assert (E : forall l, sumf (cws t) l + sumf (cw7 t) l <= sumf (cwt t) l).
  { induction l as [|x l IH]; [cbn; lia|]. rewrite !RefCount_proof.sumf_cons. pose proof (cws_cwt t x). lia. }
  pose proof (E C). lia.
Qed.
Lemma C_post m hc s P C i p s' p' (I : inv m hc s P C) (Hp : nth_error C i = Some p) (H : cstep hc i s p = Next s' p') t : 0 <= k_post (tk s' t).
Proof. pose proof (i_post _ _ _ _ _ I t) as A. cc; cbs; tw; eqbs; lia. Qed.
Ltac own Hu Hw := cbn [subject] in Hu; cbn [cwf kwf] in Hw;
  try match type of Hu with forall u, Some ?a = Some u -> u = ?b => let E := fresh in assert (E : a = b) by (apply Hu; reflexivity); subst a end;
  try match type of Hw with _ = false /\ (_ /\ _) => destruct Hw as [? [Hw ?]]; subst | _ = false /\ _ => destruct Hw as [? Hw]; subst end;
  cbs; unfold fset in *; rewrite ?Nat.eqb_refl in *; cbs.
Lemma C_ws m hc s P C i p s' p' (I : inv m hc s P C) (Hp : nth_error C i = Some p) (H : cstep hc i s p = Next s' p') t : 1 <= sumf (cws t) (upd C i p') -> 1 <= b2z (k_sem (tk s' t)) + lsem t P + sumf (csem t) (upd C i p') + k_post (tk s' t).
Proof.
  rewrite !(up Hp). intros A0. pose proof (i_ws _ _ _ _ _ I t) as A. pose proof (i_post _ _ _ _ _ I t) as Po. pose proof (b2z_range (k_sem (tk s t))) as Br.
  pose proof (cws_nn t p) as B1. pose proof (csem_nn t p) as B2. pose proof (csem_nn t p') as B3. pose proof (lsem_nn t P) as B4.
  pose proof (sumf_ge (csem t) C i p (csem_nn t) Hp) as G2. pose proof (sum_w _ _ _ _ _ t I) as Sw. pose proof (sumf_ge (cws t) C i p (cws_nn t) Hp) as G1.
  pose proof (sumf_ge (cw7 t) C i p (cw7_nn t) Hp) as G3.
  destruct (Z.eq_dec (con t p) 0) as [N|N].
  - rewrite (c_own _ _ _ _ _ _ _ H (RS I Hp) (W I Hp) N). pose proof (con_mono _ _ _ _ _ _ _ _ _ I Hp H t). pose proof (cws_con t p). pose proof (csem_con hc t p (W I Hp)).
    pose proof (cws_con t p'). lia.
  - assert (Hu : forall u, subject p = Some u -> u = t) by (intros u E; apply (con_is p t u E N)).
    cc; own Hu Hw; try contradiction; cbn [cws cw7 csem ksem] in *; rewrite ?is_refl in *; eqbs; try lia; try (rewrite ?Eb in *; cbn [b2z] in *; lia).
    all: destruct (k_sem (tk s t)); cbn [b2z ksem] in *; rewrite ?is_refl in *; lia.
Qed.
Lemma C_apart m hc s P C i p s' p' (I : inv m hc s P C) (Hp : nth_error C i = Some p) (H : cstep hc i s p = Next s' p') : m = Apart -> forall t, 1 <= sumf (cwt t) (upd C i p') -> sumf (csch t) (upd C i p') = 0.
Proof.
  intros M t. rewrite !(up Hp). intros A0. destruct (c_wg _ _ _ _ _ _ t H (RS I Hp) (W8g I Hp)) as [_ X]. pose proof (i_apart _ _ _ _ _ I M t) as A.
  pose proof (sumf_ge (csch t) C i p (csch_nn t) Hp) as G1. pose proof (csch_nn t p'). pose proof (csch_nn t p).
  assert (Y : csch t p' <= csch t p); [|lia]. clear - H I Hp. unfold csch. cc; cbn [scheduling]; try (cbn; lia); try apply b2z_range.
Qed.
Lemma C_w4 m hc s P C i p s' p' (I : inv m hc s P C) (Hp : nth_error C i = Some p) (H : cstep hc i s p = Next s' p') j t : nth_error (upd C i p') j = Some (W4 t) \/ nth_error (upd C i p') j = Some (W6 t) -> k_sem (tk s' t) = true -> st s' t = Completing -> l3f t P + sumf (c3f t) (upd C i p') = 0.
Proof.
  intros X S E. rewrite (up Hp). pose proof (i_w4 _ _ _ _ _ I) as A. pose proof (sumf_ge (c3f t) C i p (c3f_nn t) Hp) as G1. pose proof (l3f_nn t P) as L3.
  assert (Ho : ch p = 1 -> l3f t P = 0 /\ sumf (c3f t) C = c3f t p).
  { intros L. destruct (hold I Hp L) as (L1 & _ & O). split.
    - destruct P; cbn in L1 |- *; try reflexivity; lia.
    - assert (Z : sumf (c3f t) (upd C i Idle) = 0). { apply sumf_is0. intros k q Y. destruct (nth' Hp Y) as [[-> ->]|[D Y']]; [reflexivity|]. specialize (O k q Y' D). destruct q; cbn in O |- *; try reflexivity; lia. }
      rewrite (up Hp) in Z. cbn [c3f] in Z. lia. }
  pose proof (i_cx _ _ _ _ _ I i p) as V.
  destruct (Z.eq_dec (con t p) 0) as [N|N].
  - unfold st in E. rewrite (c_own _ _ _ _ _ _ _ H (RS I Hp) (W I Hp) N) in *. pose proof (con_mono _ _ _ _ _ _ _ _ _ I Hp H t).
    pose proof (c3f_con hc t p (W I Hp)). pose proof (c3f_con hc t p' (C_cwf _ _ _ _ _ _ _ _ _ I Hp H i p' (nth_i Hp))). pose proof (c3f_nn t p). pose proof (c3f_nn t p').
    assert (Y : nth_error C j = Some (W4 t) \/ nth_error C j = Some (W6 t)).
    { destruct X as [X|X]; destruct (nth' Hp X) as [[-> Z]|[D Y]]; auto; exfalso; pose proof (con_nn t p') as Q; unfold con in *; rewrite <- Z in *; cbn [subject] in *; rewrite is_refl in *; lia. }
    specialize (A j t Y S E). lia.
  - assert (Hu : forall u, subject p = Some u -> u = t) by (intros u F; apply (con_is p t u F N)).
    assert (X' : (j = i /\ (p' = W4 t \/ p' = W6 t)) \/ (j <> i /\ (nth_error C j = Some (W4 t) \/ nth_error C j = Some (W6 t)))).
    { destruct X as [X|X]; destruct (nth' Hp X) as [[-> Z]|[D Y]]; auto. }
    assert (Wt : j <> i -> (nth_error C j = Some (W4 t) \/ nth_error C j = Some (W6 t)) -> cwt t p = 0).
    { intros D Y. destruct (Z.eq_dec (cwt t p) 1) as [Z|Z].
      - destruct Y as [Y|Y]; pose proof (wt1 I Hp t Z j _ Y D) as Q; unfold cwt in Q; cbn [waiting] in Q; rewrite Nat.eqb_refl in Q; discriminate Q.
      - unfold cwt in *. destruct (waiting t p); cbn in *; [congruence|reflexivity]. }
    clear X. destruct X' as [[-> X]|[D X]].
    + pose proof (A i t) as A'. revert X. unfold st in *. cc; intros X; try (destruct X as [X|X]; discriminate X); own Hu Hw; cbn [c3f] in *; eqbs; try congruence.
      specialize (A' (or_introl Hp) S E). lia.
    + specialize (Wt D X). specialize (A j t X). unfold st, cwt in *.
      cc; own Hu Hw; cbn [waiting] in Wt; rewrite ?Nat.eqb_refl in Wt; try discriminate Wt; cbn [c3f k3f ch cexp kexp] in *; rewrite ?is_refl in *; eqbs; try congruence; try (specialize (A S E); lia);
       try (destruct (Ho eq_refl); lia).
Qed.

Lemma waiter_quiet m hc s P C i p s' p' (I : inv m hc s P C) (Hp : nth_error C i = Some p) (H : cstep hc i s p = Next s' p') j q t : nth_error C j = Some q -> j <> i -> waiting t q = true -> cwt t p = 0.
Proof.
  intros Y D Z. destruct (Z.eq_dec (cwt t p) 1) as [E|E].
  - pose proof (wt1 I Hp t E j _ Y D) as Q. unfold cwt in Q. rewrite Z in Q. discriminate Q.
  - unfold cwt in *. destruct (waiting t p); cbn in *; [congruence|reflexivity].
Qed.
Lemma C_w6 m hc s P C i p s' p' (I : inv m hc s P C) (Hp : nth_error C i = Some p) (H : cstep hc i s p = Next s' p') j t : nth_error (upd C i p') j = Some (W6 t) -> k_sem (tk s' t) = true -> st s' t <> Completed.
Proof.
  intros X S E. pose proof (i_w6 _ _ _ _ _ I) as A. pose proof (i_w4 _ _ _ _ _ I j t) as A4. pose proof (sumf_ge (c3f t) C i p (c3f_nn t) Hp) as G1. pose proof (l3f_nn t P) as L3.
  pose proof (i_cx _ _ _ _ _ I i p) as V.
  destruct (Z.eq_dec (con t p) 0) as [N|N].
  - unfold st in E. rewrite (c_own _ _ _ _ _ _ _ H (RS I Hp) (W I Hp) N) in *. pose proof (con_mono _ _ _ _ _ _ _ _ _ I Hp H t).
    destruct (nth' Hp X) as [[-> Z]|[D Y]]; [|exact (A j t Y S E)].
    pose proof (con_nn t p') as Q; unfold con in *; rewrite <- Z in *; cbn [subject] in *; rewrite is_refl in *; lia.
  - assert (Hu : forall u, subject p = Some u -> u = t) by (intros u F; apply (con_is p t u F N)).
    destruct (nth' Hp X) as [[-> Z]|[D Y]].
    + clear X. revert Z. pose proof (A i t) as A'. unfold st in *. cc; intros Z; try discriminate Z; own Hu Hw; eqbs; congruence.
    + pose proof (waiter_quiet _ _ _ _ _ _ _ _ _ I Hp H j _ t Y D) as Wt. cbn [waiting] in Wt. rewrite Nat.eqb_refl in Wt. specialize (Wt eq_refl).
      specialize (A j t Y). specialize (A4 (or_intror Y)). clear X. unfold st, cwt in *.
      cc; own Hu Hw; cbn [waiting] in Wt; rewrite ?Nat.eqb_refl in Wt; try discriminate Wt; cbn [c3f k3f cexp kexp] in *; rewrite ?is_refl in *; eqbs; try congruence; try (apply A; assumption).
      * destruct (renewed_state_cases f d) as [[_ Z]|[[_ Z]|[_ Z]]]; try tauto; try congruence.
      * specialize (A4 S Eb). lia.
      * specialize (V _ _ Hp eq_refl). congruence.
Qed.
Lemma cws_split t q : waiting t q = false -> cws t q = 0 /\ cw7 t q = 0.
Proof. destruct q; cbn [waiting cws cw7]; intros E; auto; unfold is; rewrite E; auto. Qed.
Lemma C_asem m hc s P C i p s' p' (I : inv m hc s P C) (Hp : nth_error C i = Some p) (H : cstep hc i s p = Next s' p') : m = Apart -> forall t, b2z (k_sem (tk s' t)) + lsem t P + sumf (csem t) (upd C i p') + k_post (tk s' t) <= sumf (cws t) (upd C i p') + sumf (cw7 t) (upd C i p')
    /\ lsem t P + sumf (csem t) (upd C i p') + k_post (tk s' t) <= sumf (cws t) (upd C i p').
Proof.
  intros M t. rewrite !(up Hp). pose proof (i_asem _ _ _ _ _ I M t) as A. pose proof (i_post _ _ _ _ _ I t) as Po. pose proof (b2z_range (k_sem (tk s t))) as Br.
  pose proof (cws_nn t p) as B1. pose proof (csem_nn t p) as B2. pose proof (csem_nn t p') as B3. pose proof (lsem_nn t P) as B4.
  pose proof (sumf_ge (csem t) C i p (csem_nn t) Hp) as G2. pose proof (sum_w _ _ _ _ _ t I) as Sw. pose proof (sumf_ge (cws t) C i p (cws_nn t) Hp) as G1.
  pose proof (sumf_ge (cw7 t) C i p (cw7_nn t) Hp) as G3. pose proof (cw7_nn t p) as B5. pose proof (i_cx _ _ _ _ _ I i p) as V.
  destruct (Z.eq_dec (con t p) 0) as [N|N].
  - rewrite (c_own _ _ _ _ _ _ _ H (RS I Hp) (W I Hp) N). pose proof (con_mono _ _ _ _ _ _ _ _ _ I Hp H t). pose proof (cws_con t p). pose proof (csem_con hc t p (W I Hp)).
    pose proof (cws_con t p'). pose proof (cw7_con t p'). pose proof (cw7_con t p). pose proof (csem_con hc t p' (C_cwf _ _ _ _ _ _ _ _ _ I Hp H i p' (nth_i Hp))).
    pose proof (cws_nn t p'). pose proof (cw7_nn t p'). lia.
  - assert (Hu : forall u, subject p = Some u -> u = t) by (intros u E; apply (con_is p t u E N)).
    assert (K2ok : p = RIK t (K2 t) -> k_sem (tk s t) = true -> 1 <= sumf (cws t) C).
    { intros E S. rewrite S in A. cbn [b2z] in A. destruct (Z.eq_dec (sumf (cw7 t) C) 0) as [Z|Z]; [lia|]. exfalso.
      destruct (sumf_ex (cw7 t) C) as (j & q & Y & L); [pose proof (sumf_nonneg (cw7 t) C (cw7_nn t)); lia|]. destruct q; cbn [cw7] in L; try lia. apply is_ge in L. subst t0.
      destruct (i_adone _ _ _ _ _ I M t) as (_ & D & _). specialize (D j _ Y (or_intror (or_introl eq_refl))). pose proof (V t Completing Hp) as V'. rewrite E in V'. specialize (V' eq_refl). congruence. }
    cc; own Hu Hw; try contradiction; cbn [cws cw7 csem ksem cexp kexp] in *; rewrite ?is_refl in *; eqbs; try lia; try (rewrite ?Eb in *; cbn [b2z] in *; lia);
      try (specialize (V _ _ Hp eq_refl); congruence).
    + specialize (K2ok eq_refl). destruct (k_sem (tk s t)) eqn:Es; cbn [b2z ksem] in *; rewrite ?is_refl in *; [specialize (K2ok eq_refl)|]; lia.
Qed.

Lemma st_completed m hc s P C i p s' p' (I : inv m hc s P C) (Hp : nth_error C i = Some p) (H : cstep hc i s p = Next s' p') t : m = Apart -> st s t = Completed -> 1 <= sumf (cwt t) C -> st s' t = Completed.
Proof.
  intros M E L. pose proof (i_apart _ _ _ _ _ I M t L) as A. pose proof (sumf_ge (csch t) C i p (csch_nn t) Hp) as G.
  unfold st, csch in *. cc; cbs; auto; unfold fset; repeat match goal with |- context [Nat.eqb ?a ?b] => destruct (Nat.eqb_spec a b); subst; cbs end; auto; eqbs; try congruence.
  - cbn [scheduling] in G. rewrite Nat.eqb_refl in G. cbn [cwf] in Hw. destruct (Z.leb_spec 0 d); [|lia]. cbn in G. lia.
  - exfalso. destruct Hw as [_ [_ X]]. congruence.
  - contradiction.
Qed.
Lemma cwt_sum (C : list cpc) j q t : nth_error C j = Some q -> waiting t q = true -> 1 <= sumf (cwt t) C.
Proof. intros Y E. pose proof (sumf_ge (cwt t) C j q (cwt_nn t) Y) as G. unfold cwt in G at 1. rewrite E in G. exact G. Qed.
Lemma cws_sum (C : list cpc) t : 1 <= sumf (cws t) C -> 1 <= sumf (cwt t) C.
Proof. intros L. assert (E : sumf (cws t) C <= sumf (cwt t) C) by (apply sumf_le; intros x; pose proof (cws_cwt t x); pose proof (cw7_nn t x); lia). lia. Qed.
Lemma C_adone m hc s P C i p s' p' (I : inv m hc s P C) (Hp : nth_error C i = Some p) (H : cstep hc i s p = Next s' p') : m = Apart -> forall t, (1 <= k_post (tk s' t) -> st s' t = Completed)
   /\ (forall j q, nth_error (upd C i p') j = Some q -> q = W5 t \/ q = W7 t \/ q = W8 t -> st s' t = Completed)
   /\ (forall r, P = LK (K4 t true) r -> st s' t = Completed) /\ (forall j u, nth_error (upd C i p') j = Some (RIK u (K4 t true)) -> st s' t = Completed).
Proof.
  intros M t. destruct (i_adone _ _ _ _ _ I M t) as (A1 & A2 & A3 & A4). pose proof (i_asem _ _ _ _ _ I M t) as As.
  pose proof (st_completed _ _ _ _ _ _ _ _ _ I Hp H t M) as St. pose proof (i_post _ _ _ _ _ I t) as Po. pose proof (lsem_nn t P) as Ln. pose proof (sumf_nonneg (csem t) C (csem_nn t)) as Cn.
  pose proof (i_cx _ _ _ _ _ I i p) as V.
  splits.
  - intros L. destruct (Z.leb_spec 1 (k_post (tk s t))) as [Q|Q]; [apply St; [auto|apply cws_sum; lia]|].
    unfold st in *. cc; cbs; try lia; unfold fset in *; repeat match goal with |- context [Nat.eqb ?a ?b] => destruct (Nat.eqb_spec a b); subst; cbs end; try lia;
      apply (A4 _ _ Hp).
  - intros j q X E. destruct (nth' Hp X) as [[-> Z]|[D Y]].
    + rewrite Z in E. clear X Z. revert E. unfold st in *.
      cc; intros E; try (destruct E as [E|[E|E]]; discriminate E); assert (Et : t0 = t) by (destruct E as [E|[E|E]]; congruence); subst t0; cbs; unfold fset; rewrite ?Nat.eqb_refl; cbs; eqbs; auto.
      all: first [apply A1; lia | apply (A2 _ _ Hp); auto].
    + apply St; [apply (A2 _ _ Y E)|]. apply (cwt_sum C j q t Y). destruct E as [->|[->| ->]]; cbn [waiting]; apply Nat.eqb_refl.
  - intros r E. apply St; [apply (A3 r E)|]. apply cws_sum. rewrite E in As. cbn [lsem ksem] in As. rewrite is_refl in As. lia.
  - intros j u X. destruct (nth' Hp X) as [[-> Z]|[D Y]].
    + clear X. revert Z. unfold st in *. cc; intros Z; try discriminate Z. injection Z as -> Eb1 Eb2. subst. cbs. rewrite fset_eq. reflexivity.
    + apply St; [apply (A4 _ _ Y)|]. apply cws_sum. pose proof (sumf_ge (csem t) C j _ (csem_nn t) Y) as G. cbn [csem ksem] in G. rewrite is_refl in G. lia.
Qed.
Lemma C_aret m hc s P C i p s' p' (I : inv m hc s P C) (Hp : nth_error C i = Some p) (H : cstep hc i s p = Next s' p') : m = Apart -> forall j t b, In (WRet j t b) (log s') -> b = true.
Proof.
  intros M j t b X. pose proof (i_aret _ _ _ _ _ I M j t b) as A. destruct (i_adone _ _ _ _ _ I M t) as (_ & A2 & _). unfold st in A2.
  cc; cbs; auto; try (apply in_app_or in X; destruct X as [X|[X|[]]]; auto; try discriminate X; inversion X; subst; auto).
  rewrite (A2 _ _ Hp); auto.
Qed.
Lemma C_dead m hc s P C i p s' p' (I : inv m hc s P C) (Hp : nth_error C i = Some p) (H : cstep hc i s p = Next s' p') t : k_dead (tk s' t) = true -> m = Apart /\ st s' t = Completed /\ sumf (con t) (upd C i p') = 0 /\ lrn P <> Some t /\ (forall k r, P = LK k r -> ktail hc k <> Some t).
Proof.
  destruct (c_misc _ _ _ _ _ _ H (RS I Hp) (W I Hp)) as (_ & _ & ->). intros D. destruct (i_dead _ _ _ _ _ I t D) as (A1 & A2 & A3 & A4 & A5).
  pose proof (sumf_ge (con t) C i p (con_nn t) Hp) as G. pose proof (con_nn t p) as N1. pose proof (con_nn t p') as N2. pose proof (con_mono _ _ _ _ _ _ _ _ _ I Hp H t).
  splits; auto.
  - unfold st. rewrite (c_own _ _ _ _ _ _ _ H (RS I Hp) (W I Hp)) by lia. exact A2.
  - rewrite (up Hp). lia.
Qed.
Theorem c_inv m hc s P C i p s' p' (I : inv m hc s P C) (Hp : nth_error C i = Some p) (H : cstep hc i s p = Next s' p') : inv m hc s' P (upd C i p').
Proof.
  constructor.
  - apply (C_cwf _ _ _ _ _ _ _ _ _ I Hp H).
  - apply (i_lwf _ _ _ _ _ I).
  - apply (C_fl _ _ _ _ _ _ _ _ _ I Hp H).
  - apply (C_pq _ _ _ _ _ _ _ _ _ I Hp H).
  - apply (C_guard _ _ _ _ _ _ _ _ _ I Hp H).
  - apply (C_tok _ _ _ _ _ _ _ _ _ I Hp H).
  - apply (C_size _ _ _ _ _ _ _ _ _ I Hp H).
  - apply (C_mtx _ _ _ _ _ _ _ _ _ I Hp H).
  - apply (C_odd _ _ _ _ _ _ _ _ _ I Hp H).
  - apply (C_t3 _ _ _ _ _ _ _ _ _ I Hp H).
  - apply (C_wg _ _ _ _ _ _ _ _ _ I Hp H).
  - apply (C_wt _ _ _ _ _ _ _ _ _ I Hp H).
  - apply (C_ver _ _ _ _ _ _ _ _ _ I Hp H).
  - apply (C_cver _ _ _ _ _ _ _ _ _ I Hp H).
  - apply (C_cneg _ _ _ _ _ _ _ _ _ I Hp H).
  - apply (C_lver _ _ _ _ _ _ _ _ _ I Hp H).
  - apply (C_lneg _ _ _ _ _ _ _ _ _ I Hp H).
  - apply (C_req _ _ _ _ _ _ _ _ _ I Hp H).
  - apply (C_eff _ _ _ _ _ _ _ _ _ I Hp H).
  - apply (C_new _ _ _ _ _ _ _ _ _ I Hp H).
  - apply (C_exec _ _ _ _ _ _ _ _ _ I Hp H).
  - apply (C_run _ _ _ _ _ _ _ _ _ I Hp H).
  - apply (C_re _ _ _ _ _ _ _ _ _ I Hp H).
  - apply (C_ck5 _ _ _ _ _ _ _ _ _ I Hp H).
  - apply (i_k5 _ _ _ _ _ I).
  - apply (C_slc _ _ _ _ _ _ _ _ _ I Hp H).
  - apply (C_bk _ _ _ _ _ _ _ _ _ I Hp H).
  - apply (C_last _ _ _ _ _ _ _ _ _ I Hp H).
  - apply (C_lx _ _ _ _ _ _ _ _ _ I Hp H).
  - apply (C_cx _ _ _ _ _ _ _ _ _ I Hp H).
  - apply (C_si _ _ _ _ _ _ _ _ _ I Hp H).
  - apply (C_slq _ _ _ _ _ _ _ _ _ I Hp H).
  - apply (C_nd _ _ _ _ _ _ _ _ _ I Hp H).
  - apply (C_sort _ _ _ _ _ _ _ _ _ I Hp H).
  - apply (C_hon _ _ _ _ _ _ _ _ _ I Hp H).
  - apply (C_h2 _ _ _ _ _ _ _ _ _ I Hp H).
  - apply (C_cc _ _ _ _ _ _ _ _ _ I Hp H).
  - apply (C_rn _ _ _ _ _ _ _ _ _ I Hp H).
  - apply (C_compl _ _ _ _ _ _ _ _ _ I Hp H).
  - apply (C_cloop _ _ _ _ _ _ _ _ _ I Hp H).
  - destruct (c_misc _ _ _ _ _ _ H (RS I Hp) (W I Hp)) as (-> & _). apply (i_now _ _ _ _ _ I).
  - apply (C_G _ _ _ _ _ _ _ _ _ I Hp H).
  - apply (C_T _ _ _ _ _ _ _ _ _ I Hp H).
  - apply (C_cu _ _ _ _ _ _ _ _ _ I Hp H).
  - apply (C_lu _ _ _ _ _ _ _ _ _ I Hp H).
  - apply (C_post _ _ _ _ _ _ _ _ _ I Hp H).
  - apply (C_ws _ _ _ _ _ _ _ _ _ I Hp H).
  - apply (C_w4 _ _ _ _ _ _ _ _ _ I Hp H).
  - apply (C_w6 _ _ _ _ _ _ _ _ _ I Hp H).
  - apply (C_apart _ _ _ _ _ _ _ _ _ I Hp H).
  - apply (C_asem _ _ _ _ _ _ _ _ _ I Hp H).
  - apply (C_adone _ _ _ _ _ _ _ _ _ I Hp H).
  - apply (C_aret _ _ _ _ _ _ _ _ _ I Hp H).
  - apply (C_dead _ _ _ _ _ _ _ _ _ I Hp H).
Qed.
