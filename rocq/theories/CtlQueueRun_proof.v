From Coq Require Import Lia Sorted.
From Verif Require Import Base Base_lemmas CtlQueue_model CtlQueue_spec CtlQueue_proof CtlQueueInv_proof CtlQueueCl_proof CtlQueueCl2_proof CtlQueueCl3_proof CtlQueueLp_proof CtlQueueLp2_proof CtlQueueLp3_proof CtlQueueLp4_proof.

(** The invariant holds along every legal run. *)
Lemma sumf_idle (f : cpc -> Z) n : f Idle = 0 -> sumf f (repeat Idle n) = 0.
Proof. intros E. induction n; [reflexivity|]. cbn [repeat]. rewrite RefCount_proof.sumf_cons, E, IHn. reflexivity. Qed.
Lemma nth_repeat_idle n i p : nth_error (repeat Idle n) i = Some p -> p = Idle.
Proof. intros H. apply nth_error_In in H. apply repeat_spec in H. exact H. Qed.
Lemma inv_init m hc n : inv m hc (sh (queue_new n)) LWait (repeat Idle n).
Proof.
  constructor; cbn [sh queue_new]; cbs; intros; rewrite ?sumf_idle by reflexivity; unfold st, timer_ok, task_new in *; cbs; auto; try lia; try discriminate; try (split; intros; try lia; try discriminate).
  all: try match goal with X : nth_error (repeat Idle ?k) _ = Some _ |- _ => apply nth_repeat_idle in X; subst; cbn in *; try discriminate; try contradiction; auto end.
  all: cbn in *; try tauto; try lia; try congruence; auto.
  all: try (intros X; apply nth_repeat_idle in X; discriminate X).
  all: try (constructor; fail).
  all: try (destruct H as [X|X]; apply nth_repeat_idle in X; discriminate X).
  rewrite sumf_idle in H by reflexivity. lia.
Qed.
Lemma inv_tick m hc s P C d : 0 <= d -> inv m hc s P C -> inv m hc (set_now s (now s + d)) P C.
Proof.
  intros D I. constructor.
  - exact (i_cwf _ _ _ _ _ I).
  - exact (i_lwf _ _ _ _ _ I).
  - exact (i_fl _ _ _ _ _ I).
  - exact (i_pq _ _ _ _ _ I).
  - exact (i_guard _ _ _ _ _ I).
  - exact (i_tok _ _ _ _ _ I).
  - exact (i_size _ _ _ _ _ I).
  - exact (i_mtx _ _ _ _ _ I).
  - exact (i_odd _ _ _ _ _ I).
  - exact (i_t3 _ _ _ _ _ I).
  - exact (i_wg _ _ _ _ _ I).
  - exact (i_wt _ _ _ _ _ I).
  - exact (i_ver _ _ _ _ _ I).
  - exact (i_cver _ _ _ _ _ I).
  - exact (i_cneg _ _ _ _ _ I).
  - exact (i_lver _ _ _ _ _ I).
  - exact (i_lneg _ _ _ _ _ I).
  - exact (i_req _ _ _ _ _ I).
  - exact (i_eff _ _ _ _ _ I).
  - exact (i_new _ _ _ _ _ I).
  - exact (i_exec _ _ _ _ _ I).
  - intros t E. pose proof (i_run _ _ _ _ _ I t E). cbs. lia.
  - exact (i_re _ _ _ _ _ I).
  - exact (i_ck5 _ _ _ _ _ I).
  - exact (i_k5 _ _ _ _ _ I).
  - exact (i_slc _ _ _ _ _ I).
  - exact (i_bk _ _ _ _ _ I).
  - exact (i_last _ _ _ _ _ I).
  - exact (i_lx _ _ _ _ _ I).
  - exact (i_cx _ _ _ _ _ I).
  - exact (i_si _ _ _ _ _ I).
  - exact (i_slq _ _ _ _ _ I).
  - exact (i_nd _ _ _ _ _ I).
  - exact (i_sort _ _ _ _ _ I).
  - intros t E. pose proof (i_hon _ _ _ _ _ I t E) as X. unfold lhon in *. exact X.
  - exact (i_h2 _ _ _ _ _ I).
  - exact (i_cc _ _ _ _ _ I).
  - exact (i_rn _ _ _ _ _ I).
  - exact (i_compl _ _ _ _ _ I).
  - exact (i_cloop _ _ _ _ _ I).
  - pose proof (i_now _ _ _ _ _ I). cbs. lia.
  - exact (i_G _ _ _ _ _ I).
  - exact (i_T _ _ _ _ _ I).
  - exact (i_cu _ _ _ _ _ I).
  - exact (i_lu _ _ _ _ _ I).
  - exact (i_post _ _ _ _ _ I).
  - exact (i_ws _ _ _ _ _ I).
  - exact (i_w4 _ _ _ _ _ I).
  - exact (i_w6 _ _ _ _ _ I).
  - exact (i_apart _ _ _ _ _ I).
  - exact (i_asem _ _ _ _ _ I).
  - exact (i_adone _ _ _ _ _ I).
  - exact (i_aret _ _ _ _ _ I).
  - exact (i_dead _ _ _ _ _ I).
Qed.
Lemma inv_winv m hc s P C i t : inv m hc s P C -> inv m hc (add_log s [WInv i t]) P C.
Proof.
  intros I. assert (Li : forall e, In e (log s) -> In e (log s ++ [WInv i t])) by (intros; apply in_or_app; auto).
  assert (Lj : forall e, In e (log s ++ [WInv i t]) -> e <> WInv i t -> In e (log s)) by (intros e X N; apply in_app_or in X; destruct X as [X|[X|[]]]; [exact X|congruence]).
  constructor.
  - exact (i_cwf _ _ _ _ _ I).
  - exact (i_lwf _ _ _ _ _ I).
  - exact (i_fl _ _ _ _ _ I).
  - exact (i_pq _ _ _ _ _ I).
  - exact (i_guard _ _ _ _ _ I).
  - exact (i_tok _ _ _ _ _ I).
  - exact (i_size _ _ _ _ _ I).
  - exact (i_mtx _ _ _ _ _ I).
  - exact (i_odd _ _ _ _ _ I).
  - exact (i_t3 _ _ _ _ _ I).
  - exact (i_wg _ _ _ _ _ I).
  - exact (i_wt _ _ _ _ _ I).
  - exact (i_ver _ _ _ _ _ I).
  - exact (i_cver _ _ _ _ _ I).
  - exact (i_cneg _ _ _ _ _ I).
  - intros u d v E. destruct (i_lver _ _ _ _ _ I u d v E) as (A & B & D & F & G). cbs. splits; auto; lia.
  - exact (i_lneg _ _ _ _ _ I).
  - intros u A B. cbs. apply Li. exact (i_req _ _ _ _ _ I u A B).
  - intros u A. cbs. apply Li. exact (i_eff _ _ _ _ _ I u A).
  - exact (i_new _ _ _ _ _ I).
  - intros u d v n X. cbs. apply Lj in X; [|discriminate]. destruct (i_exec _ _ _ _ _ I u d v n X) as (A & B & D). splits; auto; lia.
  - exact (i_run _ _ _ _ _ I).
  - exact (i_re _ _ _ _ _ I).
  - exact (i_ck5 _ _ _ _ _ I).
  - exact (i_k5 _ _ _ _ _ I).
  - exact (i_slc _ _ _ _ _ I).
  - exact (i_bk _ _ _ _ _ I).
  - intros u O. cbs. rewrite lr_app. exact (i_last _ _ _ _ _ I u O).
  - exact (i_lx _ _ _ _ _ I).
  - exact (i_cx _ _ _ _ _ I).
  - exact (i_si _ _ _ _ _ I).
  - exact (i_slq _ _ _ _ _ I).
  - exact (i_nd _ _ _ _ _ I).
  - exact (i_sort _ _ _ _ _ I).
  - intros u E. destruct (i_hon _ _ _ _ _ I u E) as [X|[X|X]]; [auto|right; left; apply executed_app; exact X|right; right; unfold lhon in *; exact X].
  - exact (i_h2 _ _ _ _ _ I).
  - exact (i_cc _ _ _ _ _ I).
  - exact (i_rn _ _ _ _ _ I).
  - intros u E. pose proof (i_compl _ _ _ _ _ I u E). unfold cnt_compl, cnt_end in *. cbs. rewrite !cnt_one. cbn [is_compl is_end b2z]. lia.
  - intros u b X. cbs. apply Lj in X; [|discriminate]. exact (i_cloop _ _ _ _ _ I u b X).
  - exact (i_now _ _ _ _ _ I).
  - exact (i_G _ _ _ _ _ I).
  - exact (i_T _ _ _ _ _ I).
  - exact (i_cu _ _ _ _ _ I).
  - exact (i_lu _ _ _ _ _ I).
  - exact (i_post _ _ _ _ _ I).
  - exact (i_ws _ _ _ _ _ I).
  - exact (i_w4 _ _ _ _ _ I).
  - exact (i_w6 _ _ _ _ _ I).
  - exact (i_apart _ _ _ _ _ I).
  - exact (i_asem _ _ _ _ _ I).
  - exact (i_adone _ _ _ _ _ I).
  - intros M j u b X. cbs. apply Lj in X; [|discriminate]. exact (i_aret _ _ _ _ _ I M j u b X).
  - exact (i_dead _ _ _ _ _ I).
Qed.
Definition fresh_call (q : cpc) : Prop := (exists t d, q = RGuard t d /\ -1 <= d) \/ (exists t, q = W0 t).
Lemma inv_call m hc s P C i q : inv m hc s P C -> nth_error C i = Some Idle -> fresh_call q ->
  (forall u, subject q = Some u -> k_dead (tk s u) = false) ->
  (forall t, q = W0 t -> sumf (cwt t) C = 0 /\ (m = Apart -> sumf (csch t) C = 0)) ->
  (forall t d, q = RGuard t d -> 0 <= d -> m = Apart -> sumf (cwt t) C = 0) ->
  inv m hc s P (upd C i q).
Proof.
  intros I Hp F Hd Hw Hs. pose proof (fun f => up (C := C) (i := i) (p := Idle) (p' := q) Hp f) as Up.
  assert (Z : forall f : cpc -> Z, f Idle = 0 -> f q = 0 -> sumf f (upd C i q) = sumf f C) by (intros f A B; rewrite Up, A, B; lia).
  assert (N : forall j x, nth_error (upd C i q) j = Some x -> (j = i /\ x = q) \/ nth_error C j = Some x) by (intros j x X; destruct (nth' Hp X) as [X'|[_ X']]; auto).
  assert (Kp : forall j x, nth_error C j = Some x -> x <> Idle -> nth_error (upd C i q) j = Some x) by (intros j x X X'; apply nth_j; [intros ->; congruence|exact X]).
  assert (Q : forall t v, cg t q = 0 /\ ctok t q = 0 /\ csz q = 0 /\ ch q = 0 /\ cst2 t q = 0 /\ ct3 q = 0 /\ cwg t q = 0 /\ cpf t q = 0 /\ crs t q = 0 /\ ccas t q = 0 /\ cresp v q = 0 /\ cwr v q = 0 /\ cws t q = 0 /\ cw7 t q = 0 /\ csem t q = 0 /\ c3f t q = 0)
    by (intros t v; destruct F as [(u & d & -> & _)|(u & ->)]; cbn; splits; reflexivity).
  assert (Q2 : creq q = None /\ cexp q = None /\ cu q = None) by (destruct F as [(u & d & -> & _)|(u & ->)]; cbn; auto).
  assert (Nq : q <> Idle) by (destruct F as [(u & d & -> & _)|(u & ->)]; discriminate).
  Ltac zz Z Q := rewrite ?Z by (first [reflexivity | apply (Q _ 0) | apply (Q 0%nat) ]).
  constructor.
  - intros j x X. destruct (N j x X) as [[-> ->]|Y]; [destruct F as [(u & d & -> & E)|(u & ->)]; cbn [cwf]; auto|exact (i_cwf _ _ _ _ _ I j x Y)].
  - exact (i_lwf _ _ _ _ _ I).
  - exact (i_fl _ _ _ _ _ I).
  - exact (i_pq _ _ _ _ _ I).
  - intros t. rewrite Z by (first [reflexivity|apply (Q t 0)]). exact (i_guard _ _ _ _ _ I t).
  - intros t. rewrite Z by (first [reflexivity|apply (Q t 0)]). exact (i_tok _ _ _ _ _ I t).
  - rewrite Z by (first [reflexivity|apply (Q 0%nat 0)]). exact (i_size _ _ _ _ _ I).
  - rewrite Z by (first [reflexivity|apply (Q 0%nat 0)]). exact (i_mtx _ _ _ _ _ I).
  - intros t. rewrite Z by (first [reflexivity|apply (Q t 0)]). exact (i_odd _ _ _ _ _ I t).
  - rewrite Z by (first [reflexivity|apply (Q 0%nat 0)]). exact (i_t3 _ _ _ _ _ I).
  - intros t. rewrite Z by (first [reflexivity|apply (Q t 0)]). exact (i_wg _ _ _ _ _ I t).
  - intros t. rewrite Up. pose proof (i_wt _ _ _ _ _ I t). change (cwt t Idle) with 0. unfold cwt at 2. destruct F as [(u & d & -> & E)|(u & ->)]; cbn [waiting b2z]; [lia|].
    destruct (Nat.eqb_spec u t); cbn [b2z]; [|lia]. subst u. destruct (Hw t eq_refl). lia.
  - exact (i_ver _ _ _ _ _ I).
  - intros j x t d v X E. destruct (N j x X) as [[-> ->]|Y]; [destruct Q2 as (Q2 & _); congruence|exact (i_cver _ _ _ _ _ I j x t d v Y E)].
  - intros j t d v f X E. destruct (N _ _ X) as [[-> Y]|Y]; [rewrite <- Y in Q2; cbn in Q2; destruct Q2 as (Q2 & _); discriminate Q2|exact (i_cneg _ _ _ _ _ I j t d v f Y E)].
  - exact (i_lver _ _ _ _ _ I).
  - exact (i_lneg _ _ _ _ _ I).
  - exact (i_req _ _ _ _ _ I).
  - exact (i_eff _ _ _ _ _ I).
  - exact (i_new _ _ _ _ _ I).
  - exact (i_exec _ _ _ _ _ I).
  - exact (i_run _ _ _ _ _ I).
  - exact (i_re _ _ _ _ _ I).
  - intros j t u X. destruct (N _ _ X) as [[-> Y]|Y]; [destruct F as [(? & ? & -> & _)|(? & ->)]; discriminate Y|exact (i_ck5 _ _ _ _ _ I j t u Y)].
  - exact (i_k5 _ _ _ _ _ I).
  - exact (i_slc _ _ _ _ _ I).
  - exact (i_bk _ _ _ _ _ I).
  - exact (i_last _ _ _ _ _ I).
  - exact (i_lx _ _ _ _ _ I).
  - intros j x t n X E. destruct (N j x X) as [[-> ->]|Y]; [destruct Q2 as (_ & Q2 & _); congruence|exact (i_cx _ _ _ _ _ I j x t n Y E)].
  - intros t. destruct (i_si _ _ _ _ _ I t) as [X|[X|[X|[X|(j & x & Y & E)]]]]; auto. right; right; right; right. exists j, x. split; [|exact E]. apply Kp; [exact Y|]. intros ->. discriminate E.
  - intros t. rewrite (Z (crs t)) by (first [reflexivity|apply (Q t 0)]). exact (i_slq _ _ _ _ _ I t).
  - exact (i_nd _ _ _ _ _ I).
  - exact (i_sort _ _ _ _ _ I).
  - intros t. rewrite (Z (crs t)), (Z (cst2 t)), (Z (cpf t)) by (first [reflexivity|apply (Q t 0)]). exact (i_hon _ _ _ _ _ I t).
  - intros t. rewrite (Z (ccas t)) by (first [reflexivity|apply (Q t 0)]). exact (i_h2 _ _ _ _ _ I t).
  - exact (i_cc _ _ _ _ _ I).
  - intros t. rewrite (Z (cpf t)) by (first [reflexivity|apply (Q t 0)]). exact (i_rn _ _ _ _ _ I t).
  - exact (i_compl _ _ _ _ _ I).
  - exact (i_cloop _ _ _ _ _ I).
  - exact (i_now _ _ _ _ _ I).
  - rewrite Z by (first [reflexivity|apply (Q 0%nat (tver s))]). exact (i_G _ _ _ _ _ I).
  - rewrite Z by (first [reflexivity|apply (Q 0%nat (tver s))]). exact (i_T _ _ _ _ _ I).
  - intros j x u X E. destruct (N j x X) as [[-> ->]|Y]; [destruct Q2 as (_ & _ & Q2); congruence|exact (i_cu _ _ _ _ _ I j x u Y E)].
  - exact (i_lu _ _ _ _ _ I).
  - exact (i_post _ _ _ _ _ I).
  - intros t. rewrite (Z (cws t)), (Z (csem t)) by (first [reflexivity|apply (Q t 0)]). exact (i_ws _ _ _ _ _ I t).
  - intros j t X. rewrite (Z (c3f t)) by (first [reflexivity|apply (Q t 0)]). apply (i_w4 _ _ _ _ _ I j t).
    destruct X as [X|X]; destruct (N _ _ X) as [[-> Y]|Y]; auto; exfalso; destruct F as [(? & ? & -> & _)|(? & ->)]; discriminate Y.
  - intros j t X. destruct (N _ _ X) as [[-> Y]|Y]; [destruct F as [(? & ? & -> & _)|(? & ->)]; discriminate Y|exact (i_w6 _ _ _ _ _ I j t Y)].
  - intros M t. rewrite !Up. change (cwt t Idle) with 0. change (csch t Idle) with 0. pose proof (i_apart _ _ _ _ _ I M t) as A. unfold cwt at 2, csch at 2.
    destruct F as [(u & d & -> & E)|(u & ->)]; cbn [waiting scheduling b2z]; intros L.
    + destruct (Nat.eqb_spec u t); cbn [andb b2z]; [subst u|rewrite A by lia; lia]. destruct (Z.leb_spec 0 d); cbn [b2z]; [|rewrite A by lia; lia].
      rewrite (Hs t d eq_refl) in L by auto. lia.
    + destruct (Nat.eqb_spec u t); cbn [b2z] in L; [subst u; destruct (Hw t eq_refl) as [_ X]; rewrite (X M); lia|rewrite A by lia; lia].
  - intros M t. rewrite (Z (cws t)), (Z (csem t)), (Z (cw7 t)) by (first [reflexivity|apply (Q t 0)]). exact (i_asem _ _ _ _ _ I M t).
  - intros M t. destruct (i_adone _ _ _ _ _ I M t) as (A1 & A2 & A3 & A4). splits; auto.
    + intros j x X E. destruct (N _ _ X) as [[-> ->]|Y]; [|exact (A2 j x Y E)]. destruct F as [(? & ? & -> & _)|(? & ->)]; destruct E as [E|[E|E]]; discriminate E.
    + intros j u X. destruct (N _ _ X) as [[-> Y]|Y]; [|exact (A4 j u Y)]. destruct F as [(? & ? & -> & _)|(? & ->)]; discriminate Y.
  - exact (i_aret _ _ _ _ _ I).
  - intros t D. destruct (i_dead _ _ _ _ _ I t D) as (A1 & A2 & A3 & A4 & A5). splits; auto. rewrite Up. change (con t Idle) with 0. unfold con at 2.
    destruct (subject q) as [u|] eqn:E; [|lia]. rewrite is_ne; [lia|]. intros ->. specialize (Hd t eq_refl). congruence.
Qed.
Lemma nobody_0 (f : nat -> cpc -> bool) (g : nat -> cpc -> Z) (C : list cpc) t : (forall q, g t q = b2z (f t q)) -> Forall (fun p => f t p = false) C -> sumf (g t) C = 0.
Proof. intros E F. apply sumf_is0. intros i x X. rewrite Forall_forall in F. rewrite E, (F x (nth_error_In _ _ X)). reflexivity. Qed.
Lemma con_nobody t C : Forall (fun p => match subject p with Some u => Nat.eqb u t | None => false end = false) C -> sumf (con t) C = 0.
Proof. intros F. apply sumf_is0. intros i x X. rewrite Forall_forall in F. specialize (F x (nth_error_In _ _ X)). unfold con, is. destruct (subject x); [rewrite F|]; reflexivity. Qed.
Lemma sumf_con0 (f : nat -> cpc -> Z) t C : (forall q, 0 <= f t q) -> (forall q, f t q <= con t q) -> sumf (con t) C = 0 -> sumf (f t) C = 0.
Proof. intros N L E. pose proof (sumf_le (f t) (con t) C L). pose proof (sumf_nonneg (f t) C N). lia. Qed.
Lemma inv_destroy m hc s P C t : inv m hc s P C -> m = Apart -> st s t = Completed -> notified hc t (log s) -> sumf (con t) C = 0 ->
  inv m hc (put s t (k_set_dead (tk s t) true)) P C.
Proof.
  intros I M Hst Hn Hc. set (s' := put s t (k_set_dead (tk s t) true)).
  assert (E : forall u, k_st (tk s' u) = k_st (tk s u) /\ k_fl (tk s' u) = k_fl (tk s u) /\ k_guard (tk s' u) = k_guard (tk s u) /\ k_ver (tk s' u) = k_ver (tk s u) /\ k_dl (tk s' u) = k_dl (tk s u)
     /\ k_eff (tk s' u) = k_eff (tk s u) /\ k_effv (tk s' u) = k_effv (tk s u) /\ k_sem (tk s' u) = k_sem (tk s u) /\ k_post (tk s' u) = k_post (tk s u) /\ k_wg (tk s' u) = k_wg (tk s u)).
  { intros u. unfold s'. cbs. unfold fset. destruct (Nat.eqb_spec u t); subst; cbs; splits; reflexivity. }
  assert (E1 : forall u, k_st (tk s' u) = k_st (tk s u)) by apply E. assert (E2 : forall u, k_fl (tk s' u) = k_fl (tk s u)) by apply E.
  assert (E3 : forall u, k_guard (tk s' u) = k_guard (tk s u)) by apply E. assert (E4 : forall u, k_ver (tk s' u) = k_ver (tk s u)) by apply E.
  assert (E5 : forall u, k_dl (tk s' u) = k_dl (tk s u)) by apply E. assert (E6 : forall u, k_eff (tk s' u) = k_eff (tk s u)) by apply E.
  assert (E7 : forall u, k_effv (tk s' u) = k_effv (tk s u)) by apply E. assert (E8 : forall u, k_sem (tk s' u) = k_sem (tk s u)) by apply E.
  assert (E9 : forall u, k_post (tk s' u) = k_post (tk s u)) by apply E. assert (E10 : forall u, k_wg (tk s' u) = k_wg (tk s u)) by apply E.
  assert (Es : forall u, st s' u = st s u) by (intros; apply E1). clear E.
  assert (F1 : rq s' = rq s) by reflexivity. assert (F2 : rsize s' = rsize s) by reflexivity. assert (F3 : sleepq s' = sleepq s) by reflexivity. assert (F4 : log s' = log s) by reflexivity.
  assert (Nd : next_deadline s' = next_deadline s) by (apply nd_same; [reflexivity|exact E6]).
  constructor.
  - exact (i_cwf _ _ _ _ _ I).
  - exact (i_lwf _ _ _ _ _ I).
  - intros u. rewrite E2. exact (i_fl _ _ _ _ _ I u).
  - exact (i_pq _ _ _ _ _ I).
  - intros u; intros; rewrite ?Es, ?E1, ?E2, ?E3, ?E4, ?E5, ?E6, ?E7, ?E8, ?E9, ?E10, ?F1, ?F2, ?F3, ?F4 in *; eapply (i_guard _ _ _ _ _ I); eauto.
  - intros u. unfold rdy, st. rewrite E1. exact (i_tok _ _ _ _ _ I u).
  - exact (i_size _ _ _ _ _ I).
  - exact (i_mtx _ _ _ _ _ I).
  - intros u; intros; rewrite ?Es, ?E1, ?E2, ?E3, ?E4, ?E5, ?E6, ?E7, ?E8, ?E9, ?E10, ?F1, ?F2, ?F3, ?F4 in *; eapply (i_odd _ _ _ _ _ I); eauto.
  - exact (i_t3 _ _ _ _ _ I).
  - intros u; intros; rewrite ?Es, ?E1, ?E2, ?E3, ?E4, ?E5, ?E6, ?E7, ?E8, ?E9, ?E10, ?F1, ?F2, ?F3, ?F4 in *; eapply (i_wg _ _ _ _ _ I); eauto.
  - exact (i_wt _ _ _ _ _ I).
  - intros u; intros; rewrite ?Es, ?E1, ?E2, ?E3, ?E4, ?E5, ?E6, ?E7, ?E8, ?E9, ?E10, ?F1, ?F2, ?F3, ?F4 in *; eapply (i_ver _ _ _ _ _ I); eauto.
  - intros u; intros; rewrite ?Es, ?E1, ?E2, ?E3, ?E4, ?E5, ?E6, ?E7, ?E8, ?E9, ?E10, ?F1, ?F2, ?F3, ?F4 in *; eapply (i_cver _ _ _ _ _ I); eauto.
  - intros u; intros; rewrite ?Es, ?E1, ?E2, ?E3, ?E4, ?E5, ?E6, ?E7, ?E8, ?E9, ?E10, ?F1, ?F2, ?F3, ?F4 in *; eapply (i_cneg _ _ _ _ _ I); eauto.
  - intros u; intros; rewrite ?Es, ?E1, ?E2, ?E3, ?E4, ?E5, ?E6, ?E7, ?E8, ?E9, ?E10, ?F1, ?F2, ?F3, ?F4 in *; eapply (i_lver _ _ _ _ _ I); eauto.
  - intros u; intros; rewrite ?Es, ?E1, ?E2, ?E3, ?E4, ?E5, ?E6, ?E7, ?E8, ?E9, ?E10, ?F1, ?F2, ?F3, ?F4 in *; eapply (i_lneg _ _ _ _ _ I); eauto.
  - intros u; intros; rewrite ?Es, ?E1, ?E2, ?E3, ?E4, ?E5, ?E6, ?E7, ?E8, ?E9, ?E10, ?F1, ?F2, ?F3, ?F4 in *; eapply (i_req _ _ _ _ _ I); eauto.
  - intros u; intros; rewrite ?Es, ?E1, ?E2, ?E3, ?E4, ?E5, ?E6, ?E7, ?E8, ?E9, ?E10, ?F1, ?F2, ?F3, ?F4 in *; eapply (i_eff _ _ _ _ _ I); eauto.
  - intros u; intros; rewrite ?Es, ?E1, ?E2, ?E3, ?E4, ?E5, ?E6, ?E7, ?E8, ?E9, ?E10, ?F1, ?F2, ?F3, ?F4 in *; eapply (i_new _ _ _ _ _ I); eauto.
  - intros u; intros; rewrite ?Es, ?E1, ?E2, ?E3, ?E4, ?E5, ?E6, ?E7, ?E8, ?E9, ?E10, ?F1, ?F2, ?F3, ?F4 in *; eapply (i_exec _ _ _ _ _ I); eauto.
  - intros u; intros; rewrite ?Es, ?E1, ?E2, ?E3, ?E4, ?E5, ?E6, ?E7, ?E8, ?E9, ?E10, ?F1, ?F2, ?F3, ?F4 in *; eapply (i_run _ _ _ _ _ I); eauto.
  - intros u; intros; rewrite ?Es, ?E1, ?E2, ?E3, ?E4, ?E5, ?E6, ?E7, ?E8, ?E9, ?E10, ?F1, ?F2, ?F3, ?F4 in *; eapply (i_re _ _ _ _ _ I); eauto.
  - exact (i_ck5 _ _ _ _ _ I).
  - exact (i_k5 _ _ _ _ _ I).
  - exact (i_slc _ _ _ _ _ I).
  - intros u; intros; rewrite ?Es, ?E1, ?E2, ?E3, ?E4, ?E5, ?E6, ?E7, ?E8, ?E9, ?E10, ?F1, ?F2, ?F3, ?F4 in *; eapply (i_bk _ _ _ _ _ I); eauto.
  - intros u; intros; rewrite ?Es, ?E1, ?E2, ?E3, ?E4, ?E5, ?E6, ?E7, ?E8, ?E9, ?E10, ?F1, ?F2, ?F3, ?F4 in *; eapply (i_last _ _ _ _ _ I); eauto.
  - intros u; intros; rewrite ?Es, ?E1, ?E2, ?E3, ?E4, ?E5, ?E6, ?E7, ?E8, ?E9, ?E10, ?F1, ?F2, ?F3, ?F4 in *; eapply (i_lx _ _ _ _ _ I); eauto.
  - intros u; intros; rewrite ?Es, ?E1, ?E2, ?E3, ?E4, ?E5, ?E6, ?E7, ?E8, ?E9, ?E10, ?F1, ?F2, ?F3, ?F4 in *; eapply (i_cx _ _ _ _ _ I); eauto.
  - intros u; intros; rewrite ?Es, ?E1, ?E2, ?E3, ?E4, ?E5, ?E6, ?E7, ?E8, ?E9, ?E10, ?F1, ?F2, ?F3, ?F4 in *; eapply (i_si _ _ _ _ _ I); eauto.
  - intros u; intros; rewrite ?Es, ?E1, ?E2, ?E3, ?E4, ?E5, ?E6, ?E7, ?E8, ?E9, ?E10, ?F1, ?F2, ?F3, ?F4 in *; eapply (i_slq _ _ _ _ _ I); eauto.
  - exact (i_nd _ _ _ _ _ I).
  - apply sorted_ext with (le_eff s); [|exact (i_sort _ _ _ _ _ I)]. intros a b _ _. unfold le_eff. rewrite !E6. auto.
  - intros u. rewrite Es, E4, E5, E7. replace (lhon s' u P) with (lhon s u P) by (destruct P; cbn [lhon]; rewrite ?E4, ?E7; reflexivity). exact (i_hon _ _ _ _ _ I u).
  - intros u; intros; rewrite ?Es, ?E1, ?E2, ?E3, ?E4, ?E5, ?E6, ?E7, ?E8, ?E9, ?E10, ?F1, ?F2, ?F3, ?F4 in *; eapply (i_h2 _ _ _ _ _ I); eauto.
  - intros u; intros; rewrite ?Es, ?E1, ?E2, ?E3, ?E4, ?E5, ?E6, ?E7, ?E8, ?E9, ?E10, ?F1, ?F2, ?F3, ?F4 in *; eapply (i_cc _ _ _ _ _ I); eauto.
  - intros u; intros; rewrite ?Es, ?E1, ?E2, ?E3, ?E4, ?E5, ?E6, ?E7, ?E8, ?E9, ?E10, ?F1, ?F2, ?F3, ?F4 in *; eapply (i_rn _ _ _ _ _ I); eauto.
  - exact (i_compl _ _ _ _ _ I).
  - exact (i_cloop _ _ _ _ _ I).
  - exact (i_now _ _ _ _ _ I).
  - exact (i_G _ _ _ _ _ I).
  - unfold timer_ok. rewrite Nd. exact (i_T _ _ _ _ _ I).
  - intros j x u X E. pose proof (i_cu _ _ _ _ _ I j x u X E) as V. destruct u; cbn [uval] in *; rewrite ?Nd; exact V.
  - intros u E. pose proof (i_lu _ _ _ _ _ I u E) as V. destruct u; cbn [uval] in *; rewrite ?Nd; exact V.
  - intros u; intros; rewrite ?Es, ?E1, ?E2, ?E3, ?E4, ?E5, ?E6, ?E7, ?E8, ?E9, ?E10, ?F1, ?F2, ?F3, ?F4 in *; eapply (i_post _ _ _ _ _ I); eauto.
  - intros u; intros; rewrite ?Es, ?E1, ?E2, ?E3, ?E4, ?E5, ?E6, ?E7, ?E8, ?E9, ?E10, ?F1, ?F2, ?F3, ?F4 in *; eapply (i_ws _ _ _ _ _ I); eauto.
  - intros u; intros; rewrite ?Es, ?E1, ?E2, ?E3, ?E4, ?E5, ?E6, ?E7, ?E8, ?E9, ?E10, ?F1, ?F2, ?F3, ?F4 in *; eapply (i_w4 _ _ _ _ _ I); eauto.
  - intros u; intros; rewrite ?Es, ?E1, ?E2, ?E3, ?E4, ?E5, ?E6, ?E7, ?E8, ?E9, ?E10, ?F1, ?F2, ?F3, ?F4 in *; eapply (i_w6 _ _ _ _ _ I); eauto.
  - exact (i_apart _ _ _ _ _ I).
  - intros M' u. rewrite E8, E9. exact (i_asem _ _ _ _ _ I M' u).
  - intros M' u. rewrite Es, E9. exact (i_adone _ _ _ _ _ I M' u).
  - exact (i_aret _ _ _ _ _ I).
  - intros u. rewrite Es. unfold s' at 1. cbs. unfold fset. destruct (Nat.eqb_spec u t) as [->|D]; [|exact (i_dead _ _ _ _ _ I u)]. intros _. splits; auto.
    + intros E. destruct (i_rn _ _ _ _ _ I t E) as [X|X]; [congruence|]. pose proof (sumf_con0 cpf t C (cpf_nn t) (cpf_con t) Hc). lia.
    + intros k r E X. assert (Lk : hc t = true -> kt k = t -> False).
      { intros A B. pose proof (i_compl _ _ _ _ _ I t A) as Q. rewrite E in Q. cbn [lk] in Q. rewrite B, is_refl in Q. specialize (Hn A). unfold cnt_compl, cnt_end in Q. rewrite Hn in Q. lia. }
      destruct k; cbn [ktail kt] in *; try discriminate X.
      * destruct (hc t0) eqn:Eh; [assert (t0 = t) by (rewrite orb_true_r in X; congruence); subst t0; auto|].
        destruct s0; [|discriminate X]. cbn in X. assert (t0 = t) by congruence. subst t0.
        destruct (i_asem _ _ _ _ _ I M t) as [_ Q]. rewrite E in Q. cbn [lsem ksem] in Q. rewrite is_refl in Q. pose proof (sumf_con0 cws t C (cws_nn t) (cws_con t) Hc). pose proof (sumf_nonneg (csem t) C (csem_nn t)). pose proof (i_post _ _ _ _ _ I t). lia.
      * assert (t0 = t) by congruence. subst t0. apply Lk; [apply (i_k5 _ _ _ _ _ I t r E)|reflexivity].
Qed.
