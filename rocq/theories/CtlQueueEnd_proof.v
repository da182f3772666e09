From Coq Require Import Lia Sorted.
From Verif Require Import Base Base_lemmas CtlQueue_model CtlQueue_spec CtlQueue_proof CtlQueueInv_proof CtlQueueCl_proof CtlQueueCl2_proof CtlQueueCl3_proof CtlQueueLp_proof CtlQueueLp2_proof CtlQueueLp3_proof CtlQueueLp4_proof CtlQueueRun_proof.

(** ** Legal runs do not abort *)
Lemma flags_ok s t : unpaused s -> f_valid (k_fl (tk s t)) = true.
Proof. intros U. destruct (U t) as (A & B & D). unfold f_valid. rewrite A, D, !andb_false_r. reflexivity. Qed.
Lemma cwg_cwt t q : cwg t q <= cwt t q.
Proof. unfold cwt. destruct q; cbn [cwg waiting]; try apply b2z_range; try (cbn; lia); unfold is; lia. Qed.
Lemma c_safe m hc s P C i p : inv m hc s P C -> nth_error C i = Some p -> freed s (c_touch p) = false /\ forall c, cstep hc i s p <> Crash c.
Proof.
  intros I Hp. pose proof (W I Hp) as Wf. pose proof (RS I Hp) as Rs. pose proof (i_fl _ _ _ _ _ I) as U. split.
  - destruct (c_touch p) as [t|] eqn:E; [|reflexivity]. cbn [freed]. destruct (k_dead (tk s t)) eqn:D; [|reflexivity]. exfalso.
    destruct (i_dead _ _ _ _ _ I t D) as (_ & _ & Z & _). pose proof (sumf_all0 _ _ (con_nn t) Z i p Hp) as Z'.
    assert (X : con t p = 1); [|lia]. unfold con. destruct p; cbn [c_touch subject cwf] in *; try discriminate E; try (injection E as ->; apply is_refl).
    destruct Wf as [_ Wf]. apply kwf_kt in Wf. destruct k; cbn [k_touch kt] in *; try destruct s0; try discriminate E; injection E as ->; subst; apply is_refl.
  - intros c H. assert (T : forall t, 1 <= ctok t p -> st s t = Ready).
    { intros t E. pose proof (i_tok _ _ _ _ _ I t) as T. pose proof (sumf_ge (ctok t) C i p (ctok_nn t) Hp). pose proof (ltok_nn t P). pose proof (qcnt_nn t (rq s)).
      unfold rdy in T. apply st_eqb_spec. unfold st. destruct (st_eqb (k_st (tk s t)) Ready); [reflexivity|cbn in T; lia]. }
    destruct p; cbn [cstep cwf ctok] in *; try contradiction; try (match type of H with context [kstep _ _ _ _] => destruct (kstep hc false s k) as [? []]; discriminate H end);
      try (match type of H with context [ustep _ _] => destruct (ustep s u) as [? []]; discriminate H end); try (match type of H with context [tstep _ _] => destruct (tstep s x) as [? []]; discriminate H end);
      try discriminate H; try (rewrite (Rs _ _ _ _ eq_refl) in H; discriminate H); try (match type of H with context [if ?b then _ else _] => destruct b eqn:Eb; try discriminate H end).
    + rewrite (flags_ok _ _ U) in Eb. discriminate Eb.
    + specialize (T t). rewrite is_refl in T. specialize (T (Z.le_refl 1)). eqbs. contradiction.
    + pose proof (i_wg _ _ _ _ _ I t) as G. rewrite Eb in G. cbn [b2z] in G. destruct (sumf_ex (cwg t) C) as (j & q & Y & L); [lia|].
      assert (D : j <> i) by (intros ->; assert (q = W1 t) by congruence; subst; cbn in L; lia).
      pose proof (sumf_two (cwt t) C j i q (W1 t) (cwt_nn t) D Y Hp) as S. pose proof (i_wt _ _ _ _ _ I t). pose proof (cwg_cwt t q). unfold cwt in S at 2. cbn [waiting] in S. rewrite Nat.eqb_refl in S. cbn [b2z] in S. lia.
Qed.
Lemma l_safe m hc s P C b r : inv m hc s P C -> freed s (l_touch P) = false /\ forall c, r <> TPause -> lstep hc b r s P <> Crash c.
Proof.
  intros I. pose proof (LW I) as Wf. pose proof (LRS I) as Rs. pose proof (i_fl _ _ _ _ _ I) as U. pose proof (Ltok I) as T. pose proof (i_lx _ _ _ _ _ I) as Lx. split.
  - destruct (l_touch P) as [t|] eqn:E; [|reflexivity]. cbn [freed]. destruct (k_dead (tk s t)) eqn:D; [|reflexivity]. exfalso.
    destruct (i_dead _ _ _ _ _ I t D) as (_ & Hst & _ & Lr & Kt). specialize (T t). specialize (Lx t).
    assert (Hr : st s t <> Ready) by congruence.
    assert (Tk : 1 <= ltok t P -> False) by (intros X; apply Hr, T, X).
    assert (Xp : forall n, lexp P = Some (t, n) -> n = Completed) by (intros n X; destruct (Lx n X); congruence). clear T Lx.
    destruct P; cbn [l_touch lwf ltok lexp lrn] in *; try discriminate E; try contradiction; try (injection E as ->); try rewrite is_refl in Tk; try (apply Tk; lia).
    all: try (specialize (Xp _ eq_refl); discriminate Xp).
    all: try (specialize (Xp _ eq_refl); match type of Xp with renewed_state ?f ?d = _ => destruct (renewed_state_cases f d) as [[_ Z]|[[_ Z]|[_ Z]]]; try tauto; congruence end).
    + specialize (Xp _ eq_refl). subst. destruct Wf as [X|[X|X]]; discriminate X.
    + destruct k; cbn [k_touch kexp] in *; try discriminate E.
      * injection E as ->. specialize (Xp _ eq_refl). subst. destruct r0; cbn [kwf] in Wf; destruct Wf as [_ X]; discriminate X.
      * injection E as ->. specialize (Xp _ eq_refl). discriminate Xp.
      * injection E as ->. specialize (Xp _ eq_refl). discriminate Xp.
      * injection E as ->. specialize (Xp _ eq_refl). discriminate Xp.
      * destruct s0; [|discriminate E]. injection E as ->. apply (Kt _ _ eq_refl). reflexivity.
      * injection E as ->. apply (Kt _ _ eq_refl). reflexivity.
    + destruct Wf as [-> | ->]; [specialize (Xp _ eq_refl); discriminate Xp|]. apply Lr. reflexivity.
  - intros c Rp H. pose proof (i_run _ _ _ _ _ I) as Ru. pose proof (i_slq _ _ _ _ _ I) as Sq.
    destruct P; cbn [lstep lwf ltok lrun] in *; try contradiction; try (match type of H with context [kstep _ _ _ _] => destruct (kstep hc true s k) as [? []]; discriminate H end);
      try (match type of H with context [ustep _ _] => destruct (ustep s u) as [? []]; discriminate H end); try discriminate H.
    all: try (rewrite (Rs _ _ _ _ _ eq_refl) in H; discriminate H).
    all: try (destruct (rq s); [discriminate H|destruct b; discriminate H]).
    all: try (destruct (sleepq s) as [|t l]; [discriminate H|]; destruct (k_eff (tk s t) >? now s); [discriminate H|]; destruct (Z.leb_spec (k_eff (tk s t)) 0); [destruct (Sq t (or_introl eq_refl)); lia|discriminate H]).
    all: try (match type of H with context [if ?b then _ else _] => destruct b eqn:Eb; try discriminate H end).
    + rewrite (flags_ok _ _ U) in Eb. discriminate Eb.
    + specialize (T t). rewrite is_refl in T. specialize (T (Z.le_refl 1)). eqbs. contradiction.
    + specialize (Ru t eq_refl). eqbs. lia.
    + destruct r; discriminate H.
Qed.

Definition sinv (m : mode) (hc : nat -> bool) (x : state) : Prop := inv m hc (sh x) (lp x) (cl x).
Lemma sinv_init m hc n : sinv m hc (queue_new n).
Proof. exact (inv_init m hc n). Qed.
Lemma call_ok m hc x i o : sinv m hc x -> legal m hc x (Call i o) -> nth_error (cl x) i = Some Idle -> inv m hc (sh x) (lp x) (upd (cl x) i (start o)).
Proof.
  intros I [Ld L] Hp. apply inv_call; auto.
  - destruct o; cbn [start]; [left|left|left|contradiction|right]; eauto; do 2 eexists; (split; [reflexivity|]); lia.
  - intros u E. destruct o; cbn in E; injection E as <-; exact Ld.
  - intros t E. destruct o; cbn [start] in E; try discriminate E. injection E as ->. destruct L as [L1 L2]. split.
    + apply (nobody_0 waiting cwt); [reflexivity|exact L1].
    + intros M. apply (nobody_0 scheduling csch); [reflexivity|exact (L2 M)].
  - intros t d E D M. destruct o; cbn [start] in E; try discriminate E; injection E as -> <-.
    + apply (nobody_0 waiting cwt); [reflexivity|exact (L M)].
    + apply (nobody_0 waiting cwt); [reflexivity|exact (proj2 L M)].
    + lia.
Qed.
Lemma step_inv m hc x l x' : sinv m hc x -> legal m hc x l -> step hc x l = Go x' -> sinv m hc x'.
Proof.
  intros I L H. unfold sinv in *. destruct l; cbn [step] in H.
  - destruct (Z.ltb_spec d 0); [discriminate H|]. injection H as <-. apply inv_tick; auto.
  - destruct (nth_error (cl x) i) as [[]|] eqn:E; try discriminate H. destruct (negative o); [discriminate H|]. injection H as <-. cbn [sh lp cl].
    pose proof (call_ok m hc x i o I L E) as Q. destruct o; try exact Q. apply inv_winv. exact Q.
  - destruct (nth_error (cl x) i) as [p|] eqn:E; [|discriminate H]. destruct (freed (sh x) (c_touch p)); [discriminate H|].
    destruct (cstep hc i (sh x) p) as [|c|s' p'] eqn:Ec; try discriminate H. injection H as <-. cbn [sh lp cl]. apply (c_inv m hc (sh x) (lp x) (cl x) i p s' p'); auto.
  - destruct (freed (sh x) (l_touch (lp x))); [discriminate H|]. destruct (lstep hc b r (sh x) (lp x)) as [|c|s' p'] eqn:Ec; try discriminate H. injection H as <-. cbn [sh lp cl].
    apply (l_inv m hc b r (sh x) (lp x) (cl x) s' p'); auto.
  - destruct (k_dead (tk (sh x) t)); [discriminate H|]. destruct (negb _); [discriminate H|]. destruct (_ || _); [discriminate H|]. injection H as <-. cbn [sh lp cl].
    destruct L as (L1 & L2 & L3 & L4 & L5). apply inv_destroy; auto. apply con_nobody. exact L5.
Qed.
Lemma step_safe m hc x l c : sinv m hc x -> legal m hc x l -> step hc x l <> Abort c.
Proof.
  intros I L H. unfold sinv in *. destruct l; cbn [step] in H.
  - destruct (d <? 0); discriminate H.
  - destruct (nth_error (cl x) i) as [[]|]; try discriminate H. destruct (negative o) eqn:N; [|discriminate H]. destruct o; cbn [negative] in N; try discriminate N. destruct L as [_ [L _]]. eqbs. lia.
  - destruct (nth_error (cl x) i) as [p|] eqn:E; [|discriminate H]. destruct (c_safe m hc _ _ _ i p I E) as [A B]. rewrite A in H. specialize (B c). destruct (cstep hc i (sh x) p); congruence.
  - destruct (l_safe m hc _ _ _ b r I) as [A B]. rewrite A in H. specialize (B c L). destruct (lstep hc b r (sh x) (lp x)); congruence.
  - destruct L as (L1 & L2 & L3 & L4 & L5). rewrite L2, L3 in H. cbn [st_eqb negb] in H. rewrite (i_pq _ _ _ _ _ I) in H. cbn [mem existsb] in H. rewrite orb_false_r in H.
    destruct (mem t (sleepq (sh x))) eqn:E; [|discriminate H]. unfold mem in E. apply existsb_exists in E. destruct E as (u & E & F). apply Nat.eqb_eq in F. subst u.
    destruct (i_slq _ _ _ _ _ I t E) as (_ & _ & [X|[X|[X|X]]]); unfold st in *; try congruence.
    + destruct (lpop_lexp _ _ X) as (n & Y). destruct (i_lx _ _ _ _ _ I t n Y) as [Z|Z]; unfold st in Z; [|congruence].
      assert (Hn : n = Completed) by congruence. pose proof (i_lwf _ _ _ _ _ I) as Wf. destruct (lp x); cbn [lpop] in X; try discriminate X; cbn [lexp lwf] in *; injection Y as _ Y; rewrite <- Y in Hn; clear Y.
      all: try (match type of Hn with renewed_state ?f ?d = _ => unfold renewed_state in Hn; destruct (f_paus f), (d <? 0), (f_resu f), (d =? 0); discriminate Hn end).
      destruct Wf as [Q|[Q|Q]]; congruence.
    + pose proof (sumf_con0 crs t (cl x) (crs_nn t) (crs_con t) (con_nobody t _ L5)). lia.
Qed.
Lemma run_inv m hc ls x x' : sinv m hc x -> legal_run m hc x ls -> run hc x ls = Go x' -> sinv m hc x'.
Proof.
  revert x. induction ls as [|l ls IH]; intros x I L H; cbn in *; [congruence|]. destruct L as [L1 L2]. destruct (step hc x l) as [|c|y] eqn:E; try discriminate H.
  apply (IH y); auto. apply (step_inv m hc x l y); auto.
Qed.
Lemma run_safe m hc ls x c : sinv m hc x -> legal_run m hc x ls -> run hc x ls <> Abort c.
Proof.
  revert x. induction ls as [|l ls IH]; intros x I L H; cbn in *; [discriminate H|]. destruct L as [L1 L2]. destruct (step hc x l) as [|c'|y] eqn:E; try discriminate H.
  - apply (step_safe m hc x l c' I L1 E).
  - apply (IH y); auto. apply (step_inv m hc x l y); auto.
Qed.

Lemma rs_not_blocked s t f d v : renew_scheduling s t f d v <> Blocked.
Proof.
  assert (U : unlist s t <> Blocked) by (unfold unlist; intros H; repeat match type of H with context [match ?x with _ => _ end] => destruct x end; discriminate H).
  unfold renew_scheduling. intros H. destruct (unlist s t); [contradiction| |]; repeat match type of H with context [match ?x with _ => _ end] => destruct x end; discriminate H.
Qed.
Lemma rest_cl m hc x : sinv m hc x -> at_rest hc x -> forall i p, nth_error (cl x) i = Some p -> p = Idle \/ (exists t, p = W3 t /\ st (sh x) t = Completing) \/ exists t, p = W6 t /\ k_post (tk (sh x) t) = 0.
Proof.
  intros I [R _] i p E. specialize (R i). cbn [step] in R. rewrite E in R. destruct (c_safe m hc _ _ _ i p I E) as [A B]. rewrite A in R. clear A.
  pose proof (i_post _ _ _ _ _ I) as Po. unfold sinv in I. set (s := sh x) in *. assert (Bl : cstep hc i s p = Blocked) by (destruct (cstep hc i s p) as [|c|]; [reflexivity|discriminate R|discriminate R]). clear R B.
  destruct p; cbn [cstep] in Bl; auto; try discriminate Bl.
  all: try (match type of Bl with context [kstep _ _ _ _] => destruct (kstep hc false s k) as [? []]; discriminate Bl end).
  all: try (match type of Bl with context [ustep _ _] => destruct (ustep s u) as [? []]; discriminate Bl end).
  all: try (match type of Bl with context [tstep _ _] => destruct (tstep s x0) as [? []]; discriminate Bl end).
  all: try (match type of Bl with context [renew_scheduling ?a ?b ?c ?d ?e] => pose proof (rs_not_blocked a b c d e); destruct (renew_scheduling a b c d e); [contradiction|discriminate Bl|discriminate Bl] end).
  - destruct (k_guard (tk s t)); discriminate Bl.
  - destruct (st_eqb _ _); discriminate Bl.
  - destruct (f_valid _); discriminate Bl.
  - destruct (mtx s); discriminate Bl.
  - destruct (st_eqb _ _); discriminate Bl.
  - destruct (f_valid _); discriminate Bl.
  - destruct (st_eqb _ _); discriminate Bl.
  - destruct (k_wg _); discriminate Bl.
  - right; left. exists t. split; [reflexivity|]. destruct (st_eqb (k_st (tk s t)) Completing) eqn:Eb; [|discriminate Bl]. apply st_eqb_spec in Eb. exact Eb.
  - right; right. exists t. split; [reflexivity|]. destruct (Z.ltb_spec 0 (k_post (tk s t))); [discriminate Bl|]. specialize (Po t). lia.
Qed.
Lemma rest_lp m hc x : sinv m hc x -> at_rest hc x -> (lp x = LWait /\ (tdl (sh x) < 0 \/ now (sh x) < tdl (sh x))) \/ (lp x = LLock /\ mtx (sh x) = true).
Proof.
  intros I [_ R]. specialize (R true TSuccess). cbn [step] in R. destruct (l_safe m hc _ _ _ true TSuccess I) as [A _]. rewrite A in R. clear A.
  unfold sinv in I. set (s := sh x) in *. assert (Bl : lstep hc true TSuccess s (lp x) = Blocked) by (destruct (lstep hc true TSuccess s (lp x)) as [|c|]; [reflexivity|discriminate R|discriminate R]). clear R.
  destruct (lp x); cbn [lstep] in Bl; auto; try discriminate Bl.
  all: try (match type of Bl with context [kstep _ _ _ _] => destruct (kstep hc true s k) as [? []]; discriminate Bl end).
  all: try (match type of Bl with context [ustep _ _] => destruct (ustep s u) as [? []]; discriminate Bl end).
  all: try (match type of Bl with context [renew_scheduling ?a ?b ?c ?d ?e] => pose proof (rs_not_blocked a b c d e); destruct (renew_scheduling a b c d e); [contradiction|discriminate Bl|discriminate Bl] end).
  - left. split; [reflexivity|]. destruct (Z.leb_spec 0 (tdl s)), (Z.leb_spec (tdl s) (now s)); cbn [andb] in Bl; try discriminate Bl; lia.
  - right. split; [reflexivity|]. destruct (mtx s); [reflexivity|discriminate Bl].
  - destruct (rq s); discriminate Bl.
  - destruct (f_valid _); discriminate Bl.
  - destruct (st_eqb _ _); discriminate Bl.
  - destruct (st_eqb _ _); discriminate Bl.
  - destruct ready; discriminate Bl.
  - destruct (sleepq s) as [|t0 l]; [discriminate Bl|]. destruct (_ >? _); [discriminate Bl|]. destruct (_ <=? 0); discriminate Bl.
  - destruct (st_eqb _ _); discriminate Bl.
  - destruct (_ <? 0); [discriminate Bl|]. destruct (f_valid _); discriminate Bl.
  - destruct (f_valid _); discriminate Bl.
  - destruct (_ || _); discriminate Bl.
  - destruct (st_eqb _ _); discriminate Bl.
Qed.
Lemma rest_zero m hc x (f : cpc -> Z) : sinv m hc x -> at_rest hc x -> f Idle = 0 -> (forall t, f (W3 t) = 0) -> (forall t, f (W6 t) = 0) -> sumf f (cl x) = 0.
Proof. intros I R A B C. apply sumf_is0. intros i p E. destruct (rest_cl m hc x I R i p E) as [->|[(t & -> & _)|(t & -> & _)]]; auto. Qed.
Lemma rest_states m hc x : sinv m hc x -> at_rest hc x ->
  lp x = LWait /\ (tdl (sh x) < 0 \/ now (sh x) < tdl (sh x)) /\ forall t, st (sh x) t = Completed \/ (st (sh x) t = Sleeping /\ In t (sleepq (sh x))).
Proof.
  intros I R. assert (L : lp x = LWait /\ (tdl (sh x) < 0 \/ now (sh x) < tdl (sh x))).
  { destruct (rest_lp m hc x I R) as [L|[L M]]; [exact L|]. exfalso. pose proof (i_mtx _ _ _ _ _ I) as Q. rewrite L, M, (rest_zero m hc x ch I R) in Q; cbn in *; auto; lia. }
  destruct L as [L T]. split; [exact L|]. split; [exact T|].
  assert (Q : rq (sh x) = []).
  { pose proof (i_size _ _ _ _ _ I) as Q. rewrite L, (rest_zero m hc x csz I R) in Q; auto. cbn [lsz] in Q.
    destruct (i_G _ _ _ _ _ I) as [G|[G|G]].
    - destruct (rq (sh x)); [reflexivity|]. cbn [length] in Q. lia.
    - pose proof (i_now _ _ _ _ _ I). lia.
    - rewrite L, (rest_zero m hc x (cresp (tver (sh x))) I R) in G; auto. cbn [lresp] in G. lia. }
  intros t. destruct (i_si _ _ _ _ _ I t) as [S|[S|[S|[S|S]]]]; auto.
  - pose proof (i_tok _ _ _ _ _ I t) as K. rewrite L, Q, (rest_zero m hc x (ctok t) I R) in K; auto. unfold rdy in K. unfold st in S. rewrite S in K. cbn in K. lia.
  - rewrite L in S. discriminate S.
  - destruct S as (i & p & E & F). destruct (rest_cl m hc x I R i p E) as [->|[(u & -> & _)|(u & -> & _)]]; discriminate F.
Qed.
Lemma rest_clients m hc x : sinv m hc x -> at_rest hc x -> forall i p, nth_error (cl x) i = Some p -> p = Idle \/ exists t, p = W6 t /\ st (sh x) t = Sleeping.
Proof.
  intros I R i p E. destruct (rest_states m hc x I R) as (L & _ & S). destruct (rest_cl m hc x I R i p E) as [->|[(t & -> & F)|(t & -> & F)]]; auto.
  - exfalso. destruct (S t) as [Q|[Q _]]; congruence.
  - right. exists t. split; [reflexivity|]. destruct (S t) as [Q|[Q _]]; [|exact Q]. exfalso.
    assert (W : 1 <= sumf (cws t) (cl x)). { transitivity (cws t (W6 t)); [cbn [cws]; rewrite is_refl; lia|]. apply (sumf_ge (cws t) _ i); [intros; apply cws_nn|exact E]. }
    apply (i_ws _ _ _ _ _ I t) in W. rewrite L, (rest_zero m hc x (csem t) I R) in W; auto. cbn [lsem] in W. rewrite F in W.
    destruct (k_sem (tk (sh x) t)) eqn:Sm; [|cbn in W; lia]. exact (i_w6 _ _ _ _ _ I i t E Sm Q).
Qed.
Lemma sorted_head s l t : StronglySorted (le_eff s) l -> In t l -> exists u r, l = u :: r /\ k_eff (tk s u) <= k_eff (tk s t).
Proof.
  intros S H. destruct l as [|u r]; [destruct H|]. exists u, r. split; [reflexivity|]. destruct H as [->|H]; [lia|]. inversion S as [|a b c F]; subst. rewrite Forall_forall in F. exact (F t H).
Qed.
Lemma rest_odd m hc x t : sinv m hc x -> at_rest hc x -> Z.odd (k_ver (tk (sh x) t)) = false.
Proof. intros I R. pose proof (i_odd _ _ _ _ _ I t) as Q. rewrite (rest_zero m hc x (cst2 t) I R) in Q; auto. destruct (Z.odd _); [discriminate Q|reflexivity]. Qed.
Lemma rest_asked m hc x t d v : sinv m hc x -> at_rest hc x -> last_request t (log (sh x)) = Some (d, v) ->
  (0 <= d -> executed t v (log (sh x)) \/ (now (sh x) < d /\ 0 <= tdl (sh x) <= d /\ st (sh x) t = Sleeping)) /\ (d < 0 -> st (sh x) t = Completed).
Proof.
  intros I R A. destruct (rest_states m hc x I R) as (L & T & S). rewrite (i_last _ _ _ _ _ I t (rest_odd m hc x t I R)) in A.
  destruct (Z.eqb_spec (k_ver (tk (sh x) t)) 0) as [V|V]; [discriminate A|]. assert (Ed : k_dl (tk (sh x) t) = d) by congruence. assert (Ev : k_ver (tk (sh x) t) = v) by congruence. split; intros D.
  - rewrite <- Ed in D. destruct (i_hon _ _ _ _ _ I t D) as [H|[H|[H|[H|[H|H]]]]].
    + lia.
    + left. rewrite <- Ev. exact H.
    + destruct (S t) as [Q|[Q _]]; congruence.
    + rewrite (rest_zero m hc x (cst2 t) I R), (rest_zero m hc x (cpf t) I R), (rest_zero m hc x (crs t) I R) in H; auto. lia.
    + right. destruct H as [H Hv]. destruct (i_ver _ _ _ _ _ I t) as (_ & _ & _ & Q). specialize (Q Hv).
      destruct (sorted_head _ _ _ (i_sort _ _ _ _ _ I) H) as (u & r & E & F).
      destruct (i_T _ _ _ _ _ I) as [[X|X]|X].
      * rewrite X in E. discriminate E.
      * unfold next_deadline in X. rewrite E in X. cbn in X. split; [|split; [lia|]]; [lia|].
        destruct (i_slq _ _ _ _ _ I t H) as (_ & _ & [Y|[Y|[Y|Y]]]); auto.
        -- destruct (S t) as [Z|[Z _]]; congruence.
        -- rewrite L in Y. discriminate Y.
        -- rewrite (rest_zero m hc x (crs t) I R) in Y; auto. lia.
      * rewrite L, (rest_zero m hc x (cwr (tver (sh x))) I R) in X; auto. cbn [lwr] in X. lia.
    + rewrite L in H. destruct H.
  - rewrite <- Ed in D. destruct (S t) as [Q|[Q _]]; [exact Q|]. exfalso. destruct (i_h2 _ _ _ _ _ I t D) as [H|[H|[H|H]]].
    + contradiction.
    + rewrite (rest_zero m hc x (ccas t) I R) in H; auto; lia.
    + destruct H as (a & b & c & e & H). congruence.
    + destruct H as (a & b & H). congruence.
Qed.
Lemma rest_notified m hc x t : sinv m hc x -> at_rest hc x -> notified hc t (log (sh x)).
Proof. intros I R H. destruct (rest_states m hc x I R) as (L & _ & _). pose proof (i_compl _ _ _ _ _ I t H) as Q. rewrite L in Q. unfold cnt_compl, cnt_end in Q. cbn [lk] in Q. lia. Qed.

(** ** The log grows by one event at a time. *)
Definition grows (s s' : shared) : Prop :=
  (forall t, k_ver (tk s t) <= k_ver (tk s' t)) /\
  (log s' = log s \/ exists e, log s' = log s ++ [e] /\ forall t d v, e = Req t d v -> v = k_ver (tk s' t) /\ k_ver (tk s t) < v).
Lemma c_grows m hc s P C i p s' p' : inv m hc s P C -> nth_error C i = Some p -> cstep hc i s p = Next s' p' -> grows s s'.
Proof.
  intros I Hp H. split.
  - intros t. cc; cbs; try lia; unfold fset; repeat match goal with |- context [Nat.eqb ?a ?b] => destruct (Nat.eqb_spec a b); subst end; cbs; lia.
  - cc; cbs; auto; right; eexists; (split; [reflexivity|]); intros ? ? ? E; try discriminate E; injection E as <- <- <-; rewrite fset_eq; cbs; lia.
Qed.
Lemma l_grows m hc b r s P C s' P' : inv m hc s P C -> r <> TPause -> lstep hc b r s P = Next s' P' -> grows s s'.
Proof.
  intros I R H. split.
  - intros t. pose proof (l_odd _ _ _ _ _ _ _ t H (LRS I)). lia.
  - ll; cbs; auto; right; eexists; (split; [reflexivity|]); intros ? ? ? E; discriminate E.
Qed.
Lemma grows_refl s : grows s s. Proof. split; [intros; lia|auto]. Qed.
Lemma step_grows m hc x l x' : sinv m hc x -> legal m hc x l -> step hc x l = Go x' -> grows (sh x) (sh x').
Proof.
  intros I L H. unfold sinv in *. destruct l; cbn [step] in H.
  - destruct (Z.ltb_spec d 0); [discriminate H|]. injection H as <-. cbn [sh]. split; cbs; [intros; lia|auto].
  - destruct (nth_error (cl x) i) as [[]|] eqn:E; try discriminate H. destruct (negative o); [discriminate H|]. injection H as <-. cbn [sh].
    destruct o; try apply grows_refl. split; cbs; [intros; lia|]. right. eexists; split; [reflexivity|]. intros ? ? ? E'. discriminate E'.
  - destruct (nth_error (cl x) i) as [p|] eqn:E; [|discriminate H]. destruct (freed (sh x) (c_touch p)); [discriminate H|].
    destruct (cstep hc i (sh x) p) as [|c|s' p'] eqn:Ec; try discriminate H. injection H as <-. cbn [sh]. apply (c_grows m hc (sh x) (lp x) (cl x) i p s' p'); auto.
  - destruct (freed (sh x) (l_touch (lp x))); [discriminate H|]. destruct (lstep hc b r (sh x) (lp x)) as [|c|s' p'] eqn:Ec; try discriminate H. injection H as <-. cbn [sh].
    apply (l_grows m hc b r (sh x) (lp x) (cl x) s' p'); auto.
  - destruct (k_dead (tk (sh x) t)); [discriminate H|]. destruct (negb _); [discriminate H|]. destruct (_ || _); [discriminate H|]. injection H as <-. cbn [sh].
    split; cbs; auto. intros u. unfold fset. destruct (Nat.eqb_spec u t); subst; cbs; lia.
Qed.
Lemma run_app hc ls l x : run hc x (ls ++ [l]) = match run hc x ls with Go y => step hc y l | o => o end.
Proof. revert x. induction ls as [|a ls IH]; intros x; cbn; [destruct (step hc x l); reflexivity|]. destruct (step hc x a); auto. Qed.
Lemma legal_app m hc ls l x : legal_run m hc x (ls ++ [l]) -> legal_run m hc x ls /\ forall y, run hc x ls = Go y -> legal m hc y l.
Proof.
  revert x. induction ls as [|a ls IH]; intros x; cbn.
  - intros [A _]. split; [exact Logic.I|]. intros y E. injection E as <-. exact A.
  - intros [A B]. split.
    + split; [exact A|]. intros y E. exact (proj1 (IH y (B y E))).
    + destruct (step hc x a) as [| |y]; intros z E; try discriminate E. exact (proj2 (IH y (B y eq_refl)) z E).
Qed.
Lemma exists_last_or {A} (l : list A) : l = [] \/ exists l3 e, l = l3 ++ [e].
Proof. destruct l as [|a l]; [auto|]. right. destruct (@exists_last A (a :: l)) as (l3 & e & E); [discriminate|eauto]. Qed.
Lemma last_cut {A} (l l1 l2 : list A) e : l ++ [e] = l1 ++ l2 -> (l2 = [] /\ l1 = l ++ [e]) \/ exists l3, l2 = l3 ++ [e] /\ l = l1 ++ l3.
Proof.
  intros H. destruct (exists_last_or l2) as [->|(l3 & f & ->)]; [left; rewrite app_nil_r in H; auto|]. right. rewrite app_assoc in H. apply app_inj_tail in H. destruct H as [-> ->]. eauto.
Qed.
Section Reach.
Variables (m : mode) (hc : nat -> bool) (n : nat).
Lemma prefixes (Q : list event -> Prop) : (forall ls x, legal_run m hc (queue_new n) ls -> run hc (queue_new n) ls = Go x -> Q (log (sh x))) ->
  forall ls x, legal_run m hc (queue_new n) ls -> run hc (queue_new n) ls = Go x -> forall l1 l2, log (sh x) = l1 ++ l2 -> Q l1.
Proof.
  intros HQ ls. induction ls as [|l ls IH] using rev_ind; intros x L H l1 l2 E.
  - cbn in H. assert (Hx : x = queue_new n) by congruence. rewrite Hx in E. cbn in E. destruct l1; [|discriminate E]. exact (HQ [] (queue_new n) Logic.I eq_refl).
  - destruct (legal_app _ _ _ _ _ L) as [L1 L2]. pose proof (HQ _ _ L H) as Qx. rewrite run_app in H. destruct (run hc (queue_new n) ls) as [| |y] eqn:Ey; try discriminate H.
    destruct (step_grows m hc y l x (run_inv m hc ls _ _ (sinv_init m hc n) L1 Ey) (L2 y eq_refl) H) as [_ [G|(e & G & _)]].
    + rewrite G in E. apply (IH y L1 eq_refl l1 l2 E).
    + rewrite G in E. destruct (last_cut _ _ _ _ E) as [[-> ->]|(l3 & -> & E')]; [rewrite <- G; exact Qx|]. apply (IH y L1 eq_refl l1 l3 E').
Qed.
Lemma numbered ls x : legal_run m hc (queue_new n) ls -> run hc (queue_new n) ls = Go x ->
  (forall t d v, In (Req t d v) (log (sh x)) -> v <= k_ver (tk (sh x) t)) /\
  (forall l1 l2 t d v d' v', log (sh x) = l1 ++ Req t d v :: l2 -> In (Req t d' v') l1 -> v' < v).
Proof.
  revert x. induction ls as [|l ls IH] using rev_ind; intros x L H.
  - cbn in H. assert (Hx : x = queue_new n) by congruence. rewrite Hx. cbn. split; [contradiction|]. intros. destruct l1; discriminate.
  - destruct (legal_app _ _ _ _ _ L) as [L1 L2]. rewrite run_app in H. destruct (run hc (queue_new n) ls) as [| |y] eqn:Ey; try discriminate H.
    destruct (IH y L1 eq_refl) as [A B]. destruct (step_grows m hc y l x (run_inv m hc ls _ _ (sinv_init m hc n) L1 Ey) (L2 y eq_refl) H) as [M [G|(e & G & N)]]; rewrite G; split.
    + intros t d v X. specialize (A t d v X). specialize (M t). lia.
    + exact B.
    + intros t d v X. apply in_app_or in X. destruct X as [X|[X|[]]].
      * specialize (A t d v X). specialize (M t). lia.
      * destruct (N t d v X). lia.
    + intros l1 l2 t d v d' v' E X. destruct (last_cut _ _ _ _ E) as [[F _]|(l3 & F & E')]; [discriminate F|]. destruct l3 as [|f l3].
      * cbn in F. assert (Ef : e = Req t d v) by congruence. destruct (N t d v Ef) as [_ K]. rewrite app_nil_r in E'. subst l1. specialize (A t d' v' X). lia.
      * cbn in F. assert (Ef : f = Req t d v) by congruence. subst f. apply (B l1 l3 t d v d' v' E' X).
Qed.
End Reach.

(** ** A checker for the contract, to show that the examples keep it. *)
Definition nobodyb (f : cpc -> bool) (x : state) : bool := forallb (fun p => negb (f p)) (cl x).
Lemma nobodyb_ok f x : nobodyb f x = true -> nobody f x.
Proof. unfold nobodyb, nobody. intros H. apply Forall_forall. intros p Hp. rewrite forallb_forall in H. specialize (H p Hp). destruct (f p); [discriminate H|reflexivity]. Qed.
Definition is_apart (m : mode) : bool := match m with Apart => true | Overlap => false end.
Definition legalb (m : mode) (hc : nat -> bool) (x : state) (l : label) : bool :=
  match l with
  | Tick _ | Cl _ => true
  | Lp _ r => match r with TPause => false | _ => true end
  | Call _ o =>
    negb (k_dead (tk (sh x) (op_task o))) &&
    match o with
    | Sched t => negb (is_apart m) || nobodyb (waiting t) x
    | SchedAt t d => (0 <=? d) && (negb (is_apart m) || nobodyb (waiting t) x)
    | Cancel _ => true
    | Resume _ => false
    | Wait t => nobodyb (waiting t) x && (negb (is_apart m) || nobodyb (scheduling t) x)
    end
  | Destroy t =>
    is_apart m && negb (k_dead (tk (sh x) t)) && st_eqb (k_st (tk (sh x) t)) Completed
    && (negb (hc t) || Nat.eqb (ev_count (is_compl t) (log (sh x))) (ev_count (is_end t) (log (sh x))))
    && nobodyb (fun p => match subject p with Some u => Nat.eqb u t | None => false end) x
  end.
Lemma orb_imp m b x f : negb (is_apart m) || b = true -> (b = true -> nobody f x) -> m = Apart -> nobody f x.
Proof. intros H K ->. cbn in H. auto. Qed.
Lemma legalb_ok m hc x l : legalb m hc x l = true -> legal m hc x l.
Proof.
  destruct l; cbn [legalb legal]; auto.
  - intros H. apply andb_prop in H. destruct H as [H K]. apply negb_true_iff in H. split; [exact H|]. destruct o; auto; try discriminate K.
    + apply (orb_imp _ _ _ _ K). apply nobodyb_ok.
    + apply andb_prop in K. destruct K as [D K]. split; [lia|]. apply (orb_imp _ _ _ _ K). apply nobodyb_ok.
    + apply andb_prop in K. destruct K as [D K]. split; [apply nobodyb_ok; exact D|]. apply (orb_imp _ _ _ _ K). apply nobodyb_ok.
  - destruct r; intros H; try discriminate H; intros E; discriminate E.
  - intros H. repeat (apply andb_prop in H; destruct H as [H ?]). repeat split.
    + destruct m; [reflexivity|discriminate H].
    + apply negb_true_iff. assumption.
    + apply st_eqb_spec. assumption.
    + intros E. rewrite E in *. cbn [negb orb] in *. apply Nat.eqb_eq. assumption.
    + apply nobodyb_ok. assumption.
Qed.
Fixpoint legal_runb (m : mode) (hc : nat -> bool) (x : state) (ls : list label) : bool :=
  match ls with [] => true | l :: ls' => legalb m hc x l && match step hc x l with Go y => legal_runb m hc y ls' | _ => true end end.
Lemma legal_runb_ok m hc ls x : legal_runb m hc x ls = true -> legal_run m hc x ls.
Proof.
  revert x. induction ls as [|l ls IH]; intros x H; cbn in *; [exact Logic.I|]. apply andb_prop in H. destruct H as [A B]. split; [apply legalb_ok; exact A|].
  intros y E. rewrite E in B. auto.
Qed.
