From Coq Require Import Lia.
From Verif Require Import Base Base_lemmas CtlQueue_model CtlQueue_spec.
From Verif Require RefCount_proof.

Notation sumf := RefCount_proof.sumf.
Definition sumf_upd {A} := @RefCount_proof.sumf_upd A.
Definition sumf_nonneg {A} := @RefCount_proof.sumf_nonneg A.
Definition sumf_ge {A} := @RefCount_proof.sumf_ge A.
Definition sumf_pos {A} := @RefCount_proof.sumf_pos A.
Definition sumf_zero {A} := @RefCount_proof.sumf_zero A.

Ltac splits := repeat match goal with |- _ /\ _ => split end.
Definition b2z (b : bool) : Z := if b then 1 else 0.
Definition is (t u : nat) : Z := b2z (Nat.eqb u t).
Definition st (s : shared) (t : nat) : tstate := k_st (tk s t).

Lemma st_eqb_spec a b : st_eqb a b = true <-> a = b.
Proof. destruct a, b; cbn; split; congruence. Qed.
Lemma st_eqb_refl a : st_eqb a a = true. Proof. destruct a; reflexivity. Qed.
Lemma st_eqb_false a b : st_eqb a b = false <-> a <> b.
Proof. destruct a, b; cbn; split; congruence. Qed.
Lemma fset_eq {A} (f : nat -> A) t k : fset f t k t = k.
Proof. unfold fset. rewrite Nat.eqb_refl. reflexivity. Qed.
Lemma fset_ne {A} (f : nat -> A) t k u : u <> t -> fset f t k u = f u.
Proof. intros H. unfold fset. destruct (Nat.eqb_spec u t); [contradiction|reflexivity]. Qed.

Lemma mem_In t l : mem t l = true <-> In t l.
Proof. unfold mem. rewrite existsb_exists. split; [intros (x & H & E); apply Nat.eqb_eq in E; subst; exact H|intros H; exists t; split; [exact H|apply Nat.eqb_refl]]. Qed.
Lemma mem_false t l : mem t l = false <-> ~ In t l.
Proof. rewrite <- mem_In. destruct (mem t l); split; congruence. Qed.
Lemma In_del u t l : In u (del t l) <-> In u l /\ u <> t.
Proof. unfold del. rewrite filter_In. destruct (Nat.eqb_spec u t); cbn; split; intros [A B]; auto; try discriminate; try contradiction. Qed.
Lemma del_id t l : ~ In t l -> del t l = l.
Proof.
  induction l as [|x l IH]; intros H; [reflexivity|]. cbn. destruct (Nat.eqb_spec x t); [exfalso; apply H; left; auto|]. cbn.
  f_equal. apply IH. intros X. apply H. right. exact X.
Qed.
Lemma NoDup_del t l : NoDup l -> NoDup (del t l). Proof. apply NoDup_filter. Qed.
Lemma In_insert e t d l u : In u (insert e t d l) <-> u = t \/ In u l.
Proof.
  induction l as [|x l IH]; cbn; [intuition|]. destruct (e x >? d); cbn; [intuition|]. rewrite IH. intuition.
Qed.
Lemma NoDup_insert e t d l : NoDup l -> ~ In t l -> NoDup (insert e t d l).
Proof.
  induction l as [|x l IH]; cbn; intros H N; [constructor; [auto|constructor]|].
  destruct (e x >? d); [constructor; auto|]. inversion H; subst. constructor; [|apply IH; auto].
  rewrite In_insert. intros [->|X]; [apply N; left; reflexivity|contradiction].
Qed.

(** ** renew_scheduling when nothing is paused *)
Definition rs_state (s : shared) (t : nat) (d v : Z) : shared :=
  if d <? 0 then add_log (put (set_sleepq s (del t (sleepq s))) t (k_set_eff (k_set_fl (tk s t) (mkF false true false false)) (-1) v)) [Canc t v]
  else put (set_sleepq s (if d =? 0 then del t (sleepq s) else insert (fun u => if Nat.eqb u t then d else k_eff (tk s u)) t d (del t (sleepq s))))
           t (k_set_eff (tk s t) d v).

Lemma insert_ext e e' t d l : (forall u, In u l -> e u = e' u) -> insert e t d l = insert e' t d l.
Proof. induction l as [|x l IH]; cbn; intros H; [reflexivity|]. rewrite (H x (or_introl eq_refl)), IH by (intros; apply H; auto). reflexivity. Qed.

Lemma unlist_ok s t : pausedq s = [] -> (In t (sleepq s) -> 0 < k_eff (tk s t)) ->
  unlist s t = Next (set_sleepq s (del t (sleepq s))) tt.
Proof.
  intros P E. unfold unlist. rewrite P. cbn [mem existsb]. destruct (mem t (sleepq s)) eqn:M.
  - apply mem_In in M. specialize (E M). destruct (k_eff (tk s t) <=? 0) eqn:L; [apply Z.leb_le in L; lia|]. reflexivity.
  - apply mem_false in M. rewrite del_id by exact M. destruct s; reflexivity.
Qed.
Lemma rs_ok s t f d v : pausedq s = [] -> f_paus f = false -> (In t (sleepq s) -> 0 < k_eff (tk s t)) ->
  (d < 0 -> ~ (k_eff (tk s t) = -1 /\ k_effv (tk s t) = v)) ->
  renew_scheduling s t f d v = Next (rs_state s t d v) (d =? 0).
Proof.
  intros P F E C. unfold renew_scheduling, rs_state. rewrite F, (unlist_ok _ _ P E). destruct (Z.leb_spec 0 d).
  - destruct (Z.ltb_spec d 0); [lia|]. destruct (d =? 0) eqn:D; [reflexivity|].
    change (sleepq (put _ _ _)) with (del t (sleepq s)). change (pausedq (put _ _ _)) with (pausedq s). rewrite P.
    assert (M : mem t (del t (sleepq s)) = false) by (apply mem_false; rewrite In_del; intros [_ X]; apply X; reflexivity).
    rewrite M. cbn [orb mem existsb]. f_equal. unfold put, set_tk, set_sleepq. cbn [tk rq rsize sleepq pausedq mtx fetchr now tdl tver log]. f_equal.
    apply insert_ext. intros u _. unfold eff_of, fset. cbn [tk]. destruct (Nat.eqb u t); reflexivity.
  - destruct (Z.ltb_spec d 0); [|lia]. assert (X : (k_eff (tk s t) =? -1) && (k_effv (tk s t) =? v) = false).
    { destruct (k_eff (tk s t) =? -1) eqn:A; [|reflexivity]. destruct (k_effv (tk s t) =? v) eqn:B; [|reflexivity]. exfalso. apply C; [assumption|].
      split; apply Z.eqb_eq; assumption. }
    rewrite X. replace (d =? 0) with false by (symmetry; apply Z.eqb_neq; lia).
    reflexivity.
Qed.

(** ** Case analysis of steps *)
Definition rs_fine_c (s : shared) (p : cpc) : Prop :=
  forall t d v f, p = RISched t d v f -> renew_scheduling s t f d v = Next (rs_state s t d v) (d =? 0).
Definition rs_fine_l (s : shared) (p : lpc) : Prop :=
  forall first t f d v, p = LSched first t f d v -> renew_scheduling s t f d v = Next (rs_state s t d v) (d =? 0).

Ltac inv_next H :=
  match type of H with Next ?a ?b = Next ?x ?y =>
    let E := fresh "E" in assert (E : x = a /\ y = b) by (split; congruence); clear H; destruct E as [? ?]; subst x y end.
Ltac split_h H :=
  repeat match type of H with
  | context [match rq ?s with _ => _ end] => let E := fresh "Erq" in destruct (rq s) eqn:E
  | context [match sleepq ?s with _ => _ end] => let E := fresh "Esq" in destruct (sleepq s) eqn:E
  | context [match ?r with TSuccess => _ | _ => _ end] => destruct r
  | context [match ?r with KFetch _ _ => _ | _ => _ end] => destruct r
  | context [if ?b then _ else _] => lazymatch b with context [if _ then _ else _] => fail | _ => let E := fresh "Eb" in destruct b eqn:E end
  end.
Ltac subk H k := destruct k; cbn [kstep] in H; split_h H.
Ltac subt H x := destruct x; cbn [tstep] in H; split_h H.
Ltac subu H u := destruct u; cbn [ustep] in H; [split_h H|match type of H with context [tstep _ ?x] => subt H x end|split_h H|match type of H with context [tstep _ ?x] => subt H x end].
(** All cases of a client's step. *)
Ltac cases_c p H RS :=
  destruct p; cbn [cstep] in H;
  try match type of H with context [kstep _ _ _ ?k] => subk H k end;
  try match type of H with context [ustep _ ?u] => subu H u end;
  try match type of H with context [tstep _ ?x] => subt H x end;
  try match type of H with context [renew_scheduling _ _ _ _ _] => rewrite (RS _ _ _ _ eq_refl) in H; unfold rs_state in H end;
  split_h H; try discriminate H; inv_next H.
Ltac cases_l p H RS :=
  destruct p; cbn [lstep] in H;
  try match type of H with context [kstep _ _ _ ?k] => subk H k end;
  try match type of H with context [ustep _ ?u] => subu H u end;
  try match type of H with context [renew_scheduling _ _ _ _ _] => rewrite (RS _ _ _ _ _ eq_refl) in H; unfold rs_state in H end;
  unfold found, no_ready, no_sleeping in H; split_h H; try discriminate H; inv_next H.

Ltac cbs := cbn [tk rq rsize sleepq pausedq mtx fetchr now tdl tver log
  set_tk set_rq set_rsize set_sleepq set_pausedq set_mtx set_fetchr set_now set_timer add_log put set_st set_fl
  k_st k_fl k_guard k_ver k_dl k_eff k_effv k_sem k_post k_wg k_dead
  k_set_st k_set_fl k_set_guard k_set_ren k_set_eff k_set_sem k_set_wg k_set_dead] in *.

(** ** Counters *)
(** Guard of task [t] held. *)
Definition cg (t : nat) (p : cpc) : Z :=
  match p with
  | RStore1 u _ | RStore2 u _ | RCas u _ | RFlags u _ _ | RXchg u _ _ | RInc u _ _ | RTry u _ _ | RIFlags u _ _ | RIState u _ _ _
  | RISched u _ _ _ | RIK u _ | RIDec u | RIU u _ | RIUnlock u _ | RPush u | RT u _ | RUnguard u => is t u
  | _ => 0
  end.
(** About to queue the task, which is in state Ready. *)
Definition ctok (t : nat) (p : cpc) : Z :=
  match p with RInc u _ _ | RTry u _ _ | RIFlags u _ _ | RIState u _ _ _ | RPush u | RIUnlock u false | MInc u | MPush u => is t u | _ => 0 end.
Definition ltok (t : nat) (p : lpc) : Z :=
  match p with LFlags _ u | LLd1 _ u _ | LLd2 _ u _ _ | LReadd _ u | LState _ u _ _ _ | LRbInc u | LRbPush u => is t u | _ => 0 end.
Definition qcnt (t : nat) (q : list nat) : Z := sumf (is t) q.
(** Contribution to ready_queue_size_. *)
Definition csz (p : cpc) : Z :=
  match p with RTry _ _ _ | RIFlags _ _ _ | RIState _ _ _ _ | RISched _ _ _ _ | RIK _ _ | RIDec _ | RIUnlock _ false | RPush _ | MPush _ => 1 | _ => 0 end.
Definition lsz (p : lpc) : Z :=
  match p with
  | LFlags _ _ | LLd1 _ _ _ | LLd2 _ _ _ _ | LReadd _ _ | LState _ _ _ _ _ | LVer _ _ _ _ _ | LFl2 _ _ _ _ _ | LBack _ _ _ | LSkip _
  | LSched _ _ _ _ _ | LDec _ _ _ | LK _ (KFetch _ _) | LRbPush _ => 1
  | _ => 0
  end.
(** Mutex held. *)
Definition ch (p : cpc) : Z :=
  match p with RIFlags _ _ _ | RIState _ _ _ _ | RISched _ _ _ _ | RIK _ _ | RIDec _ | RIU _ _ | RIUnlock _ _ => 1 | _ => 0 end.
Definition lh (p : lpc) : Z := match p with LWait | LLock => 0 | _ => 1 end.
(** Request being stored. *)
Definition cst2 (t : nat) (p : cpc) : Z := match p with RStore2 u _ => is t u | _ => 0 end.
(** Timer being stored. *)
Definition xt3 (x : tpc) : Z := match x with T3 _ => 1 | _ => 0 end.
Definition ut3 (u : upc) : Z := match u with UT _ x | UZ x => xt3 x | _ => 0 end.
Definition ct3 (p : cpc) : Z := match p with RT _ x | MT _ x => xt3 x | RIU _ u => ut3 u | _ => 0 end.
Definition lt3 (p : lpc) : Z := match p with LU u => ut3 u | _ => 0 end.
(** Wait guard held. *)
Definition cwg (t : nat) (p : cpc) : Z :=
  match p with W2 u | W3 u | W4 u | W5 u | W6 u | W7 u | W8 u => is t u | _ => 0 end.
Definition cwt (t : nat) (p : cpc) : Z := b2z (waiting t p).

Lemma b2z_range b : 0 <= b2z b <= 1. Proof. destruct b; cbn; lia. Qed.
Lemma is_range t u : 0 <= is t u <= 1. Proof. apply b2z_range. Qed.
Lemma is_refl t : is t t = 1. Proof. unfold is. rewrite Nat.eqb_refl. reflexivity. Qed.
Lemma is_ne t u : u <> t -> is t u = 0. Proof. intros H. unfold is. destruct (Nat.eqb_spec u t); [contradiction|reflexivity]. Qed.
Lemma is_pos t u : 0 < is t u -> u = t. Proof. unfold is. destruct (Nat.eqb_spec u t); cbn; [auto|lia]. Qed.
Lemma is_ge t u : 1 <= is t u -> u = t. Proof. intros H. apply is_pos. lia. Qed.
Ltac nn := intros; repeat match goal with |- context [match ?x with _ => _ end] => destruct x end; cbn; try lia; try apply is_range; try apply b2z_range.
Lemma cg_nn t p : 0 <= cg t p. Proof. destruct p; cbn; nn. Qed.
Lemma ctok_nn t p : 0 <= ctok t p. Proof. destruct p; cbn; nn. Qed.
Lemma ltok_nn t p : 0 <= ltok t p. Proof. destruct p; cbn; nn. Qed.
Lemma csz_nn p : 0 <= csz p. Proof. destruct p; cbn; nn. Qed.
Lemma lsz_nn p : 0 <= lsz p. Proof. destruct p; cbn; nn. Qed.
Lemma ch_nn p : 0 <= ch p. Proof. destruct p; cbn; nn. Qed.
Lemma lh_nn p : 0 <= lh p. Proof. destruct p; cbn; nn. Qed.
Lemma cst2_nn t p : 0 <= cst2 t p. Proof. destruct p; cbn; nn. Qed.
Lemma xt3_nn x : 0 <= xt3 x. Proof. destruct x; cbn; lia. Qed.
Lemma ut3_nn u : 0 <= ut3 u. Proof. destruct u; cbn; try lia; apply xt3_nn. Qed.
Lemma ct3_nn p : 0 <= ct3 p. Proof. destruct p; cbn [ct3]; try lia; try apply xt3_nn; apply ut3_nn. Qed.
Lemma lt3_nn p : 0 <= lt3 p. Proof. destruct p; cbn [lt3]; try lia; apply ut3_nn. Qed.
Lemma cwg_nn t p : 0 <= cwg t p. Proof. destruct p; cbn; nn. Qed.
Lemma cwt_nn t p : 0 <= cwt t p. Proof. apply b2z_range. Qed.
Lemma qcnt_nn t q : 0 <= qcnt t q. Proof. apply sumf_nonneg. intros. apply is_range. Qed.
Lemma qcnt_app t a b : qcnt t (a ++ b) = qcnt t a + qcnt t b. Proof. apply RefCount_proof.sumf_app. Qed.
Lemma qcnt_cons t x q : qcnt t (x :: q) = is t x + qcnt t q. Proof. reflexivity. Qed.
Lemma qcnt_nil t : qcnt t [] = 0. Proof. reflexivity. Qed.

Ltac eqbs := repeat match goal with
  | H : st_eqb _ _ = true |- _ => apply st_eqb_spec in H
  | H : st_eqb _ _ = false |- _ => apply st_eqb_false in H
  | H : (_ =? _) = true |- _ => apply Z.eqb_eq in H
  | H : (_ =? _) = false |- _ => apply Z.eqb_neq in H
  | H : (_ <? _) = true |- _ => apply Z.ltb_lt in H
  | H : (_ <? _) = false |- _ => apply Z.ltb_ge in H
  | H : (_ <=? _) = true |- _ => apply Z.leb_le in H
  | H : (_ <=? _) = false |- _ => apply Z.leb_gt in H
  end.
(** Split on whether a task is the one a step changes. *)
Ltac fsets := unfold fset in *; repeat match goal with
  | |- context [Nat.eqb ?a ?b] => lazymatch goal with H : a = b |- _ => fail | H : a <> b |- _ => fail | _ => idtac end; destruct (Nat.eqb_spec a b); [subst|]
  end.
Ltac ist := unfold is, b2z in *; repeat match goal with
  | |- context [Nat.eqb ?a ?b] => destruct (Nat.eqb_spec a b); subst; try congruence
  end.

Lemma c_guard hc i s p s' p' t : cstep hc i s p = Next s' p' -> rs_fine_c s p -> (forall u, p = RUnguard u -> k_guard (tk s u) = true) ->
  cg t p' - b2z (k_guard (tk s' t)) = cg t p - b2z (k_guard (tk s t)).
Proof.
  intros H RS G. cases_c p H RS; cbs; cbn [cg]; try lia; unfold fset; ist; cbs; try lia; try congruence;
    try (rewrite Eb; lia); try (rewrite (G _ eq_refl); lia).
Qed.

(** ** Well-formed program counters *)
Definition xwf (d : Z) (x : tpc) : Prop := match x with T1 e | T3 e => e = d | T2 e v => e = d /\ Z.even v = true end.
Definition uwf (u : upc) : Prop := match u with UT d x => xwf d x | UZ x => xwf 0 x | _ => True end.
Definition kwf (t : nat) (from : tstate) (k : kpc) : Prop :=
  match k with K1 u n => u = t /\ n = from | K2 u | K3 u _ | K3b u | K4 u _ | K5 u => u = t end.
Definition cwf (hc : nat -> bool) (p : cpc) : Prop :=
  match p with
  | RGuard _ d | RStore1 _ d | RStore2 _ d | RInc _ d _ => -1 <= d
  | RFlags _ d _ | RXchg _ d _ => 0 <= d
  | RTry t d _ | RIFlags t d _ => -1 <= d /\ d <> 0 /\ (d < 0 -> hc t = false)
  | RIState t d _ f | RISched t d _ f => -1 <= d /\ d <> 0 /\ (d < 0 -> hc t = false) /\ f_paus f = false
  | RIK t k => hc t = false /\ kwf t Cancelling k
  | RIU _ u => uwf u
  | RT _ x => xwf 0 x
  | MFlag _ | MXchg _ | MInc _ | MPush _ | MT _ _ => False
  | _ => True
  end.
Definition lwf (p : lpc) : Prop :=
  match p with
  | LLd1 _ _ f => f_paus f = false
  | LLd2 _ _ f v => f_paus f = false /\ Z.even v = true
  | LState _ _ f d v | LVer _ _ f d v | LFl2 _ _ f d v | LSched _ _ f d v => f_paus f = false /\ Z.even v = true /\ -1 <= d
  | LBack _ _ n => n = Cancelling \/ n = Processing \/ n = Sleeping
  | LK k (KFetch _ t) => kwf t Cancelling k
  | LK k (KExec t _) => kwf t Processing k
  | LDl2 _ v => Z.even v = true
  | LReborn _ from => from = Processing \/ from = Completed
  | LU u => uwf u
  | LPa1 _ | LPa2 _ | LPa3 _ | LPa4 _ _ => False
  | _ => True
  end.
(** Nothing is paused. *)
Definition unpaused (s : shared) : Prop :=
  forall t, f_paus (k_fl (tk s t)) = false /\ f_resu (k_fl (tk s t)) = false /\ f_succ (k_fl (tk s t)) && f_canc (k_fl (tk s t)) = false.

Lemma renewed_state_cases f d : f_paus f = false -> -1 <= d ->
  (d = -1 /\ renewed_state f d = Cancelling) \/ (d = 0 /\ renewed_state f d = Processing) \/ (0 < d /\ renewed_state f d = Sleeping).
Proof. intros F D. unfold renewed_state. rewrite F. destruct (Z.ltb_spec d 0), (Z.eqb_spec d 0); try lia; [left|right; left|right; right]; split; try lia; reflexivity. Qed.
Lemma renewed_not_ready f d : st_eqb (renewed_state f d) Ready = false.
Proof. unfold renewed_state. destruct (f_paus f), (d <? 0), (f_resu f), (d =? 0); reflexivity. Qed.
Lemma even_odd v : Z.odd v = false -> Z.even v = true.
Proof. rewrite <- Z.negb_even. destruct (Z.even v); cbn; congruence. Qed.
Lemma even_odd' v : Z.even v = true -> Z.odd v = false.
Proof. rewrite <- Z.negb_even. destruct (Z.even v); cbn; congruence. Qed.
Lemma odd_succ v : Z.odd (v + 1) = negb (Z.odd v).
Proof. replace (v + 1) with (Z.succ v) by lia. rewrite Z.odd_succ, Z.negb_odd. reflexivity. Qed.

Lemma c_wf hc i s p s' p' : cstep hc i s p = Next s' p' -> rs_fine_c s p -> unpaused s -> cwf hc p -> cwf hc p'.
Proof.
  intros H RS U W. cases_c p H RS; cbn [cwf uwf xwf kwf] in *; eqbs; try lia; try tauto;
    try (split; [|apply even_odd]; tauto); try (destruct W as [W1 W2]; congruence).
  - apply andb_true_iff in Eb. destruct Eb as [E1 E2]. eqbs. split; [lia|]. apply orb_true_iff in E2. destruct E2 as [E2|E2].
    + apply Z.gtb_lt in E2. split; [lia|]. intros; lia.
    + apply andb_true_iff in E2. destruct E2 as [E2 E3]. eqbs. split; [lia|]. intros _. apply negb_true_iff in E3. exact E3.
  - pose proof (proj1 (U t)). splits; tauto.
Qed.
Lemma l_wf hc b r s p s' p' : lstep hc b r s p = Next s' p' -> r <> TPause -> rs_fine_l s p -> unpaused s -> (forall t, -1 <= k_dl (tk s t)) -> lwf p -> lwf p'.
Proof.
  intros H R RS U D W. cases_l p H RS; cbn [lwf uwf xwf] in *; eqbs; try lia; try tauto; try congruence;
    try (split; [|apply even_odd]; tauto); try (apply even_odd; assumption); try (destruct r0; cbn [kwf] in *; tauto).
  - apply U.
  - splits; try tauto. apply D.
  - destruct W as (W1 & _ & W2). destruct (renewed_state_cases f d W1 W2) as [[_ ->]|[[_ ->]|[_ ->]]]; auto.
  - destruct W as (W1 & _ & W2). destruct (renewed_state_cases f d W1 W2) as [[_ ->]|[[_ ->]|[_ ->]]]; auto.
  - cbn. auto.
  - cbn. auto.
  - cbn. auto.
Qed.

Definition rdy (s : shared) (t : nat) : Z := b2z (st_eqb (k_st (tk s t)) Ready).
Ltac stf := repeat match goal with
  | H : k_st (tk ?s ?t) = _ |- context [k_st (tk ?s ?t)] => rewrite H
  | H : k_st (tk ?s ?t) <> Ready |- context [st_eqb (k_st (tk ?s ?t)) Ready] => rewrite (proj2 (st_eqb_false _ _) H)
  end.
Ltac fin := try lia; try congruence; stf; rewrite ?renewed_not_ready; cbn [st_eqb]; try lia; try congruence.
Lemma c_tok hc i s p s' p' t : cstep hc i s p = Next s' p' -> rs_fine_c s p -> cwf hc p ->
  ctok t p' + qcnt t (rq s') - rdy s' t = ctok t p + qcnt t (rq s) - rdy s t.
Proof.
  intros H RS W. unfold rdy. cases_c p H RS; cbs; cbn [ctok cwf kwf] in *; rewrite ?qcnt_app, ?qcnt_cons, ?qcnt_nil; try lia;
    eqbs; unfold fset; ist; cbs; rewrite ?Nat.eqb_refl in *; fin.
  all: destruct W as (_ & _ & ->); fin.
Qed.
Lemma l_tok hc b r s p s' p' t : lstep hc b r s p = Next s' p' -> rs_fine_l s p -> lwf p ->
  ltok t p' + qcnt t (rq s') - rdy s' t = ltok t p + qcnt t (rq s) - rdy s t.
Proof.
  intros H RS W. unfold rdy. cases_l p H RS; cbs; cbn [ltok lwf kwf] in *; rewrite ?Erq, ?qcnt_app, ?qcnt_cons, ?qcnt_nil; try lia;
    eqbs; unfold fset; ist; cbs; rewrite ?Nat.eqb_refl in *; fin.
  - destruct W as [-> |[-> | ->]]; fin.
  - destruct r0, W as (_ & ->); fin.
  - destruct W as [-> | ->]; fin.
Qed.
Lemma c_size hc i s p s' p' : cstep hc i s p = Next s' p' -> rs_fine_c s p ->
  csz p' + Z.of_nat (length (rq s')) - rsize s' = csz p + Z.of_nat (length (rq s)) - rsize s.
Proof. intros H RS. cases_c p H RS; cbs; cbn [csz]; rewrite ?app_length; cbn [length]; lia. Qed.
Lemma l_size hc b r s p s' p' : lstep hc b r s p = Next s' p' -> rs_fine_l s p ->
  lsz p' + Z.of_nat (length (rq s')) - rsize s' = lsz p + Z.of_nat (length (rq s)) - rsize s.
Proof. intros H RS. cases_l p H RS; cbs; cbn [lsz]; rewrite ?Erq, ?app_length; cbn [length]; lia. Qed.
Lemma c_mtx hc i s p s' p' : cstep hc i s p = Next s' p' -> rs_fine_c s p -> (ch p = 1 -> mtx s = true) ->
  ch p' - b2z (mtx s') = ch p - b2z (mtx s).
Proof. intros H RS M. cases_c p H RS; cbs; cbn [ch] in *; try lia; rewrite ?Eb, ?(M eq_refl); cbn; lia. Qed.
Lemma l_mtx hc b r s p s' p' : lstep hc b r s p = Next s' p' -> rs_fine_l s p -> (lh p = 1 -> mtx s = true) ->
  lh p' - b2z (mtx s') = lh p - b2z (mtx s).
Proof. intros H RS M. cases_l p H RS; cbs; cbn [lh] in *; try lia; rewrite ?Eb, ?(M eq_refl); cbn; lia. Qed.
Lemma c_odd hc i s p s' p' t : cstep hc i s p = Next s' p' -> rs_fine_c s p ->
  (forall d u, p = RStore1 u d -> Z.odd (k_ver (tk s u)) = false) -> (forall d u, p = RStore2 u d -> Z.odd (k_ver (tk s u)) = true) ->
  cst2 t p' - b2z (Z.odd (k_ver (tk s' t))) = cst2 t p - b2z (Z.odd (k_ver (tk s t))).
Proof.
  intros H RS O1 O2. cases_c p H RS; cbs; cbn [cst2]; try lia; unfold fset; ist; cbs; try lia; rewrite ?odd_succ;
  [rewrite (O1 _ _ eq_refl)|rewrite (O2 _ _ eq_refl)|rewrite (O2 _ _ eq_refl)]; cbn; lia.
Qed.
Lemma l_odd hc b r s p s' p' t : lstep hc b r s p = Next s' p' -> rs_fine_l s p -> k_ver (tk s' t) = k_ver (tk s t) /\ k_dl (tk s' t) = k_dl (tk s t).
Proof. intros H RS. cases_l p H RS; cbs; auto; unfold fset; destruct (Nat.eqb_spec t t0); subst; cbs; auto; destruct (Nat.eqb_spec t t1); subst; cbs; auto. Qed.
Lemma c_t3 hc i s p s' p' : cstep hc i s p = Next s' p' -> rs_fine_c s p -> cwf hc p -> (ct3 p = 1 -> Z.odd (tver s) = true) ->
  ct3 p' - b2z (Z.odd (tver s')) = ct3 p - b2z (Z.odd (tver s)).
Proof.
  intros H RS W O. cases_c p H RS; cbs; cbn [ct3 ut3 xt3 cwf uwf xwf] in *; try lia; eqbs; rewrite ?odd_succ; subst; try (rewrite (O eq_refl); cbn; lia);
   try contradiction; try (rewrite Eb; lia); destruct W as [_ W]; rewrite (even_odd' _ W); cbn; lia.
Qed.
Lemma l_t3 hc b r s p s' p' : lstep hc b r s p = Next s' p' -> rs_fine_l s p -> lwf p -> (lt3 p = 1 -> Z.odd (tver s) = true) ->
  lt3 p' - b2z (Z.odd (tver s')) = lt3 p - b2z (Z.odd (tver s)).
Proof.
  intros H RS W O. cases_l p H RS; cbs; cbn [lt3 ut3 xt3 lwf uwf xwf] in *; try lia; eqbs; rewrite ?odd_succ; subst; try (rewrite (O eq_refl); cbn; lia);
   try contradiction; try (rewrite Eb; lia); destruct W as [_ W]; rewrite (even_odd' _ W); cbn; lia.
Qed.
Lemma c_wg hc i s p s' p' t : cstep hc i s p = Next s' p' -> rs_fine_c s p -> (forall u, p = W8 u -> k_wg (tk s u) = true) ->
  cwg t p' - b2z (k_wg (tk s' t)) = cwg t p - b2z (k_wg (tk s t)) /\ cwt t p' <= cwt t p.
Proof.
  intros H RS G. cases_c p H RS; cbs; cbn [cwg]; unfold cwt; cbn [waiting]; (split; [|ist; lia]); try lia; unfold fset; ist; cbs; try lia; try congruence;
    try (rewrite Eb; lia); try (rewrite (G _ eq_refl); lia).
Qed.
Lemma l_wg hc b r s p s' p' t : lstep hc b r s p = Next s' p' -> rs_fine_l s p -> k_wg (tk s' t) = k_wg (tk s t) /\ k_guard (tk s' t) = k_guard (tk s t) /\ k_dead (tk s' t) = k_dead (tk s t).
Proof. intros H RS. cases_l p H RS; cbs; auto; unfold fset; destruct (Nat.eqb_spec t t0); subst; cbs; auto; destruct (Nat.eqb_spec t t1); subst; cbs; auto. Qed.
