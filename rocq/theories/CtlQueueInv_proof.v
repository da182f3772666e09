From Coq Require Import Lia Sorted.
From Verif Require Import Base Base_lemmas CtlQueue_model CtlQueue_spec CtlQueue_proof.

(** The state the thread working on a task has put it into. *)
Definition kexp (k : kpc) : option (nat * tstate) :=
  match k with K1 t from => Some (t, from) | K2 t | K3 t _ => Some (t, Completing) | K3b t => Some (t, Ready) | _ => None end.
Definition lexp (p : lpc) : option (nat * tstate) :=
  match p with
  | LVer _ t f d _ | LFl2 _ t f d _ | LSched _ t f d _ => Some (t, renewed_state f d)
  | LBack _ t n => Some (t, n)
  | LSlCas _ t => Some (t, Sleeping)
  | LDec _ t true | LExec t | LRun t | LDone t _ | LDl1 t | LDl2 t _ | LCont t | LReborn t Processing => Some (t, Processing)
  | LK k _ => kexp k
  | _ => None
  end.
Definition cexp (p : cpc) : option (nat * tstate) :=
  match p with RISched t d _ f => Some (t, renewed_state f d) | RIK _ k => kexp k | _ => None end.
(** The request a thread has stored or read. *)
Definition creq (p : cpc) : option (nat * Z * Z) :=
  match p with
  | RCas t v => Some (t, -1, v)
  | RFlags t d v | RXchg t d v | RInc t d v | RTry t d v | RIFlags t d v | RIState t d v _ | RISched t d v _ => Some (t, d, v)
  | _ => None
  end.
Definition lreq (p : lpc) : option (nat * Z * Z) :=
  match p with LState _ t _ d v | LVer _ t _ d v | LFl2 _ t _ d v | LSched _ t _ d v => Some (t, d, v) | _ => None end.
Definition lreq' (p : lpc) : option (nat * Z * Z) :=
  match p with LVer _ t _ d v | LFl2 _ t _ d v | LSched _ t _ d v => Some (t, d, v) | _ => None end.
(** The task the loop is going to execute. *)
Definition lrun (p : lpc) : option nat := match p with LDec _ t true | LExec t | LSlCas _ t => Some t | _ => None end.
(** The task the loop has taken from the ready queue and not placed yet. *)
Definition lpop (p : lpc) : option nat :=
  match p with LVer _ t _ _ _ | LFl2 _ t _ _ _ | LSched _ t _ _ _ | LBack _ t _ => Some t | _ => None end.
(** The task that the loop found renewed after executing it. *)
Definition lrn (p : lpc) : option nat := match p with LK _ (KExec t true) | LReborn t Completed => Some t | _ => None end.
(** The task the loop executes or has executed. *)
Definition lre (p : lpc) : option nat :=
  match p with LDec _ t true | LExec t | LRun t | LDone t _ | LDl1 t | LDl2 t _ | LCont t | LReborn t _ | LK _ (KExec t _) => Some t | _ => None end.
(** Requests on their way: past the store, before the exchange of the state. *)
Definition cpf (t : nat) (p : cpc) : Z := match p with RFlags u _ _ | RXchg u _ _ => is t u | _ => 0 end.
Definition crs (t : nat) (p : cpc) : Z := match p with RISched u _ _ _ => is t u | _ => 0 end.
Definition ccas (t : nat) (p : cpc) : Z := match p with RCas u _ => is t u | _ => 0 end.
Definition executed (t : nat) (v : Z) (l : list event) : Prop := exists d n, In (Exec t d v n) l.
(** The loop is about to honour the request with the current version. *)
Definition lhon (s : shared) (t : nat) (p : lpc) : Prop :=
  match p with
  | LVer _ u _ _ _ | LBack _ u _ => u = t
  | LFl2 _ u _ _ v | LSched _ u _ _ v => u = t /\ v = k_ver (tk s t)
  | LDec _ u true | LExec u | LSlCas _ u => u = t /\ k_effv (tk s t) = k_ver (tk s t)
  | _ => False
  end.
(** Completion pending on the loop. *)
Definition kt (k : kpc) : nat := match k with K1 t _ | K2 t | K3 t _ | K3b t | K4 t _ | K5 t => t end.
Definition lk (t : nat) (p : lpc) : Z := match p with LK k _ => is t (kt k) | LDone u _ | LDl1 u | LDl2 u _ => is t u | _ => 0 end.
(** Timer: threads that are going to set it to zero if tasks are ready. *)
Definition xz (v : Z) (x : tpc) : Z := match x with T2 _ w => b2z (w =? v) | _ => 1 end.
Definition cresp (v : Z) (p : cpc) : Z :=
  match p with
  | RTry _ _ _ | RIFlags _ _ _ | RIState _ _ _ _ | RISched _ _ _ _ | RIK _ _ | RIDec _ | RIUnlock _ false | RPush _ => 1
  | RIU _ U1 => 1
  | RIU _ (UT d x) => if d =? 0 then xz v x else 1
  | RIU _ (U2 d) => if d =? 0 then 0 else 1
  | RIU _ (UZ x) | RT _ x => xz v x
  | _ => 0
  end.
Definition lresp (p : lpc) : Z := match p with LWait | LUnlock => 0 | _ => 1 end.
(** Timer: threads that are going to set it according to the sleeping queue, or to zero. *)
Definition cwr (v : Z) (p : cpc) : Z :=
  match p with
  | RIK _ _ | RIDec _ | RIU _ U1 => 1
  | RIU _ (UT d x) => xz v x
  | RIU _ (UZ x) | RT _ x => xt3 x
  | _ => 0
  end.
Definition lwr (v : Z) (p : lpc) : Z :=
  match p with
  | LWait | LUnlock => 0
  | LU (UT d x) => xz v x
  | LU (U2 d) => if d =? 0 then 1 else 0
  | _ => 1
  end.
Definition timer_ok (s : shared) : Prop := sleepq s = [] \/ 0 <= tdl s <= next_deadline s.
Definition uval (s : shared) (u : upc) : Prop := match u with UT d _ | U2 d => d = 0 \/ d = next_deadline s | _ => True end.
Definition cu (p : cpc) : option upc := match p with RIU _ u => Some u | _ => None end.
Definition lu (p : lpc) : option upc := match p with LU u => Some u | _ => None end.
(** Waiting: the semaphore has been attached and not taken away by the waiting thread. *)
Definition cws (t : nat) (p : cpc) : Z := match p with W3 u | W4 u | W5 u | W6 u => is t u | _ => 0 end.
Definition cw7 (t : nat) (p : cpc) : Z := match p with W7 u => is t u | _ => 0 end.
(** The semaphore is in the hands of complete_task_. *)
Definition ksem (t : nat) (k : kpc) : Z := match k with K3 u true | K3b u | K4 u true => is t u | _ => 0 end.
Definition csem (t : nat) (p : cpc) : Z := match p with RIK _ k => ksem t k | _ => 0 end.
Definition lsem (t : nat) (p : lpc) : Z := match p with LK k _ => ksem t k | _ => 0 end.
(** complete_task_ took the semaphore and has not moved the task to Completed. *)
Definition k3f (t : nat) (k : kpc) : Z := match k with K3 u _ => is t u | _ => 0 end.
Definition c3f (t : nat) (p : cpc) : Z := match p with RIK _ k => k3f t k | _ => 0 end.
Definition l3f (t : nat) (p : lpc) : Z := match p with LK k _ => k3f t k | _ => 0 end.
Definition con (t : nat) (p : cpc) : Z := match subject p with Some u => is t u | None => 0 end.
Definition csch (t : nat) (p : cpc) : Z := b2z (scheduling t p).
(** The rest of complete_task_, and what follows it, that still uses the task. *)
Definition ktail (hc : nat -> bool) (k : kpc) : option nat := match k with K4 t b => if b || hc t then Some t else None | K5 t => Some t | _ => None end.
Definition cnt_end (t : nat) (s : shared) : Z := Z.of_nat (ev_count (is_end t) (log s)).
Definition cnt_compl (t : nat) (s : shared) : Z := Z.of_nat (ev_count (is_compl t) (log s)).
Definition le_eff (s : shared) (a b : nat) : Prop := k_eff (tk s a) <= k_eff (tk s b).

Record inv (m : mode) (hc : nat -> bool) (s : shared) (P : lpc) (C : list cpc) : Prop := {
  i_cwf : forall i p, nth_error C i = Some p -> cwf hc p;
  i_lwf : lwf P;
  i_fl : unpaused s;
  i_pq : pausedq s = [];
  i_guard : forall t, sumf (cg t) C = b2z (k_guard (tk s t));
  i_tok : forall t, sumf (ctok t) C + ltok t P + qcnt t (rq s) = rdy s t;
  i_size : rsize s = sumf csz C + lsz P + Z.of_nat (length (rq s));
  i_mtx : sumf ch C + lh P = b2z (mtx s);
  i_odd : forall t, sumf (cst2 t) C = b2z (Z.odd (k_ver (tk s t)));
  i_t3 : sumf ct3 C + lt3 P = b2z (Z.odd (tver s));
  i_wg : forall t, sumf (cwg t) C = b2z (k_wg (tk s t));
  i_wt : forall t, sumf (cwt t) C <= 1;
  i_ver : forall t, 0 <= k_effv (tk s t) <= k_ver (tk s t) /\ Z.even (k_effv (tk s t)) = true /\ -1 <= k_dl (tk s t) /\ (k_effv (tk s t) = k_ver (tk s t) -> k_eff (tk s t) = k_dl (tk s t));
  i_cver : forall i p t d v, nth_error C i = Some p -> creq p = Some (t, d, v) -> 0 < v /\ k_ver (tk s t) = v /\ k_dl (tk s t) = d;
  i_cneg : forall i t d v f, nth_error C i = Some (RISched t d v f) -> d < 0 -> ~ (k_eff (tk s t) = -1 /\ k_effv (tk s t) = v);
  i_lver : forall t d v, lreq P = Some (t, d, v) -> 0 < v /\ k_effv (tk s t) <= v <= k_ver (tk s t) /\ (k_ver (tk s t) = v -> k_dl (tk s t) = d) /\ In (Req t d v) (log s)
             /\ (d < 0 -> ~ (k_eff (tk s t) = -1 /\ k_effv (tk s t) = v));
  i_lneg : forall t d v, lreq' P = Some (t, d, v) -> d < 0 -> st s t = Ready -> k_ver (tk s t) <> v;
  i_req : forall t, Z.odd (k_ver (tk s t)) = false -> 0 < k_ver (tk s t) -> In (Req t (k_dl (tk s t)) (k_ver (tk s t))) (log s);
  i_eff : forall t, 0 < k_effv (tk s t) -> In (Req t (k_eff (tk s t)) (k_effv (tk s t))) (log s);
  i_new : forall t, st s t <> Completed -> 0 < k_ver (tk s t);
  i_exec : forall t d v n, In (Exec t d v n) (log s) -> v <= k_effv (tk s t) /\ In (Req t d v) (log s) /\ 0 <= d <= n;
  i_run : forall t, lrun P = Some t -> 0 <= k_eff (tk s t) <= now s /\ 0 < k_effv (tk s t);
  i_re : forall t, lre P = Some t -> 0 <= k_eff (tk s t);
  i_ck5 : forall i t u, nth_error C i <> Some (RIK t (K5 u));
  i_k5 : forall t r, P = LK (K5 t) r -> hc t = true;
  i_slc : forall first t, P = LSlCas first t -> ~ In t (sleepq s);
  i_bk : forall first t n, P = LBack first t n -> ~ (k_eff (tk s t) = -1 /\ k_effv (tk s t) = k_ver (tk s t));
  i_last : forall t, Z.odd (k_ver (tk s t)) = false -> last_request t (log s) = if k_ver (tk s t) =? 0 then None else Some (k_dl (tk s t), k_ver (tk s t));
  i_lx : forall t n, lexp P = Some (t, n) -> st s t = n \/ st s t = Ready;
  i_cx : forall i p t n, nth_error C i = Some p -> cexp p = Some (t, n) -> st s t = n;
  i_si : forall t, st s t = Ready \/ st s t = Completed \/ (st s t = Sleeping /\ In t (sleepq s)) \/ lexp P = Some (t, st s t)
           \/ (exists i p, nth_error C i = Some p /\ cexp p = Some (t, st s t));
  i_slq : forall t, In t (sleepq s) -> 0 < k_eff (tk s t) /\ 0 < k_effv (tk s t) /\ (st s t = Sleeping \/ st s t = Ready \/ lpop P = Some t \/ 1 <= sumf (crs t) C);
  i_nd : NoDup (sleepq s);
  i_sort : StronglySorted (le_eff s) (sleepq s);
  i_hon : forall t, 0 <= k_dl (tk s t) -> k_ver (tk s t) = 0 \/ executed t (k_ver (tk s t)) (log s) \/ st s t = Ready
            \/ 1 <= sumf (cst2 t) C + sumf (cpf t) C + sumf (crs t) C \/ (In t (sleepq s) /\ k_effv (tk s t) = k_ver (tk s t)) \/ lhon s t P;
  i_h2 : forall t, k_dl (tk s t) < 0 -> st s t <> Sleeping \/ 1 <= sumf (ccas t) C \/ (exists first f d v, P = LVer first t f d v) \/ (exists first n, P = LBack first t n);
  i_cc : forall t, k_eff (tk s t) = -1 -> k_effv (tk s t) = k_ver (tk s t) -> st s t <> Ready /\ st s t <> Sleeping /\ st s t <> Processing;
  i_rn : forall t, lrn P = Some t -> st s t = Ready \/ 1 <= sumf (cpf t) C;
  i_compl : forall t, hc t = true -> cnt_compl t s + lk t P = cnt_end t s;
  i_cloop : forall t b, In (Compl t b) (log s) -> b = true;
  i_now : 0 <= now s;
  i_G : rsize s <= 0 \/ tdl s = 0 \/ 1 <= lresp P + sumf (cresp (tver s)) C;
  i_T : timer_ok s \/ 1 <= lwr (tver s) P + sumf (cwr (tver s)) C;
  i_cu : forall i p u, nth_error C i = Some p -> cu p = Some u -> uval s u;
  i_lu : forall u, lu P = Some u -> uval s u;
  (* waiting *)
  i_post : forall t, 0 <= k_post (tk s t);
  i_ws : forall t, 1 <= sumf (cws t) C -> 1 <= b2z (k_sem (tk s t)) + lsem t P + sumf (csem t) C + k_post (tk s t);
  i_w4 : forall i t, nth_error C i = Some (W4 t) \/ nth_error C i = Some (W6 t) -> k_sem (tk s t) = true -> st s t = Completing -> l3f t P + sumf (c3f t) C = 0;
  i_w6 : forall i t, nth_error C i = Some (W6 t) -> k_sem (tk s t) = true -> st s t <> Completed;
  (* nobody schedules a task that is waited for *)
  i_apart : m = Apart -> forall t, 1 <= sumf (cwt t) C -> sumf (csch t) C = 0;
  i_asem : m = Apart -> forall t, b2z (k_sem (tk s t)) + lsem t P + sumf (csem t) C + k_post (tk s t) <= sumf (cws t) C + sumf (cw7 t) C /\ lsem t P + sumf (csem t) C + k_post (tk s t) <= sumf (cws t) C;
  i_adone : m = Apart -> forall t, (1 <= k_post (tk s t) -> st s t = Completed) /\ (forall i p, nth_error C i = Some p -> p = W5 t \/ p = W7 t \/ p = W8 t -> st s t = Completed)
              /\ (forall r, P = LK (K4 t true) r -> st s t = Completed) /\ (forall i u, nth_error C i = Some (RIK u (K4 t true)) -> st s t = Completed);
  i_aret : m = Apart -> forall i t b, In (WRet i t b) (log s) -> b = true;
  i_dead : forall t, k_dead (tk s t) = true -> m = Apart /\ st s t = Completed /\ sumf (con t) C = 0 /\ lrn P <> Some t /\ (forall k r, P = LK k r -> ktail hc k <> Some t)
}.

(** ** Tools *)
Lemma sumf_two {A} (f : A -> Z) l i j x y : (forall z, 0 <= f z) -> i <> j -> nth_error l i = Some x -> nth_error l j = Some y -> f x + f y <= sumf f l.
Proof.
  intros N. revert i j. induction l as [|a l IH]; intros i j D X Y; [destruct i; discriminate X|].
  change (sumf f (a :: l)) with (f a + sumf f l). pose proof (N a). destruct i, j; cbn in X, Y; try contradiction.
  - assert (x = a) by congruence. subst. pose proof (sumf_ge f l j y N Y). lia.
  - assert (y = a) by congruence. subst. pose proof (sumf_ge f l i x N X). lia.
  - assert (i <> j) by congruence. specialize (IH _ _ H0 X Y). lia.
Qed.
Lemma sumf_ex {A} (f : A -> Z) l : 1 <= sumf f l -> exists i x, nth_error l i = Some x /\ 1 <= f x.
Proof.
  induction l as [|a l IH]; [cbn; lia|]. change (sumf f (a :: l)) with (f a + sumf f l). intros H. destruct (Z.leb_spec 1 (f a)).
  - exists 0%nat, a. split; [reflexivity|assumption].
  - destruct IH as (i & x & E & F); [lia|]. exists (S i), x. split; assumption.
Qed.
Lemma sumf_le {A} (f g : A -> Z) l : (forall x, f x <= g x) -> sumf f l <= sumf g l.
Proof. intros H. induction l as [|a l IH]; [cbn; lia|]. change (f a + sumf f l <= g a + sumf g l). pose proof (H a). lia. Qed.
Lemma sumf_all0 {A} (f : A -> Z) l : (forall z, 0 <= f z) -> sumf f l = 0 -> forall i x, nth_error l i = Some x -> f x = 0.
Proof. intros N E i x X. pose proof (sumf_ge f l i x N X). pose proof (N x). lia. Qed.
Lemma sumf_is0 {A} (f : A -> Z) l : (forall i x, nth_error l i = Some x -> f x = 0) -> sumf f l = 0.
Proof.
  induction l as [|a l IH]; intros H; [reflexivity|]. change (f a + sumf f l = 0). rewrite (H 0%nat a eq_refl), IH; [reflexivity|].
  intros i x X. apply (H (S i) x X).
Qed.
Lemma sumf_others {A} (f : A -> Z) l i x : (forall z, 0 <= f z) -> nth_error l i = Some x -> sumf f l <= f x ->
  forall j y, nth_error l j = Some y -> j <> i -> f y = 0.
Proof. intros N X S j y Y D. pose proof (sumf_two f l i j x y N (not_eq_sym D) X Y). pose proof (N y). lia. Qed.

Lemma cpf_nn t p : 0 <= cpf t p. Proof. destruct p; cbn; nn. Qed.
Lemma crs_nn t p : 0 <= crs t p. Proof. destruct p; cbn; nn. Qed.
Lemma ccas_nn t p : 0 <= ccas t p. Proof. destruct p; cbn; nn. Qed.
Lemma lk_nn t p : 0 <= lk t p. Proof. destruct p; cbn; nn. Qed.
Lemma xz_nn v x : 0 <= xz v x <= 1. Proof. destruct x; cbn; try lia; apply b2z_range. Qed.
Lemma cresp_nn v p : 0 <= cresp v p. Proof. destruct p; cbn; try lia; [destruct u; cbn; try lia|destruct ok; lia|]; try apply xz_nn; destruct (d =? 0); try lia; apply xz_nn. Qed.
Lemma lresp_nn p : 0 <= lresp p. Proof. destruct p; cbn; lia. Qed.
Lemma cwr_nn v p : 0 <= cwr v p. Proof. destruct p; cbn; try lia; [destruct u; cbn; try lia|]; try apply xz_nn; apply xt3_nn. Qed.
Lemma lwr_nn v p : 0 <= lwr v p. Proof. destruct p; cbn; try lia; destruct u; cbn; try lia; try apply xz_nn; destruct (d =? 0); lia. Qed.
Lemma cws_nn t p : 0 <= cws t p. Proof. destruct p; cbn; nn. Qed.
Lemma cw7_nn t p : 0 <= cw7 t p. Proof. destruct p; cbn; nn. Qed.
Lemma ksem_nn t p : 0 <= ksem t p. Proof. destruct p; cbn; nn. Qed.
Lemma csem_nn t p : 0 <= csem t p. Proof. destruct p; cbn; try lia; apply ksem_nn. Qed.
Lemma lsem_nn t p : 0 <= lsem t p. Proof. destruct p; cbn; try lia; apply ksem_nn. Qed.
Lemma k3f_nn t p : 0 <= k3f t p. Proof. destruct p; cbn; nn. Qed.
Lemma c3f_nn t p : 0 <= c3f t p. Proof. destruct p; cbn; try lia; apply k3f_nn. Qed.
Lemma l3f_nn t p : 0 <= l3f t p. Proof. destruct p; cbn; try lia; apply k3f_nn. Qed.
Lemma con_nn t p : 0 <= con t p. Proof. unfold con. destruct (subject p); [apply is_range|lia]. Qed.
Lemma csch_nn t p : 0 <= csch t p. Proof. apply b2z_range. Qed.
Lemma lh_range p : 0 <= lh p <= 1. Proof. destruct p; cbn; lia. Qed.
Lemma ch_range p : 0 <= ch p <= 1. Proof. destruct p; cbn; lia. Qed.

(** What a client's step leaves alone. *)
Lemma c_own hc i s p s' p' u : cstep hc i s p = Next s' p' -> rs_fine_c s p -> cwf hc p -> con u p = 0 -> tk s' u = tk s u.
Proof.
  intros H RS W N. assert (D : forall t, con u p = is u t -> u <> t) by (intros t E; rewrite E in N; unfold is, b2z in N; destruct (Nat.eqb_spec t u); congruence).
  cases_c p H RS; cbn [cwf kwf] in W; cbs; try reflexivity; rewrite ?fset_ne; try reflexivity; try (apply D; reflexivity);
    destruct W as [_ W]; try (destruct W as [W _]); subst; apply D; reflexivity.
Qed.
Lemma c_quiet hc i s p s' p' : cstep hc i s p = Next s' p' -> rs_fine_c s p -> cwf hc p -> ch p = 0 ->
  sleepq s' = sleepq s /\ (forall u, k_eff (tk s' u) = k_eff (tk s u) /\ k_effv (tk s' u) = k_effv (tk s u) /\ (st s' u = st s u \/ st s' u = Ready)).
Proof.
  intros H RS W N. unfold st. cases_c p H RS; cbn [ch cwf] in *; try lia; try contradiction; cbs; (split; [reflexivity|]); intros u; try (splits; auto; fail);
   unfold fset; destruct (Nat.eqb_spec u t); subst; cbs; splits; auto.
Qed.
Lemma c_verdl hc i s p s' p' u : cstep hc i s p = Next s' p' -> rs_fine_c s p -> cwf hc p -> cg u p = 0 ->
  k_ver (tk s' u) = k_ver (tk s u) /\ k_dl (tk s' u) = k_dl (tk s u) /\ st s' u = st s u /\ k_eff (tk s' u) = k_eff (tk s u) /\ k_effv (tk s' u) = k_effv (tk s u).
Proof.
  intros H RS W N. unfold st. cases_c p H RS; cbn [cg cwf kwf] in *; try contradiction; cbs; try (splits; auto; fail); unfold fset;
    repeat match goal with |- context [Nat.eqb ?a ?b] => destruct (Nat.eqb_spec a b); subst end; cbs; splits; auto;
    try (rewrite is_refl in N; lia); destruct W as [_ W]; try (destruct W as [W _]); subst; rewrite is_refl in N; lia.
Qed.
Lemma c_log hc i s p s' p' : cstep hc i s p = Next s' p' -> rs_fine_c s p -> exists l, log s' = log s ++ l.
Proof. intros H RS. cases_c p H RS; cbs; try (eexists; reflexivity); exists []; rewrite app_nil_r; reflexivity. Qed.
Lemma c_misc hc i s p s' p' : cstep hc i s p = Next s' p' -> rs_fine_c s p -> cwf hc p -> now s' = now s /\ pausedq s' = pausedq s /\ (forall u, k_dead (tk s' u) = k_dead (tk s u)).
Proof. intros H RS W. cases_c p H RS; cbn [cwf] in *; try contradiction; cbs; splits; auto; intros u; unfold fset; repeat match goal with |- context [Nat.eqb ?a ?b] => destruct (Nat.eqb_spec a b); subst end; reflexivity. Qed.
(** What the loop's step leaves alone. *)
Lemma l_quiet hc b r s p s' p' : lstep hc b r s p = Next s' p' -> lh p = 0 -> tk s' = tk s /\ sleepq s' = sleepq s /\ log s' = log s /\ rsize s' = rsize s /\ tdl s' = tdl s /\ tver s' = tver s.
Proof. intros H N. assert (RS : rs_fine_l s p) by (intros ? ? ? ? ? ->; discriminate N). cases_l p H RS; cbn [lh] in *; try lia; cbs; splits; reflexivity. Qed.
Lemma l_log hc b r s p s' p' : lstep hc b r s p = Next s' p' -> rs_fine_l s p -> exists l, log s' = log s ++ l.
Proof. intros H RS. cases_l p H RS; cbs; try (eexists; reflexivity); exists []; rewrite app_nil_r; reflexivity. Qed.
Lemma l_misc hc b r s p s' p' : lstep hc b r s p = Next s' p' -> rs_fine_l s p -> lwf p -> now s' = now s /\ pausedq s' = pausedq s.
Proof. intros H RS W. cases_l p H RS; cbn [lwf] in *; try contradiction; cbs; splits; auto. Qed.
Lemma executed_app t v l l' : executed t v l -> executed t v (l ++ l').
Proof. intros (d & n & H). exists d, n. apply in_or_app. auto. Qed.
