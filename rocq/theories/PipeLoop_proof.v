From Coq Require Import Lia.
From Verif Require Import Base Base_lemmas PipeLoop_model PipeLoop_spec.
From Verif Require RefCount_proof.

Notation sumf := RefCount_proof.sumf.
Definition sumf_upd := @RefCount_proof.sumf_upd.
Definition sumf_app := @RefCount_proof.sumf_app.
Definition sumf_nonneg := @RefCount_proof.sumf_nonneg.
Definition sumf_ge := @RefCount_proof.sumf_ge.
Definition sumf_zero := @RefCount_proof.sumf_zero.
Definition nth_upd := @RefCount_proof.nth_upd.

Ltac inv_some H := let E := fresh "E" in match type of H with Some (?a, ?b) = Some (?x, ?y) => assert (E : x = a /\ y = b) by (split; congruence); clear H; destruct E as [? ?]; subst x y end.
(** All cases of one step. *)
Ltac cases_step p H :=
  destruct p; cbn [pstep] in H;
  repeat match type of H with
  | context [match pmutex ?s with _ => _ end] => let E := fresh "Epm" in destruct (pmutex s) eqn:E
  | context [match smutex ?s with _ => _ end] => let E := fresh "Esm" in destruct (smutex s) eqn:E
  | context [try_pop ?b ?q] => let E := fresh "Epop" in destruct (try_pop b q) as [[? ?]|] eqn:E
  | context [if precise ?c then Some _ else _] => let E := fresh "Epr" in destruct (precise c) eqn:E
  | context [if posted ?a ?b then _ else _] => let E := fresh "Epost" in destruct (posted a b) eqn:E
  | context [if (?x =? 0) || ?y then Some _ else _] => let E := fresh "Eck" in destruct ((x =? 0) || y) eqn:E
  | context [if ?x && ?y then Some _ else _] => let E := fresh "Ecw" in destruct (x && y) eqn:E
  end; try discriminate H; inv_some H;
  repeat match goal with E : pmutex ?s = _ |- context [pmutex ?s] => rewrite E | E : smutex ?s = _ |- context [smutex ?s] => rewrite E end;
  repeat match goal with |- context [if enough ?s then ?s else _] => let E := fresh "Een" in destruct (enough s) eqn:E end.

(** ** Mutexes *)
Definition holdP (p : pc) : bool :=
  match p with
  | ERun _ _ _ | EDec _ _ _ | CNf _ _ | CUnlock _ _ _ | FRun | FUnlock | PSub _ _ | PSubRun _ _ | PStore1 _ _ _ | PStore2 _ _ _
  | PCheck _ _ _ | PPop _ _ _ | PAllow _ _ _ | PNext _ _ _ | PStats | PStatsTry | PStatsUnlock
  | BRunning | BAllow | BFrames | BPop | BUnlock _ => true
  | _ => false
  end.
Definition holdS (p : pc) : bool :=
  match p with SState _ | SCall _ | SSet _ | SUnlock _ | XState _ | XCall _ | XSet _ | XUnlock _ | PStatsUnlock => true | _ => false end.
Definition busy (p : pc) : activity :=
  match p with ERun _ t _ => Task t | FRun | PSubRun _ _ => Frame | _ => Free end.

Ltac ifs := repeat match goal with |- context [if ?b then _ else _] =>
  lazymatch b with context [if _ then _ else _] => fail | context [match _ with _ => _ end] => fail | context [resume _] => fail | context [after_task _ _ _] => fail | _ => destruct b eqn:?; cbn [holdP holdS busy] end end.
Ltac cbs := cbn [pmutex smutex set_pm set_sm set_pend set_frames set_pstate set_ver set_queue set_armed set_samples add_log
  pend frames pstate ver queue armed samples enough log holdP holdS busy resume after_task] in *.

Lemma pstep_pm c i b s p s' p' : pstep c i b s p = Some (s', p') ->
  (pmutex s' = pmutex s /\ holdP p' = holdP p) \/ (pmutex s = None /\ pmutex s' = Some i /\ holdP p = false /\ holdP p' = true)
  \/ (pmutex s' = None /\ holdP p = true /\ holdP p' = false).
Proof.
  intros H. cases_step p H; cbs; auto 6; try (left; split; [reflexivity|]; ifs; try reflexivity; destruct r; reflexivity);
    try (left; split; [reflexivity|]; destruct k; reflexivity); try (left; split; [reflexivity|]; destruct (pstate s); reflexivity).
Qed.
Lemma pstep_sm c i b s p s' p' : pstep c i b s p = Some (s', p') ->
  (smutex s' = smutex s /\ holdS p' = holdS p) \/ (smutex s = None /\ smutex s' = Some i /\ holdS p = false /\ holdS p' = true)
  \/ (smutex s' = None /\ holdS p = true /\ holdS p' = false).
Proof.
  intros H. cases_step p H; cbs; auto 6; try (left; split; [reflexivity|]; ifs; try reflexivity; destruct r; reflexivity);
    try (left; split; [reflexivity|]; destruct k; reflexivity); try (left; split; [reflexivity|]; destruct (pstate s); reflexivity);
    try (right; right; repeat split; destruct r; reflexivity).
Qed.

(** ** The log *)
Definition new_events (s s' : shared) (l : list event) : Prop := log s' = log s ++ l.
Lemma pstep_log c i b s p s' p' : pstep c i b s p = Some (s', p') ->
  exists l, log s' = log s ++ l /\
    (forall a, (holdP p = true -> a = busy p) -> (holdP p = false -> holdP p' = true -> a = Free) ->
      fold_left next_activity l (Some a) = Some (if holdP p' then busy p' else if holdP p then Free else a)).
Proof.
  intros H. cases_step p H; cbs;
    try (eexists; split; [reflexivity|]; intros a0 A1 A2; try (rewrite (A1 eq_refl)); try (rewrite (A2 eq_refl eq_refl)); cbn;
         rewrite ?Nat.eqb_refl; reflexivity);
    try (exists []; split; [symmetry; apply app_nil_r|]; intros a0 A1 A2; cbn [fold_left]; try rewrite (A1 eq_refl); try rewrite (A2 eq_refl eq_refl);
         ifs; try reflexivity; try (destruct r; reflexivity); try (destruct k; reflexivity); try (destruct (pstate s); reflexivity)).
  - eexists. split; [reflexivity|]. intros a0 A1 A2. rewrite (A1 eq_refl). cbn. rewrite Nat.eqb_refl. unfold notify.
    destruct w; [destruct k|]; reflexivity.
  - eexists. split; [reflexivity|]. intros a0 A1 A2; rewrite (A1 eq_refl); cbn; ifs; reflexivity.
  - eexists. split; [reflexivity|]. intros a0 A1 A2; rewrite (A1 eq_refl); cbn; ifs; reflexivity.
Qed.

(** ** Counting *)
Definition b2z (b : bool) : Z := if b then 1 else 0.
Definition own (t : nat) (p : pc) : Z :=
  match p with
  | CInc u _ | CLoad1 u _ | CLoad2 u _ _ | CAllow u _ | CPush1 u _ _ | CTry u _ => b2z (Nat.eqb u t)
  | _ => 0
  end.
Definition weight (p : pc) : Z :=
  match p with CLoad1 _ _ | CLoad2 _ _ _ | CAllow _ _ | CPush1 _ _ _ | CTry _ _ | ERun _ _ _ | EDec _ _ _ => 1 | _ => 0 end.
Definition rframe (r : rto) : Z := match r with RFrameStart _ => 1 | _ => 0 end.
Definition fweight (p : pc) : Z :=
  match p with
  | XTry r | XState r | XCall r | XSet r | XUnlock r | SLoad1 r | SLoad2 r _ | STry r | SState r | SCall r | SSet r | SUnlock r | SFrames r => rframe r
  | FLock _ | FRun | FUnlock | FDec | PSub _ _ | PSubRun _ _ | PStore1 _ _ _ | PStore2 _ _ _
  | PCheck _ _ _ | PPop _ _ _ | PAllow _ _ _ | PNext _ _ _ | PStats | PStatsTry | PStatsUnlock => 1
  | ERun (KFrame _ _ _) _ _ | EDec (KFrame _ _ _) _ _ => 1
  | _ => 0
  end.
Definition qcnt (t : nat) (q : list entry) : Z := sumf (fun e => b2z (Nat.eqb (e_task e) t)) q.
Definition ev (e : event) (l : list event) : Z := Z.of_nat (times e l).
Definition evi (t : nat) (l : list event) : Z := ev (Inv t true) l + ev (Inv t false) l.

Lemma ev_app e a b : ev e (a ++ b) = ev e a + ev e b.
Proof. unfold ev, times. rewrite count_occ_app. lia. Qed.
Lemma ev_nonneg e l : 0 <= ev e l. Proof. unfold ev. lia. Qed.
Lemma ev_nil e : ev e [] = 0. Proof. reflexivity. Qed.
Lemma ev_cons e x l : ev e (x :: l) = (if event_eq_dec x e then 1 else 0) + ev e l.
Proof. unfold ev, times. cbn [count_occ]. destruct (event_eq_dec x e); lia. Qed.
Lemma ev_in e l : In e l <-> 1 <= ev e l.
Proof. unfold ev, times. rewrite (count_occ_In event_eq_dec). lia. Qed.
Lemma qcnt_app t a b : qcnt t (a ++ b) = qcnt t a + qcnt t b. Proof. apply sumf_app. Qed.
Lemma qcnt_nonneg t q : 0 <= qcnt t q.
Proof. apply sumf_nonneg. intros x. unfold b2z. destruct (Nat.eqb _ _); lia. Qed.
Lemma qcnt_link t u q : qcnt t (link u q) = qcnt t q.
Proof. unfold qcnt. induction q as [|e q IH]; [reflexivity|]. cbn [link map sumf]. fold (link u q). rewrite IH. destruct (Nat.eqb (e_task e) u); reflexivity. Qed.
Lemma qcnt_cons t e q : qcnt t (e :: q) = b2z (Nat.eqb (e_task e) t) + qcnt t q. Proof. reflexivity. Qed.
Lemma qcnt_in t q : In t (map e_task q) <-> 1 <= qcnt t q.
Proof.
  induction q as [|e q IH]; [cbn; lia|]. rewrite qcnt_cons. cbn [map In]. pose proof (qcnt_nonneg t q). rewrite IH. unfold b2z.
  destruct (Nat.eqb_spec (e_task e) t); split; intros X; try lia; auto.
Qed.
Lemma own_range t p : 0 <= own t p. Proof. destruct p; cbn; try lia; unfold b2z; destruct (Nat.eqb _ _); lia. Qed.
Lemma weight_range p : 0 <= weight p. Proof. destruct p; cbn; lia. Qed.
Lemma fweight_range p : 0 <= fweight p. Proof. destruct p; cbn; try lia; try (destruct r; cbn; lia); try (destruct k; lia). Qed.
Lemma len_link u q : length (link u q) = length q. Proof. apply map_length. Qed.

Lemma try_pop_some b q e q' : try_pop b q = Some (e, q') -> q = e :: q' /\ e_linked e = true.
Proof. destruct q as [|x q]; cbn; [discriminate|]. destruct (e_linked x) eqn:L; cbn; [|discriminate]. destruct (negb b || _); [|discriminate]. intros H. split; congruence. Qed.

Ltac evs := rewrite ?ev_app, ?ev_cons, ?ev_nil.
Ltac decs := repeat match goal with |- context [event_eq_dec ?a ?b] => destruct (event_eq_dec a b) end.

(** Split on everything the next program counter depends on. *)
Ltac split_pc := repeat match goal with
  | |- context [if max_samples ?c =? 0 then ?d else ?e] => let v := fresh "sub" in set (v := if max_samples c =? 0 then d else e) in *
  | |- context [match pstate ?s with _ => _ end] => destruct (pstate s) eqn:?
  | |- context [resume ?r] => destruct r; cbn [resume]
  | |- context [match ?k with KClient => _ | KFrame _ _ _ => _ | KBack => _ end] => destruct k
  | |- context [after_task ?k _ _] => destruct k; cbn [after_task]
  | |- context [if ?b then _ else _] => lazymatch b with event_eq_dec _ _ => fail | Nat.eqb _ _ => fail | _ => destruct b eqn:? end
  end.

Lemma pstep_cnt c i b s p s' p' t : pstep c i b s p = Some (s', p') ->
  own t p' + qcnt t (queue s') + ev (TaskB t) (log s') = own t p + qcnt t (queue s) + ev (TaskB t) (log s)
  /\ evi t (log s') = evi t (log s).
Proof.
  intros H. unfold evi. cases_step p H; cbs; unfold notify; split_pc; cbn [own]; rewrite ?qcnt_link;
   try (split; lia);
   try (evs; split; decs; try discriminate; lia);
   try (rewrite (proj1 (try_pop_some _ _ _ _ Epop)), qcnt_cons; evs; split; [unfold b2z|decs; try discriminate; lia];
        destruct (Nat.eqb_spec (e_task e) t), (event_eq_dec (TaskB (e_task e)) (TaskB t)); try congruence; lia).
  - rewrite qcnt_app, qcnt_cons. cbn [own e_task]. change (qcnt t []) with 0. split; lia.
  - evs. unfold b2z. split; [|decs; try discriminate; lia].
    destruct (Nat.eqb_spec t0 t); destruct (event_eq_dec (TaskB t0) (TaskB t)); try congruence; lia.
Qed.

Lemma pstep_pend c i b s p s' p' : pstep c i b s p = Some (s', p') ->
  pend s' - weight p' - Z.of_nat (length (queue s')) = pend s - weight p - Z.of_nat (length (queue s)).
Proof.
  intros H. cases_step p H; cbs; split_pc; cbn [weight]; rewrite ?len_link, ?app_length; cbn [length]; try lia;
    rewrite (proj1 (try_pop_some _ _ _ _ Epop)); cbn [length]; lia.
Qed.
Lemma pstep_frames c i b s p s' p' : pstep c i b s p = Some (s', p') -> frames s' - fweight p' = frames s - fweight p.
Proof. intros H. cases_step p H; cbs; split_pc; cbn [fweight rframe]; try lia. Qed.

(** ** Which task a thread is dealing with *)
Definition rcl (r : rto) : option (nat * bool * bool) := match r with RClient t w p => Some (t, w, p) | _ => None end.
(** Client call in progress: task, waiting flag, and whether the task has been queued
    (Some false), executed in place (Some true), or neither so far. *)
Inductive stage := Own | Queued | InPlace | Done.
Definition client (p : pc) : option (nat * bool * stage) :=
  match p with
  | CInc t w | CLoad1 t w | CLoad2 t w _ | CAllow t w | CPush1 t w _ | CTry t w => Some (t, w, Own)
  | CPush2 t w _ | CFrames t w => Some (t, w, Queued)
  | CWait t => Some (t, true, Queued)
  | ERun KClient t w => Some (t, w, InPlace)
  | EDec KClient t w | CNf t w | CUnlock t w _ | CCheck t w _ => Some (t, w, Done)
  | CRet t w p => Some (t, w, if p then Done else Queued)
  | SLoad1 r | SLoad2 r _ | STry r | SState r | SCall r | SSet r | SUnlock r | SFrames r
  | XTry r | XState r | XCall r | XSet r | XUnlock r =>
      match r with RClient t w p => Some (t, w, if p then Done else Queued) | _ => None end
  | _ => None
  end.
Definition cl (t : nat) (p : pc) : Z := match client p with Some (u, _, _) => b2z (Nat.eqb u t) | None => 0 end.
Definition runs (t : nat) (p : pc) : Z := match p with ERun _ u _ => b2z (Nat.eqb u t) | _ => 0 end.
Definition sole (p : pc) : option nat := match p with CLoad1 t _ | CLoad2 t _ _ | CAllow t _ | CTry t _ => Some t | _ => None end.
Definition handed (s : shared) (t : nat) : Prop := In t (map e_task (queue s)) \/ In (TaskB t) (log s).
Definition rets (t : nat) (l : list event) : Z := ev (Ret t true) l + ev (Ret t false) l.

Lemma cl_range t p : 0 <= cl t p. Proof. unfold cl. destruct (client p) as [[[u ?] ?]|]; [unfold b2z; destruct (Nat.eqb u t)|]; lia. Qed.
Lemma runs_range t p : 0 <= runs t p. Proof. destruct p; cbn; try lia. unfold b2z. destruct (Nat.eqb _ _); lia. Qed.
Lemma tasks_link u q : map e_task (link u q) = map e_task q.
Proof. unfold link. rewrite map_map. apply map_ext. intros e. destruct (Nat.eqb (e_task e) u); reflexivity. Qed.

Ltac ev_b2z := unfold b2z; decs; repeat match goal with |- context [Nat.eqb ?a ?b] => destruct (Nat.eqb_spec a b) end; try congruence; try lia.

Lemma pstep_cl c i b s p s' p' t : pstep c i b s p = Some (s', p') ->
  cl t p' + rets t (log s') = cl t p + rets t (log s).
Proof.
  intros H. unfold rets. cases_step p H; cbs; unfold notify; split_pc; cbn [cl client]; unfold cl; cbn [client]; try lia;
    evs; try (decs; try discriminate; lia); ev_b2z; destruct w; congruence.
Qed.
Lemma pstep_runs c i b s p s' p' t : pstep c i b s p = Some (s', p') ->
  runs t p' + ev (TaskE t) (log s') - ev (TaskB t) (log s') = runs t p + ev (TaskE t) (log s) - ev (TaskB t) (log s).
Proof.
  intros H. cases_step p H; cbs; unfold notify; split_pc; cbn [runs]; try lia; evs; try (decs; try discriminate; lia); ev_b2z.
Qed.

(** What a step does to the queue and the log. *)
Definition tasks (s : shared) : list nat := map e_task (queue s).
Definition tws (s : shared) : list (nat * bool) := map (fun e => (e_task e, e_wait e)) (queue s).
Lemma tws_tasks s : tasks s = map fst (tws s). Proof. unfold tasks, tws. rewrite map_map. reflexivity. Qed.
Lemma tws_link u q : map (fun e => (e_task e, e_wait e)) (link u q) = map (fun e => (e_task e, e_wait e)) q.
Proof. unfold link. rewrite map_map. apply map_ext. intros e. destruct (Nat.eqb (e_task e) u); reflexivity. Qed.

Inductive effect (s s' : shared) (p p' : pc) : Prop :=
| eff_none l : log s' = log s ++ l -> (l = [] \/ l = [FrameB] \/ exists ok, l = [FrameE ok]) -> tws s' = tws s ->
    (client p' = client p) -> (forall k t w, p <> ERun k t w) -> (forall k t w, p' <> ERun k t w) ->
    (forall t, sole p' = Some t -> sole p = Some t \/ ((exists w, p = CInc t w) /\ pend s = 0)) -> effect s s' p p'
| eff_push t w a : p = CPush1 t w a -> p' = CPush2 t w a -> log s' = log s -> tws s' = tws s ++ [(t, w)] -> effect s s' p p'
| eff_pop k t w : holdP p = true -> p' = ERun k t w -> k <> KClient -> client p = None -> log s' = log s ++ [TaskB t] -> tws s = (t, w) :: tws s' -> effect s s' p p'
| eff_place t w : p = CTry t w -> p' = ERun KClient t w -> log s' = log s ++ [TaskB t] -> tws s' = tws s -> effect s s' p p'
| eff_end k t w : p = ERun k t w -> p' = EDec k t w -> log s' = log s ++ TaskE t :: notify k t w -> tws s' = tws s -> effect s s' p p'
| eff_ret t w st : client p = Some (t, w, st) -> st = Done \/ (st = Queued /\ (w = true -> In (Post t) (log s))) -> p' = Idle ->
    log s' = log s ++ [Ret t w] -> tws s' = tws s -> effect s s' p p'.

Lemma posted_in t l : posted t l = true <-> In (Post t) l.
Proof.
  unfold posted. rewrite existsb_exists. split.
  - intros (e & H1 & H2). destruct e; try discriminate. apply Nat.eqb_eq in H2. subst. exact H1.
  - intros H. exists (Post t). split; [exact H|apply Nat.eqb_refl].
Qed.
Lemma pstep_effect c i b s p s' p' : pstep c i b s p = Some (s', p') -> effect s s' p p'.
Proof.
  intros H. cases_step p H; split_pc; cbs;
   try (eapply (eff_none _ _ _ _ []);
     [cbn [log add_log set_pend set_frames set_pstate set_pm set_sm set_ver set_queue set_armed set_samples]; symmetry; apply app_nil_r
     |left; reflexivity|reflexivity|reflexivity|intros; discriminate|intros; discriminate|intros t0 X; cbn [sole] in X |- *; try discriminate X; left; exact X]; fail);
   try (eapply eff_none; [reflexivity|eauto|reflexivity|reflexivity|intros; discriminate|intros; discriminate|intros t0 X; cbn in X; discriminate X]; fail);
   try (eapply (eff_none _ _ _ _ []); [symmetry; apply app_nil_r|left; reflexivity|apply tws_link|reflexivity|intros; discriminate|intros; discriminate|intros t0 X; cbn in X; discriminate X]; fail);
   try (eapply eff_pop; [reflexivity|reflexivity|discriminate|reflexivity|reflexivity|]; unfold tws; cbs; rewrite (proj1 (try_pop_some _ _ _ _ Epop)); reflexivity).
  - apply (eff_none _ _ _ _ []); [symmetry; apply app_nil_r|left; reflexivity|reflexivity|reflexivity|intros; discriminate|intros; discriminate|].
    intros t0 X. cbn in X. assert (t0 = t) by congruence. subst t0. right. split; [eexists; reflexivity|]. apply Z.eqb_eq in Heqb0. lia.
  - eapply eff_push; try reflexivity. unfold tws. cbs. rewrite map_app. reflexivity.
  - eapply eff_place; reflexivity.
  - apply andb_true_iff in Ecw. destruct Ecw as [-> E]. destruct p; try discriminate E.
    apply (eff_none _ _ _ _ []); [symmetry; apply app_nil_r|left; reflexivity|reflexivity|reflexivity|intros; discriminate|intros; discriminate|intros t0 X; cbn in X; discriminate X].
  - eapply eff_ret; [reflexivity| |reflexivity|reflexivity|reflexivity]. destruct p; [left; reflexivity|]. right. split; [reflexivity|]. intros ->. discriminate Ecw.
  - eapply eff_ret; [reflexivity| |reflexivity|reflexivity|reflexivity]. right. split; [reflexivity|]. intros _. apply posted_in. exact Epost.
  - eapply eff_end; reflexivity.
Qed.

Lemma pstep_ver c i b s p s' p' : pstep c i b s p = Some (s', p') -> ver s <= ver s'.
Proof. intros H. cases_step p H; cbs; lia. Qed.

Lemma before_app a b l m : before a b l -> before a b (l ++ m).
Proof. intros (x & y & z & ->). exists x, y, (z ++ m). rewrite <- !app_assoc. cbn. rewrite <- app_assoc. reflexivity. Qed.
Lemma before_snoc a b l e : before a b (l ++ [e]) -> before a b l \/ (b = e /\ In a l).
Proof.
  intros (x & y & z & H). destruct (@exists_last _ (b :: z) ltac:(discriminate)) as (z' & e' & E).
  replace (x ++ a :: y ++ b :: z) with ((x ++ a :: y ++ z') ++ [e']) in H by (rewrite E, <- app_assoc; cbn; rewrite <- app_assoc; reflexivity).
  apply app_inj_tail in H. destruct H as [-> ->]. destruct z' as [|b' z'].
  - right. cbn in E. split; [congruence|]. apply in_or_app. right. left. reflexivity.
  - left. cbn in E. assert (b' = b) by congruence. subst b'. exists x, y, z'. reflexivity.
Qed.
Lemma before_last a e l : In a l -> before a e (l ++ [e]).
Proof. intros H. apply in_split in H. destruct H as (x & y & ->). exists x, y, []. rewrite <- app_assoc. reflexivity. Qed.
Lemma before_old a b m : ~ In b m -> forall l, before a b (l ++ m) -> before a b l.
Proof.
  induction m as [|e m IH] using rev_ind; intros N l H; [rewrite app_nil_r in H; exact H|].
  rewrite app_assoc in H. apply before_snoc in H. destruct H as [H|[-> _]].
  - apply IH; [|exact H]. intros X. apply N. apply in_or_app. left. exact X.
  - exfalso. apply N. apply in_or_app. right. left. reflexivity.
Qed.
Lemma before_in a b l : before a b l -> In a l /\ In b l.
Proof. intros (x & y & z & ->). split; apply in_or_app; right; [left; reflexivity|]. right. apply in_or_app. right. left. reflexivity. Qed.

Record inv (s : state) : Prop := {
  i_pm : forall i p, nth_error (pcs s) i = Some p -> (holdP p = true <-> pmutex (sh s) = Some i);
  i_sm : forall i p, nth_error (pcs s) i = Some p -> (holdS p = true <-> smutex (sh s) = Some i);
  i_lt : forall i, pmutex (sh s) = Some i \/ smutex (sh s) = Some i -> (i < length (pcs s))%nat;
  i_free : pmutex (sh s) = None -> activity_after (log (sh s)) = Some Free;
  i_act : forall i p, nth_error (pcs s) i = Some p -> holdP p = true -> activity_after (log (sh s)) = Some (busy p);
  i_cnt : forall t, sumf (own t) (pcs s) + qcnt t (queue (sh s)) + ev (TaskB t) (log (sh s)) = evi t (log (sh s));
  i_one : forall t, evi t (log (sh s)) <= 1;
  i_cl : forall t, sumf (cl t) (pcs s) + rets t (log (sh s)) = evi t (log (sh s));
  i_run : forall t, sumf (runs t) (pcs s) + ev (TaskE t) (log (sh s)) = ev (TaskB t) (log (sh s));
  i_pend : pend (sh s) = sumf weight (pcs s) + Z.of_nat (length (queue (sh s)));
  i_frames : frames (sh s) = sumf fweight (pcs s);
  i_handed : forall i p t w st, nth_error (pcs s) i = Some p -> client p = Some (t, w, st) -> st <> Own -> handed (sh s) t;
  i_done : forall i p t w, nth_error (pcs s) i = Some p -> client p = Some (t, w, Done) -> In (TaskE t) (log (sh s));
  i_ret : forall t w, In (Ret t w) (log (sh s)) -> handed (sh s) t;
  i_wret : forall t, In (Ret t true) (log (sh s)) -> In (TaskE t) (log (sh s));
  i_post : forall t, In (Post t) (log (sh s)) -> In (TaskE t) (log (sh s));
  i_tw : forall i p t w st, nth_error (pcs s) i = Some p -> client p = Some (t, w, st) -> In (Inv t w) (log (sh s));
  i_rw : forall i k t w, nth_error (pcs s) i = Some (ERun k t w) -> In (Inv t w) (log (sh s));
  i_qw : forall t w, In (t, w) (tws (sh s)) -> In (Inv t w) (log (sh s));
  i_compl0 : forall t, ev (Compl t) (log (sh s)) <= ev (TaskE t) (log (sh s));
  i_compl1 : forall t, In (Inv t false) (log (sh s)) -> ev (Compl t) (log (sh s)) = ev (TaskE t) (log (sh s));
  i_compl2 : forall t, In (Inv t true) (log (sh s)) -> ev (Compl t) (log (sh s)) = 0;
  i_waiter : forall i p t, nth_error (pcs s) i = Some p -> client p = Some (t, true, Queued) -> In (TaskE t) (log (sh s)) -> In (Post t) (log (sh s));
  i_sole : forall i p t2, nth_error (pcs s) i = Some p -> sole p = Some t2 -> forall t1 w w2, before (Ret t1 w) (Inv t2 w2) (log (sh s)) -> In (TaskB t1) (log (sh s));
  i_queue : forall t1 w t2 w2, before (Ret t1 w) (Inv t2 w2) (log (sh s)) -> forall q1 q2, tasks (sh s) = q1 ++ t2 :: q2 -> In (TaskB t1) (log (sh s)) \/ In t1 q1;
  i_order : forall t1 w t2 w2, before (Ret t1 w) (Inv t2 w2) (log (sh s)) -> In (TaskB t2) (log (sh s)) -> before (TaskB t1) (TaskB t2) (log (sh s))
}.

Lemma inv_new n : inv (loop_new n).
Proof.
  assert (Z : forall (f : pc -> Z), f Idle = 0 -> sumf f (repeat Idle (S n)) = 0).
  { intros f Hf. apply sumf_zero. apply Forall_forall. intros x Hx. apply repeat_spec in Hx. subst. exact Hf. }
  assert (N : forall i p, nth_error (pcs (loop_new n)) i = Some p -> p = Idle).
  { intros i p H. cbn [pcs loop_new] in H. apply nth_error_In in H. apply repeat_spec in H. exact H. }
  assert (B : forall a b, ~ before a b []).
  { intros a b (x & y & z & H). destruct x; discriminate H. }
  split; cbn [loop_new sh log tws tasks queue map In pmutex smutex pcs] in *.
  all: try (intros; contradiction).
  all: try (intros; match goal with H : nth_error _ _ = Some _ |- _ => apply N in H; subst; try discriminate end; fail).
  all: try (intros; rewrite Z by reflexivity; reflexivity).
  all: try (intros; exfalso; eapply B; eassumption).
  all: try (intros t; cbn; lia).
  all: try (intros i p H; rewrite (N _ _ H); split; intros X; discriminate X).
  - intros i [H|H]; discriminate H.
  - intros _. reflexivity.
Qed.

Lemma nth_upd' {A} (l : list A) i j x q : nth_error (upd l i x) j = Some q -> (j = i /\ q = x) \/ (j <> i /\ nth_error l j = Some q).
Proof.
  rewrite nth_upd. destruct (Nat.eqb_spec i j); [|right; auto]. subst j. destruct (nth_error l i); [|discriminate]. intros H. left. split; congruence.
Qed.

Section Step.
Variables (c : config) (i : nat) (b : bool) (s s' : shared) (ps : list pc) (p p' : pc).
Hypothesis I : inv (mkSt s ps).
Hypothesis Hp : nth_error ps i = Some p.
Hypothesis Hs : pstep c i b s p = Some (s', p').

Lemma st_mutex : forall j q, nth_error (upd ps i p') j = Some q ->
  (holdP q = true <-> pmutex s' = Some j) /\ (holdS q = true <-> smutex s' = Some j).
Proof.
  destruct I as [PM SM LT _ _ _ _ _ _ _ _ _ _ _ _ _ _ _ _ _ _ _ _ _ _ _]. cbn [sh pcs] in *.
  intros j q Hq. pose proof (pstep_pm _ _ _ _ _ _ _ Hs) as P1. pose proof (pstep_sm _ _ _ _ _ _ _ Hs) as P2.
  pose proof (PM _ _ Hp) as A1. pose proof (SM _ _ Hp) as A2.
  apply nth_upd' in Hq. destruct Hq as [[-> ->]|[Nj Hq]].
  - split.
    + destruct P1 as [[-> ->]|[(E & -> & _ & ->)|(-> & E1 & ->)]]; [exact A1|split; reflexivity|split; discriminate].
    + destruct P2 as [[-> ->]|[(E & -> & _ & ->)|(-> & E1 & ->)]]; [exact A2|split; reflexivity|split; discriminate].
  - pose proof (PM _ _ Hq) as B1. pose proof (SM _ _ Hq) as B2. split.
    + destruct P1 as [[-> _]|[(E & -> & _ & _)|(-> & E1 & _)]]; [exact B1| |].
      * rewrite E in B1. rewrite B1. split; [discriminate|congruence].
      * rewrite B1. apply A1 in E1. rewrite E1. split; congruence.
    + destruct P2 as [[-> _]|[(E & -> & _ & _)|(-> & E1 & _)]]; [exact B2| |].
      * rewrite E in B2. rewrite B2. split; [discriminate|congruence].
      * rewrite B2. apply A2 in E1. rewrite E1. split; congruence.
Qed.
Lemma st_lt : forall j, pmutex s' = Some j \/ smutex s' = Some j -> (j < length (upd ps i p'))%nat.
Proof.
  destruct I as [PM SM LT _ _ _ _ _ _ _ _ _ _ _ _ _ _ _ _ _ _ _ _ _ _ _]. cbn [sh pcs] in *.
  intros j. rewrite length_upd. assert (i < length ps)%nat by (apply nth_error_Some; congruence).
  destruct (pstep_pm _ _ _ _ _ _ _ Hs) as [[-> _]|[(_ & -> & _ & _)|(-> & _ & _)]];
  destruct (pstep_sm _ _ _ _ _ _ _ Hs) as [[-> _]|[(_ & -> & _ & _)|(-> & _ & _)]]; intros [E|E]; try discriminate E; try (apply LT; auto; fail);
    assert (j = i) by congruence; subst; assumption.
Qed.
Lemma st_act : (pmutex s' = None -> activity_after (log s') = Some Free) /\
  (forall j q, nth_error (upd ps i p') j = Some q -> holdP q = true -> activity_after (log s') = Some (busy q)).
Proof.
  pose proof st_mutex as SMX.
  destruct I as [PM SM LT FR ACT _ _ _ _ _ _ _ _ _ _ _ _ _ _ _ _ _ _ _ _ _]. cbn [sh pcs] in *.
  destruct (pstep_log _ _ _ _ _ _ _ Hs) as (l & El & Ha). pose proof (pstep_pm _ _ _ _ _ _ _ Hs) as P1. pose proof (PM _ _ Hp) as A1.
  assert (X : forall a, activity_after (log s) = Some a -> activity_after (log s') = fold_left next_activity l (Some a)).
  { intros a E. unfold activity_after in *. rewrite El, fold_left_app, E. reflexivity. }
  destruct (holdP p) eqn:Hh.
  - (* the step is made by the owner *)
    assert (E0 : activity_after (log s) = Some (busy p)) by (apply (ACT _ _ Hp Hh)).
    pose proof (X _ E0) as E1. rewrite (Ha (busy p)) in E1; [|reflexivity|discriminate]. split.
    + intros N. destruct (holdP p') eqn:Hh'; [|exact E1].
      assert (Hi : nth_error (upd ps i p') i = Some p') by (apply nth_error_upd_eq; apply nth_error_Some; congruence).
      apply SMX in Hi. destruct Hi as [Hi _]. apply Hi in Hh'. congruence.
    + intros j q Hq Hhq. pose proof (proj1 (proj1 (SMX _ _ Hq)) Hhq) as Ej.
      assert (pmutex s = Some i) by (apply A1; reflexivity).
      destruct P1 as [[P1 P2]|[(E & _)|(E & _ & _)]]; [|congruence|congruence].
      assert (j = i) by congruence. subst j. rewrite nth_error_upd_eq in Hq by (apply nth_error_Some; congruence).
      assert (q = p') by congruence. subst q. rewrite Hhq in E1. exact E1.
  - destruct (holdP p') eqn:Hh'.
    + destruct P1 as [[P1 P2]|[(E & P1 & _)|(E & P1 & _)]]; [congruence| |discriminate].
      pose proof (X _ (FR E)) as E1. rewrite (Ha Free) in E1; [|discriminate|reflexivity]. split; [intros N; congruence|].
      intros j q Hq Hhq. pose proof (proj1 (proj1 (SMX _ _ Hq)) Hhq) as Ej. assert (j = i) by congruence. subst j.
      rewrite nth_error_upd_eq in Hq by (apply nth_error_Some; congruence). assert (q = p') by congruence. subst q. exact E1.
    + assert (PE : pmutex s' = pmutex s) by (destruct P1 as [[P1 P2]|[(E & P1 & _ & P3)|(E & P1 & _)]]; congruence).
      assert (E1 : forall a, activity_after (log s) = Some a -> activity_after (log s') = Some a).
      { intros a E. rewrite (X _ E). apply Ha; discriminate. }
      split; [intros N; apply E1, FR; congruence|].
      intros j q Hq Hhq. apply E1. apply nth_upd' in Hq. destruct Hq as [[-> ->]|[Nj Hq]]; [congruence|]. apply (ACT _ _ Hq Hhq).
Qed.
Lemma st_counts :
  (forall t, sumf (own t) (upd ps i p') + qcnt t (queue s') + ev (TaskB t) (log s') = evi t (log s')) /\
  (forall t, evi t (log s') <= 1) /\
  (forall t, sumf (cl t) (upd ps i p') + rets t (log s') = evi t (log s')) /\
  (forall t, sumf (runs t) (upd ps i p') + ev (TaskE t) (log s') = ev (TaskB t) (log s')) /\
  pend s' = sumf weight (upd ps i p') + Z.of_nat (length (queue s')) /\
  frames s' = sumf fweight (upd ps i p').
Proof.
  pose proof (i_cnt _ I) as A1. pose proof (i_one _ I) as A2. pose proof (i_cl _ I) as A3. pose proof (i_run _ I) as A4. pose proof (i_pend _ I) as A5. pose proof (i_frames _ I) as A6.
  cbn [sh pcs] in *.
  split; [|split; [|split; [|split; [|split]]]]; try intros t; rewrite ?(sumf_upd _ _ ps i p p' Hp).
  - pose proof (pstep_cnt _ _ _ _ _ _ _ t Hs) as [B1 B2]. specialize (A1 t). lia.
  - pose proof (pstep_cnt _ _ _ _ _ _ _ t Hs) as [B1 B2]. specialize (A2 t). lia.
  - pose proof (pstep_cnt _ _ _ _ _ _ _ t Hs) as [_ B2]. pose proof (pstep_cl _ _ _ _ _ _ _ t Hs). specialize (A3 t). lia.
  - pose proof (pstep_runs _ _ _ _ _ _ _ t Hs). specialize (A4 t). lia.
  - pose proof (pstep_pend _ _ _ _ _ _ _ Hs). lia.
  - pose proof (pstep_frames _ _ _ _ _ _ _ Hs). lia.
Qed.

Lemma eff_log : exists l, log s' = log s ++ l /\ (forall t w, ~ In (Inv t w) l).
Proof.
  destruct (pstep_effect _ _ _ _ _ _ _ Hs) as [l E [->|[->|[ok ->]]] _ _ _ _|t w a _ _ E _|k t w _ _ _ _ E _|t w _ _ E _|k t w _ _ E _|t w st _ _ _ E _].
  - exists []. split; [exact E|intros t w []].
  - eexists. split; [exact E|]. intros t w [X|[]]; discriminate X.
  - eexists. split; [exact E|]. intros t w [X|[]]; discriminate X.
  - exists []. split; [rewrite app_nil_r; exact E|intros ? ? []].
  - eexists. split; [exact E|]. intros ? ? [X|[]]; discriminate X.
  - eexists. split; [exact E|]. intros ? ? [X|[]]; discriminate X.
  - eexists. split; [exact E|]. intros ? ? [X|X]; [discriminate X|]. unfold notify in X. destruct w, k; cbn in X; intuition discriminate.
  - eexists. split; [exact E|]. intros ? ? [X|[]]; discriminate X.
Qed.
Lemma log_mono e : In e (log s) -> In e (log s').
Proof. destruct eff_log as (l & -> & _). intros H. apply in_or_app. left. exact H. Qed.
Lemma before_back t1 w t2 w2 : before (Ret t1 w) (Inv t2 w2) (log s') -> before (Ret t1 w) (Inv t2 w2) (log s).
Proof. destruct eff_log as (l & -> & N). apply before_old. apply N. Qed.
Lemma handed_mono t : handed s t -> handed s' t.
Proof.
  unfold handed. intros [H|H]; [|right; apply log_mono; exact H].
  fold (tasks s) in H. fold (tasks s'). rewrite tws_tasks in *.
  destruct (pstep_effect _ _ _ _ _ _ _ Hs) as [l E _ Q _ _ _|u w a _ _ _ Q|k u w _ _ _ _ E Q|u w _ _ _ Q|k u w _ _ _ Q|u w st _ _ _ _ Q];
   try (left; rewrite Q; exact H).
  - left. rewrite Q, map_app. apply in_or_app. left. exact H.
  - rewrite Q in H. destruct H as [H|H]; [|left; exact H]. cbn [fst] in H. subst u. right. rewrite E. apply in_or_app. right. left. reflexivity.
Qed.
End Step.

Lemma one_client s ps t i p j q : inv (mkSt s ps) -> nth_error ps i = Some p -> nth_error ps j = Some q ->
  1 <= cl t p -> 1 <= cl t q -> i = j.
Proof.
  intros I Hi Hj Ci Cj. destruct (Nat.eq_dec i j) as [|N]; [assumption|exfalso].
  pose proof (i_cl _ I t) as A. pose proof (i_one _ I t) as B. cbn [sh pcs] in *.
  assert (2 <= sumf (cl t) ps).
  { pose proof (sumf_upd _ (cl t) ps i p Idle Hi) as U. assert (Hj' : nth_error (upd ps i Idle) j = Some q) by (rewrite nth_error_upd_neq by congruence; exact Hj).
    pose proof (sumf_ge _ (cl t) _ _ _ (cl_range t) Hj'). change (cl t Idle) with 0 in U. lia. }
  assert (0 <= rets t (log s)) by (unfold rets; pose proof (ev_nonneg (Ret t true) (log s)); pose proof (ev_nonneg (Ret t false) (log s)); lia). lia.
Qed.
Lemma cl_of p t w st : client p = Some (t, w, st) -> cl t p = 1.
Proof. unfold cl. intros ->. unfold b2z. rewrite Nat.eqb_refl. reflexivity. Qed.
Lemma own_of p t w : client p = Some (t, w, Own) -> own t p = 1.
Proof. destruct p; cbn; try discriminate; try (destruct k; discriminate); try (destruct r; try discriminate); try (destruct p; discriminate);
  intros H; assert (t0 = t) by congruence; subst; unfold b2z; rewrite Nat.eqb_refl; reflexivity. Qed.
Lemma inv_both s ps t : inv (mkSt s ps) -> In (Inv t true) (log s) -> In (Inv t false) (log s) -> False.
Proof. intros I A B. apply ev_in in A. apply ev_in in B. pose proof (i_one _ I t) as O. cbn [sh] in O. unfold evi in O. lia. Qed.

Section Step2.
Variables (c : config) (i : nat) (b : bool) (s s' : shared) (ps : list pc) (p p' : pc).
Hypothesis I : inv (mkSt s ps).
Hypothesis Hp : nth_error ps i = Some p.
Hypothesis Hs : pstep c i b s p = Some (s', p').
Let LM := log_mono c i b s s' p p' Hs.
Let HM := handed_mono c i b s s' p p' Hs.
Let BB := before_back c i b s s' p p' Hs.

Lemma st_handed : forall j q t w st, nth_error (upd ps i p') j = Some q -> client q = Some (t, w, st) -> st <> Own -> handed s' t.
Proof.
  intros j q t w st Hq Hc Ho. apply nth_upd' in Hq. destruct Hq as [[-> ->]|[Nj Hq]].
  2:{ apply HM. apply (i_handed _ I _ _ _ _ _ Hq Hc Ho). }
  destruct (pstep_effect _ _ _ _ _ _ _ Hs) as [l E _ Q C _ _ _|u v a E1 E2 E Q|k u v _ E1 NK _ E Q|u v E1 E2 E Q|k u v E1 E2 E Q|u v st' _ _ E1 E Q].
  - rewrite C in Hc. apply HM. apply (i_handed _ I _ _ _ _ _ Hp Hc Ho).
  - subst p'. cbn in Hc. assert (u = t) by congruence. subst u. left. fold (tasks s'). rewrite tws_tasks, Q, map_app. apply in_or_app. right. left. reflexivity.
  - subst p'. destruct k; cbn in Hc; try discriminate. congruence.
  - subst p'. cbn in Hc. assert (u = t) by congruence. subst u. right. rewrite E. apply in_or_app. right. left. reflexivity.
  - subst p p'. destruct k; cbn in Hc; try discriminate. assert (u = t) by congruence. subst u. apply HM.
    apply (i_handed _ I _ _ t v InPlace Hp eq_refl). discriminate.
  - subst p'. discriminate Hc.
Qed.
Lemma st_done : forall j q t w, nth_error (upd ps i p') j = Some q -> client q = Some (t, w, Done) -> In (TaskE t) (log s').
Proof.
  intros j q t w Hq Hc. apply nth_upd' in Hq. destruct Hq as [[-> ->]|[Nj Hq]].
  2:{ apply LM. apply (i_done _ I _ _ _ _ Hq Hc). }
  destruct (pstep_effect _ _ _ _ _ _ _ Hs) as [l E _ Q C _ _ _|u v a E1 E2 E Q|k u v _ E1 NK _ E Q|u v E1 E2 E Q|k u v E1 E2 E Q|u v st' _ _ E1 E Q].
  - rewrite C in Hc. apply LM. apply (i_done _ I _ _ _ _ Hp Hc).
  - subst p'. discriminate Hc.
  - subst p'. destruct k; discriminate Hc.
  - subst p'. discriminate Hc.
  - subst p'. destruct k; cbn in Hc; try discriminate. assert (u = t) by congruence. subst u. rewrite E. apply in_or_app. right. left. reflexivity.
  - subst p'. discriminate Hc.
Qed.
Lemma st_ret : (forall t w, In (Ret t w) (log s') -> handed s' t) /\ (forall t, In (Ret t true) (log s') -> In (TaskE t) (log s')).
Proof.
  assert (X : forall t w, In (Ret t w) (log s') -> In (Ret t w) (log s) \/ exists st, client p = Some (t, w, st) /\ (st = Done \/ (st = Queued /\ (w = true -> In (Post t) (log s))))).
  { intros t w H. destruct (pstep_effect _ _ _ _ _ _ _ Hs) as [l E L Q C _ _ _|u v a E1 E2 E Q|k u v _ E1 NK _ E Q|u v E1 E2 E Q|k u v E1 E2 E Q|u v st' C C2 E1 E Q];
     rewrite E in H; try (apply in_app_or in H; destruct H as [H|H]); auto.
    - destruct L as [->|[->|[ok ->]]]; cbn in H; intuition discriminate.
    - cbn in H; intuition discriminate.
    - cbn in H; intuition discriminate.
    - unfold notify in H. destruct v, k; cbn in H; intuition discriminate.
    - destruct H as [H|[]]. assert (u = t) by congruence. assert (v = w) by congruence. subst. right. exists st'. auto. }
  split.
  - intros t w H. apply X in H. destruct H as [H|(st & C & D)]; [apply HM, (i_ret _ I _ _ H)|].
    apply HM. apply (i_handed _ I _ _ _ _ _ Hp C). destruct D as [->|[-> _]]; discriminate.
  - intros t H. apply LM. apply X in H. destruct H as [H|(st & C & D)]; [apply (i_wret _ I _ H)|].
    destruct D as [->|[-> D]]; [apply (i_done _ I _ _ _ _ Hp C)|]. apply (i_post _ I). apply D. reflexivity.
Qed.
Lemma st_post : forall t, In (Post t) (log s') -> In (TaskE t) (log s').
Proof.
  intros t H. destruct (pstep_effect _ _ _ _ _ _ _ Hs) as [l E L Q C _ _ _|u v a E1 E2 E Q|k u v _ E1 NK _ E Q|u v E1 E2 E Q|k u v E1 E2 E Q|u v st' C C2 E1 E Q];
     rewrite E in H; try (apply in_app_or in H; destruct H as [H|H]); try (apply LM, (i_post _ I _ H)).
  - destruct L as [->|[->|[ok ->]]]; cbn in H; intuition discriminate.
  - cbn in H; intuition discriminate.
  - cbn in H; intuition discriminate.
  - rewrite E. apply in_or_app. right. destruct H as [H|H]; [discriminate|]. unfold notify in H. destruct v, k; cbn in H; try (intuition discriminate); destruct H as [H|[]]; left; congruence.
  - cbn in H; intuition discriminate.
Qed.
Lemma st_tw : forall j q t w st, nth_error (upd ps i p') j = Some q -> client q = Some (t, w, st) -> In (Inv t w) (log s').
Proof.
  intros j q t w st Hq Hc. apply LM. apply nth_upd' in Hq. destruct Hq as [[-> ->]|[Nj Hq]]; [|apply (i_tw _ I _ _ _ _ _ Hq Hc)].
  destruct (pstep_effect _ _ _ _ _ _ _ Hs) as [l E _ Q C _ _ _|u v a E1 E2 E Q|k u v _ E1 NK _ E Q|u v E1 E2 E Q|k u v E1 E2 E Q|u v st' _ _ E1 E Q].
  - rewrite C in Hc. apply (i_tw _ I _ _ _ _ _ Hp Hc).
  - subst p p'. cbn in Hc. assert (u = t) by congruence. assert (v = w) by congruence. subst. apply (i_tw _ I _ _ t w Own Hp). reflexivity.
  - subst p'. destruct k; cbn in Hc; try discriminate. congruence.
  - subst p p'. cbn in Hc. assert (u = t) by congruence. assert (v = w) by congruence. subst. apply (i_tw _ I _ _ t w Own Hp). reflexivity.
  - subst p p'. destruct k; cbn in Hc; try discriminate. assert (u = t) by congruence. assert (v = w) by congruence. subst. apply (i_tw _ I _ _ t w InPlace Hp). reflexivity.
  - subst p'. discriminate Hc.
Qed.
Lemma st_rw : forall j k t w, nth_error (upd ps i p') j = Some (ERun k t w) -> In (Inv t w) (log s').
Proof.
  intros j k0 t w Hq. apply LM. apply nth_upd' in Hq. destruct Hq as [[-> Hq]|[Nj Hq]]; [|apply (i_rw _ I _ _ _ _ Hq)].
  destruct (pstep_effect _ _ _ _ _ _ _ Hs) as [l E _ Q C _ N2 _|u v a E1 E2 E Q|k u v _ E1 NK _ E Q|u v E1 E2 E Q|k u v E1 E2 E Q|u v st' _ _ E1 E Q]; subst; try discriminate.
  - exfalso. eapply N2. reflexivity.
  - assert (u = t) by congruence. assert (v = w) by congruence. subst. apply (i_qw _ I). cbn [sh]. rewrite Q. left. reflexivity.
  - assert (u = t) by congruence. assert (v = w) by congruence. subst. apply (i_tw _ I _ _ t w Own Hp). reflexivity.
Qed.
Lemma st_qw : forall t w, In (t, w) (tws s') -> In (Inv t w) (log s').
Proof.
  intros t w H. apply LM.
  destruct (pstep_effect _ _ _ _ _ _ _ Hs) as [l E _ Q C _ N2 _|u v a E1 E2 E Q|k u v _ E1 NK _ E Q|u v E1 E2 E Q|k u v E1 E2 E Q|u v st' _ _ E1 E Q];
    try (rewrite Q in H; apply (i_qw _ I _ _ H)).
  - rewrite Q in H. apply in_app_or in H. destruct H as [H|[H|[]]]; [apply (i_qw _ I _ _ H)|]. assert (u = t) by congruence. assert (v = w) by congruence. subst.
    apply (i_tw _ I _ _ t w Own Hp). reflexivity.
  - apply (i_qw _ I). cbn [sh]. rewrite Q. right. exact H.
Qed.
Lemma st_compl : (forall t, ev (Compl t) (log s') <= ev (TaskE t) (log s')) /\
  (forall t, In (Inv t false) (log s') -> ev (Compl t) (log s') = ev (TaskE t) (log s')) /\
  (forall t, In (Inv t true) (log s') -> ev (Compl t) (log s') = 0).
Proof.
  assert (IB : forall t w, In (Inv t w) (log s') -> In (Inv t w) (log s)).
  { intros t w. destruct (eff_log _ _ _ _ _ _ _ Hs) as (l & -> & N). intros H. apply in_app_or in H. destruct H as [H|H]; [exact H|]. exfalso. apply (N _ _ H). }
  assert (X : (forall t, ev (Compl t) (log s') = ev (Compl t) (log s) /\ ev (TaskE t) (log s') = ev (TaskE t) (log s)) \/
     exists k u w, p = ERun k u w /\ log s' = log s ++ TaskE u :: notify k u w).
  { destruct (pstep_effect _ _ _ _ _ _ _ Hs) as [l E L Q C _ N2 _|u v a E1 E2 E Q|k u v _ E1 NK _ E Q|u v E1 E2 E Q|k u v E1 E2 E Q|u v st' _ _ E1 E Q];
     try (left; intros t; rewrite E; evs; split; decs; try discriminate; lia).
    - left. intros t. rewrite E. destruct L as [->|[->|[ok ->]]]; evs; split; decs; try discriminate; lia.
    - right. exists k, u, v. split; assumption. }
  destruct X as [X|(k & u & w & Ep & El)].
  - split; [|split]; intros t; destruct (X t) as [E1 E2]; rewrite ?E1, ?E2; [apply (i_compl0 _ I)|intros H; apply (i_compl1 _ I); apply IB; exact H|intros H; apply (i_compl2 _ I); apply IB; exact H].
  - subst p. pose proof (i_rw _ I _ _ _ _ Hp) as IU. cbn [sh] in IU.
    assert (Y : forall t, ev (Compl t) (log s') = ev (Compl t) (log s) + (if w then 0 else if Nat.eq_dec u t then 1 else 0) /\
                          ev (TaskE t) (log s') = ev (TaskE t) (log s) + (if Nat.eq_dec u t then 1 else 0)).
    { intros t. rewrite El. evs. unfold notify. destruct w, k; evs; decs; destruct (Nat.eq_dec u t); try congruence; split; lia. }
    split; [|split]; intros t; destruct (Y t) as [E1 E2]; rewrite ?E1, ?E2.
    + pose proof (i_compl0 _ I t) as O. cbn [sh] in O. destruct w, (Nat.eq_dec u t); lia.
    + intros H. apply IB in H. pose proof (i_compl1 _ I t H) as O. cbn [sh] in O. destruct w; [|lia]. destruct (Nat.eq_dec u t) as [->|]; [|lia].
      exfalso. eapply inv_both; eassumption.
    + intros H. apply IB in H. pose proof (i_compl2 _ I t H) as O. cbn [sh] in O. destruct w; [lia|]. destruct (Nat.eq_dec u t) as [->|]; [|lia].
      exfalso. eapply inv_both; eassumption.
Qed.
Lemma st_waiter : forall j q t, nth_error (upd ps i p') j = Some q -> client q = Some (t, true, Queued) -> In (TaskE t) (log s') -> In (Post t) (log s').
Proof.
  intros j q t Hq Hc He.
  assert (X : In (TaskE t) (log s) \/ exists k w, p = ERun k t w /\ log s' = log s ++ TaskE t :: notify k t w).
  { destruct (pstep_effect _ _ _ _ _ _ _ Hs) as [l E L Q C _ N2 _|u v a E1 E2 E Q|k u v _ E1 NK _ E Q|u v E1 E2 E Q|k u v E1 E2 E Q|u v st' _ _ E1 E Q];
     rewrite E in He; try (apply in_app_or in He; destruct He as [He|He]); auto; try (cbn in He; intuition discriminate).
    - destruct L as [->|[->|[ok ->]]]; cbn in He; intuition discriminate.
    - destruct He as [He|He]; [|unfold notify in He; destruct v, k; cbn in He; intuition discriminate].
      assert (u = t) by congruence. subst u. right. exists k, v. split; assumption. }
  apply nth_upd' in Hq. destruct Hq as [[-> ->]|[Nj Hq]].
  - destruct X as [X|(k & w & Ep & El)].
    + destruct (pstep_effect _ _ _ _ _ _ _ Hs) as [l E L Q C _ N2 _|u v a E1 E2 E Q|k u v _ E1 NK _ E Q|u v E1 E2 E Q|k u v E1 E2 E Q|u v st' _ _ E1 E Q]; subst; try discriminate Hc.
      * apply LM. apply (i_waiter _ I _ _ _ Hp); [congruence|exact X].
      * exfalso. cbn in Hc. assert (u = t) by congruence. subst u. pose proof (i_cnt _ I t) as A. pose proof (i_one _ I t) as B. pose proof (i_run _ I t) as R. cbn [sh pcs] in *.
        apply ev_in in X. pose proof (sumf_ge _ (own t) _ _ _ (own_range t) Hp) as O. cbn [own] in O. unfold b2z in O. rewrite Nat.eqb_refl in O.
        pose proof (qcnt_nonneg t (queue s)). pose proof (sumf_nonneg _ (runs t) ps (runs_range t)). lia.
      * destruct k; discriminate Hc.
      * destruct k; discriminate Hc.
    + subst p. exfalso. destruct (pstep_effect _ _ _ _ _ _ _ Hs) as [l E L Q C N1 N2 _|u v a E1 E2 E Q|k' u v _ E1 NK _ E Q|u v E1 E2 E Q|k' u v E1 E2 E Q|u v st' _ _ E1 E Q]; subst; try discriminate Hc; try congruence; destruct k'; discriminate Hc.
  - destruct X as [X|(k & w & Ep & El)].
    + apply LM. apply (i_waiter _ I _ _ _ Hq Hc X).
    + subst p. pose proof (i_rw _ I _ _ _ _ Hp) as IU. pose proof (i_tw _ I _ _ _ _ _ Hq Hc) as IQ. cbn [sh] in *.
      destruct w; [|exfalso; eapply inv_both; eassumption].
      rewrite El. apply in_or_app. right. right. unfold notify. destruct k; [|left; reflexivity|left; reflexivity].
      exfalso. apply Nj. eapply (one_client _ _ t _ _ _ _ I Hq Hp); [rewrite (cl_of _ _ _ _ Hc); lia|]. unfold cl, b2z. cbn. rewrite Nat.eqb_refl. lia.
Qed.
Lemma st_order :
  (forall j q t2, nth_error (upd ps i p') j = Some q -> sole q = Some t2 -> forall t1 w w2, before (Ret t1 w) (Inv t2 w2) (log s') -> In (TaskB t1) (log s')) /\
  (forall t1 w t2 w2, before (Ret t1 w) (Inv t2 w2) (log s') -> forall q1 q2, tasks s' = q1 ++ t2 :: q2 -> In (TaskB t1) (log s') \/ In t1 q1) /\
  (forall t1 w t2 w2, before (Ret t1 w) (Inv t2 w2) (log s') -> In (TaskB t2) (log s') -> before (TaskB t1) (TaskB t2) (log s')).
Proof.
  split; [|split].
  - intros j q t2 Hq Hso t1 w w2 B. apply BB in B. apply LM. apply nth_upd' in Hq. destruct Hq as [[-> ->]|[Nj Hq]]; [|apply (i_sole _ I _ _ _ Hq Hso _ _ _ B)].
    destruct (pstep_effect _ _ _ _ _ _ _ Hs) as [l E L Q C _ N2 S|u v a E1 E2 E Q|k u v _ E1 NK _ E Q|u v E1 E2 E Q|k u v E1 E2 E Q|u v st' _ _ E1 E Q]; subst; try discriminate Hso.
    destruct (S _ Hso) as [S'|[_ P0]]; [apply (i_sole _ I _ _ _ Hp S' _ _ _ B)|].
    pose proof (i_pend _ I) as A. cbn [sh pcs] in A. pose proof (sumf_nonneg _ weight ps weight_range).
    assert (Q0 : queue s = []) by (destruct (queue s); [reflexivity|cbn [length] in A; lia]).
    apply before_in in B. destruct B as [B _]. apply (i_ret _ I) in B. destruct B as [B|B]; [|exact B]. cbn [sh] in B. rewrite Q0 in B. destruct B.
  - intros t1 w t2 w2 B q1 q2 ET. apply BB in B. rewrite tws_tasks in ET.
    destruct (pstep_effect _ _ _ _ _ _ _ Hs) as [l E L Q C _ N2 S|u v a E1 E2 E Q|k u v _ E1 NK _ E Q|u v E1 E2 E Q|k u v E1 E2 E Q|u v st' _ _ E1 E Q];
     try (rewrite Q, <- tws_tasks in ET; destruct (i_queue _ I _ _ _ _ B _ _ ET) as [X|X]; [left; apply LM; exact X|right; exact X]).
    + rewrite Q, map_app, <- tws_tasks in ET. cbn [map fst] in ET.
      destruct (@exists_last _ (t2 :: q2) ltac:(discriminate)) as (z & e & Ez). rewrite Ez, app_assoc in ET. apply app_inj_tail in ET. destruct ET as [ET ->].
      destruct z as [|t2' z].
      * rewrite app_nil_r in ET. subst q1. apply before_in in B. destruct B as [B _]. apply (i_ret _ I) in B. destruct B as [B|B]; [right; exact B|left; apply LM; exact B].
      * cbn in Ez. assert (t2' = t2) by congruence. subst t2'. destruct (i_queue _ I _ _ _ _ B _ _ ET) as [X|X]; [left; apply LM; exact X|right; exact X].
    + assert (ET' : tasks s = (u :: q1) ++ t2 :: q2) by (rewrite tws_tasks, Q; cbn [map fst app]; rewrite ET; reflexivity).
      destruct (i_queue _ I _ _ _ _ B _ _ ET') as [X|[X|X]]; [left; apply LM; exact X| |right; exact X]. subst u.
      left. rewrite E. apply in_or_app. right. left. reflexivity.
  - intros t1 w t2 w2 B H. apply BB in B.
    assert (X : (In (TaskB t2) (log s)) \/ (log s' = log s ++ [TaskB t2] /\ In (TaskB t1) (log s))).
    { destruct (pstep_effect _ _ _ _ _ _ _ Hs) as [l E L Q C _ N2 S|u v a E1 E2 E Q|k u v _ E1 NK _ E Q|u v E1 E2 E Q|k u v E1 E2 E Q|u v st' _ _ E1 E Q];
       rewrite E in H; try (apply in_app_or in H; destruct H as [H|H]); auto; try (cbn in H; intuition discriminate).
      - destruct L as [->|[->|[ok ->]]]; cbn in H; intuition discriminate.
      - destruct H as [H|[]]. assert (u = t2) by congruence. subst u. right. split; [exact E|].
        destruct (i_queue _ I _ _ _ _ B [] (tasks s')) as [X|[]]; [|exact X]. cbn [sh]. rewrite !tws_tasks, Q. reflexivity.
      - destruct H as [H|[]]. assert (u = t2) by congruence. subst u. right. split; [exact E|]. subst p. apply (i_sole _ I _ _ t2 Hp eq_refl _ _ _ B).
      - destruct H as [H|H]; [discriminate|]. unfold notify in H. destruct v, k; cbn in H; intuition discriminate. }
    destruct X as [X|[E X]].
    + destruct (eff_log _ _ _ _ _ _ _ Hs) as (l & -> & _). apply before_app. apply (i_order _ I _ _ _ _ B X).
    + rewrite E. apply before_last. exact X.
Qed.
Lemma pstep_inv : inv (mkSt s' (upd ps i p')).
Proof.
  pose proof (st_mutex _ _ _ _ _ _ _ _ I Hp Hs) as A1. pose proof (st_lt _ _ _ _ _ _ _ _ I Hp Hs) as A2. destruct (st_act _ _ _ _ _ _ _ _ I Hp Hs) as [A3 A4].
  destruct (st_counts _ _ _ _ _ _ _ _ I Hp Hs) as (A5 & A6 & A7 & A8 & A9 & A10). destruct st_ret as [B1 B2]. destruct st_compl as (B3 & B4 & B5). destruct st_order as (B6 & B7 & B8).
  split; cbn [sh pcs]; try assumption.
  - intros j q H. apply (A1 j q H).
  - intros j q H. apply (A1 j q H).
  - exact st_handed.
  - exact st_done.
  - exact st_post.
  - exact st_tw.
  - exact st_rw.
  - exact st_qw.
  - exact st_waiter.
Qed.
End Step2.

Lemma start_inv s ps i p' a : inv (mkSt s ps) -> nth_error ps i = Some Idle -> p' = BLoad1 \/ (exists d, p' = FInc d) ->
  inv (mkSt (set_armed s a) (upd ps i p')).
Proof.
  intros I Hi Hp.
  assert (F : holdP p' = false /\ holdS p' = false /\ client p' = None /\ sole p' = None /\ weight p' = 0 /\ fweight p' = 0 /\ (forall t, own t p' = 0) /\ (forall t, runs t p' = 0) /\ (forall t, cl t p' = 0) /\ forall k t w, p' <> ERun k t w).
  { destruct Hp as [->|(d & ->)]; repeat split; discriminate. }
  destruct F as (F1 & F2 & F3 & F4 & F5 & F6 & F7 & F8 & F9 & F10).
  destruct I as [PM SM LT FR ACT CNT ONE CL RUN PEND FRM HND DON RET WRET POST TW RW QW C0 C1 C2 WT SO QU OR]. cbn [sh pcs] in *.
  split; cbn [sh pcs set_armed pend frames pstate pmutex smutex ver queue armed samples enough log]; try assumption;
    try (intros; rewrite (sumf_upd _ _ ps i Idle p' Hi), ?F7, ?F8, ?F9; cbn [own cl client runs]; match goal with |- context [sumf ?f ps] => idtac end; try (pose proof (CNT t); lia); try (pose proof (CL t); change (cl t Idle) with 0; lia); pose proof (RUN t); lia).
  - intros j q H. apply nth_upd' in H. destruct H as [[-> ->]|[N H]]; [|apply (PM _ _ H)]. rewrite F1. rewrite <- (PM _ _ Hi). reflexivity.
  - intros j q H. apply nth_upd' in H. destruct H as [[-> ->]|[N H]]; [|apply (SM _ _ H)]. rewrite F2. rewrite <- (SM _ _ Hi). reflexivity.
  - intros j H. rewrite length_upd. apply LT. exact H.
  - intros j q H Hq. apply nth_upd' in H. destruct H as [[-> ->]|[N H]]; [congruence|apply (ACT _ _ H Hq)].
  - rewrite (sumf_upd _ _ ps i Idle p' Hi). cbn [weight]. lia.
  - rewrite (sumf_upd _ _ ps i Idle p' Hi). cbn [fweight]. lia.
  - intros j q t w st H Hc Ho. apply nth_upd' in H. destruct H as [[-> ->]|[N H]]; [congruence|]. apply (HND _ _ _ _ _ H Hc Ho).
  - intros j q t w H Hc. apply nth_upd' in H. destruct H as [[-> ->]|[N H]]; [congruence|]. apply (DON _ _ _ _ H Hc).
  - intros j q t w st H Hc. apply nth_upd' in H. destruct H as [[-> ->]|[N H]]; [congruence|]. apply (TW _ _ _ _ _ H Hc).
  - intros j k t w H. apply nth_upd' in H. destruct H as [[-> X]|[N H]]; [exfalso; eapply F10; symmetry; exact X|]. apply (RW _ _ _ _ H).
  - intros j q t H Hc. apply nth_upd' in H. destruct H as [[-> ->]|[N H]]; [congruence|]. apply (WT _ _ _ H Hc).
  - intros j q t2 H Hc. apply nth_upd' in H. destruct H as [[-> ->]|[N H]]; [congruence|]. apply (SO _ _ _ H Hc).
Qed.

Lemma invoked_in t l : invoked t l = false <-> forall w, ~ In (Inv t w) l.
Proof.
  unfold invoked. split.
  - intros H w X. assert (existsb (fun e => match e with Inv u _ => Nat.eqb u t | _ => false end) l = true) by (apply existsb_exists; exists (Inv t w); split; [exact X|apply Nat.eqb_refl]). congruence.
  - intros H. destruct (existsb _ l) eqn:E; [|reflexivity]. apply existsb_exists in E. destruct E as (e & H1 & H2). destruct e; try discriminate. apply Nat.eqb_eq in H2. subst. exfalso. apply (H w). exact H1.
Qed.

Lemma sched_inv s ps i t w : inv (mkSt s ps) -> nth_error ps i = Some Idle -> invoked t (log s) = false ->
  inv (mkSt (add_log s [Inv t w]) (upd ps i (CInc t w))).
Proof.
  intros I Hi Hn. rewrite invoked_in in Hn.
  assert (E0 : evi t (log s) = 0).
  { unfold evi. pose proof (ev_nonneg (Inv t true) (log s)). pose proof (ev_nonneg (Inv t false) (log s)).
    destruct (Z_le_dec 1 (ev (Inv t true) (log s))) as [X|X]; [apply ev_in in X; exfalso; eapply Hn; exact X|].
    destruct (Z_le_dec 1 (ev (Inv t false) (log s))) as [Y|Y]; [apply ev_in in Y; exfalso; eapply Hn; exact Y|]. lia. }
  assert (EV : forall e, (forall u v, e <> Inv u v) -> ev e (log s ++ [Inv t w]) = ev e (log s)).
  { intros e H. evs. destruct (event_eq_dec (Inv t w) e) as [X|X]; [exfalso; eapply H; symmetry; exact X|lia]. }
  assert (EVI : forall u, evi u (log s ++ [Inv t w]) = evi u (log s) + b2z (Nat.eqb t u)).
  { intros u. unfold evi. evs. destruct w; ev_b2z. }
  assert (INN : forall e, (forall u v, e <> Inv u v) -> In e (log s ++ [Inv t w]) <-> In e (log s)).
  { intros e H. rewrite !ev_in, EV by exact H. reflexivity. }
  assert (IN1 : forall e, In e (log s) -> In e (log s ++ [Inv t w])) by (intros; apply in_or_app; left; assumption).
  pose proof (inv_both _ _ t I) as IB.
  destruct I as [PM SM LT FR ACT CNT ONE CL RUN PEND FRM HND DON RET WRET POST TW RW QW C0 C1 C2 WT SO QU OR]. cbn [sh pcs] in *.
  assert (T0 : ev (TaskB t) (log s) = 0 /\ qcnt t (queue s) = 0 /\ ev (TaskE t) (log s) = 0 /\ sumf (own t) ps = 0).
  { specialize (CNT t). specialize (RUN t). pose proof (qcnt_nonneg t (queue s)). pose proof (sumf_nonneg _ (own t) ps (own_range t)).
    pose proof (sumf_nonneg _ (runs t) ps (runs_range t)). pose proof (ev_nonneg (TaskE t) (log s)). pose proof (ev_nonneg (TaskB t) (log s)). lia. }
  destruct T0 as (T0 & T1 & T2 & T3).
  assert (BF : forall t1 w1 t2 w2, before (Ret t1 w1) (Inv t2 w2) (log s ++ [Inv t w]) -> before (Ret t1 w1) (Inv t2 w2) (log s) \/ t2 = t).
  { intros t1 w1 t2 w2 H. apply before_snoc in H. destruct H as [H|[H _]]; [left; exact H|right; congruence]. }
  split; cbn [sh pcs add_log pend frames pstate pmutex smutex ver queue armed samples enough log].
  - intros j q H. apply nth_upd' in H. destruct H as [[-> ->]|[N H]]; [|apply (PM _ _ H)]. rewrite <- (PM _ _ Hi). reflexivity.
  - intros j q H. apply nth_upd' in H. destruct H as [[-> ->]|[N H]]; [|apply (SM _ _ H)]. rewrite <- (SM _ _ Hi). reflexivity.
  - intros j H. rewrite length_upd. apply LT. exact H.
  - intros H. unfold activity_after. rewrite fold_left_app. fold (activity_after (log s)). rewrite (FR H). reflexivity.
  - intros j q H Hq. apply nth_upd' in H. destruct H as [[-> ->]|[N H]]; [discriminate Hq|].
    unfold activity_after. rewrite fold_left_app. fold (activity_after (log s)). rewrite (ACT _ _ H Hq). reflexivity.
  - intros u. rewrite (sumf_upd _ _ ps i Idle _ Hi), EVI, EV by discriminate. cbn [own]. specialize (CNT u). lia.
  - intros u. rewrite EVI. unfold b2z. destruct (Nat.eqb_spec t u) as [->|]; [lia|]. specialize (ONE u). lia.
  - intros u. rewrite (sumf_upd _ _ ps i Idle _ Hi), EVI. unfold rets. rewrite !EV by discriminate. unfold cl at 2 3. cbn [client]. specialize (CL u). unfold rets in CL. lia.
  - intros u. rewrite (sumf_upd _ _ ps i Idle _ Hi), !EV by discriminate. cbn [runs]. specialize (RUN u). lia.
  - rewrite (sumf_upd _ _ ps i Idle _ Hi). cbn [weight]. lia.
  - rewrite (sumf_upd _ _ ps i Idle _ Hi). cbn [fweight]. lia.
  - intros j q u v st H Hc Ho. apply nth_upd' in H. destruct H as [[-> ->]|[N H]]; [cbn in Hc; congruence|]. destruct (HND _ _ _ _ _ H Hc Ho) as [X|X]; [left; exact X|right; apply IN1; exact X].
  - intros j q u v H Hc. apply nth_upd' in H. destruct H as [[-> ->]|[N H]]; [cbn in Hc; congruence|]. apply IN1, (DON _ _ _ _ H Hc).
  - intros u v H. apply INN in H; [|discriminate]. destruct (RET _ _ H) as [X|X]; [left; exact X|right; apply IN1; exact X].
  - intros u H. apply INN in H; [|discriminate]. apply IN1, WRET. exact H.
  - intros u H. apply INN in H; [|discriminate]. apply IN1, POST. exact H.
  - intros j q u v st H Hc. apply nth_upd' in H. destruct H as [[-> ->]|[N H]]; [|apply IN1, (TW _ _ _ _ _ H Hc)].
    cbn in Hc. assert (t = u) by congruence. assert (w = v) by congruence. subst. apply in_or_app. right. left. reflexivity.
  - intros j k u v H. apply nth_upd' in H. destruct H as [[-> X]|[N H]]; [discriminate X|]. apply IN1, (RW _ _ _ _ H).
  - intros u v H. apply IN1, QW. exact H.
  - intros u. rewrite !EV by discriminate. apply C0.
  - intros u H. rewrite !EV by discriminate. apply in_app_or in H. destruct H as [H|[H|[]]]; [apply C1; exact H|].
    assert (u = t) by congruence. subst u. specialize (C0 t). pose proof (ev_nonneg (Compl t) (log s)). lia.
  - intros u H. rewrite !EV by discriminate. apply in_app_or in H. destruct H as [H|[H|[]]]; [apply C2; exact H|].
    assert (u = t) by congruence. subst u. specialize (C0 t). pose proof (ev_nonneg (Compl t) (log s)). lia.
  - intros j q u H Hc He. apply INN in He; [|discriminate]. apply IN1. apply nth_upd' in H. destruct H as [[-> ->]|[N H]]; [discriminate Hc|]. apply (WT _ _ _ H Hc He).
  - intros j q t2 H Hc t1 w1 w2 B. apply IN1. apply nth_upd' in H. destruct H as [[-> ->]|[N H]]; [discriminate Hc|].
    apply BF in B. destruct B as [B| ->]; [apply (SO _ _ _ H Hc _ _ _ B)|]. exfalso.
    assert (own t q = 1) by (destruct q; cbn in Hc |- *; try discriminate Hc; assert (t0 = t) by congruence; subst; unfold b2z; rewrite Nat.eqb_refl; reflexivity).
    pose proof (sumf_ge _ (own t) _ _ _ (own_range t) H). lia.
  - intros t1 w1 t2 w2 B q1 q2 Q. apply BF in B. destruct B as [B| ->].
    + destruct (QU _ _ _ _ B _ _ Q) as [X|X]; [left; apply IN1; exact X|right; exact X].
    + exfalso. assert (X : In t (map e_task (queue s))) by (change (map e_task (queue s)) with (tasks s); change (tasks s) with (tasks (add_log s [Inv t w])); rewrite Q; apply in_or_app; right; left; reflexivity).
      apply qcnt_in in X. lia.
  - intros t1 w1 t2 w2 B H. apply INN in H; [|discriminate]. apply BF in B. destruct B as [B| ->].
    + apply before_app. apply (OR _ _ _ _ B H).
    + exfalso. apply ev_in in H. lia.
Qed.

Lemma step_inv c s i a s' : inv s -> step c s i a = Some s' -> inv s'.
Proof.
  intros I H. destruct s as [s ps]. unfold step in H. cbn [pcs sh] in H. destruct (nth_error ps i) as [p|] eqn:Hp; [|discriminate].
  destruct a as [t w|d| |b].
  - destruct p; try discriminate. destruct (Nat.eqb i 0); [discriminate|]. cbn [orb] in H. destruct (invoked t (log s)) eqn:N; [discriminate|].
    injection H as <-. apply sched_inv; assumption.
  - destruct p; try discriminate. destruct (Nat.eqb i 0 || (d <? 0)); [discriminate|]. injection H as <-.
    replace s with (set_armed s (armed s)) by (destruct s; reflexivity). apply start_inv; [exact I|exact Hp|right; exists d; reflexivity].
  - destruct p; try discriminate. destruct (Nat.eqb i 0 && armed s); [|discriminate]. injection H as <-. apply start_inv; [exact I|exact Hp|left; reflexivity].
  - destruct (pstep c i b s p) as [[s1 p1]|] eqn:E; [|discriminate]. injection H as <-. eapply pstep_inv; eassumption.
Qed.
Lemma run_inv c l : forall s s', inv s -> run c s l = Some s' -> inv s'.
Proof.
  induction l as [|[i a] l IH]; intros s s' I H; cbn [run] in H; [congruence|]. destruct (step c s i a) as [s1|] eqn:E; [|discriminate].
  eapply IH; [|exact H]. eapply step_inv; eassumption.
Qed.
Lemma reach_inv c n l s : run c (loop_new n) l = Some s -> inv s.
Proof. apply run_inv. apply inv_new. Qed.
