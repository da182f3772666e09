From Coq Require Import Lia.
From Verif Require Import Base Base_lemmas PipeLoop_model PipeLoop_spec PipeLoop_proof.

Definition st2 (p : pc) : Z := match p with PStore2 _ _ _ => 1 | _ => 0 end.
Definition bgrun (p : pc) : bool :=
  match p with BAllow | BFrames | BPop | BUnlock _ | BCheck _ | BSet _ | ERun KBack _ _ | EDec KBack _ _ => true | _ => false end.

Record inv2 (s : state) : Prop := {
  v_par : Z.even (ver (sh s) - sumf st2 (pcs s)) = true;
  v_link : forall e, In e (queue (sh s)) -> e_linked e = false -> exists j w a, nth_error (pcs s) j = Some (CPush2 (e_task e) w a);
  v_run : pstate (sh s) = Running -> exists j p, nth_error (pcs s) j = Some p /\ bgrun p = true
}.

Lemma pstep_par c i b s p s' p' : pstep c i b s p = Some (s', p') -> Z.even (ver s' - st2 p') = Z.even (ver s - st2 p).
Proof.
  intros H. cases_step p H; cbs; split_pc; cbn [st2]; try reflexivity.
  - f_equal. lia.
  - replace (ver s + 1 - 0) with (ver s - 1 + 2 * 1) by lia. rewrite Z.even_add_mul_2. reflexivity.
Qed.
Lemma pstep_run c i b s p s' p' : pstep c i b s p = Some (s', p') -> 
  (pstate s' = Running -> (pstate s = Running /\ (bgrun p = true -> bgrun p' = true)) \/ bgrun p' = true).
Proof.
  intros H. cases_step p H; cbs; split_pc; cbn [bgrun]; intros E; try discriminate E; try (left; split; [exact E|auto]; fail); right; reflexivity.
Qed.
Lemma pstep_link c i b s p s' p' e : pstep c i b s p = Some (s', p') -> In e (queue s') -> e_linked e = false ->
  (In e (queue s) /\ (forall w a, p <> CPush2 (e_task e) w a)) \/ exists w a, p' = CPush2 (e_task e) w a.
Proof.
  intros H. cases_step p H; cbs; split_pc; intros X L; try (left; split; [exact X|discriminate]; fail);
   try (left; split; [rewrite (proj1 (try_pop_some _ _ _ _ Epop)); right; exact X|discriminate]; fail).
  - apply in_app_or in X. destruct X as [X|[X|[]]]; [left; split; [exact X|discriminate]|]. right. subst e. eexists _, _. reflexivity.
  - unfold link in X. apply in_map_iff in X. destruct X as (e' & E & X). destruct (Nat.eqb_spec (e_task e') t).
    + subst e. discriminate L.
    + subst e'. left. split; [exact X|congruence].
  - unfold link in X. apply in_map_iff in X. destruct X as (e' & E & X). destruct (Nat.eqb_spec (e_task e') t).
    + subst e. discriminate L.
    + subst e'. left. split; [exact X|congruence].
Qed.

Lemma inv2_new n : inv2 (loop_new n).
Proof.
  split; cbn [loop_new sh pcs ver queue pstate].
  - rewrite sumf_zero; [reflexivity|]. apply Forall_forall. intros x Hx. apply repeat_spec in Hx. subst. reflexivity.
  - intros e [].
  - discriminate.
Qed.
Lemma idle_inv2 s s' ps i p' : inv2 (mkSt s ps) -> nth_error ps i = Some Idle -> st2 p' = 0 -> ver s' = ver s -> queue s' = queue s -> pstate s' = pstate s ->
  inv2 (mkSt s' (upd ps i p')).
Proof.
  intros [A B C] Hi S E1 E2 E3. cbn [sh pcs] in *. split; cbn [sh pcs].
  - rewrite (sumf_upd _ _ ps i Idle p' Hi), S, E1. cbn [st2]. rewrite <- A. f_equal. lia.
  - rewrite E2. intros e H L. destruct (B e H L) as (j & w & a & Hj). exists j, w, a. rewrite nth_error_upd_neq; [exact Hj|]. intros ->. congruence.
  - rewrite E3. intros H. destruct (C H) as (j & p & Hj & Hb). exists j, p. split; [|exact Hb]. rewrite nth_error_upd_neq; [exact Hj|]. intros ->.
    assert (p = Idle) by congruence. subst p. discriminate Hb.
Qed.
Lemma step_inv2 c s i a s' : inv2 s -> step c s i a = Some s' -> inv2 s'.
Proof.
  intros I H. destruct s as [s ps]. unfold step in H. cbn [pcs sh] in H. destruct (nth_error ps i) as [p|] eqn:Hp; [|discriminate].
  destruct a as [t w|d| |b].
  - destruct p; try discriminate. destruct (Nat.eqb i 0 || _); [discriminate|]. injection H as <-. apply (idle_inv2 s); auto.
  - destruct p; try discriminate. destruct (Nat.eqb i 0 || _); [discriminate|]. injection H as <-. apply (idle_inv2 s); auto.
  - destruct p; try discriminate. destruct (Nat.eqb i 0 && _); [|discriminate]. injection H as <-. apply (idle_inv2 s); auto.
  - destruct (pstep c i b s p) as [[s1 p1]|] eqn:E; [|discriminate]. injection H as <-. destruct I as [A B C]. cbn [sh pcs] in *.
    assert (Li : (i < length ps)%nat) by (apply nth_error_Some; congruence). split; cbn [sh pcs].
    + rewrite (sumf_upd _ _ ps i p p1 Hp). pose proof (pstep_par _ _ _ _ _ _ _ E) as P. rewrite !Z.even_sub in *. rewrite Z.even_add, Z.even_sub.
      destruct (Z.even (ver s1)), (Z.even (ver s)), (Z.even (st2 p1)), (Z.even (st2 p)), (Z.even (sumf st2 ps)); cbn in *; congruence.
    + intros e X L. destruct (pstep_link _ _ _ _ _ _ _ e E X L) as [[Y N]|(w & a & ->)].
      * destruct (B e Y L) as (j & w & a & Hj). exists j, w, a. rewrite nth_error_upd_neq; [exact Hj|]. intros ->. apply (N w a). congruence.
      * exists i, w, a. apply nth_error_upd_eq. exact Li.
    + intros R. destruct (pstep_run _ _ _ _ _ _ _ E R) as [[R0 K]|K].
      * destruct (C R0) as (j & q & Hj & Hb). destruct (Nat.eq_dec i j) as [->|Nj].
        -- exists j, p1. split; [apply nth_error_upd_eq; exact Li|]. apply K. assert (q = p) by congruence. subst q. exact Hb.
        -- exists j, q. split; [rewrite nth_error_upd_neq by congruence; exact Hj|exact Hb].
      * exists i, p1. split; [apply nth_error_upd_eq; exact Li|exact K].
Qed.
Lemma run_inv2 c l : forall s s', inv2 s -> run c s l = Some s' -> inv2 s'.
Proof.
  induction l as [|[i a] l IH]; intros s s' I H; cbn [run] in H; [congruence|]. destruct (step c s i a) as [s1|] eqn:E; [|discriminate].
  eapply IH; [|exact H]. eapply step_inv2; eassumption.
Qed.
Lemma reach_inv2 c n l s : run c (loop_new n) l = Some s -> inv2 s.
Proof. apply run_inv2. apply inv2_new. Qed.

(** ** One thread alone *)
Definition alone (i : nat) (ps : list pc) : Prop := forall j q, j <> i -> nth_error ps j = Some q -> q = Idle.

Lemma sumf_alone (f : pc -> Z) ps : f Idle = 0 -> forall i p, alone i ps -> nth_error ps i = Some p -> sumf f ps = f p.
Proof.
  intros F. induction ps as [|q ps IH]; intros [|i] p A H; cbn [nth_error] in H; try discriminate.
  - cbn. assert (q = p) by congruence. subst q. rewrite (sumf_zero _ f ps); [lia|]. apply Forall_forall. intros x Hx. apply In_nth_error in Hx.
    destruct Hx as (k & Hk). rewrite (A (S k) x); [exact F|discriminate|exact Hk].
  - cbn. rewrite (A O q) by (try discriminate; reflexivity). rewrite F. rewrite (IH i p); [lia| |exact H].
    intros j r Nj Hj. apply (A (S j) r); [congruence|exact Hj].
Qed.

Record solo (i : nat) (s : shared) (p : pc) : Prop := {
  o_pend : pend s = weight p + Z.of_nat (length (queue s));
  o_frames : frames s = fweight p;
  o_pm : pmutex s = if holdP p then Some i else None;
  o_sm : smutex s = if holdS p then Some i else None;
  o_ver : Z.even (ver s - st2 p) = true;
  o_link : (forall t w a, p <> CPush2 t w a) -> forallb e_linked (queue s) = true;
  o_run : pstate s = Running -> bgrun p = true
}.
Lemma solo_of i s ps p : inv (mkSt s ps) -> inv2 (mkSt s ps) -> alone i ps -> nth_error ps i = Some p -> solo i s p.
Proof.
  intros I [V1 V2 V3] A H. cbn [sh pcs] in *.
  assert (M : forall o, o = pmutex s \/ o = smutex s -> o = None \/ o = Some i).
  { intros o Ho. destruct o as [j|]; [|left; reflexivity]. destruct (Nat.eq_dec j i) as [->|N]; [right; reflexivity|]. exfalso.
    assert (L : (j < length ps)%nat) by (apply (i_lt _ I); cbn [sh]; destruct Ho as [Ho|Ho]; rewrite <- Ho; auto).
    destruct (nth_error ps j) as [q|] eqn:Q; [|apply nth_error_None in Q; lia]. pose proof (A _ _ N Q). subst q.
    destruct Ho as [Ho|Ho]; symmetry in Ho; [apply (i_pm _ I _ _ Q) in Ho|apply (i_sm _ I _ _ Q) in Ho]; discriminate Ho. }
  split.
  - rewrite <- (sumf_alone weight ps eq_refl i p A H). apply (i_pend _ I).
  - rewrite <- (sumf_alone fweight ps eq_refl i p A H). apply (i_frames _ I).
  - destruct (holdP p) eqn:E; [apply (i_pm _ I _ _ H); exact E|]. destruct (M (pmutex s) (or_introl eq_refl)) as [X|X]; [exact X|].
    apply (i_pm _ I _ _ H) in X. congruence.
  - destruct (holdS p) eqn:E; [apply (i_sm _ I _ _ H); exact E|]. destruct (M (smutex s) (or_intror eq_refl)) as [X|X]; [exact X|].
    apply (i_sm _ I _ _ H) in X. congruence.
  - rewrite <- (sumf_alone st2 ps eq_refl i p A H). exact V1.
  - intros N. apply forallb_forall. intros e He. destruct (e_linked e) eqn:L; [reflexivity|]. exfalso.
    destruct (V2 e He L) as (j & w & a & Hj). destruct (Nat.eq_dec j i) as [->|Nj]; [|pose proof (A _ _ Nj Hj); discriminate].
    apply (N (e_task e) w a). congruence.
  - intros R. destruct (V3 R) as (j & q & Hj & Hb). destruct (Nat.eq_dec j i) as [->|Nj]; [congruence|]. pose proof (A _ _ Nj Hj). subst q. discriminate.
Qed.

Definition steps (i : nat) (bs : list bool) : list (nat * action) := map (fun b => (i, AStep b)) bs.

Lemma solo_run c i (J : shared -> pc -> Prop) :
  (forall b s p s' p', solo i s p -> solo i s' p' -> J s p -> pstep c i b s p = Some (s', p') -> J s' p') ->
  forall bs s ps p s', inv (mkSt s ps) -> inv2 (mkSt s ps) -> alone i ps -> nth_error ps i = Some p -> J s p ->
  run c (mkSt s ps) (steps i bs) = Some s' ->
  exists p', nth_error (pcs s') i = Some p' /\ J (sh s') p' /\ solo i (sh s') p' /\ alone i (pcs s').
Proof.
  intros P. induction bs as [|b bs IH]; intros s ps p s' I I2 A H HJ R; cbn [steps map run] in R.
  - injection R as <-. exists p. cbn [pcs sh]. repeat split; try assumption; apply (solo_of i s ps p I I2 A H).
  - destruct (step c (mkSt s ps) i (AStep b)) as [s1|] eqn:E; [|discriminate].
    pose proof (step_inv _ _ _ _ _ I E) as I'. pose proof (step_inv2 _ _ _ _ _ I2 E) as I2'.
    unfold step in E. cbn [pcs sh] in E. rewrite H in E. destruct (pstep c i b s p) as [[s2 p2]|] eqn:EP; [|discriminate]. injection E as <-.
    assert (A' : alone i (upd ps i p2)) by (intros j q Nj Hj; rewrite nth_error_upd_neq in Hj by congruence; apply (A _ _ Nj Hj)).
    assert (H' : nth_error (upd ps i p2) i = Some p2) by (apply nth_error_upd_eq, nth_error_Some; congruence).
    eapply (IH s2 (upd ps i p2) p2 s'); try assumption.
    eapply P; [apply (solo_of i s ps p I I2 A H)|apply (solo_of _ _ _ _ I' I2' A' H')|exact HJ|exact EP].
Qed.

(** *** A frame *)
Definition J1 (s : shared) (p : pc) : Prop :=
  match p with
  | FInc _ | XTry (RFrameStart _) | XState (RFrameStart _) | XCall (RFrameStart _) | XSet (RFrameStart _) => True
  | XUnlock (RFrameStart _) | FLock _ | FRun | FUnlock | FDec | FCheck | PSub _ _ | PSubRun _ _ | PStore1 _ _ _ | PStore2 _ _ _
  | PCheck _ _ _ | PPop _ _ _ | PAllow _ _ _ | PNext _ _ _ | PStats | PStatsTry | PStatsUnlock
  | ERun (KFrame _ _ _) _ _ | EDec (KFrame _ _ _) _ _
  | SLoad1 RFrameEnd | STry RFrameEnd | SState RFrameEnd | SCall RFrameEnd => pstate s = NotScheduled
  | SLoad2 RFrameEnd v => pstate s = NotScheduled /\ v = ver s
  | SSet RFrameEnd => armed s = true
  | SUnlock RFrameEnd | SFrames RFrameEnd => armed s = true /\ pstate s = Scheduled
  | Idle => queue s = [] \/ (armed s = true /\ pstate s = Scheduled)
  | _ => False
  end.
Lemma J1_step c i b s p s' p' : solo i s p -> solo i s' p' -> J1 s p -> pstep c i b s p = Some (s', p') -> J1 s' p'.
Proof.
  intros [O1 O2 O3 O4 O5 O6 O7] _ J H. cases_step p H; cbn [J1] in J; try contradiction; try (destruct r; try contradiction); try (destruct k; try contradiction);
    cbs; cbn [J1 resume after_task] in *; split_pc; cbn [J1] in *; try exact I; try assumption; try (split; [reflexivity|assumption]); try congruence.
  - rewrite Z.sub_0_r, <- Z.negb_odd, Heqb0 in O5. discriminate.
  - split; [assumption|reflexivity].
  - apply J.
  - destruct J as [_ J]. apply Z.eqb_neq in Heqb0. congruence.
  - reflexivity.
  - split; [exact J|reflexivity].
  - right. exact J.
  - apply Z.eqb_neq in Heqb0. cbn [fweight rframe] in O2. congruence.
  - specialize (O7 eq_refl). discriminate.
  - reflexivity.
  - apply Z.eqb_neq in Heqb0. cbn [fweight] in O2. lia.
  - left. apply Z.eqb_eq in Heqb0. cbn [weight] in O1. destruct (queue s); [reflexivity|cbn [length] in O1; lia].
Qed.

Lemma quiet_alone s i : quiet s -> alone i (pcs s).
Proof. intros Q j q _ H. exact (proj1 (Forall_forall _ _) Q q (nth_error_In _ _ H)). Qed.

Lemma quiet_facts s ps : inv (mkSt s ps) -> inv2 (mkSt s ps) -> quiet (mkSt s ps) -> ps <> [] ->
  pend s = Z.of_nat (length (queue s)) /\ frames s = 0 /\ pmutex s = None /\ smutex s = None /\ Z.even (ver s) = true /\ forallb e_linked (queue s) = true /\ pstate s <> Running.
Proof.
  intros I I2 Q N. destruct ps as [|p ps]; [congruence|]. assert (p = Idle) by (inversion Q; assumption). subst p.
  destruct (solo_of O s (Idle :: ps) Idle I I2 (quiet_alone _ _ Q) eq_refl) as [O1 O2 O3 O4 O5 O6 O7]. cbn in *.
  rewrite Z.sub_0_r in O5. repeat split; try assumption; [apply O6; discriminate|]. intros R. specialize (O7 R). discriminate.
Qed.

Lemma frame_solo c s i d bs s' : inv s -> inv2 s -> quiet s ->
  run c s ((i, AFrame d) :: steps i bs) = Some s' -> quiet s' -> queue (sh s') = [] \/ (armed (sh s') = true /\ pstate (sh s') = Scheduled).
Proof.
  intros I I2 Q R Q'. cbn [run] in R. destruct (step c s i (AFrame d)) as [s1|] eqn:E; [|discriminate].
  pose proof (step_inv _ _ _ _ _ I E) as I'. pose proof (step_inv2 _ _ _ _ _ I2 E) as I2'.
  destruct s as [s ps]. unfold step in E. cbn [pcs sh] in E. destruct (nth_error ps i) as [p|] eqn:H; [|discriminate]. destruct p; try discriminate.
  destruct (Nat.eqb i 0 || (d <? 0)); [discriminate|]. injection E as <-.
  pose proof (quiet_alone _ i Q) as A. cbn [pcs] in A.
  assert (A' : alone i (upd ps i (FInc d))) by (intros j q Nj Hj; rewrite nth_error_upd_neq in Hj by congruence; apply (A _ _ Nj Hj)).
  assert (H' : nth_error (upd ps i (FInc d)) i = Some (FInc d)) by (apply nth_error_upd_eq, nth_error_Some; congruence).
  destruct (solo_run c i J1 (J1_step c i) bs _ _ _ _ I' I2' A' H' Logic.I R) as (p' & Hp & HJ & _).
  assert (p' = Idle) by exact (proj1 (Forall_forall _ _) Q' p' (nth_error_In _ _ Hp)). subst p'. exact HJ.
Qed.

(** A whole frame in precise mode executes the first waiting task. *)
Definition G (c : config) (s : shared) : Prop := 0 <= samples s /\ (enough s = false -> samples s <= min_samples c).
Lemma pstep_G c i b s p s' p' : 0 <= min_samples c -> pstep c i b s p = Some (s', p') -> G c s -> G c s'.
Proof.
  intros Hm H [G1 G2]. unfold G. cases_step p H; cbs; try (split; assumption).
  - split; [assumption|congruence].
  - set (x := u32 _). assert (0 <= x) by (subst x; unfold u32, wrapu; apply Z.mod_pos_bound; lia). split; [assumption|]. intros E. apply Z.leb_gt in E. lia.
  - split; [lia|intros _; lia].
Qed.
Lemma run_G c l : 0 <= min_samples c -> forall s s', G c (sh s) -> run c s l = Some s' -> G c (sh s').
Proof.
  intros Hm. induction l as [|[i a] l IH]; intros s s' I H; cbn [run] in H; [congruence|]. destruct (step c s i a) as [s1|] eqn:E; [|discriminate].
  eapply IH; [|exact H]. clear - I E Hm. unfold step in E. destruct (nth_error (pcs s) i) as [p|] eqn:Hp; [|discriminate]. destruct a as [t w|d| |b].
  - destruct p; try discriminate. destruct (Nat.eqb i 0 || _); [discriminate|]. injection E as <-. exact I.
  - destruct p; try discriminate. destruct (Nat.eqb i 0 || _); [discriminate|]. injection E as <-. exact I.
  - destruct p; try discriminate. destruct (Nat.eqb i 0 && _); [|discriminate]. injection E as <-. exact I.
  - destruct (pstep c i b (sh s) p) as [[s2 p2]|] eqn:P; [|discriminate]. injection E as <-. eapply pstep_G; eassumption.
Qed.
Lemma reach_G c n l s : 0 <= min_samples c -> run c (loop_new n) l = Some s -> G c (sh s).
Proof. intros Hm. apply run_G; [exact Hm|]. split; cbn; [lia|intros _; exact Hm]. Qed.

Definition seen (n : nat) (t : nat) (s : shared) : Prop := In (TaskB t) (log s) \/ In (FrameE false) (skipn n (log s)).
Definition J2 (c : config) (d0 : Z) (n t : nat) (s : shared) (p : pc) : Prop :=
  G c s /\ (n <= length (log s))%nat /\
  (seen n t s \/
   (exists q, tasks s = t :: q) /\
   match p with
   | FInc d | XTry (RFrameStart d) | XState (RFrameStart d) | XCall (RFrameStart d) | XSet (RFrameStart d)
   | XUnlock (RFrameStart d) | FLock d => d = d0
   | PSub d pos | PSubRun d pos => d = d0 /\ 0 <= pos /\ (pos = 0 \/ (pos < d /\ max_samples c <> 0)) /\ (enough s = false -> pos <= samples s)
   | PStore1 d pos ok | PStore2 d pos ok | PCheck d pos ok => d = d0 /\ 0 <= pos <= d /\ (max_samples c = 0 -> pos = d) /\ ok = true /\ (enough s = false -> pos <= samples s < min_samples c)
   | PNext d pos ok => d = d0 /\ 0 <= pos < d /\ max_samples c <> 0 /\ ok = true /\ (enough s = false -> pos <= samples s)
   | PPop d pos ok => True
   | _ => False
   end).
Lemma J2_step c d0 n t : precise c = true -> 0 <= min_samples c <= d0 -> 0 <= max_samples c -> min_samples c + d0 < 2 ^ 32 -> forall i b s p s' p', solo i s p -> solo i s' p' -> J2 c d0 n t s p -> pstep c i b s p = Some (s', p') -> J2 c d0 n t s' p'.
Proof.
  intros Hpr Hmin Hmax Hb i b s p s' p' O O' (JG & JL & J) H.
  pose proof (pstep_G _ _ _ _ _ _ _ (proj1 Hmin) H JG) as G'. destruct (eff_log _ _ _ _ _ _ _ H) as (l & El & _).
  assert (L' : (n <= length (log s'))%nat) by (rewrite El, app_length; lia).
  split; [exact G'|]. split; [exact L'|]. destruct J as [[S|S]|[(q & Tq) J]].
  - left. left. rewrite El. apply in_or_app. left. exact S.
  - left. right. rewrite El, skipn_app. apply in_or_app. left. exact S.
  - destruct O as [O1 O2 O3 O4 O5 O6 O7]. destruct JG as [G1 G2].
    assert (Qn : queue s <> []) by (intros X; unfold tasks in Tq; rewrite X in Tq; discriminate).
    assert (Pn : pend s <> 0) by (rewrite O1; pose proof (weight_range p); destruct (queue s); [congruence|cbn [length]; lia]).
    clear El G' L' O'.
    assert (FF : In (FrameE false) (skipn n (log s ++ [FrameE false]))).
    { rewrite skipn_app. apply in_or_app. right. replace (n - length (log s))%nat with O by lia. left. reflexivity. }
    assert (SUB : forall pos, (pos = 0 \/ (pos < d0 /\ max_samples c <> 0)) -> 0 <= pos ->
       let sub := if max_samples c =? 0 then d0 else Z.min (d0 - pos) (max_samples c) in 0 <= sub /\ pos + sub <= d0 /\ (max_samples c = 0 -> pos + sub = d0)).
    { intros pos P P0. cbv zeta. destruct (Z.eqb_spec (max_samples c) 0); lia. }
    cases_step p H; try contradiction; try (destruct r; try contradiction); cbs; cbn [resume] in *; split_pc; try (right; split; [exists q; exact Tq|]; exact J); try congruence.
  + right. split; [exists q; exact Tq|]. subst d. repeat split; try lia; auto.
  + destruct b; [|left; right; apply FF]. right. split; [exists q; exact Tq|]. destruct J as (-> & J1 & J2 & J3). destruct (SUB pos J2 J1) as (S0 & S1 & S2). fold sub in S0, S1, S2.
    repeat split; try lia; congruence.
  + destruct b; [|left; right; apply FF]. right. split; [exists q; exact Tq|]. destruct J as (-> & J1 & J2 & J3). destruct (SUB pos J2 J1) as (S0 & S1 & S2). fold sub in S0, S1, S2.
    repeat split; try lia; congruence.
  + destruct b; [|left; right; apply FF]. right. split; [exists q; exact Tq|]. destruct J as (-> & J1 & J2 & J3). destruct (SUB pos J2 J1) as (S0 & S1 & S2). fold sub in S0, S1, S2.
    specialize (J3 eq_refl). specialize (G2 eq_refl).
    assert (U : u32 (samples s + sub) = samples s + sub) by (unfold u32, wrapu; apply Z.mod_small; lia). rewrite U.
    split; [reflexivity|]. split; [lia|]. split; [exact S2|]. split; [reflexivity|]. intros X. apply Z.leb_gt in X. lia.
  + destruct b; [|left; right; apply FF]. right. split; [exists q; exact Tq|]. destruct J as (-> & J1 & J2 & J3). destruct (SUB pos J2 J1) as (S0 & S1 & S2). fold sub in S0, S1, S2.
    specialize (J3 eq_refl). specialize (G2 eq_refl).
    assert (U : u32 (samples s + sub) = samples s + sub) by (unfold u32, wrapu; apply Z.mod_small; lia). rewrite U.
    split; [reflexivity|]. split; [lia|]. split; [exact S2|]. split; [reflexivity|]. intros X. apply Z.leb_gt in X. lia.
  + right. split; [exists q; exact Tq|]. apply orb_true_iff in Eck. destruct Eck as [X|X]; [apply Z.eqb_eq in X; congruence|].
    destruct (enough s) eqn:En; [discriminate X|]. destruct J as (-> & J1 & J2 & J3 & J4). specialize (J4 eq_refl).
    repeat split; try lia; auto.
  + right. split; [exists q; exact Tq|exact I].
  + left. left. pose proof (proj1 (try_pop_some _ _ _ _ Epop)) as Eq. unfold tasks in Tq. rewrite Eq in Tq. cbn [map] in Tq.
    apply in_or_app. right. left. congruence.
  + exfalso. unfold try_pop in Epop. destruct (queue s) as [|e qs] eqn:Eq; [congruence|]. specialize (O6 ltac:(discriminate)).
    rewrite O6 in Epop. cbn [forallb] in O6. apply andb_true_iff in O6. destruct O6 as [O6 _]. rewrite O6, orb_true_r in Epop. discriminate.
  + exfalso. destruct J as (-> & J1 & J2 & -> & J4). apply orb_true_iff in Heqb0. destruct Heqb0 as [X|X]; [discriminate X|]. apply Z.eqb_eq in X. lia.
  + right. split; [exists q; exact Tq|]. destruct J as (-> & J1 & J2 & -> & J4). repeat split; try lia; auto.
Qed.

Lemma frame_exec c s i d bs s' e q : inv s -> inv2 s -> G c (sh s) -> quiet s -> precise c = true -> 0 <= min_samples c <= d -> 0 <= max_samples c -> min_samples c + d < 2 ^ 32 ->
  queue (sh s) = e :: q ->
  run c s ((i, AFrame d) :: steps i bs) = Some s' -> quiet s' ->
  In (TaskB (e_task e)) (log (sh s')) \/ In (FrameE false) (skipn (length (log (sh s))) (log (sh s'))).
Proof.
  intros I I2 HG Q Hpr Hmin Hmax Hb Eq R Q'. cbn [run] in R. destruct (step c s i (AFrame d)) as [s1|] eqn:E; [|discriminate].
  pose proof (step_inv _ _ _ _ _ I E) as I'. pose proof (step_inv2 _ _ _ _ _ I2 E) as I2'.
  destruct s as [s ps]. unfold step in E. cbn [pcs sh] in *. destruct (nth_error ps i) as [p|] eqn:H; [|discriminate]. destruct p; try discriminate.
  destruct (Nat.eqb i 0 || (d <? 0)); [discriminate|]. injection E as <-.
  pose proof (quiet_alone _ i Q) as A. cbn [pcs] in A.
  assert (A' : alone i (upd ps i (FInc d))) by (intros j q' Nj Hj; rewrite nth_error_upd_neq in Hj by congruence; apply (A _ _ Nj Hj)).
  assert (H' : nth_error (upd ps i (FInc d)) i = Some (FInc d)) by (apply nth_error_upd_eq, nth_error_Some; congruence).
  assert (J0 : J2 c d (length (log s)) (e_task e) s (FInc d)).
  { split; [exact HG|]. split; [lia|]. right. split; [|reflexivity]. exists (map e_task q). unfold tasks. rewrite Eq. reflexivity. }
  destruct (solo_run c i _ (J2_step c d (length (log s)) (e_task e) Hpr Hmin Hmax Hb i) bs _ _ _ _ I' I2' A' H' J0 R) as (p' & Hp & (_ & _ & HJ) & _).
  assert (p' = Idle) by exact (proj1 (Forall_forall _ _) Q' p' (nth_error_In _ _ Hp)). subst p'. destruct HJ as [HJ|[_ []]]. exact HJ.
Qed.

(** *** The background thread *)
Definition J3 (s : shared) (p : pc) : Prop :=
  match p with
  | BLoad1 | BTry | BRunning | BAllow | BFrames | BPop | ERun KBack _ _ | EDec KBack _ _ => True
  | BLoad2 v => v = ver s
  | BUnlock n | BCheck n => n = 0
  | BSet need => need = negb (pend s =? 0)
  | SLoad1 RBack | STry RBack | SState RBack | SCall RBack => pstate s = NotScheduled
  | SLoad2 RBack v => pstate s = NotScheduled /\ v = ver s
  | SSet RBack => armed s = true
  | SUnlock RBack | SFrames RBack => armed s = true /\ pstate s = Scheduled
  | Idle => queue s = [] \/ (armed s = true /\ pstate s = Scheduled)
  | _ => False
  end.
Lemma J3_step c i b s p s' p' : solo i s p -> solo i s' p' -> J3 s p -> pstep c i b s p = Some (s', p') -> J3 s' p'.
Proof.
  intros [O1 O2 O3 O4 O5 O6 O7] _ J H. cases_step p H; cbn [J3] in J; try contradiction; try (destruct r; try contradiction); try (destruct k; try contradiction);
    cbs; cbn [J3 resume after_task] in *; split_pc; cbn [J3] in *; try exact I; try assumption; try reflexivity; try (split; [reflexivity|assumption]); try (split; [assumption|reflexivity]); try congruence.
  - rewrite Z.sub_0_r, <- Z.negb_odd, Heqb0 in O5. discriminate.
  - apply J.
  - destruct J as [_ J]. apply Z.eqb_neq in Heqb0. congruence.
  - right. exact J.
  - apply Z.eqb_neq in Heqb0. cbn [fweight rframe] in O2. congruence.
  - rewrite Z.sub_0_r, <- Z.negb_odd, Heqb0 in O5. discriminate.
  - apply Z.eqb_neq in Heqb0. congruence.
  - subst n. reflexivity.
  - left. symmetry in J. apply negb_false_iff in J. apply Z.eqb_eq in J. cbn [weight] in O1. change (queue (set_pstate s NotScheduled)) with (queue s).
    destruct (queue s); [reflexivity|cbn [length] in O1; lia].
Qed.

(** The scheduler is armed exactly when the state says so. *)
Definition coherent (s : shared) : Prop := armed s = true <-> pstate s = Scheduled.
Definition KK (s : shared) (p : pc) : Prop :=
  match p with
  | SSet _ => armed s = true
  | SCall _ => True
  | XCall _ => True
  | XSet _ => armed s = false
  | BLoad1 | BLoad2 _ | BTry | BRunning | BAllow | BFrames | BPop | BUnlock _ | BCheck _ | BSet _ | ERun KBack _ _ | EDec KBack _ _ => armed s = false
  | _ => coherent s
  end.
Lemma KK_step c i b s p s' p' : KK s p -> pstep c i b s p = Some (s', p') -> KK s' p'.
Proof.
  intros J H. cases_step p H; cbn [KK] in J; try (destruct r); try (destruct k);
    cbs; cbn [KK resume after_task] in *; split_pc; cbn [KK] in *; unfold coherent in *; cbn [armed pstate set_pstate set_armed] in *;
    try exact I; try assumption; try reflexivity; try (split; congruence).
Qed.

Definition settled (s : shared) : Prop := queue s = [] \/ (armed s = true /\ pstate s = Scheduled).
Definition J4 (s : shared) (p : pc) : Prop :=
  KK s p /\
  match p with
  | CInc _ _ | CRet _ _ _ | CWait _ | Idle => settled s
  | CLoad1 _ _ | CAllow _ _ | CTry _ _ | ERun KClient _ _ | EDec KClient _ _ => queue s = []
  | CNf _ _ => queue s = []
  | CLoad2 _ _ v => queue s = [] /\ v = ver s
  | CUnlock _ _ n | CCheck _ _ n => queue s = []
  | CPush1 _ _ a | CPush2 _ _ a => a = false -> armed s = true /\ pstate s = Scheduled
  | CFrames _ _ | SLoad1 (RClient _ _ _) | STry (RClient _ _ _) | SState (RClient _ _ _) | SCall (RClient _ _ _) => True
  | SLoad2 (RClient _ _ _) v => v = ver s
  | SSet (RClient _ _ _) => True
  | SUnlock (RClient _ _ _) | SFrames (RClient _ _ _) => armed s = true /\ pstate s = Scheduled
  | _ => False
  end.
Lemma J4_step c i b s p s' p' : solo i s p -> solo i s' p' -> J4 s p -> pstep c i b s p = Some (s', p') -> J4 s' p'.
Proof.
  intros [O1 O2 O3 O4 O5 O6 O7] _ (K & J) H. split; [eapply KK_step; eassumption|].
  cases_step p H; try contradiction; try (destruct r; try contradiction); try (destruct k; try contradiction);
    cbs; cbn [resume after_task] in *; split_pc; unfold settled in *; try exact I; try assumption; try reflexivity; try discriminate; try congruence; try (split; [assumption|reflexivity]); try (left; assumption); try (right; assumption).
  - apply Z.eqb_eq in Heqb0. cbn [weight] in O1. destruct (queue s); [reflexivity|cbn [length] in O1; lia].
  - intros _. apply Z.eqb_neq in Heqb0. cbn [weight] in O1. destruct J as [J|J]; [rewrite J in O1; cbn [length] in O1; lia|exact J].
  - rewrite Z.sub_0_r, <- Z.negb_odd, Heqb0 in O5. discriminate.
  - apply J.
  - destruct J as [_ J]. apply Z.eqb_neq in Heqb0. congruence.
  - right. exact (J eq_refl).
  - apply Z.eqb_neq in Heqb0. cbn [fweight rframe] in O2. congruence.
  - rewrite Z.sub_0_r, <- Z.negb_odd, Heqb0 in O5. discriminate.
  - apply Z.eqb_neq in Heqb0. congruence.
  - split; [|reflexivity]. unfold KK, coherent in K. apply K. assumption.
  - specialize (O7 eq_refl). discriminate.
  - apply Z.eqb_neq in Heqb0. cbn [fweight rframe] in O2. congruence.
Qed.

(** ** A call made while no other call is in progress *)
Lemma call_solo c s i a bs s' : inv s -> inv2 s -> quiet s -> coherent (sh s) -> settled (sh s) ->
  run c s ((i, a) :: steps i bs) = Some s' -> quiet s' -> coherent (sh s') /\ settled (sh s').
Proof.
  intros I I2 Q Hc Hs R Q'. cbn [run] in R. destruct (step c s i a) as [s1|] eqn:E; [|discriminate].
  pose proof (step_inv _ _ _ _ _ I E) as I'. pose proof (step_inv2 _ _ _ _ _ I2 E) as I2'.
  destruct s as [s ps]. unfold step in E. cbn [pcs sh] in *. destruct (nth_error ps i) as [p|] eqn:H; [|discriminate].
  assert (p = Idle) by exact (proj1 (Forall_forall _ _) Q p (nth_error_In _ _ H)). subst p.
  pose proof (quiet_alone _ i Q) as A. cbn [pcs] in A.
  assert (A' : forall p', alone i (upd ps i p')) by (intros p' j q' Nj Hj; rewrite nth_error_upd_neq in Hj by congruence; apply (A _ _ Nj Hj)).
  assert (H' : forall p', nth_error (upd ps i p') i = Some p') by (intros; apply nth_error_upd_eq, nth_error_Some; congruence).
  assert (QI : forall p', nth_error (pcs s') i = Some p' -> p' = Idle) by (intros p' Hp; exact (proj1 (Forall_forall _ _) Q' p' (nth_error_In _ _ Hp))).
  destruct a as [t w|d| |b]; [| | |discriminate].
  - destruct (Nat.eqb i 0 || _); [discriminate|]. injection E as <-.
    destruct (solo_run c i J4 (J4_step c i) bs _ _ _ _ I' I2' (A' _) (H' _) (conj Hc Hs) R) as (p' & Hp & (HK & HJ) & _).
    rewrite (QI _ Hp) in HK, HJ. split; assumption.
  - destruct (Nat.eqb i 0 || _); [discriminate|]. injection E as <-.
    destruct (solo_run c i (fun s p => J1 s p /\ KK s p) (fun b s p s' p' O O' J P => conj (J1_step c i b s p s' p' O O' (proj1 J) P) (KK_step c i b s p s' p' (proj2 J) P)) bs
       _ _ _ _ I' I2' (A' _) (H' _) (conj Logic.I Hc) R) as (p' & Hp & (HJ & HK) & _).
    rewrite (QI _ Hp) in HK, HJ. split; assumption.
  - destruct (Nat.eqb i 0 && _); [|discriminate]. injection E as <-.
    destruct (solo_run c i (fun s p => J3 s p /\ KK s p) (fun b s p s' p' O O' J P => conj (J3_step c i b s p s' p' O O' (proj1 J) P) (KK_step c i b s p s' p' (proj2 J) P)) bs
       _ _ _ _ I' I2' (A' _) (H' _) (conj Logic.I (eq_refl : armed (set_armed s false) = false)) R) as (p' & Hp & (HJ & HK) & _).
    rewrite (QI _ Hp) in HK, HJ. split; assumption.
Qed.

Lemma fire_solo c s bs s' : inv s -> inv2 s -> quiet s ->
  run c s ((O, AFire) :: steps 0 bs) = Some s' -> quiet s' -> settled (sh s').
Proof.
  intros I I2 Q R Q'. cbn [run] in R. destruct (step c s O AFire) as [s1|] eqn:E; [|discriminate].
  pose proof (step_inv _ _ _ _ _ I E) as I'. pose proof (step_inv2 _ _ _ _ _ I2 E) as I2'.
  destruct s as [s ps]. unfold step in E. cbn [pcs sh] in *. destruct (nth_error ps O) as [p|] eqn:H; [|discriminate]. destruct p; try discriminate.
  destruct (armed s); [|discriminate]. cbn [Nat.eqb andb] in E. injection E as <-.
  pose proof (quiet_alone _ O Q) as A. cbn [pcs] in A.
  assert (A' : alone O (upd ps O BLoad1)) by (intros j q' Nj Hj; rewrite nth_error_upd_neq in Hj by congruence; apply (A _ _ Nj Hj)).
  assert (H' : nth_error (upd ps O BLoad1) O = Some BLoad1) by (apply nth_error_upd_eq, nth_error_Some; congruence).
  destruct (solo_run c O J3 (J3_step c O) bs _ _ _ _ I' I2' A' H' Logic.I R) as (p' & Hp & HJ & _).
  assert (p' = Idle) by exact (proj1 (Forall_forall _ _) Q' p' (nth_error_In _ _ Hp)). subst p'. exact HJ.
Qed.

(** Everything is executed by an undisturbed process_tasks() that is not told to stop. *)
Lemma drain_loop c q : forall s ps, queue s = q -> forallb e_linked q = true -> pend s = Z.of_nat (length q) -> frames s = 0 ->
  exists s', run c (mkSt s (BAllow :: ps)) (steps 0 (repeat true (5 * length q + 6))) = Some (mkSt s' (Idle :: ps)) /\ queue s' = [] /\
    (forall e, In e (log s) -> In e (log s')) /\ (forall e, In e q -> In (TaskE (e_task e)) (log s')).
Proof.
  induction q as [|e q IH]; intros s ps Eq L Ep Ef.
  - cbn [length Nat.mul Nat.add repeat steps map run]. unfold step. cbn [nth_error pcs sh pstep]. rewrite andb_false_r.
    cbn [upd nth_error pcs sh pstep]. rewrite Ef. cbn [Z.eqb upd nth_error pcs sh pstep]. rewrite Eq. cbn [try_pop upd nth_error pcs sh pstep].
    cbn [Z.eqb andb]. change (pend (set_pm s None)) with (pend s). rewrite Ep. cbn [length Z.of_nat Z.eqb negb upd nth_error pcs sh pstep].
    eexists. split; [reflexivity|]. cbn. split; [exact Eq|]. split; [auto|]. intros e [].
  - cbn [forallb] in L. pose proof L as L'. apply andb_true_iff in L'. destruct L' as [L1 L2].
    set (s1 := set_pend (add_log (add_log (set_queue s q) [TaskB (e_task e)]) (TaskE (e_task e) :: notify KBack (e_task e) (e_wait e))) (pend s - 1)).
    destruct (IH s1 ps eq_refl L2) as (s' & R & Q1 & Q2 & Q3); [cbn; rewrite Ep; cbn [length]; lia|exact Ef|].
    exists s'. split; [|split; [exact Q1|split]].
    + replace (5 * length (e :: q) + 6)%nat with (5 + (5 * length q + 6))%nat by (cbn [length]; lia).
      cbn [Nat.add repeat steps map run]. unfold step at 1. cbn [nth_error pcs sh pstep]. rewrite andb_false_r.
      cbn [upd]. unfold step at 1. cbn [nth_error pcs sh pstep]. rewrite Ef. cbn [Z.eqb upd].
      unfold step at 1. cbn [nth_error pcs sh pstep]. rewrite Eq. unfold try_pop. rewrite L1, orb_comm. cbn [forallb]. rewrite L. cbn [orb andb upd].
      unfold step at 1. cbn [nth_error pcs sh pstep upd].
      unfold step at 1. cbn [nth_error pcs sh pstep upd after_task]. exact R.
    + intros x Hx. apply Q2. cbn. apply in_or_app. left. apply in_or_app. left. exact Hx.
    + intros x [->|Hx]; [|apply Q3; exact Hx]. apply Q2. cbn. apply in_or_app. right. left. reflexivity.
Qed.

Lemma drain c s : inv s -> inv2 s -> quiet s -> pcs s <> [] -> armed (sh s) = true ->
  exists s', run c s ((O, AFire) :: steps 0 (repeat true (5 * length (queue (sh s)) + 10))) = Some s' /\ quiet s' /\ queue (sh s') = [] /\
    (forall e, In e (queue (sh s)) -> In (TaskE (e_task e)) (log (sh s'))).
Proof.
  intros I I2 Q N A. destruct s as [s ps]. cbn [sh pcs] in *. destruct (quiet_facts s ps I I2 Q N) as (F1 & F2 & F3 & F4 & F5 & F6 & F7).
  destruct ps as [|p ps]; [congruence|]. assert (p = Idle) by (inversion Q; assumption). subst p.
  set (s1 := set_pstate (set_pm (set_armed s false) (Some O)) Running).
  destruct (drain_loop c (queue s) s1 ps eq_refl F6 F1 F2) as (s' & R & Q1 & Q2 & Q3).
  exists (mkSt s' (Idle :: ps)). cbn [sh]. split; [|split; [|split; assumption]].
  - replace (5 * length (queue s) + 10)%nat with (4 + (5 * length (queue s) + 6))%nat by lia.
    cbn [Nat.add repeat steps map run]. unfold step at 1. cbn [nth_error pcs sh]. rewrite A. cbn [Nat.eqb andb upd].
    unfold step at 1. cbn [nth_error pcs sh pstep]. change (ver (set_armed s false)) with (ver s). rewrite <- Z.negb_even, F5. cbn [negb upd].
    unfold step at 1. cbn [nth_error pcs sh pstep]. change (ver (set_armed s false)) with (ver s). rewrite Z.eqb_refl. cbn [upd].
    unfold step at 1. cbn [nth_error pcs sh pstep]. change (pmutex (set_armed s false)) with (pmutex s). rewrite F3. cbn [upd].
    unfold step at 1. cbn [nth_error pcs sh pstep upd]. exact R.
  - unfold quiet in *. cbn [pcs] in *. inversion Q; subst. constructor; [reflexivity|assumption].
Qed.
