(** The state of a latency monitor explained by the history. *)
From Verif Require Import Base Seqnum_model TimeConv_model TimeConv_props LatTuner_model LatMon_model LatMon_spec.
Local Open Scope res_scope.

Lemma last_of_snoc : forall A B (f : A -> option B) l a,
  last_of f (l ++ [a]) = match f a with Some b => Some b | None => last_of f l end.
Proof. intros. unfold last_of. rewrite fold_left_app. reflexivity. Qed.

Lemma over_snoc : forall h e, over (h ++ [e]) = over h || gives_up e.
Proof. intros. unfold over. rewrite existsb_app. cbn. rewrite orb_false_r. auto. Qed.

Lemma measured_snoc : forall h e, measured (h ++ [e]) =
  measured h ++ (if over h then [] else match e with (Read v, _, _) => [v] | _ => [] end).
Proof.
  induction h as [|x h IH]; intros e; cbn [measured app over existsb].
  - destruct (gives_up e); rewrite app_nil_r; auto.
  - destruct (gives_up x) eqn:G; cbn [orb].
    + rewrite !app_nil_r. auto.
    + rewrite IH, app_assoc. auto.
Qed.

Lemma e2e_snoc : forall h b e x, end_to_end b (h ++ [e]) x =
  match e with
  | (Reclock p, _, _) => if (captured (b ++ h) =? 0) || (p <=? 0) then end_to_end b h x else p - captured (b ++ h)
  | _ => end_to_end b h x
  end.
Proof.
  induction h as [|y h IH]; intros b e x; cbn [app end_to_end].
  - rewrite app_nil_r. destruct e as [[[]] ]; auto.
  - rewrite IH, <- app_assoc. cbn [app]. auto.
Qed.

Lemma captured_snoc : forall h e, captured (h ++ [e]) =
  match returned_frame e with Some (c, _) => c | None => captured h end.
Proof. intros. unfold captured. rewrite last_of_snoc. destruct (returned_frame e) as [[]|]; auto. Qed.

Lemma done_snoc : forall h e, done (h ++ [e]) = done h ++ snd e.
Proof. intros. unfold done. rewrite map_app, concat_app. cbn. rewrite app_nil_r. auto. Qed.

Lemma diff_distance : forall a d b, stream_timestamp_diff (u32 (a + d)) b = signed_distance (a + d - b).
Proof.
  intros. unfold stream_timestamp_diff, signed_distance, s32, wraps, u32, wrapu.
  rewrite Zminus_mod_idemp_l.
  rewrite Z.mod_mod by lia. change (32 - 1) with 31.
  destruct (Z.ltb_spec ((a + d - b) mod 2 ^ 32) (2 ^ 31)); lia.
Qed.

Lemma distance_range : forall x, - 2 ^ 31 <= signed_distance x < 2 ^ 31.
Proof. intros. unfold signed_distance. pose proof (Z.mod_pos_bound (x + 2 ^ 31) (2 ^ 32)). lia. Qed.

Section P.
Variable T : Type.
Variable tuner0 : T.
Variable tuner_update : metrics -> Z -> T -> T * bool.
Variable tuner_advance : Z -> T -> T.
Variable tuner_fetch : T -> T * option Z.
Variable scaling_ok : Z -> bool.
Variable one : Z.
Variable scaling : bool.
Variable sp : spec.
Notation read := (lm_read tuner_update tuner_advance tuner_fetch scaling_ok scaling sp).
Notation step := (lm_step tuner_update tuner_advance tuner_fetch scaling_ok scaling sp).
Notation run := (lm_run tuner_update tuner_advance tuner_fetch scaling_ok scaling sp).

(** Who calls the tuner, and in which order. *)
Definition replay (t : T) (e : effect) : T :=
  match e with
  | EFeed m l => let '(t1, ok) := tuner_update m l t in if ok && scaling then fst (tuner_fetch t1) else t1
  | EAdvance d => tuner_advance d t
  | _ => t
  end.

Definition verdict (m : metrics) (l : Z) (t : T) : bool := snd (tuner_update m l t).
Definition offer (m : metrics) (l : Z) (t : T) : option Z :=
  if verdict m l t && scaling then snd (tuner_fetch (fst (tuner_update m l t))) else None.
Definition go (m : metrics) (l : Z) (t : T) : bool :=
  verdict m l t && match offer m l t with Some x => scaling_ok x | None => true end.

Record inv (h : list record) (s : monitor T) : Prop := {
  i_alive : alive s = negb (over h);
  i_cap : capture s = captured h;
  i_niq : match last_of queued (measured h) with
          | None => m_niq (lat s) = 0
          | Some d => stream_timestamp_delta_2_ns sp d = Ok (m_niq (lat s))
          end;
  i_stall : m_stall (lat s) = match last_of silence (measured h) with Some x => x | None => 0 end;
  i_e2e : m_e2e (lat s) = end_to_end [] h 0;
  i_link : link s = match last_of v_link (measured h) with Some x => x | None => 0 end;
  i_tuner : tuner s = fold_left replay (done h) tuner0 }.

Lemma inv0 : inv [] (mkMon true 0 (mkMetrics 0 0 0) 0 tuner0).
Proof. constructor; reflexivity. Qed.

Lemma pre_eq : forall m l t, lm_pre tuner_update tuner_fetch scaling_ok scaling m l t =
  (replay t (EFeed m l), go m l t,
   EFeed m l :: match offer m l t with Some x => [EScale x] | None => [] end).
Proof.
  intros. unfold lm_pre, lm_scale, replay, go, offer, verdict.
  destruct (tuner_update m l t) as [t1 [|]]; cbn [negb fst snd andb]; auto.
  destruct scaling; auto. destruct (tuner_fetch t1) as [t2 [x|]]; auto.
Qed.

(** What a read does while the session is not over. *)
Lemma read_eq : forall s v r, read s v = Ok r -> alive s = true ->
  exists m, lm_niq sp (lat s) v = Ok m /\ let l := lm_link (link s) v in let t := tuner s in
  let f := match offer m l t with Some x => [EScale x] | None => [] end in
  r = if negb (go m l t) then (mkMon false (capture s) m l (replay t (EFeed m l)), false, EFeed m l :: f)
      else match v_frame v with
           | None => (mkMon true (capture s) m l (replay t (EFeed m l)), false, (EFeed m l :: f) ++ [EPull])
           | Some (c, d) => (mkMon true c m l (tuner_advance d (replay t (EFeed m l))), true,
                             (EFeed m l :: f) ++ [EPull; EAdvance d])
           end.
Proof.
  intros s v r H A. unfold lm_read in H. rewrite A in H. cbn [negb] in H.
  destruct (lm_niq sp (lat s) v) as [m| |]; cbn [bind] in H; try discriminate H.
  exists m. split; auto. cbv zeta. rewrite pre_eq in H. destruct (go m (lm_link (link s) v) (tuner s)); cbn [negb] in *.
  - destruct (v_frame v) as [[c d]|]; congruence.
  - congruence.
Qed.

Lemma no_pull : forall m l o, existsb (fun x => match x with EPull => true | _ => false end)
  (EFeed m l :: match o with Some x => [EScale x] | None => [] end) = false.
Proof. intros. destruct o; auto. Qed.

Lemma inv_step : forall h s e s' b fx, inv h s -> step s e = Ok (s', b, fx) -> inv (h ++ [(e, b, fx)]) s'.
Proof.
  intros h s e s' b fx I H. destruct e as [v|p]; cbn [lm_step] in H.
  - destruct (alive s) eqn:A.
    2:{ unfold lm_read in H. rewrite A in H. cbn [negb] in H.
        assert (Q : s' = s /\ b = false /\ fx = []) by (repeat split; congruence). destruct Q as (-> & -> & ->).
        assert (O : over h = true).
        { destruct I. rewrite A in i_alive0. destruct (over h); auto; discriminate i_alive0. }
        destruct I. constructor; auto.
        - rewrite over_snoc, O. rewrite A. auto.
        - rewrite captured_snoc. auto.
        - rewrite measured_snoc, O, app_nil_r. auto.
        - rewrite measured_snoc, O, app_nil_r. auto.
        - rewrite e2e_snoc. auto.
        - rewrite measured_snoc, O, app_nil_r. auto.
        - rewrite done_snoc. cbn [snd]. rewrite app_nil_r. auto. }
    destruct (read_eq s v _ H A) as (m & N & R). cbv zeta in R.
    set (l := lm_link (link s) v) in *. set (f := match offer m l (tuner s) with Some x => [EScale x] | None => [] end) in *.
    assert (O : over h = false).
    { destruct I. rewrite A in i_alive0. destruct (over h); auto; discriminate i_alive0. }
    assert (F : fold_left replay f (replay (tuner s) (EFeed m l)) = replay (tuner s) (EFeed m l)).
    { unfold f. destruct (offer m l (tuner s)); auto. }
    assert (L : lat s' = m /\ link s' = l /\ (alive s' = go m l (tuner s)) /\
      gives_up (Read v, b, fx) = negb (go m l (tuner s)) /\
      capture s' = match returned_frame (Read v, b, fx) with Some (c, _) => c | None => capture s end /\
      tuner s' = fold_left replay fx (tuner s)).
    { destruct (go m l (tuner s)) eqn:G; cbn [negb] in R.
      - destruct (v_frame v) as [[c d]|] eqn:VF;
          assert (Q : s' = fst (fst (s', b, fx)) /\ b = snd (fst (s', b, fx)) /\ fx = snd (s', b, fx)) by auto;
          rewrite R in Q; cbn [fst snd] in Q; destruct Q as (-> & -> & ->); cbn [lat link alive capture tuner].
        + repeat split; auto.
          * cbn [returned_frame]. rewrite VF. auto.
          * rewrite fold_left_app. cbn [fold_left]. rewrite F. auto.
        + repeat split; auto.
          * unfold gives_up. rewrite existsb_app. cbn. rewrite orb_true_r. auto.
          * rewrite fold_left_app. cbn [fold_left]. rewrite F. auto.
      - assert (Q : s' = fst (fst (s', b, fx)) /\ b = snd (fst (s', b, fx)) /\ fx = snd (s', b, fx)) by auto;
          rewrite R in Q; cbn [fst snd] in Q; destruct Q as (-> & -> & ->); cbn [lat link alive capture tuner].
        repeat split; auto.
        unfold gives_up, f. rewrite no_pull. auto. }
    destruct L as (L1 & L2 & L3 & L4 & L5 & L6).
    assert (NQ : match queued v with Some d => stream_timestamp_delta_2_ns sp d = Ok (m_niq m) | None => m_niq m = m_niq (lat s) end /\
      m_stall m = match silence v with Some x => x | None => m_stall (lat s) end /\ m_e2e m = m_e2e (lat s)).
    { unfold lm_niq in N. unfold queued, silence. destruct (v_next v) as [nx|]; [|assert (Q : m = lat s) by congruence; rewrite Q; auto].
      destruct (v_latest v) as [[[ts d] rts]|]; [|assert (Q : m = lat s) by congruence; rewrite Q; auto].
      rewrite diff_distance in N.
      destruct (stream_timestamp_delta_2_ns sp (signed_distance (ts + d - nx))) as [n| |]; cbn [bind] in N; try discriminate N.
      destruct ((0 <? rts) && (rts <? v_now v)).
      - unfold ns_arith in N. destruct ((- 2 ^ 63 <=? v_now v - rts) && (v_now v - rts <? 2 ^ 63)); cbn [bind] in N; [|discriminate N].
        assert (Q : m = mkMetrics n (v_now v - rts) (m_e2e (lat s))) by congruence. rewrite Q. cbn. auto.
      - assert (Q : m = mkMetrics n (m_stall (lat s)) (m_e2e (lat s))) by congruence. rewrite Q. cbn. auto. }
    destruct NQ as (N1 & N2 & N3).
    destruct I. constructor.
    + rewrite over_snoc, O, L3, L4. cbn [orb]. rewrite negb_involutive. auto.
    + rewrite captured_snoc, L5, i_cap0. auto.
    + rewrite measured_snoc, O, last_of_snoc, L1. destruct (queued v); auto. rewrite N1. auto.
    + rewrite measured_snoc, O, last_of_snoc, L1. destruct (silence v); auto. rewrite N2. auto.
    + rewrite e2e_snoc, L1, N3. auto.
    + rewrite measured_snoc, O, last_of_snoc, L2. subst l. unfold lm_link. destruct (v_link v); auto.
    + rewrite done_snoc, fold_left_app, L6, i_tuner0. auto.
  - destruct (lm_reclock s p) as [s1| |] eqn:E; cbn [bind] in H; try discriminate H.
    assert (Q : s' = s1 /\ b = true /\ fx = []) by (repeat split; congruence). destruct Q as (-> & -> & ->).
    assert (Q : alive s1 = alive s /\ capture s1 = capture s /\ m_niq (lat s1) = m_niq (lat s) /\
      m_stall (lat s1) = m_stall (lat s) /\ link s1 = link s /\ tuner s1 = tuner s /\
      m_e2e (lat s1) = if (capture s =? 0) || (p <=? 0) then m_e2e (lat s) else p - capture s).
    { unfold lm_reclock in E. destruct (capture s =? 0) eqn:C0; cbn [orb]; [assert (s1 = s) by congruence; subst; repeat split; auto|].
      destruct (p <=? 0); [assert (s1 = s) by congruence; subst; repeat split; auto|].
      unfold ns_arith in E. destruct ((- 2 ^ 63 <=? p - capture s) && (p - capture s <? 2 ^ 63)); cbn [bind] in E; [|discriminate E].
      match type of E with Ok ?x = _ => assert (s1 = x) by congruence end. subst s1. cbn. repeat split; auto. }
    destruct Q as (Q1 & Q2 & Q3 & Q4 & Q5 & Q6 & Q7).
    assert (M : measured (h ++ [(Reclock p, true, [])]) = measured h).
    { rewrite measured_snoc. destruct (over h); apply app_nil_r. }
    destruct I. constructor; rewrite ?M, ?Q1, ?Q2, ?Q3, ?Q4, ?Q5, ?Q6; auto.
    + rewrite over_snoc. cbn. rewrite orb_false_r. auto.
    + rewrite captured_snoc. auto.
    + rewrite e2e_snoc, Q7. cbn [app]. rewrite <- i_cap0, <- i_e2e0. auto.
    + rewrite done_snoc. cbn [snd]. rewrite app_nil_r. auto.
Qed.

Lemma inv_run : forall evs h0 s s' h, inv h0 s -> run s evs = Ok (s', h) -> inv (h0 ++ h) s'.
Proof.
  induction evs as [|e evs IH]; intros h0 s s' h I H; cbn [lm_run] in H.
  - injection H as <- <-. rewrite app_nil_r. auto.
  - destruct (step s e) as [[[s1 b] fx]| |] eqn:E; cbn [bind] in H; try discriminate H.
    destruct (run s1 evs) as [[s2 h2]| |] eqn:R; cbn [bind fst snd] in H; try discriminate H.
    injection H as <- <-. change ((e, b, fx) :: h2) with ([(e, b, fx)] ++ h2). rewrite app_assoc.
    eapply IH; eauto. apply inv_step with (s := s); auto.
Qed.

(** A run split at a record. *)
Lemma run_split : forall evs s s' h h1 r h2, run s evs = Ok (s', h) -> h = h1 ++ r :: h2 ->
  exists evs1 e evs2 s1 s2, evs = evs1 ++ e :: evs2 /\ run s evs1 = Ok (s1, h1) /\
    step s1 e = Ok (s2, snd (fst r), snd r) /\ e = fst (fst r) /\ run s2 evs2 = Ok (s', h2).
Proof.
  induction evs as [|e evs IH]; intros s s' h h1 r h2 H E; cbn [lm_run] in H.
  - injection H as <- <-. destruct h1; discriminate E.
  - destruct (step s e) as [[[s1 b] fx]| |] eqn:ES; cbn [bind] in H; try discriminate H.
    destruct (run s1 evs) as [[s2 h']| |] eqn:R; cbn [bind fst snd] in H; try discriminate H.
    injection H as <- <-. destruct h1 as [|x h1]; cbn [app] in E.
    + injection E as <- <-. exists [], e, evs, s, s1. cbn [fst snd app lm_run]. auto.
    + injection E as <- ->. destruct (IH s1 s2 _ h1 r h2 R eq_refl) as (evs1 & e1 & evs2 & s3 & s4 & A & B & C & D & F).
      exists (e :: evs1), e1, evs2, s3, s4. rewrite A. split; auto. split; [|auto].
      cbn [lm_run]. rewrite ES. cbn [bind]. rewrite B. cbn [bind fst snd]. auto.
Qed.
End P.
Arguments inv {T}. Arguments replay {T}. Arguments offer {T}. Arguments go {T}. Arguments verdict {T}.
