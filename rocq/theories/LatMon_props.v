(** C72: what the latency monitor of a receiver shows, and when it ends a session. *)
From Coq Require Import Reals.
From Verif Require Import Base Seqnum_model TimeConv_model TimeConv_spec TimeConv_props
  LatTuner_model LatMon_model LatMon_spec LatMon_proof.
Local Open Scope Z_scope.
Local Open Scope res_scope.

(** A new monitor that is valid, and then a history of calls. *)
Definition session {T} (tuner0 : T) upd adv fetch ok one scaling sp evs s h : Prop :=
  exists s0 fx, lm_new tuner0 ok one scaling = Some (s0, fx) /\
    lm_run upd adv fetch ok scaling sp s0 evs = Ok (s, h).

Lemma session_inv : forall T (tuner0 : T) upd adv fetch ok one scaling sp evs s h,
  session tuner0 upd adv fetch ok one scaling sp evs s h -> inv tuner0 upd adv fetch scaling sp h s.
Proof.
  intros T tuner0 upd adv fetch ok one scaling sp evs s h (s0 & fx & N & R).
  assert (E : s0 = mkMon true 0 (mkMetrics 0 0 0) 0 tuner0).
  { unfold lm_new in N. destruct scaling; [destruct (ok one)|]; congruence. }
  subst s0. change h with ([] ++ h). eapply inv_run; [apply inv0|exact R].
Qed.

(** At any time the monitor shows the latest measurements: samples from the next one to
    be played to the end of the latest packet; how long ago that packet was received;
    from capture to playback; link metrics. *)
Theorem C72_shown : forall T (tuner0 : T) upd adv fetch ok one scaling sp evs s h,
  session tuner0 upd adv fetch ok one scaling sp evs s h -> shows sp h (lat s) (link s).
Proof. intros T tuner0 upd adv fetch ok one scaling sp evs s h H. apply session_inv in H. destruct H. repeat split; auto. Qed.
Print Assumptions C72_shown.

(** The latency shown is the true one, to the precision of a float: if the latest packet
    ends at position [e] of the stream and the next sample is at [p], less than half the
    range of timestamps apart, wherever in the stream and however often timestamps
    wrapped around. *)
Theorem C72_latency : forall T (tuner0 : T) upd adv fetch ok one scaling sp evs s h v t d r e p,
  session tuner0 upd adv fetch ok one scaling sp (evs ++ [Read v]) s h -> usual sp ->
  over (removelast h) = false ->
  v_next v = Some (p mod 2 ^ 32) -> v_latest v = Some (t, d, r) -> (t + d) mod 2 ^ 32 = e mod 2 ^ 32 ->
  - 2 ^ 31 <= e - p < 2 ^ 31 -> (Rabs (exact_ns (e - p) (s_rate sp)) <= IZR (2 ^ 62))%R ->
  close (m_niq (lat s)) (exact_ns (e - p) (s_rate sp)).
Proof.
  intros T tuner0 upd adv fetch ok one scaling sp evs s h v t d r e p H U O VN VL E B X.
  pose proof (C72_shown _ _ _ _ _ _ _ _ _ _ _ _ H) as [SN _].
  assert (L : exists h1 b fx, h = h1 ++ [(Read v, b, fx)]).
  { destruct H as (s0 & fx & _ & R). clear -R. revert s0 h R.
    induction evs as [|x evs IH]; intros s0 h R; cbn [app lm_run] in R.
    - destruct (lm_step upd adv fetch ok scaling sp s0 (Read v)) as [[[s1 b] f]| |]; cbn [bind] in R; try discriminate R.
      cbn [lm_run bind fst snd] in R. exists [], b, f. cbn [app]. congruence.
    - destruct (lm_step upd adv fetch ok scaling sp s0 x) as [[[s1 b] f]| |]; cbn [bind] in R; try discriminate R.
      destruct (lm_run upd adv fetch ok scaling sp s1 (evs ++ [Read v])) as [[s2 h2]| |] eqn:R2; cbn [bind fst snd] in R; try discriminate R.
      assert (Q : s = s2 /\ h = (x, b, f) :: h2) by (split; congruence). destruct Q as [-> ->].
      destruct (IH s1 h2 R2) as (h1 & b1 & f1 & ->). exists ((x, b, f) :: h1), b1, f1. auto. }
  destruct L as (h1 & b & fx & ->). rewrite removelast_last in O.
  rewrite measured_snoc, O, last_of_snoc in SN. unfold queued in SN. rewrite VN, VL in SN.
  assert (Q : signed_distance (t + d - p mod 2 ^ 32) = e - p).
  { unfold signed_distance.
    assert (M : (t + d - p mod 2 ^ 32 + 2 ^ 31) mod 2 ^ 32 = (e - p + 2 ^ 31) mod 2 ^ 32).
    { rewrite (Z.add_mod (t + d - p mod 2 ^ 32)), (Z.add_mod (e - p)) by lia. f_equal. f_equal.
      rewrite Zminus_mod_idemp_r, (Zminus_mod (t + d)), (Zminus_mod e), E. auto. }
    rewrite M, Z.mod_small; lia. }
  rewrite Q in SN. apply (C55_samples_to_duration sp (e - p) (m_niq (lat s)) U X); auto.
Qed.
Print Assumptions C72_latency.

(** Once the tuner or the resampler refused, the session is over for good: every read
    fails, nothing is asked from the pipeline and nothing told to the tuner any more. *)
Theorem C72_over : forall T (tuner0 : T) upd adv fetch ok one scaling sp evs s h,
  session tuner0 upd adv fetch ok one scaling sp evs s h ->
  alive s = negb (over h) /\
  forall h1 r h2, h = h1 ++ r :: h2 -> over h1 = true -> snd r = [] /\ forall v, fst (fst r) = Read v -> snd (fst r) = false.
Proof.
  intros T tuner0 upd adv fetch ok one scaling sp evs s h H. split; [apply (i_alive _ _ _ _ _ _ _ _ _ (session_inv _ _ _ _ _ _ _ _ _ _ _ _ H))|].
  intros h1 r h2 E O. destruct H as (s0 & fx & N & R).
  destruct (run_split _ _ _ _ _ _ _ _ _ _ _ _ _ _ R E) as (evs1 & e & evs2 & s1 & s2 & _ & R1 & S & Ee & _).
  assert (I : inv tuner0 upd adv fetch scaling sp h1 s1) by (eapply session_inv; exists s0, fx; split; eauto).
  assert (A : alive s1 = false) by (rewrite (i_alive _ _ _ _ _ _ _ _ _ I), O; auto).
  destruct r as [[e0 b] f]. cbn [fst snd] in *. subst e0. destruct e as [v|p]; cbn [lm_step] in S.
  - unfold lm_read in S. rewrite A in S. cbn [negb] in S. split; [congruence|]. intros. congruence.
  - destruct (lm_reclock s1 p); cbn [bind] in S; try discriminate S. split; [congruence|]. intros v Q. discriminate Q.
Qed.
Print Assumptions C72_over.

(** What a read does before that: the tuner gets what is shown now, and has been told
    nothing but what the history says; if it refuses, or its new factor is refused, the
    session is over; otherwise a frame is asked for, and its duration told to the tuner
    if there is one. *)
Theorem C72_read : forall T (tuner0 : T) upd adv fetch ok one scaling sp evs s h h1 v b fx h2,
  session tuner0 upd adv fetch ok one scaling sp evs s h ->
  h = h1 ++ (Read v, b, fx) :: h2 -> over h1 = false ->
  let t := fold_left (replay upd adv fetch scaling) (done h1) tuner0 in
  exists m l, shows sp (h1 ++ [(Read v, b, fx)]) m l /\
    let verdict := snd (upd m l t) in
    let factor := if verdict && scaling then snd (fetch (fst (upd m l t))) else None in
    let go := verdict && match factor with Some x => ok x | None => true end in
    fx = EFeed m l :: match factor with Some x => [EScale x] | None => [] end
         ++ (if go then EPull :: match v_frame v with Some (_, d) => [EAdvance d] | None => [] end else []) /\
    (b = true <-> go = true /\ v_frame v <> None) /\
    (gives_up (Read v, b, fx) = true <-> go = false).
Proof.
  intros T tuner0 upd adv fetch ok one scaling sp evs s h h1 v b fx h2 (s0 & fx0 & N & R) E O t.
  destruct (run_split _ _ _ _ _ _ _ _ _ _ _ _ _ _ R E) as (evs1 & e & evs2 & s1 & s2 & _ & R1 & S & Ee & _).
  cbn [fst snd] in S, Ee. subst e.
  assert (I : inv tuner0 upd adv fetch scaling sp h1 s1) by (eapply session_inv; exists s0, fx0; split; eauto).
  assert (A : alive s1 = true) by (rewrite (i_alive _ _ _ _ _ _ _ _ _ I), O; auto).
  pose proof (inv_step _ _ _ _ _ _ _ _ _ _ _ _ _ _ I S) as I2.
  assert (TT : tuner s1 = t) by apply (i_tuner _ _ _ _ _ _ _ _ _ I).
  cbn [lm_step] in S. destruct (read_eq _ _ _ _ _ _ _ _ _ _ S A) as (m & NQ & Q). cbv zeta in Q.
  rewrite TT in Q. set (l := lm_link (link s1) v) in *. exists m, l.
  cbv zeta.
  change (if snd (upd m l t) && scaling then snd (fetch (fst (upd m l t))) else None) with (offer upd fetch scaling m l t).
  change (snd (upd m l t) && match offer upd fetch scaling m l t with Some x => ok x | None => true end)
    with (go upd fetch ok scaling m l t).
  assert (P : s2 = fst (fst (s2, b, fx)) /\ b = snd (fst (s2, b, fx)) /\ fx = snd (s2, b, fx)) by auto.
  rewrite Q in P.
  assert (L : lat s2 = m /\ link s2 = l).
  { destruct (go upd fetch ok scaling m l t); cbn [negb] in P; [destruct (v_frame v) as [[c d]|]|];
      cbn [fst snd] in P; destruct P as (-> & _); auto. }
  split.
  { destruct L as [<- <-]. destruct I2. repeat split; auto. }
  destruct (go upd fetch ok scaling m l t); cbn [negb] in P; [destruct (v_frame v) as [[c d]|]|];
      cbn [fst snd] in P; destruct P as (_ & Pb & Pf); (split; [|split]).
  - rewrite Pf. destruct (offer upd fetch scaling m l t); auto.
  - split; auto. intros _. split; auto. discriminate.
  - rewrite Pb. cbn. split; discriminate.
  - rewrite Pf. destruct (offer upd fetch scaling m l t); auto.
  - rewrite Pb. split; [discriminate|]. intros [_ X]. congruence.
  - rewrite Pb, Pf. unfold gives_up. rewrite existsb_app. cbn. rewrite orb_true_r. cbn. split; discriminate.
  - rewrite Pf. destruct (offer upd fetch scaling m l t); auto.
  - rewrite Pb. split; [discriminate|]. intros [X _]. discriminate X.
  - rewrite Pb, Pf. unfold gives_up. rewrite no_pull. split; auto.
Qed.
Print Assumptions C72_read.

(** The tuner is told the durations of exactly the frames that were returned, in order. *)
Theorem C72_played : forall T (tuner0 : T) upd adv fetch ok one scaling sp evs s h,
  session tuner0 upd adv fetch ok one scaling sp evs s h ->
  flat_map (fun e => match e with EAdvance d => [d] | _ => [] end) (done h) =
  flat_map (fun r => match returned_frame r with Some (_, d) => [d] | None => [] end) h.
Proof.
  intros T tuner0 upd adv fetch ok one scaling sp evs s h H.
  assert (K : forall h2 h1, h1 ++ h2 = h ->
    flat_map (fun e => match e with EAdvance d => [d] | _ => [] end) (done h2) =
    flat_map (fun r => match returned_frame r with Some (_, d) => [d] | None => [] end) h2).
  { induction h2 as [|r h2 IH]; intros h1 E; auto.
    change (done (r :: h2)) with (snd r ++ done h2). rewrite flat_map_app. cbn [flat_map].
    rewrite (IH (h1 ++ [r])) by (rewrite <- app_assoc; auto). f_equal.
    destruct (over h1) eqn:O.
    - destruct (proj2 (C72_over _ _ _ _ _ _ _ _ _ _ _ _ H) h1 r h2 (eq_sym E) O) as [F B]. rewrite F. cbn.
      destruct r as [[[v|p] b] fx]; auto. pose proof (B v eq_refl) as B2. cbn in B2. subst b. auto.
    - destruct r as [[[v|p] b] fx].
      + destruct (C72_read _ _ _ _ _ _ _ _ _ _ _ _ h1 v b fx h2 H (eq_sym E) O) as (m & l & _ & F & B & _).
        cbn [snd returned_frame]. cbv zeta in F, B. set (t := fold_left _ _ _) in *.
        set (f := if snd (upd m l t) && scaling then snd (fetch (fst (upd m l t))) else None) in *.
        set (g := snd (upd m l t) && match f with Some x => ok x | None => true end) in *.
        rewrite F. clearbody g f. cbn [flat_map app]. rewrite flat_map_app.
        assert (FF : flat_map (fun e => match e with EAdvance d => [d] | _ => [] end)
                       match f with Some x => [EScale x] | None => [] end = []) by (destruct f; auto).
        rewrite FF. cbn [app]. destruct g.
        * destruct (v_frame v) as [[c d]|].
          -- rewrite (proj2 B) by (split; [auto|discriminate]). auto.
          -- destruct b; auto.
        * destruct b; auto. destruct (proj1 B eq_refl) as [X _]. discriminate X.
      + destruct H as (s0 & fx0 & N & R). symmetry in E.
        destruct (run_split _ _ _ _ _ _ _ _ _ _ _ _ _ _ R E) as (evs1 & e & evs2 & s1 & s2 & _ & _ & S & Ee & _).
        cbn [fst snd] in *. subst e. cbn [lm_step] in S. destruct (lm_reclock s1 p); cbn [bind] in S; try discriminate S.
        assert (fx = []) by congruence. subst fx. auto. }
  apply (K h []). auto.
Qed.
Print Assumptions C72_played.

(** With the intact profile the resampler is never touched; otherwise it gets 1 at first,
    and a factor it refuses ends the session. *)
Theorem C72_factors : forall T (tuner0 : T) upd adv fetch ok one scaling sp evs s h,
  session tuner0 upd adv fetch ok one scaling sp evs s h ->
  (forall s0 fx, lm_new tuner0 ok one scaling = Some (s0, fx) -> fx = if scaling then [EScale one] else []) /\
  (scaling = false -> forall x, ~ In (EScale x) (done h)) /\
  (forall h1 r h2 x, h = h1 ++ r :: h2 -> In (EScale x) (snd r) -> ok x = false -> gives_up r = true /\ over h1 = false).
Proof.
  intros T tuner0 upd adv fetch ok one scaling sp evs s h H.
  assert (K : forall h1 r h2 x, h = h1 ++ r :: h2 -> In (EScale x) (snd r) ->
    scaling = true /\ over h1 = false /\ (ok x = false -> gives_up r = true)).
  { intros h1 r h2 x E X. destruct (over h1) eqn:O.
    - destruct (proj2 (C72_over _ _ _ _ _ _ _ _ _ _ _ _ H) h1 r h2 E O) as [F _]. rewrite F in X. destruct X.
    - destruct r as [[[v|p] b] fx]; cbn [snd] in X.
      + destruct (C72_read _ _ _ _ _ _ _ _ _ _ _ _ h1 v b fx h2 H E O) as (m & l & _ & F & _ & G).
        set (t := fold_left _ _ _) in *. cbv zeta in F, G.
        set (f := if snd (upd m l t) && scaling then snd (fetch (fst (upd m l t))) else None) in *.
        assert (FX : f = Some x).
        { rewrite F in X. destruct X as [X|X]; [discriminate X|]. apply in_app_or in X. destruct X as [X|X].
          - destruct f as [y|]; [|destruct X]. destruct X as [X|[]]. congruence.
          - destruct (snd (upd m l t) && match f with Some x => ok x | None => true end); [|destruct X].
            destruct X as [X|X]; [discriminate X|]. destruct (v_frame v) as [[c d]|]; [|destruct X].
            destruct X as [X|[]]. discriminate X. }
        split.
        { subst f. destruct scaling; auto. rewrite andb_false_r in FX. discriminate FX. }
        split; auto. intros OK. apply G. rewrite FX, OK. apply andb_false_r.
      + destruct H as (s0 & fx0 & N & R).
        destruct (run_split _ _ _ _ _ _ _ _ _ _ _ _ _ _ R E) as (evs1 & e & evs2 & s1 & s2 & _ & _ & S & Ee & _).
        cbn [fst snd] in *. subst e. cbn [lm_step] in S. destruct (lm_reclock s1 p); cbn [bind] in S; try discriminate S.
        assert (fx = []) by congruence. subst fx. destruct X. }
  split; [|split].
  - intros s0 fx N. unfold lm_new in N. destruct scaling; [destruct (ok one)|]; congruence.
  - intros S x X. unfold done in X. apply in_concat in X. destruct X as (fx & X1 & X2). apply in_map_iff in X1.
    destruct X1 as (r & <- & X1). apply in_split in X1. destruct X1 as (h1 & h2 & E).
    destruct (K h1 r h2 x E X2) as [Q _]. congruence.
  - intros h1 r h2 x E X OK. destruct (K h1 r h2 x E X) as (_ & A & B). auto.
Qed.
Print Assumptions C72_factors.

(** No call overflows. *)
Theorem C72_safe : forall T (tuner0 : T) upd adv fetch ok one scaling sp evs s0 fx,
  valid sp -> Forall possible evs -> lm_new tuner0 ok one scaling = Some (s0, fx) ->
  exists s h, lm_run upd adv fetch ok scaling sp s0 evs = Ok (s, h).
Proof.
  intros T tuner0 upd adv fetch ok one scaling sp evs s0 fx V P N.
  assert (C : time (capture s0)).
  { unfold lm_new in N. assert (s0 = mkMon true 0 (mkMetrics 0 0 0) 0 tuner0) by (destruct scaling; [destruct (ok one)|]; congruence).
    subst. unfold time. cbn. lia. }
  clear N. revert s0 C. induction P as [|e evs Pe P IH]; intros s0 C; cbn [lm_run]; eauto.
  assert (S : exists s1 b f, lm_step upd adv fetch ok scaling sp s0 e = Ok (s1, b, f) /\ time (capture s1)).
  { destruct e as [v|p]; cbn [lm_step possible] in *.
    - destruct Pe as (P1 & P2 & P3 & P4). unfold lm_read. destruct (alive s0); cbn [negb]; eauto.
      assert (Q : exists m, lm_niq sp (lat s0) v = Ok m).
      { unfold lm_niq. destruct (v_next v) as [nx|]; eauto. destruct (v_latest v) as [[[t d] r]|]; eauto.
        rewrite diff_distance. pose proof (distance_range (t + d - nx)) as DR.
        destruct (C55_never_undefined sp V) as (_ & _ & _ & _ & _ & _ & _ & W).
        destruct (W _ DR) as (n & -> & _). cbn [bind].
        destruct (Z.ltb_spec 0 r), (Z.ltb_spec r (v_now v)); cbn [andb]; eauto.
        unfold ns_arith. unfold time in P1.
        destruct (Z.leb_spec (- 2 ^ 63) (v_now v - r)); [|lia]. destruct (Z.ltb_spec (v_now v - r) (2 ^ 63)); [|lia].
        cbn [andb bind]. eauto. }
      destruct Q as (m & ->). cbn [bind].
      destruct (lm_pre upd fetch ok scaling m (lm_link (link s0) v) (tuner s0)) as [[t1 o] f].
      destruct o; cbn [negb]; eauto. destruct (v_frame v) as [[c d]|] eqn:VF; eauto 10.
    - unfold lm_reclock. destruct (Z.eqb_spec (capture s0) 0); cbn [bind]; eauto 10.
      destruct (Z.leb_spec p 0); cbn [bind]; eauto 10. unfold ns_arith, time in *.
      destruct (Z.leb_spec (- 2 ^ 63) (p - capture s0)); [|lia]. destruct (Z.ltb_spec (p - capture s0) (2 ^ 63)); [|lia].
      cbn [andb bind]. do 3 eexists. split; [reflexivity|]. cbn. auto. }
  destruct S as (s1 & b & f & -> & C1). cbn [bind]. destruct (IH s1 C1) as (s & h & ->). cbn [bind]. eauto.
Qed.
Print Assumptions C72_safe.

(** A tuner that never objects. *)
Definition calm_update (m : metrics) (l : Z) (t : unit) : unit * bool := (t, true).
Definition calm_run := lm_run calm_update (fun _ t => t) (fun t => (t, None)) (fun _ => true) false studio
  (mkMon true 0 (mkMetrics 0 0 0) 0 tt).
Definition calm_session := session tt calm_update (fun _ t => t) (fun t => (t, None)) (fun _ => true) 1 false studio.
Definition view1 := mkView (Some 4294967200) (Some (0, 96, 1000000000)) 6000000000 (Some 3) (Some (5000000000, 480)).
Definition view2 := mkView (Some 384) (Some (960, 96, 6000000000)) 6000000000 None (Some (0, 480)).

Lemma possible1 : possible (Read view1).
Proof.
  unfold possible, time, view1. cbn [v_now v_next v_latest v_frame]. split; [lia|]. split; [|split].
  - intros n E. assert (n = 4294967200) by congruence. lia.
  - intros t d r E. assert (t = 0 /\ d = 96 /\ r = 1000000000) by (repeat split; congruence). lia.
  - intros c d E. assert (c = 5000000000) by congruence. lia.
Qed.
Lemma possible2 : possible (Read view2).
Proof.
  unfold possible, time, view2. cbn [v_now v_next v_latest v_frame]. split; [lia|]. split; [|split].
  - intros n E. assert (n = 384) by congruence. lia.
  - intros t d r E. assert (t = 960 /\ d = 96 /\ r = 6000000000) by (repeat split; congruence). lia.
  - intros c d E. assert (c = 0) by congruence. lia.
Qed.

(** The documented "delay since last received packet" is not always that: if the clock
    does not say that the packet was received earlier than now (the clock was set back,
    or it was just received), the delay of an older packet is still shown. *)
Theorem C72_stalling_refuted :
  ~ (forall T (tuner0 : T) upd adv fetch ok one scaling sp evs s h v t d r,
       session tuner0 upd adv fetch ok one scaling sp (evs ++ [Read v]) s h ->
       Forall possible (evs ++ [Read v]) -> alive s = true -> v_next v <> None ->
       v_latest v = Some (t, d, r) -> 0 < r <= v_now v ->
       m_stall (lat s) = v_now v - r).
Proof.
  intros H.
  assert (S : exists s h, calm_session ([Read view1] ++ [Read view2]) s h /\ alive s = true /\ m_stall (lat s) = 5000000000).
  { eexists. eexists. split; [exists (mkMon true 0 (mkMetrics 0 0 0) 0 tt), []; split; [reflexivity|vm_compute; reflexivity]|].
    split; reflexivity. }
  destruct S as (s & h & S & A & M).
  assert (Q : m_stall (lat s) = v_now view2 - 6000000000).
  { apply (H _ _ _ _ _ _ _ _ _ _ _ _ view2 960 96 6000000000 S); auto.
    - cbn [app]. constructor; [apply possible1|]. constructor; [apply possible2|]. constructor.
    - cbn. discriminate.
    - cbn. lia. }
  rewrite M in Q. discriminate Q.
Qed.
Print Assumptions C72_stalling_refuted.

(** The end-to-end latency shown can be that of an older frame: frames without capture
    time do not change it, however long playback goes on. *)
Theorem C72_end_to_end_refuted :
  ~ (forall T (tuner0 : T) upd adv fetch ok one scaling sp evs s h,
       session tuner0 upd adv fetch ok one scaling sp evs s h -> Forall possible evs ->
       captured h = 0 -> m_e2e (lat s) = 0).
Proof.
  intros H.
  assert (S : exists s h, calm_session [Read view1; Reclock 5200000000; Read view2; Reclock 9000000000] s h /\
    captured h = 0 /\ m_e2e (lat s) = 200000000).
  { eexists. eexists. split; [exists (mkMon true 0 (mkMetrics 0 0 0) 0 tt), []; split; [reflexivity|vm_compute; reflexivity]|].
    split; reflexivity. }
  destruct S as (s & h & S & A & M).
  assert (Q : m_e2e (lat s) = 0).
  { apply (H _ _ _ _ _ _ _ _ _ _ _ _ S); auto.
    constructor; [apply possible1|]. constructor; [cbn; lia|]. constructor; [apply possible2|]. constructor; [cbn; lia|]. constructor. }
  rewrite M in Q. discriminate Q.
Qed.
Print Assumptions C72_end_to_end_refuted.

(** A tuner that offers factor 7 at its first update and refuses at the second. *)
Definition strict_update (m : metrics) (l : Z) (t : nat) : nat * bool := (S t, Nat.leb t 0).
Definition strict_fetch (t : nat) : nat * option Z := (t, Some 7).

Example C72_demo : exists s h,
  session O strict_update (fun _ t => t) strict_fetch (fun x => x <? 8) 1 true studio
    [Read view1; Reclock 5200000000; Read view2; Read view1] s h /\
  over h = true /\ over (firstn 2 h) = false /\ m_e2e (lat s) = 200000000 /\ m_stall (lat s) = 5000000000 /\
  captured h = 5000000000 /\ length (measured h) = 2%nat /\
  done h = [EFeed (mkMetrics 4000000 5000000000 0) 3; EScale 7; EPull; EAdvance 480;
            EFeed (mkMetrics 14000000 5000000000 200000000) 3].
Proof.
  eexists. eexists. split; [eexists; eexists; split; [reflexivity|vm_compute; reflexivity]|].
  repeat split; vm_compute; reflexivity.
Qed.

(** The first frame above: 192 samples are queued across the wrap of timestamps. *)
Example C72_demo_latency : usual studio /\ v_next view1 = Some (8589934496 mod 2 ^ 32) /\
  (0 + 96) mod 2 ^ 32 = 8589934688 mod 2 ^ 32 /\ -2 ^ 31 <= 8589934688 - 8589934496 < 2 ^ 31.
Proof. split; [unfold usual, valid; cbn; lia|]. split; [reflexivity|]. split; [reflexivity|]. lia. Qed.
