(** Invariants of the feedback monitor over all histories. *)
From Verif Require Import Base RateLimiter_model Feedback_model Feedback_spec.
Local Open Scope res_scope.

Set Implicit Arguments.

Section Proof.
Variable T : Type.
Variable tuner0 : T.
Variable tuner_update : metrics -> T -> T * bool.
Variable tuner_advance : Z -> T -> T.
Variable tuner_fetch : T -> T * option Z.
Variable scaling_ok : Z -> bool.
Variable timeout : Z.
Variable cooldown : Z.
Variable scaling : bool.

Notation step := (mon_step tuner_update tuner_advance tuner_fetch scaling_ok timeout scaling).
Notation mrun := (mon_run tuner_update tuner_advance tuner_fetch scaling_ok timeout scaling).
Notation hist := (mon_history tuner0 tuner_update tuner_advance tuner_fetch scaling_ok timeout
                    cooldown scaling).
Notation mon := (monitor T).

Lemma run_snoc : forall evs s e s' es', mrun s (evs ++ [e]) = Ok (s', es') ->
  exists s1 es1 e1, mrun s evs = Ok (s1, es1) /\ step s1 e = Ok (s', e1) /\ es' = es1 ++ e1.
Proof.
  induction evs as [|a t IH]; intros s e s' es' H; cbn [mon_run app] in *.
  - destruct (step s e) as [[s1 e1]| |] eqn:Q; cbn [bind fst snd] in H; try discriminate H.
    exists s, [], e1. assert (s1 = s') by congruence. subst. split; auto. split; auto.
    rewrite app_nil_r in H. cbn. congruence.
  - destruct (step s a) as [[s1 e1]| |]; cbn [bind fst snd] in H |- *; try discriminate H.
    destruct (mrun s1 (t ++ [e])) as [[s2 e2]| |] eqn:R; cbn [bind fst snd] in H;
      try discriminate H.
    apply IH in R. destruct R as (s3 & es3 & e3 & R1 & R2 & R3).
    exists s3, (e1 ++ es3), e3. rewrite R1. cbn [bind fst snd]. split; auto.
    assert (s2 = s') by congruence. subst s2. split; auto.
    rewrite <- app_assoc, <- R3. congruence.
Qed.

Lemma order_app : forall a b from, in_order from (a ++ b) -> in_order from a.
Proof.
  induction a as [|e t IH]; cbn; intros; auto. destruct (time_of e); [|eauto].
  destruct H. split; eauto.
Qed.

Lemma order_ge : forall a from e x, in_order from a -> In e a -> time_of e = Some x -> from <= x.
Proof.
  induction a as [|e t IH]; cbn; intros from e' x O I Tm; [contradiction|].
  destruct I as [->|I].
  - rewrite Tm in O. tauto.
  - destruct (time_of e); [|eauto]. destruct O as [O1 O2]. specialize (IH _ _ _ O2 I Tm). lia.
Qed.

Lemma order_le : forall a e b from e' x y, in_order from (a ++ e :: b) ->
  time_of e = Some x -> In e' b -> time_of e' = Some y -> x <= y.
Proof.
  induction a as [|c t IH]; cbn; intros e b from e' x y O T1 I T2.
  - rewrite T1 in O. eapply order_ge; [apply O|eauto|eauto].
  - destruct (time_of c); [|eauto]. destruct O. eauto.
Qed.

Lemma reported_snoc : forall pre rest t0 src m sent evs e,
  reported_in pre rest t0 src m sent evs ->
  reported_in pre (rest ++ [e]) t0 src m sent (evs ++ [e]).
Proof. intros. destruct H as [-> H]. split; auto. rewrite <- app_assoc. auto. Qed.

(** Splitting a longer history at a report. *)
Lemma reported_unsnoc : forall pre rest t0 src m sent evs e,
  reported_in pre rest t0 src m sent (evs ++ [e]) ->
  (exists rest', rest = rest' ++ [e] /\ reported_in pre rest' t0 src m sent evs) \/
  (rest = [] /\ pre = evs /\ e = Report t0 src m sent).
Proof.
  clear tuner0 tuner_update tuner_advance tuner_fetch scaling_ok timeout cooldown scaling.
  clear T. intros pre rest t0 src m sent evs e [H S]. destruct rest as [|x r] using rev_ind.
  - right. apply app_inj_tail in H. intuition.
  - left. clear IHr. exists r. rewrite app_comm_cons, app_assoc in H.
    apply app_inj_tail in H. destruct H as [-> ->]. split; auto. split; auto.
Qed.

(** The current state explained by the history. *)
Record explained (evs : list event) (s : mon) : Prop := {
  ex_started : started s = true <-> In Start evs;
  ex_shown : has_feedback s = true ->
    exists pre rest t0 src m sent, reported_in pre rest t0 src m sent evs /\
      source s = src /\ last_ts s = t0 /\ stands_for (shown s) m sent /\
      (use_packetizer s = false -> m_total (shown s) = m_total m) /\
      (forall t' m' sent', ~ In (Report t' src m' sent') rest) /\
      (forall t' d, In (WriteFrame t' d) rest -> t' - t0 <= timeout);
  ex_none : has_feedback s = false ->
    forall pre rest t0 src m sent, reported_in pre rest t0 src m sent evs ->
      exists t' d, In (WriteFrame t' d) rest /\
        (timeout < t' - t0 \/
         exists t1 src1 m1 sent1, In (Report t1 src1 m1 sent1) evs /\ src1 <> src);
  ex_count : (forall t src m sent, In (Report t src m sent) evs -> m_total m <> 0) ->
    use_packetizer s = false;
  ex_period : rl_period (limiter s) = cooldown }.

Lemma started_snoc : forall evs e (s s' : mon), (started s = true <-> In Start evs) ->
  started s' = started s -> e <> Start -> (started s' = true <-> In Start (evs ++ [e])).
Proof.
  intros. rewrite H0, H, in_app_iff. cbn. split; [auto|]. intros [|[|[]]]; auto. congruence.
Qed.

(** A report that is taken. *)
Lemma accept_ok : forall evs (s : mon) now src m sent l,
  explained evs s -> started s = true -> rl_period l = cooldown ->
  explained (evs ++ [Report now src m sent])
    (mon_accept (mkMon (started s) (has_feedback s) (source s) (last_ts s) (shown s)
       (use_packetizer s) l (tuner s)) now src m sent).
Proof.
  intros evs s now src m sent l [A B C D F] S P. constructor; cbn.
  - rewrite in_app_iff, <- A. cbn. intuition congruence.
  - intros _. exists evs, [], now, src, m, sent. split; [split; auto; apply A; auto|].
    split; auto. split; auto. split.
    { unfold stands_for. destruct ((m_total m =? 0) || use_packetizer s); cbn; auto. }
    split. { intros X. rewrite X. auto. }
    split; intros; cbn; auto; contradiction.
  - discriminate.
  - intros NZ. rewrite D.
    + assert (M : m_total m <> 0).
      { apply (NZ now src m sent). apply in_app_iff. cbn. auto. }
      destruct (Z.eqb_spec (m_total m) 0); auto; congruence.
    + intros t' src' m' sent' I. apply (NZ t' src' m' sent'). apply in_app_iff. auto.
  - auto.
Qed.

(** A step that leaves the visible state. *)
Lemma keep_ok : forall evs (s s' : mon) e,
  explained evs s -> has_feedback s' = has_feedback s -> source s' = source s ->
  last_ts s' = last_ts s -> shown s' = shown s -> use_packetizer s' = use_packetizer s ->
  started s' = started s -> rl_period (limiter s') = cooldown -> e <> Start ->
  (has_feedback s = false -> match e with Report _ _ _ _ => started s = false | _ => True end) ->
  (has_feedback s = true -> match e with
     | Report _ src _ _ => source s <> src
     | WriteFrame t' _ => t' - last_ts s <= timeout
     | Start => True end) ->
  explained (evs ++ [e]) s'.
Proof.
  intros evs s s' e [A B C D F] H1 H2 H3 H4 H5 H6 H7 NE HF HT. constructor.
  - apply started_snoc with (s := s); auto.
  - rewrite H1, H2, H3, H4, H5. intros X. specialize (HT X).
    destruct (B X) as (pre & rest & t0 & src & m & sent & R & R1 & R2 & R3 & R4 & R5 & R6).
    exists pre, (rest ++ [e]), t0, src, m, sent. split; [apply reported_snoc; auto|].
    split; auto. split; auto. split; auto. split; auto. split.
    + intros t' m' sent' I. apply in_app_iff in I. destruct I as [I|[I|[]]]; [eapply R5; eauto|].
      rewrite I in HT. congruence.
    + intros t' d I. apply in_app_iff in I. destruct I as [I|[I|[]]]; [eapply R6; eauto|].
      rewrite I in HT. lia.
  - rewrite H1. intros X pre rest t0 src m sent R. specialize (HF X).
    pose proof (proj2 R) as RS.
    apply reported_unsnoc in R. destruct R as [(r & -> & R)|(-> & -> & ->)].
    + destruct (C X _ _ _ _ _ _ R) as (t' & d & I & O). exists t', d.
      split; [apply in_app_iff; auto|]. destruct O as [O|(t1 & s1 & m1 & n1 & I1 & N1)]; auto.
      right. exists t1, s1, m1, n1. split; auto. apply in_app_iff. auto.
    + exfalso. apply A in RS. congruence.
  - rewrite H5. intros NZ. apply D. intros t' src' m' sent' I.
    apply (NZ t' src' m' sent'). apply in_app_iff. auto.
  - auto.
Qed.

Lemma period_allow : forall l now, rl_period (fst (rl_allow l now)) = rl_period l.
Proof.
  intros. unfold rl_allow, rl_elapsed. destruct (rl_start l); cbn;
  match goal with |- context [if ?b then _ else _] => destruct b end; auto.
Qed.

Lemma mon_eta : forall s : mon,
  mkMon (started s) (has_feedback s) (source s) (last_ts s) (shown s) (use_packetizer s)
    (limiter s) (tuner s) = s.
Proof. destruct s; auto. Qed.

Lemma report_ok : forall evs (s : mon) now src m sent,
  explained evs s ->
  explained (evs ++ [Report now src m sent]) (fst (mon_report s now src m sent)).
Proof.
  intros evs s now src m sent X. unfold mon_report.
  destruct (started s) eqn:S; cbn [negb].
  - destruct (has_feedback s) eqn:H; cbn [andb].
    + destruct (Z.eqb_spec (source s) src); cbn [negb].
      * cbn [fst]. rewrite <- (mon_eta s). apply accept_ok; auto. apply X.
      * destruct (rl_allow (limiter s) now) as [l ok] eqn:L.
        assert (PL : rl_period l = cooldown).
        { pose proof (period_allow (limiter s) now) as P. rewrite L in P. cbn in P.
          rewrite P. apply X. }
        destruct ok; cbn [fst].
        -- pose proof (@accept_ok evs s now src m sent l X S PL) as K.
           rewrite S, H in K. exact K.
        -- apply keep_ok with (s := s); cbn; auto; try congruence.
    + cbn [fst]. rewrite <- (mon_eta s). apply accept_ok; auto. apply X.
  - cbn [fst]. apply keep_ok with (s := s); auto; try congruence; try apply X.
    intros H. exfalso. destruct (ex_shown X H) as (pre & rest & t0 & s0 & m0 & n0 & [R1 R2] & _).
    assert (St : In Start evs) by (rewrite R1; apply in_app_iff; auto).
    apply (ex_started X) in St. congruence.
Qed.

Lemma reset_ok : forall evs (s : mon) now dur from,
  explained evs s -> in_order from (evs ++ [WriteFrame now dur]) -> has_feedback s = true ->
  timeout < now - last_ts s ->
  explained (evs ++ [WriteFrame now dur])
    (mkMon (started s) false 0 0 (shown s) (use_packetizer s) (limiter s) (tuner s)).
Proof.
  intros evs s now dur from X O H TO. pose proof X as [A B C D F]. constructor; cbn.
  - apply started_snoc with (s := s); auto. discriminate.
  - discriminate.
  - intros _ pre rest t0 src m sent R.
    destruct (B H) as (p0 & r0 & t1 & s1 & m1 & n1 & [R0 RS] & R1 & R2 & R3 & R4 & R5 & R6).
    apply reported_unsnoc in R. destruct R as [(r & -> & [R RT])|(_ & _ & R)]; [|discriminate R].
    exists now, dur. split; [apply in_app_iff; cbn; auto|].
    destruct (Z.eqb_spec s1 src).
    + left. subst s1. subst src.
      assert (LE : t0 <= t1); [|lia].
      (* the report is not after the one that is shown *)
      assert (E2 : pre ++ Report t0 (source s) m sent :: r = p0 ++ Report t1 (source s) m1 n1 :: r0)
        by congruence.
      apply app_eq_app in E2. destruct E2 as (l & [[E3 E4]|[E3 E4]]).
      * destruct l as [|y l].
        { cbn in E4. assert (Q : t1 = t0) by congruence. lia. }
        cbn in E4. exfalso. apply (R5 t0 m sent).
        assert (Q : r0 = l ++ Report t0 (source s) m sent :: r) by congruence.
        rewrite Q. apply in_app_iff. cbn. auto.
      * destruct l as [|y l].
        { cbn in E4. assert (Q : t1 = t0) by congruence. lia. }
        cbn in E4. assert (Q : r = l ++ Report t1 (source s) m1 n1 :: r0) by congruence.
        rewrite R in O. rewrite <- app_assoc in O. cbn [app] in O.
        eapply order_le with (e' := Report t1 (source s) m1 n1); [exact O|reflexivity| |reflexivity].
        apply in_app_iff. left. rewrite Q. apply in_app_iff. right. left. reflexivity.
    + right. exists t1, s1, m1, n1. split; auto. apply in_app_iff. left. rewrite R0.
      apply in_app_iff. cbn. auto.
  - intros NZ. apply D. intros t' src' m' sent' I.
    apply (NZ t' src' m' sent'). apply in_app_iff. auto.
  - auto.
Qed.

Lemma explained_tuner : forall evs (s : mon) t,
  explained evs s ->
  explained evs (mkMon (started s) (has_feedback s) (source s) (last_ts s) (shown s)
                       (use_packetizer s) (limiter s) t).
Proof. intros evs s t [A B C D F]. constructor; cbn; auto. Qed.

Lemma update_ok : forall evs (s : mon) now dur from,
  explained evs s -> in_order from (evs ++ [WriteFrame now dur]) ->
  explained (evs ++ [WriteFrame now dur])
    (fst (mon_update tuner_update tuner_advance timeout s now dur)) /\
  (snd (mon_update tuner_update tuner_advance timeout s now dur) = [] \/
   (snd (mon_update tuner_update tuner_advance timeout s now dur) = [EFeed now (shown s)] /\
    has_feedback s = true /\ now - last_ts s <= timeout)).
Proof.
  intros evs s now dur from X O. unfold mon_update.
  destruct (has_feedback s) eqn:H; cbn [negb].
  - destruct (Z.ltb_spec timeout (now - last_ts s)).
    + cbn [fst snd]. split; auto. eapply reset_ok; eauto.
    + destruct (tuner_update (shown s) (tuner s)) as [t ok]. cbn [fst snd].
      split; [|right; auto]. apply keep_ok with (s := s); cbn; auto; try congruence; apply X.
  - cbn [fst snd]. split; auto. apply keep_ok with (s := s); auto; try congruence; apply X.
Qed.

Lemma start_ok : forall evs (s : mon), explained evs s ->
  explained (evs ++ [Start]) (mon_start s).
Proof.
  intros evs s [A B C D F]. constructor; cbn.
  - rewrite in_app_iff. cbn. tauto.
  - intros X. destruct (B X) as (pre & rest & t0 & src & m & sent & R & R1 & R2 & R3 & R4 & R5 & R6).
    exists pre, (rest ++ [Start]), t0, src, m, sent. split; [apply reported_snoc; auto|].
    split; auto. split; auto. split; auto. split; auto. split.
    + intros t' m' sent' I. apply in_app_iff in I. destruct I as [I|[I|[]]]; [eapply R5; eauto|discriminate I].
    + intros t' d I. apply in_app_iff in I. destruct I as [I|[I|[]]]; [eapply R6; eauto|discriminate I].
  - intros X pre rest t0 src m sent R. apply reported_unsnoc in R.
    destruct R as [(r & -> & R)|(_ & _ & R)]; [|discriminate R].
    destruct (C X _ _ _ _ _ _ R) as (t' & d & I & OO). exists t', d.
    split; [apply in_app_iff; auto|]. destruct OO as [O|(t1 & s1 & m1 & n1 & I1 & N1)]; auto.
    right. exists t1, s1, m1, n1. split; auto. apply in_app_iff. auto.
  - intros NZ. apply D. intros t' src' m' sent' I.
    apply (NZ t' src' m' sent'). apply in_app_iff. auto.
  - auto.
Qed.

(** What feeds the tuner. *)
Definition fed_ok (evs : list event) (es : list effect) : Prop :=
  forall t x, In (EFeed t x) es ->
    exists pre rest t0 src m sent d, reported_in pre rest t0 src m sent evs /\
      stands_for x m sent /\ 0 <= t - t0 <= timeout /\ In (WriteFrame t d) rest.

Lemma fed_snoc : forall evs e es, fed_ok evs es -> fed_ok (evs ++ [e]) es.
Proof.
  intros evs e es H t x I.
  destruct (H t x I) as (pre & rest & t0 & src & m & sent & d & R1 & R2 & R3 & R4).
  exists pre, (rest ++ [e]), t0, src, m, sent, d. split; [apply reported_snoc; auto|].
  split; auto. split; auto. apply in_app_iff. auto.
Qed.

Lemma step_ok : forall evs (s s' : mon) e es1 from,
  explained evs s -> in_order from (evs ++ [e]) -> step s e = Ok (s', es1) ->
  explained (evs ++ [e]) s' /\ fed_ok (evs ++ [e]) es1.
Proof.
  intros evs s s' e es1 from X O H. destruct e as [|now src m sent|now dur]; cbn [mon_step] in H.
  - assert (Q : s' = mon_start s /\ es1 = []) by (split; congruence). destruct Q as [-> ->].
    split; [apply start_ok; auto|]. intros t x [].
  - assert (Q : mon_report s now src m sent = (s', es1)) by congruence.
    pose proof (@report_ok evs s now src m sent X) as R. rewrite Q in R. cbn [fst] in R.
    split; auto. unfold mon_report in Q. intros t x I.
    destruct (negb (started s)); [assert (es1 = []) by congruence; subst; contradiction|].
    destruct (has_feedback s && negb (source s =? src)).
    + destruct (rl_allow (limiter s) now) as [l ok]. destruct ok.
      * assert (Z : es1 = [ESwitch now (source s) src]) by congruence. rewrite Z in I.
        destruct I as [I|[]]. discriminate I.
      * assert (es1 = []) by congruence; subst; contradiction.
    + assert (es1 = []) by congruence; subst; contradiction.
  - unfold mon_write in H. destruct (started s) eqn:S; cbn [negb] in H.
    2:{ assert (Q : s' = s /\ es1 = [EFrame dur]) by (split; congruence). destruct Q as [-> ->].
        split.
        - assert (HF : has_feedback s = false).
          { destruct (has_feedback s) eqn:H1; auto. exfalso.
            destruct (ex_shown X H1) as (pre & rest & t0 & s0 & m0 & n0 & [R1 R2] & _).
            assert (St : In Start evs) by (rewrite R1; apply in_app_iff; auto).
            apply (ex_started X) in St. congruence. }
          apply keep_ok with (s := s); auto; try congruence; apply X.
        - intros t x [I|[]]. discriminate I. }
    destruct (@update_ok evs s now dur from X O) as [U1 U2].
    destruct (mon_update tuner_update tuner_advance timeout s now dur) as [s1 e1].
    cbn [fst snd] in U1, U2.
    assert (FD : forall t x, In (EFeed t x) e1 ->
      exists pre rest t0 src m sent d, reported_in pre rest t0 src m sent (evs ++ [WriteFrame now dur]) /\
      stands_for x m sent /\ 0 <= t - t0 <= timeout /\ In (WriteFrame t d) rest).
    { intros t x I. destruct U2 as [->|(-> & H1 & H2)]; [contradiction|].
      destruct I as [I|[]]. assert (Q : t = now /\ x = shown s) by (split; congruence).
      destruct Q as [-> ->].
      destruct (ex_shown X H1) as (pre & rest & t0 & s0 & m0 & n0 & R & R1 & R2 & R3 & _).
      exists pre, (rest ++ [WriteFrame now dur]), t0, s0, m0, n0, dur.
      split; [apply reported_snoc; auto|]. split; auto. split.
      - assert (t0 <= now); [|lia]. destruct R as [R _]. rewrite R in O.
        rewrite <- app_assoc in O. cbn [app] in O.
        eapply order_le with (e' := WriteFrame now dur); [exact O|reflexivity| |reflexivity].
        apply in_app_iff. cbn. auto.
      - apply in_app_iff. cbn. auto. }
    destruct scaling.
    + unfold mon_scale in H. destruct (tuner_fetch (tuner s1)) as [t f]. destruct f as [x|].
      * destruct (scaling_ok x); cbn [bind fst snd] in H; [|discriminate H].
        assert (Q : es1 = e1 ++ [EScale x] ++ [EFrame dur]) by congruence.
        assert (Q2 : s' = mkMon (started s1) (has_feedback s1) (source s1) (last_ts s1) (shown s1)
          (use_packetizer s1) (limiter s1) t) by congruence.
        subst s' es1. split; [apply explained_tuner; auto|].
        intros t1 y I. apply in_app_iff in I. destruct I as [I|[I|[I|[]]]]; auto; discriminate I.
      * cbn [bind fst snd] in H.
        assert (Q : es1 = e1 ++ [] ++ [EFrame dur]) by congruence.
        assert (Q2 : s' = mkMon (started s1) (has_feedback s1) (source s1) (last_ts s1) (shown s1)
          (use_packetizer s1) (limiter s1) t) by congruence.
        subst s' es1. split; [apply explained_tuner; auto|].
        intros t1 y I. apply in_app_iff in I. destruct I as [I|[I|[]]]; auto; discriminate I.
    + cbn [bind fst snd] in H. assert (Q : es1 = e1 ++ [] ++ [EFrame dur]) by congruence.
      assert (Q2 : s' = s1) by congruence. subst s' es1. split; auto.
      intros t1 y I. apply in_app_iff in I. destruct I as [I|[I|[]]]; auto; discriminate I.
Qed.

Lemma hist_inv : forall evs s es, hist evs = Ok (s, es) ->
  0 < cooldown /\
  mrun (mkMon false false 0 0 (mkMetrics 0 0 0) false (mkRl cooldown 0 None) tuner0) evs = Ok (s, es).
Proof.
  intros evs s es H. unfold mon_history, mon_new, rl_new in H.
  destruct (Z.leb_spec cooldown 0); cbn [bind] in H; [discriminate H|]. split; auto.
Qed.

Lemma run_ok : forall evs s es from, hist evs = Ok (s, es) -> in_order from evs ->
  explained evs s /\ fed_ok evs es.
Proof.
  intros evs s es from H. apply hist_inv in H. destruct H as [CD H]. revert s es H.
  induction evs as [|e t IH] using rev_ind; intros s es H O.
  - cbn [mon_run] in H. split.
    + assert (Q : s = mkMon false false 0 0 (mkMetrics 0 0 0) false (mkRl cooldown 0 None) tuner0)
        by congruence. subst s. constructor; cbn; auto; try discriminate.
      * intuition congruence.
      * intros _ pre rest t0 src m sent [R _]. destruct pre; discriminate R.
    + assert (es = []) by congruence. subst. intros t x [].
  - apply run_snoc in H. destruct H as (s1 & es1 & e1 & H1 & H2 & ->).
    destruct (IH s1 es1 H1 (order_app _ _ _ O)) as [X1 X2].
    destruct (@step_ok t s1 s e e1 from X1 O H2) as [Y1 Y2]. split; auto.
    intros u x I. apply in_app_iff in I. destruct I as [I|I]; [|auto].
    eapply fed_snoc; eauto.
Qed.

Lemma switches_app : forall a b, switches (a ++ b) = switches a ++ switches b.
Proof. induction a as [|[]]; cbn; intros; auto. f_equal. auto. Qed.
Lemma frames_app : forall a b, frames (a ++ b) = frames a ++ frames b.
Proof. induction a as [|[]]; cbn; intros; auto. f_equal. auto. Qed.
Lemma written_app : forall a b, written (a ++ b) = written a ++ written b.
Proof. induction a as [|[]]; cbn; intros; auto. f_equal. auto. Qed.

Lemma update_quiet : forall (s : mon) now dur,
  switches (snd (mon_update tuner_update tuner_advance timeout s now dur)) = [] /\
  frames (snd (mon_update tuner_update tuner_advance timeout s now dur)) = [] /\
  limiter (fst (mon_update tuner_update tuner_advance timeout s now dur)) = limiter s.
Proof.
  intros. unfold mon_update. destruct (has_feedback s); cbn [negb]; auto.
  destruct (timeout <? now - last_ts s); auto.
  destruct (tuner_update (shown s) (tuner s)); auto.
Qed.

(** A write, seen from outside. *)
Lemma write_shape : forall (s s' : mon) now dur es,
  mon_write tuner_update tuner_advance tuner_fetch scaling_ok timeout scaling s now dur = Ok (s', es) ->
  switches es = [] /\ frames es = [dur] /\ limiter s' = limiter s.
Proof.
  intros s s' now dur es H. unfold mon_write in H. destruct (negb (started s)).
  { assert (Q : s' = s /\ es = [EFrame dur]) by (split; congruence). destruct Q as [-> ->]. auto. }
  pose proof (update_quiet s now dur) as (U1 & U2 & U3).
  destruct (mon_update tuner_update tuner_advance timeout s now dur) as [s1 e1].
  cbn [fst snd] in *. destruct scaling.
  - unfold mon_scale in H. destruct (tuner_fetch (tuner s1)) as [t [x|]].
    + destruct (scaling_ok x); cbn [bind fst snd] in H; [|discriminate H].
      assert (Q : es = e1 ++ [EScale x] ++ [EFrame dur]) by congruence.
      assert (Q2 : s' = mkMon (started s1) (has_feedback s1) (source s1) (last_ts s1) (shown s1)
          (use_packetizer s1) (limiter s1) t) by congruence.
      subst. rewrite switches_app, frames_app, U1, U2. auto.
    + cbn [bind fst snd] in H. assert (Q : es = e1 ++ [] ++ [EFrame dur]) by congruence.
      assert (Q2 : s' = mkMon (started s1) (has_feedback s1) (source s1) (last_ts s1) (shown s1)
          (use_packetizer s1) (limiter s1) t) by congruence.
      subst. rewrite switches_app, frames_app, U1, U2. auto.
  - cbn [bind fst snd] in H. assert (Q : es = e1 ++ [] ++ [EFrame dur]) by congruence.
    assert (Q2 : s' = s1) by congruence.
    subst. rewrite switches_app, frames_app, U1, U2. auto.
Qed.

Lemma report_shape : forall (s : mon) now src m sent,
  frames (snd (mon_report s now src m sent)) = [] /\
  ((switches (snd (mon_report s now src m sent)) = [] /\
    (limiter (fst (mon_report s now src m sent)) = limiter s \/
     exists l, rl_allow (limiter s) now = (l, false) /\
       limiter (fst (mon_report s now src m sent)) = l)) \/
   (switches (snd (mon_report s now src m sent)) = [now] /\
    exists l, rl_allow (limiter s) now = (l, true) /\
      limiter (fst (mon_report s now src m sent)) = l)).
Proof.
  intros. unfold mon_report. destruct (negb (started s)); cbn; auto.
  destruct (has_feedback s && negb (source s =? src)); cbn; auto.
  destruct (rl_allow (limiter s) now) as [l [|]]; cbn.
  - split; auto. right. split; auto. exists l. auto.
  - split; auto. left. split; auto. right. exists l. auto.
Qed.

Lemma run_frames : forall evs s es, hist evs = Ok (s, es) -> frames es = written evs.
Proof.
  intros evs s es H. apply hist_inv in H. destruct H as [CD H]. revert s es H.
  induction evs as [|e t IH] using rev_ind; intros s es H.
  - cbn in H. assert (es = []) by congruence. subst. auto.
  - apply run_snoc in H. destruct H as (s1 & es1 & e1 & H1 & H2 & ->).
    rewrite frames_app, written_app, (IH s1 es1 H1). f_equal.
    destruct e as [|now src m sent|now dur]; cbn [mon_step] in H2.
    + assert (e1 = []) by congruence. subst. auto.
    + assert (Q : mon_report s1 now src m sent = (s, e1)) by congruence.
      pose proof (report_shape s1 now src m sent) as R. rewrite Q in R. apply R.
    + apply write_shape in H2. apply H2.
Qed.

(** Changes of the source fall into different cells of a grid. *)
Definition grid (l : rl) (ts : list Z) (from : Z) : Prop :=
  rl_period l = cooldown /\
  match rl_start l with
  | None => ts = [] /\ rl_pos l = 0
  | Some b => from <= b /\
      (forall x, In x ts -> ((x - b) / cooldown + 1) * cooldown <= rl_pos l) /\
      (forall i j x y, (i < j)%nat -> nth_error ts i = Some x -> nth_error ts j = Some y ->
         (x - b) / cooldown < (y - b) / cooldown)
  end.

Lemma grid_allow : forall l ts from now, 0 < cooldown < 2 ^ 62 ->
  grid l ts from -> from <= now < from + 2 ^ 62 ->
  (forall b, rl_start l = Some b -> b <= now) ->
  grid (fst (rl_allow l now)) (if snd (rl_allow l now) then ts ++ [now] else ts) from /\
  (forall b, rl_start (fst (rl_allow l now)) = Some b -> b <= now).
Proof.
  intros l ts from now CD (P & G) N B. unfold rl_allow, rl_elapsed.
  destruct (rl_start l) as [b|] eqn:S.
  - destruct G as (G1 & G2 & G3). specialize (B b eq_refl).
    destruct (Z.leb_spec (rl_pos l) (now - b)); cbn [fst snd].
    + split; [|cbn; rewrite S; intros b' X; assert (b' = b) by congruence; lia].
      unfold grid. cbn [rl_period rl_start rl_pos]. rewrite S, P. split; auto. split; auto.
      set (c := cooldown) in *. set (e := now - b) in *.
      assert (DE : 0 <= e / c <= e) by (split; [apply Z.div_pos; lia|apply Z.div_le_upper_bound; nia]).
      assert (MB : (e / c) * c <= e) by (rewrite Z.mul_comm; apply Z.mul_div_le; lia).
      assert (U : u64 (u64 (e / c + 1) * c) = (e / c + 1) * c).
      { unfold u64, wrapu. rewrite (Z.mod_small (e / c + 1)) by lia.
        apply Z.mod_small. nia. }
      rewrite U.
      assert (NEW : forall x, In x ts -> (x - b) / c < e / c).
      { intros x I. specialize (G2 x I).
        assert ((x - b) / c + 1 <= e / c); [|lia].
        apply Z.div_le_lower_bound; [lia|]. rewrite Z.mul_comm. lia. }
      split.
      * intros x I. apply in_app_iff in I. destruct I as [I|[I|[]]].
        -- specialize (NEW x I). apply Z.mul_le_mono_nonneg_r; [lia|].
           clear -NEW. lia.
        -- subst x. unfold e. apply Z.le_refl.
      * intros i j x y IJ X Y.
        destruct (Nat.lt_ge_cases j (length ts)) as [J|J].
        -- rewrite nth_error_app1 in X, Y by lia. apply (G3 i j); auto.
        -- rewrite nth_error_app2 in Y by lia. rewrite nth_error_app1 in X.
           2:{ assert (length (ts ++ [now]) > j)%nat.
               { destruct (j - length ts)%nat eqn:Q; cbn in Y; [rewrite app_length; cbn; lia|].
                 destruct n; discriminate Y. }
               rewrite app_length in H0. cbn in H0. lia. }
           destruct (j - length ts)%nat eqn:Q; cbn in Y; [|destruct n; discriminate Y].
           assert (y = now) by congruence. subst y. apply NEW. eapply nth_error_In; eauto.
    + split; [unfold grid; rewrite S; auto|]. intros b' X. congruence.
  - destruct G as (-> & G). cbn [rl_pos rl_period rl_start]. rewrite G. change (0 <=? 0) with true. cbn [fst snd].
    split; [|cbn; intros b' X; assert (b' = now) by congruence; lia].
    unfold grid. cbn [rl_period rl_start rl_pos app]. rewrite P. split; auto. split; [lia|].
    rewrite Z.div_0_l by lia.
    assert (U : u64 (u64 (0 + 1) * cooldown) = cooldown).
    { change (u64 (0 + 1)) with 1. rewrite Z.mul_1_l. unfold u64, wrapu. apply Z.mod_small. lia. }
    rewrite U. split.
    + intros x [I|[]]. subst x. rewrite Z.sub_diag, Z.div_0_l by lia. lia.
    + intros i j x y IJ X Y. destruct j; [lia|]. cbn in Y. destruct j; discriminate Y.
Qed.

Lemma run_grid : forall evs s es from, 0 < cooldown < 2 ^ 62 -> hist evs = Ok (s, es) ->
  in_order from evs ->
  (forall e t, In e evs -> time_of e = Some t -> t < from + 2 ^ 62) ->
  grid (limiter s) (switches es) from /\
  (forall b, rl_start (limiter s) = Some b -> exists e, In e evs /\ time_of e = Some b).
Proof.
  intros evs s es from CD H. apply hist_inv in H. destruct H as [_ H]. revert s es H.
  induction evs as [|e t IH] using rev_ind; intros s es H O BD.
  - cbn in H. assert (Q : s = mkMon false false 0 0 (mkMetrics 0 0 0) false (mkRl cooldown 0 None) tuner0
      /\ es = []) by (split; congruence). destruct Q as [-> ->]. cbn.
    split; [|discriminate]. unfold grid. cbn. auto.
  - apply run_snoc in H. destruct H as (s1 & es1 & e1 & H1 & H2 & ->).
    destruct (IH s1 es1 H1 (order_app _ _ _ O)) as [G1 G2].
    { intros. eapply BD; eauto. apply in_app_iff. auto. }
    assert (K : forall b, rl_start (limiter s1) = Some b ->
      exists e0, In e0 (t ++ [e]) /\ time_of e0 = Some b).
    { intros b X. destruct (G2 b X) as (e0 & I & TT). exists e0. split; auto.
      apply in_app_iff. auto. }
    rewrite switches_app. destruct e as [|now src m sent|now dur]; cbn [mon_step] in H2.
    + assert (Q : s = mon_start s1 /\ e1 = []) by (split; congruence). destruct Q as [-> ->].
      cbn. rewrite app_nil_r. auto.
    + assert (Q : mon_report s1 now src m sent = (s, e1)) by congruence.
      pose proof (report_shape s1 now src m sent) as (_ & R). rewrite Q in R. cbn [fst snd] in R.
      assert (NB : from <= now < from + 2 ^ 62).
      { split.
        - eapply order_ge with (e := Report now src m sent); [exact O| |reflexivity].
          apply in_app_iff. cbn. auto.
        - eapply BD with (e := Report now src m sent); [|reflexivity].
          apply in_app_iff. cbn. auto. }
      assert (PB : forall b, rl_start (limiter s1) = Some b -> b <= now).
      { intros b X. destruct (G2 b X) as (e0 & I & TT). apply in_split in I.
        destruct I as (p1 & p2 & I). rewrite I in O. rewrite <- app_assoc in O. cbn [app] in O.
        eapply order_le with (e' := Report now src m sent); [exact O|exact TT| |reflexivity]. apply in_app_iff. cbn. auto. }
      destruct (@grid_allow (limiter s1) (switches es1) from now CD G1 NB PB) as [A1 A2].
      assert (SL : forall b, rl_start (fst (rl_allow (limiter s1) now)) = Some b ->
        exists e0, In e0 (t ++ [Report now src m sent]) /\ time_of e0 = Some b).
      { intros b X. unfold rl_allow, rl_elapsed in X. destruct (rl_start (limiter s1)) as [b0|] eqn:Y.
        - apply K. revert X. destruct (rl_pos (limiter s1) <=? now - b0); cbn; congruence.
        - exists (Report now src m sent). split; [apply in_app_iff; cbn; auto|].
          cbn [rl_pos] in X. destruct (rl_pos (limiter s1) <=? 0); cbn in X; cbn; congruence. }
      destruct R as [[R1 [R2|(l & R2 & R3)]]|[R1 (l & R2 & R3)]]; rewrite R1.
      * rewrite app_nil_r, R2. auto.
      * rewrite app_nil_r, R3. rewrite R2 in A1, A2, SL. cbn [fst snd] in *. auto.
      * rewrite R3. rewrite R2 in A1, A2, SL. cbn [fst snd] in *. auto.
    + apply write_shape in H2. destruct H2 as (W1 & W2 & W3). rewrite W1, app_nil_r, W3. auto.
Qed.

(** A run ends only if the resampler refuses a factor. *)
Lemma run_panic : forall evs s, mrun s evs <> UB /\
  (mrun s evs = Panic -> exists x, scaling_ok x = false).
Proof.
  induction evs as [|e t IH]; intros s; cbn [mon_run].
  - split; intros X; discriminate X.
  - assert (ST : step s e <> UB /\ (step s e = Panic -> exists x, scaling_ok x = false)).
    { destruct e as [|now src m sent|now dur]; cbn [mon_step]; try (split; intros X; discriminate X).
      unfold mon_write. destruct (negb (started s)); try (split; intros X; discriminate X).
      destruct (mon_update tuner_update tuner_advance timeout s now dur) as [s1 e1].
      destruct scaling; [|split; intros X; discriminate X].
      unfold mon_scale. destruct (tuner_fetch (tuner s1)) as [t' [x|]]; [|split; intros X; discriminate X].
      destruct (scaling_ok x) eqn:SO; [split; intros X; discriminate X|].
      split; intros X; [discriminate X|]. eauto. }
    destruct ST as [S1 S2]. destruct (step s e) as [[s1 e1]| |] eqn:Q; cbn [bind fst snd].
    + destruct (IH s1) as [I1 I2]. destruct (mrun s1 t) as [[s2 e2]| |]; cbn [bind];
      (split; [intros X; try discriminate X; auto|intros X; try discriminate X; auto]).
    + split; [intros X; discriminate X|auto].
    + congruence.
Qed.

End Proof.
