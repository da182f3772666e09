(** Reading a playable stream returns all of it (C14). *)
From Verif Require Import Base Base_lemmas Seqnum_model Seqnum_proof RtpFilter_proof SortedQueue_model SortedQueue_proof MemLimiter_proof FecReader_model FecReader_spec FecReader_proof FecReaderRun_proof FecReaderSafe_proof FecRecover_spec FecRecover_proof FecRecoverFill_proof.
Open Scope res_scope.
Local Open Scope Z_scope.

Lemma fill_b_alive e r r' : fill_block e r = Ok r' -> r_alive r' = true -> r_alive r = true.
Proof.
  unfold fill_block. destruct (fill_source _ e r) as [r1| |] eqn:E1; cbn [bind]; try discriminate. intros E Ha.
  exact (fill_s_alive _ _ _ _ E1 (fill_r_alive _ _ _ _ E Ha)).
Qed.
Lemma next_b_alive e r r' : next_block e r = Ok r' -> r_alive r' = true -> r_alive r = true.
Proof. unfold next_block. intros E Ha. exact (fill_b_alive _ _ _ E Ha). Qed.
Lemma step_alive e r r' (c : bool) : (if c then next_block e r else Ok r) = Ok r' -> r_alive r' = true -> r_alive r = true.
Proof. destruct c; [apply next_b_alive|intros [= <-]; auto]. Qed.
Lemma loop_alive e n : forall r pp r' st out, next_loop n e r pp = Ok (r', st, out) -> r_alive r' = true -> r_alive r = true.
Proof.
  destruct n as [|n]; intros r pp r' st out; cbn [next_loop]; [discriminate|]. destruct (r_alive r) eqn:Ea; cbn [negb]; auto.
  intros [= <- <- <-]. congruence.
Qed.

Ltac step_if E r H := match type of E with bind (if ?c then ?a else ?b) _ = _ => destruct (if c then a else b) as [r| |] eqn:H end.

Section Run.
Variable s : sender.
Variable e : renv.
Variables s0 q0 : Z.
Hypothesis SD : sends s e s0 q0.
Hypothesis DC : decodes s e.
Notation first := (first s).
Notation index := (index s).
Notation len := (len s).
Notation total := (total s).
Notation sp := (sp s).
Notation rp := (rp s).
Notation source_place := (source_place s).
Notation repair_place := (repair_place s).

Section Loop.
Variables A P : list place.
Hypothesis HA : forall y, In y A -> source_place y.
Notation core := (core s s0 A P).
Notation filled := (filled s s0 A P).
Notation state := (state s s0 A P).

Lemma stored b m r i : filled b m r -> In (b, i) A -> exists p, nth_error (r_sb r) i = Some (Some p).
Proof. intros [_ (l & _ & [H _] & Hl) _ _] Hi. destruct (H i Hi) as [Hx|Hx]; auto. specialize (Hl _ Hx). cbn in Hl. lia. Qed.
Lemma stored_r b m r i : filled b m r -> In (b, len b + i)%nat P -> exists p, nth_error (r_rb r) i = Some (Some p).
Proof. intros [_ _ (l & _ & [H _] & Hl) _] Hi. destruct (H i Hi) as [Hx|Hx]; auto. specialize (Hl _ Hx). cbn in Hl. lia. Qed.
Definition enough (b : nat) : Prop := (len b <= among A b 0 (len b) + among P b (len b) (total b - len b))%nat.
(** If enough packets have arrived, the decoder can be used. *)
Lemma enough_ready b m r n : filled b m r -> nth_error (r_sb r) n = Some None -> enough b ->
  r_sres r = true /\ r_rres r = true /\ r_pres r = true /\ (len b <= cnt (r_sb r) + cnt (r_rb r))%nat /\ r_can r = true.
Proof.
  intros F Hn En. pose proof (y_core _ _ _ _ _ _ _ F) as K. destruct (sd_len _ _ _ _ SD b) as ((L0 & L1) & _). unfold enough in En.
  assert (Hs : r_sres r = true).
  { destruct (r_sres r) eqn:Es; auto. exfalso. destruct (c_se _ _ _ _ _ _ K Es) as [E1 E2].
    rewrite !among_zero in En; [lia| |]; intros k Hk Hi.
    - replace k with (len b + (k - len b))%nat in Hi by lia. destruct (stored_r b m r _ F Hi) as (p & Hp). exact (E2 _ _ Hp).
    - destruct (stored b m r _ F Hi) as (p & Hp). exact (E1 _ _ Hp). }
  pose proof (c_slen _ _ _ _ _ _ K Hs) as Hl.
  assert (C1 : (among A b 0 (len b) <= cnt (r_sb r))%nat).
  { rewrite <- Hl. apply among_cnt. intros k _ Hi. exact (stored b m r k F Hi). }
  assert (C2 : (among P b (len b) (total b - len b) <= cnt (r_rb r))%nat).
  { destruct (r_rres r) eqn:Er.
    - destruct (c_rlen _ _ _ _ _ _ K Er) as (_ & _ & X). replace (total b - len b)%nat with (length (r_rb r)) by lia.
      apply among_cnt. intros k _ Hi. exact (stored_r b m r k F Hi).
    - rewrite among_zero; [lia|]. intros k Hk Hi. replace k with (len b + (k - len b))%nat in Hi by lia. destruct (stored_r b m r _ F Hi) as (p & Hp).
      exact (c_re _ _ _ _ _ _ K Er _ _ Hp). }
  pose proof (cnt_lt _ _ Hn) as Hc.
  assert (Hr : r_rres r = true).
  { destruct (r_rres r) eqn:Er; auto. rewrite (cnt_empty _ (c_re _ _ _ _ _ _ K Er)) in C2. lia. }
  destruct (c_rlen _ _ _ _ _ _ K Hr) as (_ & Hp & _). splits; auto; [lia|].
  destruct (r_can r) eqn:Ec; auto. destruct (c_can _ _ _ _ _ _ K Ec) as [X|X]; [exfalso; exact (X _ Hn)|lia].
Qed.
Lemma restore_none r : (forall i, o_repair e (r_tick r) (r_sb r) (r_rb r) i = None) -> restore e r = r_sb r.
Proof.
  intros H. apply nth_error_ext. intros i. rewrite restore_nth. destruct (nth_error (r_sb r) i) as [[p|]|]; auto. rewrite H. reflexivity.
Qed.
Lemma filled_sb b m r sb : filled b m r -> length sb = length (r_sb r) -> (forall i p, nth_error (r_sb r) i = Some (Some p) -> nth_error sb i = Some (Some p)) ->
  (forall i p, nth_error sb i = Some (Some p) -> (p = sp (b, i) /\ In (b, i) A) \/ (full sb /\ k_id p = k_id (sp (b, i)))) ->
  (full sb \/ (cnt sb + cnt (r_rb r) < len b)%nat) -> r_sres r = true -> r_pres r = true -> filled b m (set_can (tick (set_sb r sb)) false).
Proof.
  intros [[K1 K2 K3 K4 K5 K6 K7 K8 K9 K10] (l & F1 & F2 & F3) F4 F5] Hl Hk Hp Hc Hs Hq. constructor; auto.
  - constructor; cbn; auto; try congruence. intros H. rewrite Hl. auto.
  - exists l. splits; auto. destruct F2 as [X1 X2]. split; auto. intros i Hi. cbn. destruct (X1 i Hi) as [X|(p & X)]; eauto.
Qed.
Lemma repair_step b m r n r1 : filled b m r -> nth_error (r_sb r) n = Some None -> try_repair e r = Ok r1 -> r_alive r1 = true ->
  filled b m r1 /\ r_next r1 = r_next r /\ r_started r1 = r_started r /\ r_src r1 = r_src r /\ length (r_sb r1) = length (r_sb r) /\
  ((full (r_sb r1)) \/ (r_sb r1 = r_sb r /\ ~ enough b)).
Proof.
  intros F Hn E Ha. pose proof (y_core _ _ _ _ _ _ _ F) as K. unfold try_repair in E.
  destruct (r_can r) eqn:Ec; cbn [negb] in E.
  2:{ injection E as <-. splits; auto. right. split; auto. intros X. destruct (enough_ready _ _ _ _ F Hn X) as (_ & _ & _ & _ & Y). congruence. }
  destruct (r_sres r && r_rres r && r_pres r) eqn:Ef; cbn [negb] in E.
  2:{ injection E as <-. splits; auto. right. split; auto. intros X. destruct (enough_ready _ _ _ _ F Hn X) as (Y1 & Y2 & Y3 & _). rewrite Y1, Y2, Y3 in Ef. discriminate. }
  apply andb_prop in Ef as [Ef Ep]. apply andb_prop in Ef as [Es Er].
  destruct (dec_begin e r) as [[]| |]; cbn [bind negb] in E; try discriminate.
  2:{ injection E as <-. discriminate. }
  destruct (dec_set (r_psize r) (r_sb r)) as [[]| |]; cbn [bind] in E; try discriminate. destruct (dec_set (r_psize r) (r_rb r)) as [[]| |]; cbn [bind] in E; try discriminate.
  injection E as <-. pose proof (c_slen _ _ _ _ _ _ K Es) as Hl. pose proof (length_restore e r) as Hlr. pose proof (restore_nth e r) as Hrn.
  destruct (Nat.le_gt_cases (len b) (cnt (r_sb r) + cnt (r_rb r))) as [C|C].
  - assert (Hfull : full (restore e r)).
    { intros i Hi. rewrite Hrn in Hi. destruct (nth_error (r_sb r) i) as [[p|]|] eqn:Ei; try discriminate. injection Hi as Hi.
      revert Hi. apply (dc_all _ _ DC); [rewrite Hl; exact C|]. apply nth_error_Some. congruence. }
    splits; auto.
    apply filled_sb; auto.
    + intros i p Hi. rewrite Hrn, Hi. reflexivity.
    + intros i p Hi. right. split; auto. rewrite Hrn in Hi. destruct (nth_error (r_sb r) i) as [[q|]|] eqn:Ei; try discriminate.
      * injection Hi as ->. destruct (c_sb _ _ _ _ _ _ K i p Ei) as [[-> _]|[_ X]]; auto.
      * injection Hi as Hi. apply (dc_right _ _ DC (r_tick r) b (r_sb r) (r_rb r) i p Hl); auto.
        -- intros j q Hj. destruct (c_sb _ _ _ _ _ _ K j q Hj) as [[-> _]|[X _]]; auto. exfalso. exact (X _ Hn).
        -- intros j q Hj. apply (c_rb _ _ _ _ _ _ K j q Hj).
  - assert (Hno : restore e r = r_sb r). { apply restore_none. intros i. apply (dc_none _ _ DC). rewrite Hl. exact C. }
    splits; auto.
    + rewrite Hno. apply filled_sb; auto. apply (c_sb _ _ _ _ _ _ K).
    + right. split; [exact Hno|]. intros X. destruct (enough_ready _ _ _ _ F Hn X) as (_ & _ & _ & Y & _). lia.
Qed.
(** Returning the packet at the current place. *)
Lemma emit b m r r' : filled b m r -> r_sres r = true -> (if (r_next (set_next r (S (r_next r))) =? length (r_sb (set_next r (S (r_next r)))))%nat then next_block e (set_next r (S (r_next r))) else Ok (set_next r (S (r_next r)))) = Ok r' ->
  r_alive r' = true -> exists b', filled b' (S m) r' /\ r_started r' = r_started r.
Proof.
  intros F Hs E Ha. cbn [set_next r_next r_sb] in E. pose proof (y_core _ _ _ _ _ _ _ F) as K. rewrite (c_slen _ _ _ _ _ _ K Hs) in E.
  destruct (y_at _ _ _ _ _ _ _ F) as [Hx Hn]. destruct (S (r_next r) =? len b)%nat eqn:El.
  - apply Nat.eqb_eq in El. change (next_block e r = Ok r') in E. destruct (advance s e s0 q0 SD A P b m r r' E Ha F El) as (G1 & G2 & _). eauto.
  - apply Nat.eqb_neq in El. injection E as <-. exists b. split; auto. destruct F as [F1 (l & F2 & F3 & F4) F5 F6]. constructor; auto.
    + destruct F1; constructor; auto.
    + exists l. splits; auto. destruct F2 as (X1 & X2 & X3 & X4). unfold src_q. splits; auto. intros x Hxl. destruct (X4 x Hxl) as (Y1 & Y2 & Y3). splits; auto; try lia.
      specialize (F4 x Hxl). pose proof (first_mono s e s0 q0 SD (S b) (fst x) ltac:(lia)) as M. unfold FecRecover_spec.index in *. cbn in *. lia.
    + unfold FecRecover_spec.index in *. cbn in *. lia.
Qed.
Lemma first_from_here l n k p : nth_error l k = Some (Some p) -> first_from l n k = k.
Proof. intros H. destruct n; cbn; auto. rewrite H. reflexivity. Qed.
Lemma loop_step n b m r pp r' st out : next_loop (S n) e r pp = Ok (r', st, out) -> r_alive r' = true -> filled b m r ->
  nth_error (r_sb r) (r_next r) = Some pp -> ((exists y, In y A /\ (m < index y)%nat) -> In (b, r_next r) A \/ enough b) ->
  (st = SOk /\ (exists p, out = Some p /\ k_id p = k_id (sp (b, r_next r))) /\ exists b', filled b' (S m) r' /\ r_started r' = r_started r) \/
  (st = SNoData /\ out = None /\ filled b m r' /\ r_started r' = r_started r /\ forall y, In y A -> (index y < m)%nat).
Proof.
  intros E Ha F Hpp Ht. pose proof (loop_alive _ _ _ _ _ _ _ E Ha) as Har. cbn [next_loop] in E. rewrite Har in E. cbn [negb] in E.
  pose proof (y_core _ _ _ _ _ _ _ F) as K. destruct (y_at _ _ _ _ _ _ _ F) as [Hix Hnx].
  destruct pp as [p|].
  - step_if E r1 E1; cbn [bind] in E; try discriminate. injection E as <- <- <-. left. splits; auto.
    + exists p. split; auto. destruct (c_sb _ _ _ _ _ _ K _ _ Hpp) as [[-> _]|[_ X]]; auto.
    + apply (emit b m r r1); auto. destruct (r_sres r) eqn:Es; auto. exfalso. exact (proj1 (c_se _ _ _ _ _ _ K Es) _ _ Hpp).
  - destruct (try_repair e r) as [r1| |] eqn:E1; cbn [bind] in E; try discriminate.
    assert (Ha1 : r_alive r1 = true).
    { set (pos := first_from (r_sb r1) (length (r_sb r1) - r_next r1) (r_next r1)) in E. destruct (pos =? length (r_sb r1))%nat.
      - destruct (length (sq_list (r_src r1)) =? 0)%nat; [injection E as <- _ _; exact Ha|].
        step_if E r2 E2; cbn [bind] in E; try discriminate.
        exact (step_alive e (set_next r1 pos) r2 _ E2 (loop_alive _ _ _ _ _ _ _ E Ha)).
      - destruct (arr (r_sb r1) pos) as [pp| |]; cbn [bind] in E; try discriminate.
        step_if E r2 E2; cbn [bind] in E; try discriminate. apply (step_alive e (set_next r1 (S pos)) r2 _ E2).
        destruct pp; [injection E as <- _ _; exact Ha|exact (loop_alive _ _ _ _ _ _ _ E Ha)]. }
    destruct (repair_step _ _ _ _ _ F Hpp E1 Ha1) as (F1 & N1 & N2 & N3 & N4 & D). pose proof (y_core _ _ _ _ _ _ _ F1) as K1.
    destruct D as [D|[D1 D2]].
    + assert (Hs : exists p, nth_error (r_sb r1) (r_next r1) = Some (Some p)).
      { destruct (nth_error (r_sb r1) (r_next r1)) as [[p|]|] eqn:Ep; eauto; [exfalso; exact (D _ Ep)|].
        apply nth_error_None in Ep. assert (nth_error (r_sb r) (r_next r) <> None) by congruence. apply nth_error_Some in H. lia. }
      destruct Hs as (p & Hp). rewrite (first_from_here _ _ _ _ Hp) in E.
      assert (Hlt : (r_next r1 < length (r_sb r1))%nat) by (apply nth_error_Some; congruence).
      rewrite (proj2 (Nat.eqb_neq _ _)) in E by lia. unfold arr in E. rewrite Hp in E. cbn [bind] in E.
      step_if E r2 E2; cbn [bind] in E; try discriminate. injection E as <- <- <-. left. splits; auto.
      * exists p. split; auto. rewrite <- N1. destruct (c_sb _ _ _ _ _ _ K1 _ _ Hp) as [[-> _]|[_ X]]; auto.
      * rewrite <- N2. apply (emit b m r1 r2); auto. destruct (r_sres r1) eqn:Es; auto. exfalso. exact (proj1 (c_se _ _ _ _ _ _ K1 Es) _ _ Hp).
    + right.
      assert (Hno : forall y, In y A -> (index y < m)%nat).
      { intros y Hy. destruct (Nat.lt_trichotomy (index y) m) as [|[X|X]]; auto; exfalso.
        - assert (y = (b, r_next r)) by (apply (index_inj s e s0 q0 SD); auto; congruence). subst y. destruct (stored _ _ _ _ F Hy) as (p & Hp). congruence.
        - destruct (Ht ltac:(eauto)) as [Y|Y]; [|auto]. destruct (stored _ _ _ _ F Y) as (p & Hp). congruence. }
      assert (Hslots : forall j, (r_next r <= j < length (r_sb r))%nat -> nth_error (r_sb r) j = Some None).
      { intros j Hj. destruct (nth_error (r_sb r) j) as [[p|]|] eqn:Ej; auto; [|apply nth_error_None in Ej; lia]. exfalso.
        destruct (c_sb _ _ _ _ _ _ K _ _ Ej) as [[_ X]|[X _]]; [|exact (X _ Hpp)]. specialize (Hno _ X). unfold FecRecover_spec.index in *. cbn in *. lia. }
      rewrite D1, N1 in E. assert (Hlt : (r_next r < length (r_sb r))%nat) by (apply nth_error_Some; congruence).
      pose proof (first_from_spec (r_sb r) (length (r_sb r) - r_next r) (r_next r) ltac:(lia)) as (X1 & X2 & X3).
      set (x := first_from _ _ _) in *. assert (Ex : x = length (r_sb r)).
      { destruct (Nat.eq_dec x (length (r_sb r))); auto. destruct X3 as (p & Hp); [lia|]. rewrite Hslots in Hp by lia. discriminate. }
      rewrite Ex, Nat.eqb_refl, N3 in E.
      assert (Hq : sq_list (r_src r) = []).
      { destruct (y_src _ _ _ _ _ _ _ F) as (l & (Q1 & _ & _ & Q4) & _ & Hl). destruct l as [|y l]; [rewrite Q1; reflexivity|]. exfalso.
        destruct (Q4 y (or_introl eq_refl)) as (Y1 & Y2 & _). specialize (Hno y Y1). specialize (Hl y (or_introl eq_refl)).
        pose proof (first_mono s e s0 q0 SD (S b) (fst y) ltac:(lia)) as M. unfold FecRecover_spec.index in *. cbn in *. lia. }
      rewrite Hq in E. cbn [length Nat.eqb] in E. injection E as <- <- <-. splits; auto.
Qed.
Lemma get_step b m r r' st out : get_next e r = Ok (r', st, out) -> r_alive r' = true -> state b m r ->
  ((exists y, In y A /\ (m < index y)%nat) -> In (b, r_next r) A \/ enough b) ->
  (st = SOk /\ (exists p, out = Some p /\ k_id p = k_id (sp (b, r_next r))) /\ exists b', filled b' (S m) r' /\ r_started r' = r_started r) \/
  (st = SNoData /\ out = None /\ filled b m r' /\ r_started r' = r_started r /\ forall y, In y A -> (index y < m)%nat).
Proof.
  unfold get_next. intros E Ha Z Ht. destruct (fill_block e r) as [r1| |] eqn:E1; cbn [bind] in E; try discriminate.
  unfold arr in E. destruct (nth_error (r_sb r1) (r_next r1)) as [pp|] eqn:Epp; cbn [bind] in E; try discriminate.
  pose proof (loop_alive _ _ _ _ _ _ _ E Ha) as Ha1. destruct (fill_b s e s0 q0 SD A P r r1 b m E1 Ha1 Z) as (F & [N1 N2] & _).
  assert (Hb : exists n, loop_bound e r1 = S n) by (unfold loop_bound; eexists; cbn [Nat.mul]; rewrite Nat.add_succ_r; reflexivity).
  destruct Hb as (n & Hb). rewrite Hb in E. rewrite <- N1 in Ht. rewrite <- N1, <- N2. eapply loop_step; eauto.
Qed.
End Loop.

(** * Arrivals *)
Lemma core_more A P A' P' b r : core s s0 A P b r -> (forall x, In x A -> In x A') -> (forall x, In x P -> In x P') -> core s s0 A' P' b r.
Proof.
  intros [K1 K2 K3 K4 K5 K6 K7 K8 K9 K10] H1 H2. constructor; auto.
  - intros i p Hi. destruct (K2 i p Hi) as [[X Y]|X]; auto.
  - intros i p Hi. destruct (K3 i p Hi) as [X Y]; auto.
Qed.
Lemma fetch_g (g : place -> rpk) (key : place -> Z) (good : place -> Prop) xs : (forall x, good x -> exists f, k_fec (g x) = Some f /\ c_scheme f = o_scheme e) ->
  (forall x y, good x -> good y -> agree (pcmp g) key x y) -> (forall x y, good x -> good y -> key x = key y -> x = y) ->
  (forall x, In x xs -> good x) -> forall q l, sq_list q = map g l -> sq_max q = O -> desc key l -> (forall x, In x l -> good x) ->
  exists q' l', fetch e q (map g xs) false = Ok (q', true, true) /\ sq_list q' = map g l' /\ sq_max q' = O /\ desc key l' /\ forall y, In y l' <-> In y xs \/ In y l.
Proof.
  intros G1 G2 G3. induction xs as [|x xs IH]; intros Hx q l Q1 Q2 Q3 Q4; cbn [map fetch].
  - exists q, l. splits; auto. intros y. cbn. tauto.
  - destruct (G1 x (Hx x (or_introl eq_refl))) as (f & Ef & Es). unfold scheme_ok. rewrite Ef, Es, Z.eqb_refl. cbn [bind].
    destruct (write_map g key q x l Q1 Q2 Q3) as (l1 & W1 & W2 & W3 & W4).
    + intros y Hy. apply G2; auto. apply Hx. left. reflexivity.
    + intros y Hy. apply G3; auto. apply Hx. left. reflexivity.
    + destruct (IH ltac:(intros; apply Hx; right; auto) _ l1 W1 W2 W3) as (q' & l' & X1 & X2 & X3 & X4 & X5).
      * intros y Hy. apply W4 in Hy as [-> |Hy]; auto. apply Hx. left. reflexivity.
      * exists q', l'. splits; auto. intros y. rewrite X5, W4. cbn. intuition congruence.
Qed.
Definition near_s (m : nat) (x : place) : Prop := source_place x /\ - 16384 < Z.of_nat (index x) - Z.of_nat m < 16384.
Definition near_r (b : nat) (x : place) : Prop := repair_place x /\ - 16384 < Z.of_nat (fst x) - Z.of_nat b < 16384.
Lemma fetch_sp m xs : (forall x, In x xs -> near_s m x) -> forall q l, sq_list q = map sp l -> sq_max q = O -> desc (skey s) l -> (forall x, In x l -> near_s m x) ->
  exists q' l', fetch e q (map sp xs) false = Ok (q', true, true) /\ sq_list q' = map sp l' /\ sq_max q' = O /\ desc (skey s) l' /\ forall y, In y l' <-> In y xs \/ In y l.
Proof.
  intros Hx. apply fetch_g with (good := near_s m); auto.
  - intros x [H _]. destruct (sd_src _ _ _ _ SD x H) as (_ & bl & E & _). rewrite E. eexists. split; reflexivity.
  - intros x y [X1 X2] [Y1 Y2]. apply (agree_s s e s0 q0 SD); auto. unfold skey. lia.
  - intros x y [X1 X2] [Y1 Y2] H. apply (index_inj s e s0 q0 SD); auto. unfold skey in H. lia.
Qed.
Lemma fetch_rp b xs : (forall x, In x xs -> near_r b x) -> forall q l, sq_list q = map rp l -> sq_max q = O -> desc rkey l -> (forall x, In x l -> near_r b x) ->
  exists q' l', fetch e q (map rp xs) false = Ok (q', true, true) /\ sq_list q' = map rp l' /\ sq_max q' = O /\ desc rkey l' /\ forall y, In y l' <-> In y xs \/ In y l.
Proof.
  intros Hx. apply fetch_g with (good := near_r b); auto.
  - intros x [H _]. destruct (sd_rep _ _ _ _ SD x H) as (_ & E). rewrite E. eexists. split; reflexivity.
  - intros x y [X1 X2] [Y1 Y2]. apply (agree_r s e s0 q0 SD); auto. lia.
  - intros x y [X1 X2] [Y1 Y2] H. apply (rkey_inj s e s0 q0 SD); auto.
Qed.
Definition call (x : list place * list place) : rin := mkRin (map sp (fst x)) false (map rp (snd x)) false.
Definition came (r r1 : fr) : Prop := exists q k, r1 = set_rep (set_src r q) k.
Lemma fetch_both m b x r ls lr : (forall y, In y (fst x) -> near_s m y) -> (forall y, In y (snd x) -> near_r b y) ->
  sq_list (r_src r) = map sp ls -> sq_max (r_src r) = O -> desc (skey s) ls -> (forall y, In y ls -> near_s m y) ->
  sq_list (r_rep r) = map rp lr -> sq_max (r_rep r) = O -> desc rkey lr -> (forall y, In y lr -> near_r b y) ->
  exists q k ls' lr', fetch_all e r (call x) = Ok (set_rep (set_src r q) k, true) /\
    sq_list q = map sp ls' /\ sq_max q = O /\ desc (skey s) ls' /\ (forall y, In y ls' <-> In y (fst x) \/ In y ls) /\
    sq_list k = map rp lr' /\ sq_max k = O /\ desc rkey lr' /\ (forall y, In y lr' <-> In y (snd x) \/ In y lr).
Proof.
  intros H1 H2 Q1 Q2 Q3 Q4 K1 K2 K3 K4. unfold fetch_all, call. cbn [i_src i_srcerr i_rep i_reperr].
  destruct (fetch_sp m (fst x) H1 _ _ Q1 Q2 Q3 Q4) as (q & ls' & X1 & X2 & X3 & X4 & X5). rewrite X1. cbn [bind fst snd negb].
  destruct (fetch_rp b (snd x) H2 _ _ K1 K2 K3 K4) as (k & lr' & Y1 & Y2 & Y3 & Y4 & Y5). change (r_rep (set_src r q)) with (r_rep r). rewrite Y1. cbn [bind fst snd].
  exists q, k, ls', lr'. splits; auto.
Qed.
Lemma came_snoc h x : came_s (h ++ [x]) = came_s h ++ fst x /\ came_r (h ++ [x]) = came_r h ++ snd x.
Proof. unfold came_s, came_r. rewrite !flat_map_app. cbn. rewrite !app_nil_r. auto. Qed.
Lemma filled_fetch h x b m r : filled s s0 (came_s h) (came_r h) b m r -> (forall y, In y (fst x) -> near_s m y) -> (forall y, In y (snd x) -> near_r b y) ->
  exists r1, fetch_all e r (call x) = Ok (r1, true) /\ state s s0 (came_s (h ++ [x])) (came_r (h ++ [x])) b m r1 /\ r_next r1 = r_next r /\ r_started r1 = r_started r.
Proof.
  intros [F1 (ls & (Q1 & Q2 & Q3 & Q4) & [S1 S2] & _) (lr & (K1 & K2 & K3 & K4) & [R1 R2] & _) F4] H1 H2.
  destruct (fetch_both m b x r ls lr) as (q & k & ls' & lr' & E & X1 & X2 & X3 & X4 & Y1 & Y2 & Y3 & Y4); auto.
  { intros y Hy. destruct (Q4 y Hy) as (_ & Z). exact Z. } { intros y Hy. destruct (K4 y Hy) as (_ & Z). exact Z. }
  rewrite E. eexists. splits; [reflexivity| |reflexivity|reflexivity]. destruct (came_snoc h x) as [-> ->]. constructor.
  - apply core_set_rep, core_set_src. eapply core_more; eauto; intros; apply in_or_app; auto.
  - exists ls'. split.
    + unfold src_q. cbn. splits; auto. intros y Hy. apply X4 in Hy as [Hy|Hy].
      * destruct (H1 y Hy). splits; auto; try lia. apply in_or_app. auto.
      * destruct (Q4 y Hy) as (Z1 & Z2 & Z3). splits; auto; try lia. apply in_or_app. auto.
    + split; cbn.
      * intros i Hi. rewrite X4. apply in_app_iff in Hi as [Hi|Hi]; auto. destruct (S1 i Hi); auto.
      * intros y Hy Hb. rewrite X4. apply in_app_iff in Hy as [Hy|Hy]; auto.
  - exists lr'. split.
    + unfold rep_q. cbn. splits; auto. intros y Hy. apply Y4 in Hy as [Hy|Hy].
      * destruct (H2 y Hy). splits; auto; try lia. apply in_or_app. auto.
      * destruct (K4 y Hy) as (Z1 & Z2 & Z3). splits; auto; try lia. apply in_or_app. auto.
    + split; cbn.
      * intros i Hi. rewrite Y4. apply in_app_iff in Hi as [Hi|Hi]; auto. destruct (R1 i Hi); auto.
      * intros y Hy Hb. rewrite Y4. apply in_app_iff in Hy as [Hy|Hy]; auto.
  - exact F4.
Qed.

(** * Before the first packet *)
Definition idle (P : list place) (r : fr) : Prop :=
  r_started r = false /\ r_sb r = [] /\ r_rb r = [] /\ r_can r = false /\ r_next r = O /\ r_sres r = false /\ r_rres r = false /\ r_pres r = false /\
  sq_list (r_src r) = [] /\ sq_max (r_src r) = O /\
  exists l, sq_list (r_rep r) = map rp l /\ sq_max (r_rep r) = O /\ desc rkey l /\ (forall x, In x l <-> In x P) /\ forall x, In x l -> near_r 0 x.
Lemma drop_none n r l : sq_list (r_rep r) = map rp l -> (forall x, In x l -> near_r 0 x) -> r_sbn r = s0 mod 65536 -> drop_repair (S n) r = Ok r.
Proof.
  intros E H Hs. cbn [drop_repair]. destruct (head_map rp _ _ E) as [[-> Eh]|(t & x & -> & Eh & _ & _)]; rewrite Eh; [reflexivity|].
  destruct (H x (in_elt x t [])) as [Px Wx]. destruct (sd_rep _ _ _ _ SD x Px) as (_ & Ef). unfold fec_of. rewrite Ef. cbn [bind c_sbn]. rewrite Hs.
  replace (s0 mod 65536) with ((s0 + Z.of_nat 0) mod 65536) by (f_equal; lia). rewrite blk_lt by (cbn in *; lia). reflexivity.
Qed.
Lemma start A P r ls lr r2 ok : sq_list (r_src r) = map sp ls -> sq_max (r_src r) = O -> desc (skey s) ls -> (forall y, In y ls <-> In y A) -> (forall y, In y ls -> near_s 0 y) -> In (O, O) ls ->
  sq_list (r_rep r) = map rp lr -> sq_max (r_rep r) = O -> desc rkey lr -> (forall y, In y lr <-> In y P) -> (forall y, In y lr -> near_r 0 y) ->
  r_sb r = [] -> r_rb r = [] -> r_can r = false -> r_next r = O -> r_sres r = false -> r_rres r = false -> r_pres r = false -> 
  try_start e r = Ok (r2, ok) -> r_alive r2 = true -> ok = true /\ state s s0 A P 0 0 r2 /\ r_started r2 = true /\ r_next r2 = O.
Proof.
  intros Q1 Q2 Q3 Q4 Q5 Q6 K1 K2 K3 K4 K5 B1 B2 B3 B4 B5 B6 B7 E Ha. unfold try_start in E.
  destruct (head_map sp _ _ Q1) as [[-> Eh]|(t & x & El & Eh & _ & _)]; [destruct Q6|]. rewrite Eh in E.
  assert (Ex : x = (O, O)).
  { assert (Q3' := Q3). rewrite El in Q3'. apply desc_app_last in Q3' as [D _]. rewrite El in Q6. apply in_app_iff in Q6 as [H|[H|[]]]; auto.
    specialize (D _ H). unfold skey, FecRecover_spec.index in D. cbn in D. lia. }
  subst x. destruct (Q5 _ Q6) as [Px _]. destruct (sd_src _ _ _ _ SD (O, O) Px) as (_ & bl & Ef & Hbl). cbn [fst snd] in Ef, Hbl.
  unfold fec_of in E. rewrite Ef in E. cbn [bind] in E. set (f := mkFec _ _ _ _ _ _) in E.
  destruct (sd_len _ _ _ _ SD O) as ((L0 & L1) & _ & _ & Lp).
  assert (Ok1 : source_ok f = true).
  { unfold source_ok. cbn [f c_esi c_sblen c_blen c_psize]. rewrite (proj2 (Nat.ltb_lt 0 (len 0))), (proj2 (Nat.eqb_neq (len 0) 0)), (proj2 (Nat.eqb_neq (pay s 0) 0)) by lia.
    cbn [negb andb]. rewrite Bool.andb_true_r. destruct (bl =? 0)%nat eqn:Eb; auto. apply Nat.eqb_neq in Eb. apply Nat.leb_le. lia. }
  destruct (process_source_spec e r f) as [F S1 _ S3 _ _ _ _]. pose proof (ps_accepts e r f Ok1) as Acc. set (u := process_source e r f) in *.
  destruct (snd u) eqn:Eu; cbn [negb] in E.
  2:{ injection E as <- <-. assert (X : false = true) by (apply Acc; auto; congruence). discriminate. }
  destruct F as (F1 & F2 & F3 & F4 & F5 & F6 & F7 & F8). destruct (S1 eq_refl) as (_ & _ & Sl & Sp & Ss & Sq & _).
  assert (Hem : empty (r_sb (fst u))).
  { destruct S3 as [-> |[_ ->]]; [rewrite B1; intros i p; destruct i; discriminate|]. apply empty_resize. rewrite B1. intros i p; destruct i; discriminate. }
  set (r1 := set_sbn (fst u) (c_sbn f)) in E. rewrite (drop_none (length (sq_list (r_rep r1))) r1 lr) in E.
  2:{ cbn. rewrite F2. exact K1. } 2:{ exact K5. } 2:{ cbn. f_equal. lia. }
  cbn [bind f c_esi] in E. change (0 <? 0)%nat with false in E. injection E as <- <-. cbn [set_started r_started r_next r1 set_sbn]. rewrite F6, B4. splits; auto.
  constructor.
  - constructor; cbn [set_started r_sbn r_sb r_rb r_sres r_pres r_rres r_can r_psize r1 set_sbn].
    + reflexivity.
    + intros i p Hi. exfalso. exact (Hem _ _ Hi).
    + rewrite F3, B2. intros i p Hi. destruct i; discriminate.
    + intros _. exact Sl.
    + intros _. exact Sp.
    + rewrite F8, B6. discriminate.
    + congruence.
    + congruence.
    + intros _. rewrite F3, B2. intros i p Hi. destruct i; discriminate.
    + intros _. right. rewrite F3, B2, (cnt_empty _ Hem). change (cnt []) with O. lia.
  - exists ls. split.
    + unfold src_q. cbn. rewrite F1. splits; auto. intros y Hy. destruct (Q5 y Hy). splits; auto; try lia. apply Q4. exact Hy.
    + split; cbn; intros; [left|]; apply Q4; auto.
  - exists lr. split.
    + unfold rep_q. cbn. rewrite F2. splits; auto. intros y Hy. destruct (K5 y Hy). splits; auto; try lia. apply K4. exact Hy.
    + split; cbn; intros; [left|]; apply K4; auto.
  - cbn. rewrite F6, B4. auto.
Qed.

(** * A whole history *)
Definition right_ids (l : list rpk) : Prop := forall k p, nth_error l k = Some p -> forall b i, (i < len b)%nat -> index (b, i) = k -> k_id p = k_id (sp (b, i)).
Definition hist (h : arrivals) (r : fr) (outs : list (bool * rstat * option rpk)) : Prop :=
  forwarded outs = [] /\ right_ids (decoded outs) /\ (forall y, In y (came_s h) -> source_place y) /\
  ((idle (came_r h) r /\ came_s h = [] /\ decoded outs = []) \/
   (r_started r = true /\ exists b, filled s s0 (came_s h) (came_r h) b (length (decoded outs)) r)).
(** What one read must give. *)
Definition good_read (h : arrivals) (outs : list (bool * rstat * option rpk)) (out : option rpk) : Prop :=
  out = None -> forall y, In y (came_s h) -> (index y < length (decoded outs))%nat.
Lemma forwarded_app a b : forwarded (a ++ b) = forwarded a ++ forwarded b.
Proof. induction a as [|[[[] []] [p|]] a IH]; cbn; auto. rewrite IH. reflexivity. Qed.
Lemma ids_snoc l p b i : right_ids l -> (i < len b)%nat -> index (b, i) = length l -> k_id p = k_id (sp (b, i)) -> right_ids (l ++ [p]).
Proof.
  intros H Hi Hx Hp k q Hk b' i' Hi' Hx'. destruct (Nat.lt_ge_cases k (length l)) as [L|L].
  - rewrite nth_error_app1 in Hk by auto. eapply H; eauto.
  - rewrite nth_error_app2 in Hk by auto. destruct (k - length l)%nat as [|[]] eqn:Ek; try discriminate. injection Hk as <-.
    assert (X : (b', i') = (b, i)) by (apply (index_inj s e s0 q0 SD); auto; cbn in *; lia). injection X as -> ->. exact Hp.
Qed.
Lemma read_step h x r outs r' st out : hist h r outs -> r_alive r = true -> in_time s h x (length (decoded outs)) -> (came_s h = [] -> fst x <> [] -> In (O, O) (fst x)) ->
  fr_read e r (call x) = Ok (r', st, out) -> r_alive r' = true ->
  let outs' := outs ++ [(r_started r', st, out)] in hist (h ++ [x]) r' outs' /\ good_read (h ++ [x]) outs' out.
Proof.
  intros (H1 & H2 & H3 & H4) Ha [T1 T2] T3 E Ha' outs'. unfold fr_read in E. rewrite Ha in E. cbn [negb] in E.
  destruct (fr_read_ e r (call x)) as [[[r3 st3] out3]| |] eqn:E3; cbn [bind fst snd] in E; try discriminate.
  assert (Er : (r3, st3, out3) = (r', st, out)).
  { destruct (r_alive r3) eqn:Ea3; cbn [negb] in E; [congruence|]. exfalso. injection E as <- _ _. congruence. }
  injection Er as -> -> ->. clear E. unfold fr_read_ in E3.
  destruct (came_snoc h x) as [C1 C2].
  assert (HA : forall y, In y (came_s (h ++ [x])) -> source_place y).
  { intros y Hy. rewrite C1 in Hy. apply in_app_iff in Hy as [Hy|Hy]; auto. apply T1. exact Hy. }
  (* what a started reader does *)
  assert (Go : forall r1 b, state s s0 (came_s (h ++ [x])) (came_r (h ++ [x])) b (length (decoded outs)) r1 -> r_started r1 = true -> get_next e r1 = Ok (r', st, out) ->
    hist (h ++ [x]) r' outs' /\ good_read (h ++ [x]) outs' out).
  { intros r1 b Z Hst E. destruct (z_at _ _ _ _ _ _ _ Z) as [Zx Zn]. destruct (T2 b (r_next r1) Zn Zx) as [_ T4].
    destruct (get_step _ _ HA b _ r1 r' st out E Ha' Z T4) as [(-> & (p & -> & Hp) & b' & F & Hs)|(-> & -> & F & Hs & Hno)]; rewrite Hst in Hs; unfold outs'; rewrite Hs.
    - split; [|intros; discriminate]. unfold hist. rewrite forwarded_app, decoded_app, app_length. cbn [forwarded decoded app length]. rewrite H1. splits; auto.
      + eapply ids_snoc; eauto.
      + right. split; auto. exists b'. rewrite Nat.add_1_r. exact F.
    - unfold hist, good_read. rewrite forwarded_app, decoded_app. cbn [forwarded decoded app]. rewrite !app_nil_r. splits; auto. right. eauto. }
  destruct H4 as [((I1 & I2 & I3 & I4 & I5 & I6 & I7 & I8 & I9 & I10 & lr & K1 & K2 & K3 & K4 & K5) & Hc & Hd)|(Hst & b & F)].
  - rewrite Hd in *. cbn [length] in *. destruct (sd_len _ _ _ _ SD O) as ((L0 & _) & _).
    destruct (T2 O O L0 eq_refl) as [T5 _].
    destruct (fetch_both 0 0 x r [] lr) as (q & k & ls' & lr' & E & X1 & X2 & X3 & X4 & Y1 & Y2 & Y3 & Y4); auto; try exact I; try (intros y []).
    rewrite E in E3. cbn [bind fst snd negb] in E3. set (r1 := set_rep (set_src r q) k) in *. change (r_started r1) with (r_started r) in E3. rewrite I1 in E3.
    assert (Yn : forall y, In y lr' -> near_r 0 y) by (intros y Hy; apply Y4 in Hy as [Hy|Hy]; [exact (T5 y Hy)|auto]).
    destruct (fst x) as [|y0 xs] eqn:Exs.
    + assert (ls' = []) by (destruct ls' as [|z ls']; auto; destruct (proj1 (X4 z) (or_introl eq_refl)) as [[]|[]]). subst ls'. cbn [map] in X1.
      assert (Et : try_start e r1 = Ok (r1, false)) by (unfold try_start, sq_head; cbn; rewrite X1; reflexivity).
      rewrite Et in E3. cbn [bind fst snd negb] in E3. unfold sq_read in E3. cbn [r1 set_rep set_src r_src] in E3. rewrite X1 in E3. cbn [list_back fst snd] in E3.
      assert (Nr : r_started r' = false) by (injection E3 as <- _ _; exact I1).
      unfold hist, good_read, outs'. rewrite Nr. injection E3 as <- <- <-. rewrite forwarded_app, decoded_app, C1, C2, Hc. cbn [forwarded decoded app]. rewrite H1, Hd. cbn [app].
      splits; auto; cbn; try tauto. left. splits; auto. unfold idle. splits; auto.
      exists lr'. splits; auto. intros z. rewrite Y4, K4, in_app_iff. tauto.
    + destruct (try_start e r1) as [[r2 ok]| |] eqn:Et; cbn [bind fst snd] in E3; try discriminate.
      assert (Ha2 : r_alive r2 = true).
      { destruct ok; cbn [negb] in E3; [|injection E3 as <- _ _; exact Ha']. unfold get_next in E3. destruct (fill_block e r2) as [r4| |] eqn:Ef; cbn [bind] in E3; try discriminate.
        destruct (arr _ _); cbn [bind] in E3; try discriminate. exact (fill_b_alive _ _ _ Ef (loop_alive _ _ _ _ _ _ _ E3 Ha')). }
      destruct (start (came_s (h ++ [x])) (came_r (h ++ [x])) r1 ls' lr' r2 ok) as (-> & Z & Z1 & Z2); auto.
      * intros y. rewrite X4, C1, Hc. cbn. tauto.
      * intros y Hy. apply X4 in Hy as [Hy|[]]. apply T1. exact Hy.
      * apply X4. left. apply T3; auto. discriminate.
      * intros y. rewrite Y4, K4, C2, in_app_iff. tauto.
      * cbn [negb] in E3. apply (Go r2 0%nat); auto.
  - destruct (y_at _ _ _ _ _ _ _ F) as [Fx Fn]. destruct (T2 b (r_next r) Fn Fx) as [T5 _].
    destruct (filled_fetch h x b _ r F) as (r1 & E & Z & N1 & N2); auto. rewrite E in E3. cbn [bind fst snd negb] in E3. rewrite N2, Hst in E3. cbn [bind fst snd negb] in E3.
    apply (Go r1 b); auto. congruence.
Qed.
Lemma run_hist h : forall r outs, playable s e h -> fr_run e fr_new (calls s h) = Ok (r, outs) -> r_alive r = true ->
  hist h r outs /\ forall outs' o, outs = outs' ++ [o] -> good_read h outs (snd o).
Proof.
  induction h as [|x h IH] using rev_ind; intros r outs Pl E Ha.
  - injection E as <- <-. split.
    + unfold hist. splits; auto; [intros k p Hk; destruct k; discriminate|intros y []|]. left. splits; auto. unfold idle. cbn. splits; auto.
      exists []. cbn. splits; auto. intros; tauto. intros y [].
    + intros outs' o Ho. destruct outs'; discriminate.
  - unfold calls in E. rewrite map_app in E. cbn [map] in E. rewrite fr_run_snoc in E.
    destruct (fr_run e fr_new (map _ h)) as [[r0 outs0]| |] eqn:E0; cbn [bind fst snd] in E; try discriminate.
    destruct (fr_read e r0 _) as [[[r1 st] out]| |] eqn:E1; cbn [bind fst snd] in E; try discriminate. injection E as <- <-.
    assert (Ha0 : r_alive r0 = true).
    { destruct (r_alive r0) eqn:Ea; auto. unfold fr_read in E1. rewrite Ea in E1. cbn [negb] in E1. injection E1 as <- _ _. congruence. }
    destruct (IH r0 outs0) as [HI _]; auto.
    { intros h1 y h2 r2 o2 Eh. apply Pl with (h2 := h2 ++ [x]). rewrite Eh, <- app_assoc. reflexivity. }
    destruct (Pl h x [] r0 outs0) as [P1 P2]; auto.
    destruct (read_step h x r0 outs0 r1 st out HI Ha0 P1 P2 E1 Ha) as [G1 G2]. split; auto.
    intros outs' o Ho. apply app_inj_tail in Ho as [_ <-]. exact G2.
Qed.
End Run.
