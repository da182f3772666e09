(** Filling the current block with what has arrived (C14). *)
From Verif Require Import Base Base_lemmas Seqnum_model Seqnum_proof RtpFilter_proof SortedQueue_model SortedQueue_proof MemLimiter_proof FecReader_model FecReader_spec FecReader_proof FecReaderRun_proof FecReaderSafe_proof FecRecover_spec FecRecover_proof.
Open Scope res_scope.
Local Open Scope Z_scope.

(** * A dead reader stays dead *)
Lemma ps_alive e r f : r_alive (fst (process_source e r f)) = true -> r_alive r = true.
Proof. apply (s_alive _ _ _ _ (process_source_spec e r f)). Qed.
Lemma pr_alive e r f u : process_repair e r f = Ok u -> r_alive (fst u) = true -> r_alive r = true.
Proof.
  unfold process_repair. destruct (repair_ok f); cbn [negb]; [|intros [= <-]; auto]. destruct (can_payload r _); cbn [negb]; [|intros [= <-]; auto].
  assert (C : forall n, r_alive (fst (can_source e r n)) = true -> r_alive r = true).
  { intros n. unfold can_source. destruct (_ =? _)%nat; auto. destruct (r_sres r); auto. destruct (_ <? _)%nat; auto. discriminate. }
  destruct (can_source e r (c_sblen f)) as [r1 o1] eqn:E1. specialize (C (c_sblen f)). rewrite E1 in C. cbn [fst snd] in C |- *.
  destruct o1; cbn [negb]; [|intros [= <-]; exact C].
  assert (C2 : forall n, r_alive (fst (can_repair_size e r1 n)) = true -> r_alive r1 = true).
  { intros n. unfold can_repair_size. destruct (_ =? _)%nat; auto. destruct (r_rres r1); auto. destruct (_ <? _)%nat; auto. discriminate. }
  destruct (can_repair_size e r1 (c_blen f)) as [r2 o2] eqn:E2. specialize (C2 (c_blen f)). rewrite E2 in C2. cbn [fst snd] in C2 |- *.
  destruct o2; cbn [negb]; [|intros [= <-]; auto].
  assert (C3 : forall n, r_alive (fst (update_source e (set_pay r2 (c_psize f)) n)) = true -> r_alive r2 = true).
  { intros n. unfold update_source. destruct (_ =? _)%nat; auto. destruct (o_alloc e _); auto. discriminate. }
  destruct (update_source e (set_pay r2 (c_psize f)) (c_sblen f)) as [r3 o3] eqn:E3. specialize (C3 (c_sblen f)). rewrite E3 in C3. cbn [fst snd] in C3 |- *.
  destruct o3; cbn [negb]; [|intros [= <-]; auto]. unfold update_repair. destruct (_ =? _)%nat; [intros [= <-]; auto|].
  destruct (_ <=? _)%nat; [discriminate|]. destruct (o_alloc e _); intros [= <-]; auto. discriminate.
Qed.
Lemma fill_s_alive e n : forall r r', fill_source n e r = Ok r' -> r_alive r' = true -> r_alive r = true.
Proof.
  induction n as [|n IH]; intros r r'; cbn [fill_source]; [discriminate|]. destruct (sq_head _) as [p|]; [|intros [= <-]; auto].
  destruct (fec_of p) as [f| |]; cbn [bind]; try discriminate. destruct (sbn_near e r f); cbn [negb]; [|intros [= <-]; discriminate].
  destruct (blknum_le _ _); cbn [negb]; [|intros [= <-]; auto]. destruct (blknum_lt _ _); [intros E H; exact (IH _ _ E H)|].
  destruct (c_sbn f =? _); cbn [negb]; [|discriminate].
  pose proof (ps_alive e (set_src r (fst (sq_read (r_src r)))) f) as A. destruct (process_source e _ f) as [r1 o]. cbn [fst snd] in *.
  destruct o; cbn [negb]; [|intros E H; exact (A (IH _ _ E H))]. destruct (_ =? _)%nat; cbn [negb]; [|discriminate].
  destruct (_ <? _)%nat; cbn [negb]; [|discriminate]. destruct (arr _ _) as [[q|]| |]; cbn [bind]; try discriminate; intros E H; exact (A (IH _ _ E H)).
Qed.
Lemma fill_r_alive e n : forall r r', fill_repair n e r = Ok r' -> r_alive r' = true -> r_alive r = true.
Proof.
  induction n as [|n IH]; intros r r'; cbn [fill_repair]; [discriminate|]. destruct (sq_head _) as [p|]; [|intros [= <-]; auto].
  destruct (fec_of p) as [f| |]; cbn [bind]; try discriminate. destruct (sbn_near e r f); cbn [negb]; [|intros [= <-]; discriminate].
  destruct (blknum_le _ _); cbn [negb]; [|intros [= <-]; auto]. destruct (blknum_lt _ _); [intros E H; exact (IH _ _ E H)|].
  destruct (c_sbn f =? _); cbn [negb]; [|discriminate].
  pose proof (pr_alive e (set_rep r (fst (sq_read (r_rep r)))) f) as A. destruct (process_repair e _ f) as [[r1 o]| |]; cbn [bind]; try discriminate.
  specialize (A _ eq_refl). cbn [fst snd] in *.
  destruct o; cbn [negb]; [|intros E H; exact (A (IH _ _ E H))]. destruct (_ =? _)%nat; cbn [negb]; [|discriminate]. destruct (_ <=? _)%nat; cbn [negb]; [|discriminate].
  destruct (_ <? _)%nat; cbn [negb]; [|discriminate]. destruct (arr _ _) as [[q|]| |]; cbn [bind]; try discriminate; intros E H; exact (A (IH _ _ E H)).
Qed.
(** * Packets that agree with the block are accepted *)
Lemma ps_accepts e r f : source_ok f = true -> (r_sres r = true -> length (r_sb r) = c_sblen f) -> (r_pres r = true -> r_psize r = c_psize f) ->
  r_alive (fst (process_source e r f)) = true -> snd (process_source e r f) = true.
Proof.
  intros H1 H2 H3. unfold process_source. rewrite H1. cbn [negb].
  assert (C : can_payload r (c_psize f) = true).
  { unfold can_payload. destruct (r_pres r); [rewrite H3 by auto; rewrite Nat.eqb_refl; reflexivity|apply Bool.orb_true_r]. }
  rewrite C. cbn [negb]. unfold can_source. destruct (length (r_sb r) =? c_sblen f)%nat eqn:El; cbn [fst snd negb].
  { unfold update_source. change (r_sb (set_pay r (c_psize f))) with (r_sb r). rewrite El. auto. }
  destruct (r_sres r) eqn:Es; [rewrite H2, Nat.eqb_refl in El by auto; discriminate|].
  destruct (_ <? _)%nat; cbn [fst snd negb]; [discriminate|]. unfold update_source. change (r_sb (set_pay r (c_psize f))) with (r_sb r). rewrite El.
  destruct (o_alloc e _); cbn; [auto|discriminate].
Qed.
Lemma pr_accepts e r f u : process_repair e r f = Ok u -> repair_ok f = true -> (r_sres r = true -> length (r_sb r) = c_sblen f) -> (r_pres r = true -> r_psize r = c_psize f) ->
  (r_rres r = true -> r_sres r = true /\ (length (r_sb r) + length (r_rb r) = c_blen f)%nat) -> r_alive (fst u) = true -> snd u = true.
Proof.
  intros E H1 H2 H3 H4. unfold process_repair in E. rewrite H1 in E. cbn [negb] in E.
  assert (C : can_payload r (c_psize f) = true).
  { unfold can_payload. destruct (r_pres r); [rewrite H3 by auto; rewrite Nat.eqb_refl; reflexivity|apply Bool.orb_true_r]. }
  rewrite C in E. cbn [negb] in E.
  assert (C1 : can_source e r (c_sblen f) = (r, true) \/ can_source e r (c_sblen f) = (set_dead r, false)).
  { unfold can_source. destruct (_ =? _)%nat eqn:El; auto. destruct (r_sres r); [rewrite H2, Nat.eqb_refl in El by auto; discriminate|]. destruct (_ <? _)%nat; auto. }
  destruct C1 as [C1|C1]; rewrite C1 in E; cbn [fst snd negb] in E; [|injection E as <-; discriminate].
  assert (C2 : can_repair_size e r (c_blen f) = (r, true) \/ can_repair_size e r (c_blen f) = (set_dead r, false)).
  { unfold can_repair_size. destruct (_ =? _)%nat eqn:El; auto. destruct (r_rres r); [destruct (H4 eq_refl) as [_ Hx]; rewrite Hx, Nat.eqb_refl in El; discriminate|]. destruct (_ <? _)%nat; auto. }
  destruct C2 as [C2|C2]; rewrite C2 in E; cbn [fst snd negb] in E; [|injection E as <-; discriminate].
  destruct (update_source e (set_pay r (c_psize f)) (c_sblen f)) as [r1 o1] eqn:E1. cbn [fst snd] in E.
  destruct o1; cbn [negb] in E.
  2:{ injection E as <-. unfold update_source in E1. destruct (_ =? _)%nat; [discriminate|]. destruct (o_alloc e _); [discriminate|]. injection E1 as <-. discriminate. }
  unfold update_repair in E. destruct (_ =? _)%nat; [injection E as <-; auto|]. destruct (_ <=? _)%nat; [discriminate|]. destruct (o_alloc e _); injection E as <-; auto.
Qed.

Section Fill.
Variable s : sender.
Variable e : renv.
Variables s0 q0 : Z.
Hypothesis SD : sends s e s0 q0.
Notation first := (first s).
Notation index := (index s).
Notation len := (len s).
Notation total := (total s).
Notation sp := (sp s).
Notation rp := (rp s).
Notation source_place := (source_place s).
Notation repair_place := (repair_place s).
(** [A], [P]: the places of the source and repair packets that have arrived. *)
Variables A P : list place.

(** The reader is at block [b]. *)
Record core (b : nat) (r : fr) : Prop := mkCore {
  c_num : r_sbn r = (s0 + Z.of_nat b) mod 65536;
  c_sb : forall i p, nth_error (r_sb r) i = Some (Some p) -> (p = sp (b, i) /\ In (b, i) A) \/ (full (r_sb r) /\ k_id p = k_id (sp (b, i)));
  c_rb : forall i p, nth_error (r_rb r) i = Some (Some p) -> p = rp (b, len b + i)%nat /\ In (b, len b + i)%nat P;
  c_slen : r_sres r = true -> length (r_sb r) = len b;
  c_pay : r_pres r = true -> r_psize r = pay s b;
  c_rlen : r_rres r = true -> r_sres r = true /\ r_pres r = true /\ (len b + length (r_rb r) = total b)%nat;
  c_se : r_sres r = false -> empty (r_sb r) /\ empty (r_rb r);
  c_pe : r_pres r = false -> empty (r_sb r) /\ empty (r_rb r);
  c_re : r_rres r = false -> empty (r_rb r);
  c_can : r_can r = false -> full (r_sb r) \/ (cnt (r_sb r) + cnt (r_rb r) < len b)%nat }.
Definition src_q (m : nat) (l : list place) (r : fr) : Prop :=
  sq_list (r_src r) = map sp l /\ sq_max (r_src r) = O /\ desc (skey s) l /\
  forall x, In x l -> In x A /\ source_place x /\ - 16384 < Z.of_nat (index x) - Z.of_nat m < 16384.
Definition rep_q (b : nat) (l : list place) (r : fr) : Prop :=
  sq_list (r_rep r) = map rp l /\ sq_max (r_rep r) = O /\ desc rkey l /\
  forall x, In x l -> In x P /\ repair_place x /\ - 16384 < Z.of_nat (fst x) - Z.of_nat b < 16384.
(** Nothing that arrived for block [b] or a later one is lost. *)
Definition has_s (b : nat) (l : list place) (r : fr) : Prop :=
  (forall i, In (b, i) A -> In (b, i) l \/ exists p, nth_error (r_sb r) i = Some (Some p)) /\ (forall x, In x A -> (b < fst x)%nat -> In x l).
Definition has_r (b : nat) (l : list place) (r : fr) : Prop :=
  (forall i, In (b, len b + i)%nat P -> In (b, len b + i)%nat l \/ exists p, nth_error (r_rb r) i = Some (Some p)) /\ (forall x, In x P -> (b < fst x)%nat -> In x l).

Lemma empty_some l i p : empty l -> nth_error l i = Some (Some p) -> False.
Proof. intros H E. exact (H i p E). Qed.
Lemma core_ps b r f : core b r -> c_sblen f = len b -> c_psize f = pay s b -> snd (process_source e r f) = true -> core b (fst (process_source e r f)).
Proof.
  intros [K1 K2 K3 K4 K5 K6 K7 K8 K9 K10] El Ep Eok. destruct (process_source_spec e r f) as [F S1 _ S3 S4 S5 S6 _].
  set (r' := fst (process_source e r f)) in *. destruct F as (F1 & F2 & F3 & F4 & F5 & F6 & F7 & F8). destruct (S1 Eok) as (_ & Ea & Hl & Hp & Hs & Hq & _).
  destruct (sd_len _ _ _ _ SD b) as ((L0 & _) & _).
  assert (Hsb : r_sb r' = r_sb r \/ (empty (r_sb r') /\ empty (r_sb r) /\ empty (r_rb r))).
  { destruct S3 as [S3|[S3 S3']]; auto. right. destruct (K7 S3) as [H1 H2]. splits; auto. rewrite S3'. apply empty_resize. auto. }
  constructor; try congruence.
  - intros i p Hi. destruct Hsb as [Hsb|(H1 & _)]; [|exfalso; exact (H1 _ _ Hi)]. rewrite Hsb in *. auto.
  - rewrite F3. auto.
  - intros H. rewrite F8 in H. rewrite F3. destruct (K6 H) as (_ & _ & H3). splits; auto.
  - rewrite F8, F3. auto.
  - rewrite F5, F3. intros H. destruct Hsb as [Hsb|(H1 & _ & H3)]; [rewrite Hsb; auto|]. right. rewrite (cnt_empty _ H1), (cnt_empty _ H3). lia.
Qed.
Lemma ps_slots b r f i p : core b r -> nth_error (r_sb r) i = Some (Some p) -> nth_error (r_sb (fst (process_source e r f))) i = Some (Some p).
Proof.
  intros K H. destruct (s_sb _ _ _ _ (process_source_spec e r f)) as [-> |[Hs _]]; auto. destruct (c_se _ _ K Hs) as [H1 _]. exfalso. exact (H1 _ _ H).
Qed.
Lemma core_pr b r f u : process_repair e r f = Ok u -> core b r -> c_sblen f = len b -> c_blen f = total b -> c_psize f = pay s b -> snd u = true -> core b (fst u).
Proof.
  intros E [K1 K2 K3 K4 K5 K6 K7 K8 K9 K10] El Et Ep Eok. destruct (process_repair_spec e r f u E) as [F S1 S2 S3 S4 S5 S6 S7 S8 S9 _]; [intros H; apply K6; exact H|].
  set (r' := fst u) in *. destruct F as (F1 & F2 & F3 & F4 & F5 & F6). destruct (S1 Eok) as (_ & Ea & Hl & Hp & Hs & Hr & Hq & Hrl).
  destruct (sd_len _ _ _ _ SD b) as ((L0 & _) & _).
  assert (Hsb : r_sb r' = r_sb r \/ (empty (r_sb r') /\ empty (r_sb r) /\ empty (r_rb r))).
  { destruct S2 as [S3'|[S3' S3'']]; auto. right. destruct (K7 S3') as [H1 H2]. splits; auto. rewrite S3''. apply empty_resize. auto. }
  assert (Hrb : r_rb r' = r_rb r \/ (empty (r_rb r') /\ empty (r_rb r))).
  { destruct S4 as [S4|(S4 & n & S4')]; auto. right. split; [rewrite S4'; apply empty_resize|]; auto. }
  constructor; try congruence.
  - intros i p Hi. destruct Hsb as [Hsb|(H1 & _)]; [|exfalso; exact (H1 _ _ Hi)]. rewrite Hsb in *. auto.
  - intros i p Hi. destruct Hrb as [Hrb|(H1 & _)]; [|exfalso; exact (H1 _ _ Hi)]. rewrite Hrb in *. auto.
  - intros _. splits; auto. lia.
  - rewrite F4. intros H. assert (Er : cnt (r_rb r') = cnt (r_rb r)) by (destruct Hrb as [-> |[H1 H2]]; [auto|rewrite !cnt_empty by auto; auto]).
    rewrite Er. destruct Hsb as [Hsb|(H1 & _ & H3)]; [rewrite Hsb; auto|]. right. rewrite (cnt_empty _ H1), (cnt_empty _ H3). lia.
Qed.
Lemma pr_slots b r f u : process_repair e r f = Ok u -> core b r ->
  (forall i p, nth_error (r_sb r) i = Some (Some p) -> nth_error (r_sb (fst u)) i = Some (Some p)) /\
  (forall i p, nth_error (r_rb r) i = Some (Some p) -> nth_error (r_rb (fst u)) i = Some (Some p)).
Proof.
  intros E K. destruct (process_repair_spec e r f u E) as [_ _ S2 _ S4 _ _ _ _ _ _]; [intros H; apply (c_rlen _ _ K); exact H|]. split; intros i p H.
  - destruct S2 as [-> |[Hs _]]; auto. destruct (c_se _ _ K Hs) as [H1 _]. exfalso. exact (H1 _ _ H).
  - destruct S4 as [-> |[Hs _]]; auto. exfalso. exact (c_re _ _ K Hs _ _ H).
Qed.
Lemma core_set_src b r q : core b r -> core b (set_src r q).
Proof. intros [K1 K2 K3 K4 K5 K6 K7 K8 K9 K10]. constructor; auto. Qed.
Lemma core_set_rep b r q : core b r -> core b (set_rep r q).
Proof. intros [K1 K2 K3 K4 K5 K6 K7 K8 K9 K10]. constructor; auto. Qed.
Lemma full_upd' l i p : full l -> full (upd l i (Some p)).
Proof.
  intros H j Hj. destruct (Nat.eq_dec i j) as [-> |N]; [|rewrite nth_error_upd_neq in Hj by auto; exact (H j Hj)].
  destruct (Nat.lt_ge_cases j (length l)); [rewrite nth_error_upd_eq in Hj by auto; discriminate|]. rewrite upd_out in Hj by auto. exact (H j Hj).
Qed.
Lemma core_store_s b r i : core b r -> r_sres r = true -> r_pres r = true -> nth_error (r_sb r) i = Some None -> In (b, i) A ->
  core b (set_can (set_sb r (upd (r_sb r) i (Some (sp (b, i))))) true).
Proof.
  intros [K1 K2 K3 K4 K5 K6 K7 K8 K9 K10] Hs Hp Hn Hi. constructor; cbn; auto; try congruence.
  - intros j p Hj. destruct (Nat.eq_dec i j) as [<- |N].
    + rewrite nth_error_upd_eq in Hj by (apply nth_error_Some; congruence). injection Hj as <-. auto.
    + rewrite nth_error_upd_neq in Hj by auto. destruct (K2 j p Hj) as [H|[H1 H2]]; auto. right. split; auto. apply full_upd'. exact H1.
  - rewrite length_upd. auto.
Qed.
Lemma core_store_r b r i : core b r -> r_rres r = true -> nth_error (r_rb r) i = Some None -> In (b, len b + i)%nat P ->
  core b (set_can (set_rb r (upd (r_rb r) i (Some (rp (b, len b + i)%nat)))) true).
Proof.
  intros [K1 K2 K3 K4 K5 K6 K7 K8 K9 K10] Hr Hn Hi. destruct (K6 Hr) as (Hs & Hp & Hl). constructor; cbn; auto; try congruence.
  - intros j p Hj. destruct (Nat.eq_dec i j) as [<- |N].
    + rewrite nth_error_upd_eq in Hj by (apply nth_error_Some; congruence). injection Hj as <-. auto.
    + rewrite nth_error_upd_neq in Hj by auto. auto.
  - rewrite length_upd. auto.
Qed.
Lemma blk_le a b : - 32768 <= Z.of_nat a - Z.of_nat b < 32768 -> blknum_le ((s0 + Z.of_nat a) mod 65536) ((s0 + Z.of_nat b) mod 65536) = (a <=? b)%nat.
Proof. intros H. unfold blknum_le. rewrite blknum_diff_pos by lia. destruct (Nat.leb_spec a b), (Z.leb_spec (s0 + Z.of_nat a - (s0 + Z.of_nat b)) 0); auto; lia. Qed.
Lemma blk_lt a b : - 32768 <= Z.of_nat a - Z.of_nat b < 32768 -> blknum_lt ((s0 + Z.of_nat a) mod 65536) ((s0 + Z.of_nat b) mod 65536) = (a <? b)%nat.
Proof. intros H. unfold blknum_lt. rewrite blknum_diff_pos by lia. destruct (Nat.ltb_spec a b), (Z.ltb_spec (s0 + Z.of_nat a - (s0 + Z.of_nat b)) 0); auto; lia. Qed.
Definition same (r r' : fr) : Prop := r_next r' = r_next r /\ r_started r' = r_started r.

Lemma fill_s n : forall r r' b m l, fill_source n e r = Ok r' -> r_alive r' = true -> core b r -> src_q m l r -> has_s b l r ->
  (exists i, index (b, i) = m /\ (i < len b)%nat) ->
  exists l', core b r' /\ src_q m l' r' /\ has_s b l' r' /\ (forall x, In x l' -> (b < fst x)%nat) /\ same r r' /\ r_rep r' = r_rep r
    /\ r_rb r' = r_rb r.
Proof.
  induction n as [|n IH]; intros r r' b m l E Ha K Q H Hm; [discriminate|]. cbn [fill_source] in E.
  destruct Q as (Q1 & Q2 & Q3 & Q4). destruct (head_map sp _ _ Q1) as [[-> Eh]|(t & x & -> & Eh & Et & Em)]; rewrite Eh in E.
  { injection E as <-. exists []. splits; auto; [unfold src_q; splits; auto|intros x []|split; auto]. }
  destruct (Q4 x (in_elt x t [])) as (Ax & Px & Wx). destruct (sd_src _ _ _ _ SD x Px) as (_ & bl & Ef & Hbl).
  unfold fec_of in E. rewrite Ef in E. cbn [bind] in E. set (f := mkFec _ _ _ _ _ _) in E.
  assert (Wb : - 16384 < Z.of_nat (fst x) - Z.of_nat b < 16384).
  { destruct Hm as (i & <- & Hi). pose proof (index_dist s e s0 q0 SD x (b, i) Px Hi) as D. cbn [fst] in D. lia. }
  destruct (sbn_near e r f); cbn [negb] in E; [|injection E as <-; discriminate].
  rewrite (c_num _ _ K) in E. change (c_sbn f) with ((s0 + Z.of_nat (fst x)) mod 65536) in E. rewrite blk_le in E by lia.
  assert (Dx : (forall y, In y t -> skey s x < skey s y) /\ desc (skey s) t) by (apply desc_app_last; exact Q3). destruct Dx as [Dx Dt].
  destruct (fst x <=? b)%nat eqn:Ele; cbn [negb] in E.
  2:{ injection E as <-. apply Nat.leb_gt in Ele. exists (t ++ [x]). splits; auto; [unfold src_q; splits; auto| |split; auto].
      intros y Hy. apply in_app_iff in Hy as [Hy|[<- |[]]]; auto. assert (fst x <= fst y)%nat; [|lia].
      apply (index_block s e s0 q0 SD); auto; [apply Q4; apply in_or_app; auto|]. specialize (Dx y Hy). unfold skey in Dx. lia. }
  apply Nat.leb_le in Ele. set (r1 := set_src r (fst (sq_read (r_src r)))) in *.
  assert (K1 : core b r1) by (apply core_set_src; exact K).
  assert (R1 : r_rep r1 = r_rep r /\ r_rb r1 = r_rb r /\ r_next r1 = r_next r /\ r_started r1 = r_started r) by (splits; reflexivity).
  assert (Q5 : src_q m t r1). { unfold src_q; splits; auto; [cbn; lia|]. intros y Hy. apply Q4. apply in_or_app. auto. }
  change (r_sbn r1) with (r_sbn r) in E. rewrite (c_num _ _ K), blk_lt in E by lia.
  destruct (fst x <? b)%nat eqn:Elt.
  { apply Nat.ltb_lt in Elt. eapply IH in E as (l' & H1 & H2 & H3 & H4 & H5 & H6 & H7); eauto.
    - exists l'. splits; auto.
    - destruct H as [Hh1 Hh2]. split.
      + intros i Hi. destruct (Hh1 i Hi) as [Hl|Hl]; auto. left. apply in_app_iff in Hl as [Hl|[Hl|[]]]; auto. subst x. cbn in Elt. lia.
      + intros y Hy Hb. specialize (Hh2 y Hy Hb). apply in_app_iff in Hh2 as [Hl|[Hl|[]]]; auto. subst x. lia. }
  apply Nat.ltb_ge in Elt. assert (Ex : fst x = b) by lia. rewrite Ex, Z.eqb_refl in E. cbn [negb] in E.
  assert (Ok1 : source_ok f = true).
  { unfold source_ok. cbn [f c_esi c_sblen c_blen c_psize]. unfold FecRecover_spec.source_place in Px. destruct (sd_len _ _ _ _ SD (fst x)) as ((L0 & _) & _ & _ & Lp).
    rewrite (proj2 (Nat.ltb_lt _ _) Px), (proj2 (Nat.eqb_neq (len (fst x)) 0)), (proj2 (Nat.eqb_neq (pay s (fst x)) 0)) by lia. cbn [negb andb]. rewrite Bool.andb_true_r.
    destruct (bl =? 0)%nat eqn:Eb; auto. apply Nat.eqb_neq in Eb. rewrite (proj2 (Nat.leb_le _ _)); [reflexivity|lia]. }
  assert (Ef1 : c_sblen f = len b) by (cbn; rewrite Ex; reflexivity). assert (Ef2 : c_psize f = pay s b) by (cbn; rewrite Ex; reflexivity).
  set (u := process_source e r1 f) in *.
  assert (Hal : r_alive (fst u) = true).
  { destruct (snd u); cbn [negb] in E; [|exact (fill_s_alive _ _ _ _ E Ha)].
    destruct (c_sblen f =? _)%nat; cbn [negb] in E; [|discriminate]. destruct (c_esi f <? _)%nat; cbn [negb] in E; [|discriminate].
    destruct (arr _ _) as [[q|]| |]; cbn [bind] in E; try discriminate; exact (fill_s_alive _ _ _ _ E Ha). }
  assert (Eu : snd u = true).
  { apply ps_accepts; auto; [intros Hx; rewrite Ef1; apply (c_slen _ _ K1 Hx)|intros Hx; rewrite Ef2; apply (c_pay _ _ K1 Hx)]. }
  rewrite Eu in E. cbn [negb] in E. pose proof (core_ps b r1 f K1 Ef1 Ef2 Eu) as K2. fold u in K2.
  destruct (process_source_spec e r1 f) as [F S1 _ _ _ _ _ _]. fold u in F, S1. destruct F as (F1 & F2 & F3 & F4 & F5 & F6 & F7 & F8).
  destruct (S1 Eu) as (_ & _ & Sl & _ & Ss & Sp & _). rewrite Sl, Nat.eqb_refl in E. cbn [negb] in E.
  change (c_esi f) with (snd x) in E. destruct (snd x <? c_sblen f)%nat; cbn [negb] in E; [|discriminate].
  assert (Exb : x = (b, snd x)) by (rewrite <- Ex; destruct x; reflexivity).
  unfold arr in E. destruct (nth_error (r_sb (fst u)) (snd x)) as [[q|]|] eqn:En; cbn [bind] in E; [| |discriminate].
  - eapply IH in E as (l' & H1 & H2 & H3 & H4 & H5 & H6 & H7); eauto.
    + exists l'. splits; auto; try (unfold same in *; intuition congruence).
    + unfold src_q. rewrite F1. exact Q5.
    + destruct H as [Hh1 Hh2]. split.
      * intros i Hi. destruct (Hh1 i Hi) as [Hl|(p & Hp)].
        -- apply in_app_iff in Hl as [Hl|[Hl|[]]]; auto. right. exists q. rewrite <- En. f_equal. rewrite Hl. reflexivity.
        -- right. exists p. apply (ps_slots b); auto.
      * intros y Hy Hb. specialize (Hh2 y Hy Hb). apply in_app_iff in Hh2 as [Hl|[Hl|[]]]; auto. subst y. lia.
  - rewrite Exb in E at 2. cbn [snd] in E. rewrite Exb in Ax. eapply IH in E as (l' & H1 & H2 & H3 & H4 & H5 & H6 & H7); eauto.
    + exists l'. splits; auto; try (unfold same in *; cbn in *; intuition congruence).
    + apply core_store_s; auto.
    + unfold src_q. cbn [set_can set_sb r_src]. rewrite F1. exact Q5.
    + destruct H as [Hh1 Hh2]. split.
      * intros i Hi. cbn. destruct (Nat.eq_dec i (snd x)) as [-> |N].
        { right. eexists. apply nth_error_upd_eq. apply nth_error_Some. congruence. }
        destruct (Hh1 i Hi) as [Hl|(p & Hp)].
        -- apply in_app_iff in Hl as [Hl|[Hl|[]]]; auto. exfalso. apply N. rewrite Hl. reflexivity.
        -- right. exists p. rewrite nth_error_upd_neq by auto. apply (ps_slots b); auto.
      * intros y Hy Hb. specialize (Hh2 y Hy Hb). apply in_app_iff in Hh2 as [Hl|[Hl|[]]]; auto. subst y. lia.
Qed.

Lemma fill_r n : forall r r' b l, fill_repair n e r = Ok r' -> r_alive r' = true -> core b r -> rep_q b l r -> has_r b l r ->
  exists l', core b r' /\ rep_q b l' r' /\ has_r b l' r' /\ (forall x, In x l' -> (b < fst x)%nat) /\ same r r' /\ r_src r' = r_src r
    /\ forall i p, nth_error (r_sb r) i = Some (Some p) -> nth_error (r_sb r') i = Some (Some p).
Proof.
  induction n as [|n IH]; intros r r' b l E Ha K Q H; [discriminate|]. cbn [fill_repair] in E.
  destruct Q as (Q1 & Q2 & Q3 & Q4). destruct (head_map rp _ _ Q1) as [[-> Eh]|(t & x & -> & Eh & Et & Em)]; rewrite Eh in E.
  { injection E as <-. exists []. splits; auto; [unfold rep_q; splits; auto|intros x []|split; auto]. }
  destruct (Q4 x (in_elt x t [])) as (Ax & Px & Wx). destruct (sd_rep _ _ _ _ SD x Px) as (_ & Ef).
  unfold fec_of in E. rewrite Ef in E. cbn [bind] in E. set (f := mkFec _ _ _ _ _ _) in E.
  destruct (sbn_near e r f); cbn [negb] in E; [|injection E as <-; discriminate].
  rewrite (c_num _ _ K) in E. change (c_sbn f) with ((s0 + Z.of_nat (fst x)) mod 65536) in E. rewrite blk_le in E by lia.
  assert (Dx : (forall y, In y t -> rkey x < rkey y) /\ desc rkey t) by (apply desc_app_last; exact Q3). destruct Dx as [Dx Dt].
  destruct (fst x <=? b)%nat eqn:Ele; cbn [negb] in E.
  2:{ injection E as <-. apply Nat.leb_gt in Ele. exists (t ++ [x]). splits; auto; [unfold rep_q; splits; auto| |split; auto].
      intros y Hy. apply in_app_iff in Hy as [Hy|[<- |[]]]; auto. assert (fst x <= fst y)%nat; [|lia].
      apply (rkey_block s e s0 q0 SD); auto; [apply Q4; apply in_or_app; auto|]. specialize (Dx y Hy). lia. }
  apply Nat.leb_le in Ele. set (r1 := set_rep r (fst (sq_read (r_rep r)))) in *.
  assert (K1 : core b r1) by (apply core_set_rep; exact K).
  assert (R1 : r_src r1 = r_src r /\ r_sb r1 = r_sb r /\ r_rb r1 = r_rb r /\ r_next r1 = r_next r /\ r_started r1 = r_started r) by (splits; reflexivity).
  assert (Q5 : rep_q b t r1). { unfold rep_q; splits; auto; [cbn; lia|]. intros y Hy. apply Q4. apply in_or_app. auto. }
  change (r_sbn r1) with (r_sbn r) in E. rewrite (c_num _ _ K), blk_lt in E by lia.
  destruct (fst x <? b)%nat eqn:Elt.
  { apply Nat.ltb_lt in Elt. eapply IH in E as (l' & H1 & H2 & H3 & H4 & H5 & H6 & H7); eauto.
    - exists l'. splits; auto.
    - destruct H as [Hh1 Hh2]. split.
      + intros i Hi. destruct (Hh1 i Hi) as [Hl|Hl]; auto. left. apply in_app_iff in Hl as [Hl|[Hl|[]]]; auto. subst x. cbn in Elt. lia.
      + intros y Hy Hb. specialize (Hh2 y Hy Hb). apply in_app_iff in Hh2 as [Hl|[Hl|[]]]; auto. subst x. lia. }
  apply Nat.ltb_ge in Elt. assert (Ex : fst x = b) by lia. rewrite Ex, Z.eqb_refl in E. cbn [negb] in E.
  assert (Px' := Px). unfold FecRecover_spec.repair_place in Px'. destruct (sd_len _ _ _ _ SD (fst x)) as ((L0 & L1) & _ & _ & Lp).
  assert (Ok1 : repair_ok f = true).
  { unfold repair_ok. cbn [f c_esi c_sblen c_blen c_psize].
    rewrite (proj2 (Nat.leb_le (len (fst x)) (snd x))), (proj2 (Nat.eqb_neq (len (fst x)) 0)), (proj2 (Nat.eqb_neq (total (fst x)) 0)), (proj2 (Nat.ltb_lt (snd x) (total (fst x)))), (proj2 (Nat.leb_le (len (fst x)) (total (fst x)))), (proj2 (Nat.eqb_neq (pay s (fst x)) 0)) by lia.
    reflexivity. }
  assert (Ef1 : c_sblen f = len b) by (cbn; rewrite Ex; reflexivity). assert (Ef2 : c_psize f = pay s b) by (cbn; rewrite Ex; reflexivity).
  assert (Ef3 : c_blen f = total b) by (cbn; rewrite Ex; reflexivity).
  destruct (process_repair e r1 f) as [u| |] eqn:Epr; cbn [bind] in E; try discriminate.
  assert (Hal : r_alive (fst u) = true).
  { destruct (snd u); cbn [negb] in E; [|exact (fill_r_alive _ _ _ _ E Ha)].
    destruct (c_sblen f =? _)%nat; cbn [negb] in E; [|discriminate]. destruct (length (r_sb (fst u)) <=? _)%nat; cbn [negb] in E; [|discriminate].
    destruct (c_esi f <? _)%nat; cbn [negb] in E; [|discriminate].
    destruct (arr _ _) as [[q|]| |]; cbn [bind] in E; try discriminate; exact (fill_r_alive _ _ _ _ E Ha). }
  assert (Eu : snd u = true).
  { eapply pr_accepts; eauto; [intros Hx; rewrite Ef1; apply (c_slen _ _ K1 Hx)|intros Hx; rewrite Ef2; apply (c_pay _ _ K1 Hx)|].
    intros Hx. destruct (c_rlen _ _ K1 Hx) as (X1 & X2 & X3). rewrite (c_slen _ _ K1 X1), Ef3. auto. }
  rewrite Eu in E. cbn [negb] in E. pose proof (core_pr b r1 f u Epr K1 Ef1 Ef3 Ef2 Eu) as K2. pose proof (pr_slots b r1 f u Epr K1) as [W1 W2].
  destruct (process_repair_spec e r1 f u Epr) as [F S1 _ _ _ _ _ _ _ _ _]; [intros Hx; apply (c_rlen _ _ K1 Hx)|]. destruct F as (F1 & F2 & F3 & F4 & F5 & F6).
  destruct (S1 Eu) as (_ & _ & Sl & _ & Ss & Sr & Sp & _). rewrite Sl, Nat.eqb_refl in E. cbn [negb] in E.
  change (c_esi f) with (snd x) in E. destruct (c_sblen f <=? snd x)%nat eqn:Eg; cbn [negb] in E; [|discriminate]. destruct (snd x <? _)%nat; cbn [negb] in E; [|discriminate].
  set (k := (snd x - c_sblen f)%nat) in E. assert (Exb : x = (b, len b + k)%nat) by (rewrite <- Ex; unfold k; destruct x; cbn in *; f_equal; subst; lia).
  unfold arr in E. destruct (nth_error (r_rb (fst u)) k) as [[q|]|] eqn:En; cbn [bind] in E; [| |discriminate].
  - eapply IH in E as (l' & H1 & H2 & H3 & H4 & H5 & H6 & H7); eauto.
    + exists l'. splits; auto; try (unfold same in *; intuition congruence).
    + unfold rep_q. rewrite F2. exact Q5.
    + destruct H as [Hh1 Hh2]. split.
      * intros i Hi. destruct (Hh1 i Hi) as [Hl|(p & Hp)].
        -- apply in_app_iff in Hl as [Hl|[Hl|[]]]; auto. right. exists q. rewrite <- En. f_equal. rewrite Exb in Hl. injection Hl as Hl. lia.
        -- right. exists p. auto.
      * intros y Hy Hb. specialize (Hh2 y Hy Hb). apply in_app_iff in Hh2 as [Hl|[Hl|[]]]; auto. subst y. lia.
  - rewrite Exb in E. rewrite Exb in Ax. eapply IH in E as (l' & H1 & H2 & H3 & H4 & H5 & H6 & H7); eauto.
    + exists l'. splits; auto; try (unfold same in *; cbn in *; intuition congruence). 
    + apply core_store_r; auto.
    + unfold rep_q. cbn [set_can set_rb r_rep]. rewrite F2. exact Q5.
    + destruct H as [Hh1 Hh2]. split.
      * intros i Hi. cbn. destruct (Nat.eq_dec i k) as [-> |N].
        { right. eexists. apply nth_error_upd_eq. apply nth_error_Some. congruence. }
        destruct (Hh1 i Hi) as [Hl|(p & Hp)].
        -- apply in_app_iff in Hl as [Hl|[Hl|[]]]; auto. exfalso. apply N. rewrite Exb in Hl. injection Hl as Hl. lia.
        -- right. exists p. rewrite nth_error_upd_neq by auto. auto.
      * intros y Hy Hb. specialize (Hh2 y Hy Hb). apply in_app_iff in Hh2 as [Hl|[Hl|[]]]; auto. subst y. lia.
Qed.

(** The reader is at place [(b, i)], number [m]; [post]: the queues hold only later blocks. *)
Record state (b m : nat) (r : fr) : Prop := mkState {
  z_core : core b r;
  z_src : exists l, src_q m l r /\ has_s b l r;
  z_rep : exists l, rep_q b l r /\ has_r b l r;
  z_at : index (b, r_next r) = m /\ (r_next r < len b)%nat }.
Record filled (b m : nat) (r : fr) : Prop := mkFilled {
  y_core : core b r;
  y_src : exists l, src_q m l r /\ has_s b l r /\ forall x, In x l -> (b < fst x)%nat;
  y_rep : exists l, rep_q b l r /\ has_r b l r /\ forall x, In x l -> (b < fst x)%nat;
  y_at : index (b, r_next r) = m /\ (r_next r < len b)%nat }.
Lemma filled_state b m r : filled b m r -> state b m r.
Proof. intros [F1 (l & F2 & F3 & _) (k & F4 & F5 & _) F6]. constructor; eauto. Qed.
Lemma fill_b r r' b m : fill_block e r = Ok r' -> r_alive r' = true -> state b m r -> filled b m r' /\ same r r' /\ r_alive r = true.
Proof.
  unfold fill_block. intros E Ha [Z1 (l & Z2 & Z3) (k & Z4 & Z5) Z6].
  destruct (fill_source _ e r) as [r1| |] eqn:E1; cbn [bind] in E; try discriminate.
  pose proof (fill_r_alive _ _ _ _ E Ha) as Ha1.
  destruct (fill_s _ _ _ b m l E1 Ha1 Z1 Z2 Z3) as (l' & A1 & A2 & A3 & A4 & A5 & A6 & A7); [exists (r_next r); exact Z6|].
  destruct (fill_r _ _ _ b k E Ha A1) as (k' & B1 & B2 & B3 & B4 & B5 & B6 & B7).
  - unfold rep_q. rewrite A6. exact Z4.
  - unfold has_r. rewrite A7. exact Z5.
  - splits; [|unfold same in *; intuition congruence|exact (fill_s_alive _ _ _ _ E1 Ha1)]. constructor; auto.
    + exists l'. splits; auto; [unfold src_q; rewrite B6; exact A2|]. destruct A3 as [X1 X2]. split; auto. intros i Hi. destruct (X1 i Hi) as [X|(p & X)]; eauto.
    + exists k'. splits; auto.
    + destruct A5 as [X1 _]. destruct B5 as [X2 _]. rewrite X2, X1. exact Z6.
Qed.
(** Leaving a block. *)
Lemma advance b m r r' : next_block e r = Ok r' -> r_alive r' = true -> filled b m r -> (S (r_next r) = len b)%nat ->
  filled (S b) (S m) r' /\ r_started r' = r_started r /\ r_alive r = true.
Proof.
  unfold next_block. set (r0 := mkFr _ _ _ _ _ _ _ _ _ _ _ _ _ _). intros E Ha [F1 (l & F2 & F3 & F4) (k & F5 & F6 & F7) F8] Hn.
  destruct (sd_len _ _ _ _ SD (S b)) as ((L0 & _) & _).
  assert (Eix : index (b, r_next r) = m) by apply F8. assert (Em : S m = first (S b)). { cbn. unfold FecRecover_spec.index in Eix. cbn in Eix. lia. }
  apply (fill_b r0 r' (S b) (S m)) in E as (G1 & G2 & G3); auto.
  - splits; auto. apply G2.
  - constructor.
    + constructor; cbn; try discriminate; try (intros _; split; apply empty_repeat); try (intros; apply empty_repeat).
      * rewrite (c_num _ _ F1). unfold u16, wrapu. change (2 ^ 16) with 65536. rewrite Zplus_mod_idemp_l. f_equal. lia.
      * intros i p Hi. exfalso. exact (nth_repeat_none _ _ _ Hi).
      * intros i p Hi. exfalso. exact (nth_repeat_none _ _ _ Hi).
      * intros _. right. change (cnt (repeat None (length (r_sb r))) + cnt (repeat None (length (r_rb r))) < len (S b))%nat. rewrite !cnt_empty by apply empty_repeat. lia.
    + exists l. destruct F2 as (X1 & X2 & X3 & X4). split.
      * unfold src_q. splits; auto. intros x Hx. destruct (X4 x Hx) as (Y1 & Y2 & Y3). splits; auto; try lia. specialize (F4 x Hx).
        assert (first (S b) <= first (fst x))%nat by (pose proof (first_mono s e s0 q0 SD (S b) (fst x) ltac:(lia)); lia). unfold FecRecover_spec.index in *. lia.
      * destruct F3 as [Y1 Y2]. split; [intros i Hi; left; apply Y2; auto|]. intros x Hx Hb. apply Y2; auto. lia.
    + exists k. destruct F5 as (X1 & X2 & X3 & X4). split.
      * unfold rep_q. splits; auto. intros x Hx. destruct (X4 x Hx) as (Y1 & Y2 & Y3). splits; auto; specialize (F7 x Hx); lia.
      * destruct F6 as [Y1 Y2]. split; [intros i Hi; left; apply Y2; auto|]. intros x Hx Hb. apply Y2; auto. lia.
    + cbn. unfold FecRecover_spec.index. cbn. split; [cbn in Em; lia|lia].
Qed.
End Fill.
