(** The packets read once decoding has started: their positions and their origin. *)
From Verif Require Import Base Base_lemmas Seqnum_model Seqnum_proof RtpFilter_proof SortedQueue_model MemLimiter_proof FecReader_model FecReader_spec FecReader_proof.
Open Scope res_scope.
Local Open Scope Z_scope.

Lemma u16_succ b : u16 (u16 b + 1) = u16 (b + 1).
Proof. unfold u16, wrapu. rewrite Zplus_mod_idemp_l. reflexivity. Qed.
Lemma u16_small x : 0 <= x < 65536 -> u16 x = x.
Proof. intros. unfold u16, wrapu. apply Z.mod_small. change (2 ^ 16) with 65536. lia. Qed.

Lemma first_from_spec l : forall n k, (k + n = length l)%nat -> let x := first_from l n k in
  (k <= x <= length l)%nat /\ (forall j, (k <= j < x)%nat -> nth_error l j = Some None) /\
  ((x < length l)%nat -> exists p, nth_error l x = Some (Some p)).
Proof.
  induction n as [|n IH]; intros k Hk; cbn.
  - splits; try lia; intros; lia.
  - destruct (nth_error l k) as [[p|]|] eqn:E.
    + splits; try lia; eauto; intros; lia.
    + destruct (IH (Datatypes.S k)) as (H1 & H2 & H3); [lia|]. splits; auto; try lia.
      intros j Hj. destruct (Nat.eq_dec j k) as [->|]; auto. apply H2. lia.
    + apply nth_error_None in E. lia.
Qed.


Section Run.
Variable e : renv.
Variables SP RP : rpk -> Prop.
Hypothesis HT : forall p, SP p \/ RP p -> typed p.
Hypothesis HP : plain e.
Notation inv := (inv e SP RP).
Notation szd := (szd SP RP).
Notation ahead := (ahead e).

Definition nxt (r : fr) : Prop := (r_next r < length (r_sb r))%nat /\ (r_sres r = false -> r_next r = O).
Definition act (r : fr) (b : Z) : Prop := inv r b /\ szd r b /\ nxt r /\ r_started r = true.

Lemma grow_nxt r r' : grow r r' -> nxt r -> nxt r'.
Proof.
  intros G [N1 N2]. split.
  - rewrite (g_next _ _ G). destruct (r_sres r) eqn:Es; [rewrite (g_len _ _ G Es); auto|]. rewrite N2 in N1 |- * by auto. apply (g_pos _ _ G). lia.
  - rewrite (g_next _ _ G). intros Hs. apply N2. destruct (r_sres r) eqn:Es; auto. rewrite (g_sres _ _ G Es) in Hs. discriminate.
Qed.
Lemma fill_act r b r' : fill_block e r = Ok r' -> act r b -> act r' b /\ ahead r' /\ grow r r'.
Proof.
  intros E (V & Z & N & T). apply fill_block_inv with (SP := SP) (RP := RP) (b := b) in E as (V' & Z' & G & A); auto.
  splits; auto.
  split; [auto|]. split; [auto|]. split; [eapply grow_nxt; eauto|]. rewrite (g_started _ _ G). exact T.
Qed.
Lemma next_block_act r b r' : next_block e r = Ok r' -> inv r b -> (0 < length (r_sb r))%nat -> r_started r = true ->
  act r' (b + 1) /\ ahead r' /\ r_next r' = O /\ (r_alive r' = true -> r_alive r = true).
Proof.
  intros E [V1 V2 V3 V4 V5 V6 V7 V8 V9] L T. unfold next_block in E. set (r0 := mkFr _ _ _ _ _ _ _ _ _ _ _ _ _ _) in E.
  assert (A0 : act r0 (b + 1)).
  { split; [|split; [|split]].
    - constructor; cbn.
      + rewrite V1. apply u16_succ.
      + exact V2.
      + exact V3.
      + intros i p Hi. exfalso. exact (nth_repeat_none _ _ _ Hi).
      + intros i p Hi. exfalso. exact (nth_repeat_none _ _ _ Hi).
      + intros _. split; apply empty_repeat.
      + intros _. split; apply empty_repeat.
      + intros _. apply empty_repeat.
      + discriminate.
    - intros Hs. discriminate.
    - split; cbn; [rewrite repeat_length; lia|auto].
    - exact T. }
  apply fill_act with (b := b + 1) in E as (A & H & G); auto. splits; auto.
  - exact (g_next _ _ G). - exact (g_alive _ _ G).
Qed.

Lemma dec_set_fec pay l : dec_set pay l = Ok tt -> forall i p, nth_error l i = Some (Some p) -> k_fec p <> None.
Proof.
  induction l as [|[q|] l IH]; intros E i p Hi; destruct i; cbn in *; try discriminate.
  - injection Hi as ->. unfold fec_of in E. destruct (k_fec p); [discriminate|discriminate].
  - unfold fec_of in E. destruct (k_fec q); [|discriminate]. cbn in E. destruct (_ || _); [discriminate|]. eauto.
  - eauto.
Qed.
Lemma restore_nth r i : nth_error (restore e r) i =
  match nth_error (r_sb r) i with
  | Some (Some p) => Some (Some p)
  | Some None => Some (o_repair e (r_tick r) (r_sb r) (r_rb r) i)
  | None => None
  end.
Proof.
  unfold restore. destruct (Nat.lt_ge_cases i (length (r_sb r))) as [Hi|Hi].
  - erewrite map_nth_error; [|rewrite nth_error_nth' with (d := O); [rewrite seq_nth by auto; reflexivity|rewrite seq_length; auto]].
    cbn [plus]. destruct (nth_error (r_sb r) i) as [[p|]|] eqn:E; auto. apply nth_error_None in E. lia.
  - assert (N : nth_error (r_sb r) i = None) by (apply nth_error_None; auto). rewrite N.
    apply nth_error_None. rewrite map_length, seq_length. auto.
Qed.
Lemma length_restore r : length (restore e r) = length (r_sb r).
Proof. unfold restore. rewrite map_length, seq_length. reflexivity. Qed.
Lemma try_repair_act r b r' : try_repair e r = Ok r' -> act r b -> ahead r -> act r' b /\ ahead r' /\ grow r r' /\ r_src r' = r_src r /\ length (r_sb r') = length (r_sb r).
Proof.
  intros E A H. unfold try_repair in E.
  destruct (r_can r); cbn [negb] in E; [|injection E as <-; splits; auto using grow_refl; apply A].
  destruct (r_sres r && r_rres r && r_pres r) eqn:Ef; cbn [negb] in E; [|injection E as <-; splits; auto using grow_refl; apply A].
  unfold dec_begin in E. destruct (_ <? _)%nat; [discriminate|]. cbn [bind] in E.
  destruct (o_begin e (r_tick r)); cbn [negb] in E.
  2:{ injection E as <-. destruct A as (V & Z & N & T). unfold act; splits; auto.
      - destruct V as [V1 V2 V3 V4 V5 V6 V7 V8 V9]. constructor; auto.
      - intros Hx. discriminate.
      - constructor; cbn; auto; discriminate. }
  destruct (dec_set (r_psize r) (r_sb r)) as [[]| |] eqn:E1; cbn [bind] in E; try discriminate.
  destruct (dec_set (r_psize r) (r_rb r)) as [[]| |] eqn:E2; cbn [bind] in E; try discriminate.
  injection E as <-. destruct A as (V & Z & N & T).
  assert (G : grow r (set_can (tick (set_sb r (restore e r))) false)).
  { constructor; cbn; auto; rewrite ?length_restore; auto. intros i p Hi. rewrite restore_nth, Hi. reflexivity. }
  unfold act; splits; auto.
  - destruct V as [V1 V2 V3 V4 V5 V6 V7 V8 V9]. rewrite !Bool.andb_true_iff in Ef. destruct Ef as [[Es Er] Ep].
    constructor; cbn; auto; rewrite ?length_restore; auto; try congruence.
    intros i p Hi. rewrite restore_nth in Hi. destruct (nth_error (r_sb r) i) as [[q|]|] eqn:En; [injection Hi as ->; auto| |discriminate].
    right. injection Hi as Hi. split; [eapply HP; eauto|]. exists (r_tick r), (r_sb r), (r_rb r). splits; auto.
    + intros j q Hj. destruct (V4 _ _ Hj) as [(S1 & f & F1 & F2 & F3 & _)|[Hn _]].
      * split; auto. exists f. auto.
      * exfalso. exact (dec_set_fec _ _ E1 _ _ Hj Hn).
    + intros j q Hj. destruct (V5 _ _ Hj) as (S1 & f & F1 & F2 & F3 & F4 & _). split; auto. exists f. auto.
  - intros Hs. cbn. rewrite length_restore. apply Z. exact Hs.
  - eapply grow_nxt; eauto.
  - cbn. apply length_restore.
Qed.

Lemma slot_right b i p k pay : slot SP k pay b i p \/ rest e SP RP b i p -> right_packet e SP RP (b, i) p.
Proof.
  intros [(S1 & f & F1 & F2 & F3 & _)|[_ H]]; [left|right; exact H]. split; auto. exists f. auto.
Qed.
Definition nle (x y : pos) : Prop := before x y \/ x = y.
Definition later (x y : Z) : Prop := forall c, x <= c < y -> later_source e SP c.
(** After the packet at [x], the reader waits for the next position. *)
Definition after (x : pos) (b : Z) (n : nat) : Prop :=
  (fst x = b /\ n = Datatypes.S (snd x)) \/ (b = fst x + 1 /\ n = O /\ block_length SP RP (fst x) (Datatypes.S (snd x))).
Lemma ahead_later r b : inv r b -> ahead r -> r_alive r = true -> sq_list (r_src r) <> [] -> later_source e SP b.
Proof.
  intros V H Ha Hq. unfold later_source. destruct (sq_head (r_src r)) as [p|] eqn:Eh; [|apply back_none in Eh; congruence].
  pose proof (back_forall _ _ _ (v_src _ _ _ _ _ V) Eh) as [Sp Fp]. destruct (k_fec p) as [f|] eqn:Ef; [|congruence].
  exists p, f. specialize (H Ha _ _ Eh Ef). rewrite (v_sbn _ _ _ _ _ V) in H. splits; auto; lia.
Qed.
Lemma next_loop_act n : forall r b pp r' st out, next_loop n e r pp = Ok (r', st, out) -> act r b -> ahead r ->
  (forall q, pp = Some q -> nth_error (r_sb r) (r_next r) = Some (Some q)) -> r_alive r' = true ->
  exists b', act r' b' /\ b <= b' /\
   match st with
   | SOk => exists p x, out = Some p /\ right_packet e SP RP x p /\ nle (b, r_next r) x /\ later b (fst x) /\ after x b' (r_next r')
            /\ (forall q, pp = Some q -> x = (b, r_next r))
   | SNoData => out = None /\ later b b' /\ nle (b, r_next r) (b', r_next r')
   | SErr => False
   end.
Proof.
  induction n as [|n IH]; intros r b pp r' st out E A H Hpp Ha'; [discriminate|]. cbn [next_loop] in E.
  destruct (r_alive r) eqn:Ha; cbn [negb] in E.
  2:{ injection E as <- <- <-. congruence. }
  destruct A as (V & Z & N & T).
  destruct pp as [p|].
  - specialize (Hpp _ eq_refl).
    assert (Rp : right_packet e SP RP (b, r_next r) p) by (eapply slot_right, (v_sb _ _ _ _ _ V); eauto).
    cbn [r_next set_next r_sb] in E. destruct (Datatypes.S (r_next r) =? length (r_sb r))%nat eqn:El.
    + destruct (next_block e _) as [r1| |] eqn:En; cbn [bind] in E; try discriminate. injection E as <- <- <-.
      apply next_block_act with (b := b) in En as (A1 & H1 & N1 & L1); cbn; auto; [| |destruct N; lia].
      2:{ destruct V as [V1 V2 V3 V4 V5 V6 V7 V8 V9]. constructor; auto. }
      exists (b + 1). splits; auto; [lia|]. exists p, (b, r_next r). splits; auto.
      * right; auto. * intros c; cbn; lia.
      * right. cbn. splits; auto. replace (Datatypes.S (r_next r)) with (length (r_sb r)) by lia. apply Z.
        destruct (r_sres r) eqn:Es; auto. exfalso. destruct (v_s0 _ _ _ _ _ V Es) as [He _]. exact (He _ _ Hpp).
    + cbn [bind] in E. injection E as <- <- <-. exists b. unfold act; splits; try lia.
      * destruct V as [V1 V2 V3 V4 V5 V6 V7 V8 V9]. constructor; auto.
      * exact Z.
      * split; cbn; [destruct N; lia|]. intros Hs. exfalso. destruct (v_s0 _ _ _ _ _ V Hs) as [He _]. exact (He _ _ Hpp).
      * exact T.
      * exists p, (b, r_next r). splits; auto; [right; auto|intros c; cbn; lia|left; auto].
  - destruct (try_repair e r) as [r1| |] eqn:Er; cbn [bind] in E; try discriminate.
    apply try_repair_act with (b := b) in Er as (A1 & H1 & G1 & Q1 & L1); [|unfold act; splits; auto|auto].
    destruct A1 as (V1 & Z1 & N1 & T1). pose proof (g_next _ _ G1) as Gn.
    pose proof (first_from_spec (r_sb r1) (length (r_sb r1) - r_next r1) (r_next r1)) as Hf.
    destruct Hf as (Hf1 & Hf2 & Hf3); [destruct N1; lia|]. set (k := first_from _ _ _) in *.
    destruct (k =? length (r_sb r1))%nat eqn:Ek.
    + destruct (length (sq_list (r_src r1)) =? 0)%nat eqn:Eq.
      { injection E as <- <- <-. exists b. splits; auto; [unfold act; splits; auto|lia|intros c; lia|]. rewrite Gn. right; auto. }
      cbn [set_next r_next r_sb] in E. rewrite Ek in E.
      destruct (next_block e _) as [r2| |] eqn:En; cbn [bind] in E; try discriminate.
      apply next_block_act with (b := b) in En as (A2 & H2 & N2 & L2); cbn; auto; [| |destruct N1; lia].
      2:{ destruct V1 as [W1 W2 W3 W4 W5 W6 W7 W8 W9]. constructor; auto. }
      assert (Hl : r_alive r1 = true -> later_source e SP b).
      { intros Hx. apply (ahead_later r1 b); auto. intros Hy. rewrite Hy in Eq. discriminate. }
      destruct (r_alive r2) eqn:Ea2.
      2:{ exfalso. destruct n; cbn in E; [discriminate|]. rewrite Ea2 in E. cbn in E. injection E as <- <- <-. congruence. }
      specialize (Hl (L2 eq_refl)).
      apply IH with (b := b + 1) in E as IH'; auto; [|discriminate].
      destruct IH' as (b' & A' & Hb' & Hst). exists b'. splits; auto; [lia|].
      assert (Hcat : forall y, later (b + 1) y -> later b y).
      { intros y Hy c Hc. destruct (Z.eq_dec c b) as [->|]; auto. apply Hy. lia. }
      assert (Hle : forall y, nle (b + 1, r_next r2) y -> nle (b, r_next r) y).
      { intros y [[Hy|[Hy _]]|Hy]; left; left; cbn in *; [lia|lia|subst y; cbn; lia]. }
      destruct st; auto.
      * destruct Hst as (p & x & H3 & H4 & H5 & H6 & H7 & _). exists p, x. splits; auto. discriminate.
      * destruct Hst as (H3 & H4 & H5). splits; auto.
    + destruct Hf3 as [p Hp]; [lia|]. unfold arr in E. rewrite Hp in E. cbn [bind] in E.
      cbn [set_next r_next r_sb] in E.
      assert (Rp : right_packet e SP RP (b, k) p) by (eapply slot_right, (v_sb _ _ _ _ _ V1); eauto).
      assert (Es : r_sres r1 = true).
      { destruct (r_sres r1) eqn:Es; auto. exfalso. destruct (v_s0 _ _ _ _ _ V1 Es) as [He _]. exact (He _ _ Hp). }
      assert (Hle : nle (b, r_next r) (b, k)).
      { rewrite <- Gn. destruct (Nat.eq_dec (r_next r1) k) as [->|]; [right; auto|left; right; cbn; lia]. }
      destruct (Datatypes.S k =? length (r_sb r1))%nat eqn:El.
      * destruct (next_block e _) as [r2| |] eqn:En; cbn [bind] in E; try discriminate. injection E as <- <- <-.
        apply next_block_act with (b := b) in En as (A2 & H2 & N2 & L2); cbn; auto; [| |destruct N1; lia].
        2:{ destruct V1 as [W1 W2 W3 W4 W5 W6 W7 W8 W9]. constructor; auto. }
        exists (b + 1). splits; auto; [lia|]. exists p, (b, k). splits; auto; [intros c; cbn; lia| |discriminate].
        right. cbn. splits; auto. replace (Datatypes.S k) with (length (r_sb r1)) by lia. apply Z1. exact Es.
      * cbn [bind] in E. injection E as <- <- <-. exists b. unfold act; splits; try lia.
        -- destruct V1 as [W1 W2 W3 W4 W5 W6 W7 W8 W9]. constructor; auto.
        -- exact Z1.
        -- split; cbn; [lia|]. congruence.
        -- exact T1.
        -- exists p, (b, k). splits; auto; [intros c; cbn; lia|left; auto|discriminate].
Qed.

(** * Before decoding starts *)
Definition pre (r : fr) : Prop :=
  r_started r = false /\ inv r (r_sbn r) /\ 0 <= r_sbn r < 65536 /\ empty (r_sb r) /\ empty (r_rb r) /\ r_next r = O.
Lemma drop_repair_inv n : forall r b r', drop_repair n r = Ok r' -> inv r b ->
  inv r' b /\ exists q, r' = set_rep r q.
Proof.
  induction n as [|n IH]; intros r b r' E V; [discriminate|]. cbn [drop_repair] in E.
  destruct (sq_head (r_rep r)) as [p|] eqn:Eh.
  2:{ injection E as <-. split; auto. exists (r_rep r). destruct r; reflexivity. }
  unfold fec_of in E. destruct (k_fec p) as [f|] eqn:Ef; [|discriminate]. cbn [bind] in E.
  destruct (blknum_lt _ _); cbn [negb] in E.
  2:{ injection E as <-. split; auto. exists (r_rep r). destruct r; reflexivity. }
  apply IH with (b := b) in E as [V' [q ->]].
  - split; auto. exists q. reflexivity.
  - apply inv_set_rep; auto. rewrite (head_read _ _ Eh). cbn. apply removelast_forall. apply (v_rep _ _ _ _ _ V).
Qed.
(** The first packet of a block waits at the head of the queue and fits the block. *)
Definition waiting (r : fr) : Prop :=
  exists p f, sq_head (r_src r) = Some p /\ k_fec p = Some f /\ c_esi f = O /\ c_sbn f = r_sbn r /\ source_ok f = true
    /\ r_psize r = c_psize f /\ length (r_sb r) = c_sblen f /\ r_sres r = true /\ r_pres r = true.
Lemma inv_empty r b b' : inv r b -> empty (r_sb r) -> empty (r_rb r) -> inv (set_sbn r (u16 b')) b'.
Proof.
  intros [V1 V2 V3 V4 V5 V6 V7 V8 V9] Es Er. constructor; cbn; auto.
  - intros i p Hi. exfalso. exact (Es _ _ Hi).
  - intros i p Hi. exfalso. exact (Er _ _ Hi).
Qed.
Lemma try_start_pre r r' ok : try_start e r = Ok (r', ok) -> pre r ->
  if ok then exists b, act r' b /\ r_next r' = O /\ empty (r_sb r') /\ waiting r' else pre r'.
Proof.
  intros E (P1 & P2 & P3 & P4 & P5 & P6). unfold try_start in E.
  destruct (sq_head (r_src r)) as [p|] eqn:Eh.
  2:{ injection E as <- <-. unfold pre; splits; auto; lia. }
  pose proof (back_forall _ _ _ (v_src _ _ _ _ _ P2) Eh) as [Sp Fp].
  unfold fec_of in E. destruct (k_fec p) as [f|] eqn:Ef; [|congruence]. cbn [bind] in E.
  pose proof (process_source_spec e r f) as [F A1 A2 A3 A4 A5 A6 A7]. pose proof (inv_process_source e SP RP r f _ P2) as V2.
  set (u := process_source e r f) in *. destruct F as (F1 & F2 & F3 & F4 & F5 & F6 & F7 & F8).
  assert (Es : empty (r_sb (fst u))) by (destruct A3 as [-> |[_ ->]]; auto; apply empty_resize; auto).
  destruct (snd u) eqn:Eu; cbn [negb] in E.
  2:{ injection E as <- <-. unfold pre. rewrite F4, F7, F3, F6. splits; auto; lia. }
  destruct (A1 eq_refl) as (B1 & B2 & B3 & B4 & B5 & B6 & B7).
  assert (Hr : 0 <= c_sbn f < 65536) by (apply (HT p); auto).
  assert (V3 : inv (set_sbn (fst u) (c_sbn f)) (c_sbn f)).
  { rewrite <- (u16_small (c_sbn f)) at 1 by auto. eapply inv_empty; eauto. rewrite F3. auto. }
  destruct (drop_repair _ _) as [r1| |] eqn:Ed; cbn [bind] in E; try discriminate.
  apply drop_repair_inv with (b := c_sbn f) in Ed as [V4 [q Hq]]; auto.
  destruct (0 <? c_esi f)%nat eqn:Ee; injection E as <- <-.
  - assert (Hb : r_sbn r1 = c_sbn f) by (rewrite Hq; reflexivity).
    unfold pre. rewrite Hb. splits; try lia; auto; rewrite Hq; cbn; rewrite ?F3; auto; congruence.
  - exists (c_sbn f). assert (L : (0 < length (r_sb r1))%nat).
    { rewrite Hq. cbn. rewrite B3. apply source_ok_spec in B1. lia. }
    unfold act. splits.
    + destruct V4 as [W1 W2 W3 W4 W5 W6 W7 W8 W9]. constructor; auto.
    + intros _. exists p, f. rewrite u16_small by auto. rewrite Hq. cbn. rewrite B3. splits; auto.
    + split; rewrite Hq in *; cbn in *; [lia|auto]. intros _. congruence.
    + reflexivity.
    + rewrite Hq. cbn. congruence.
    + rewrite Hq. cbn. auto.
    + exists p, f. rewrite Hq. cbn. splits; auto; try congruence. lia.
Qed.
(** The first packet is then stored by the very next step. *)
Lemma fill_first n r b r' : fill_source n e r = Ok r' -> inv r b -> szd r b -> waiting r -> empty (r_sb r) -> r_alive r' = true ->
  exists p, nth_error (r_sb r') 0 = Some (Some p).
Proof.
  destruct n as [|n]; intros E V Z (p & f & W1 & W2 & W3 & W4 & W5 & W6 & W7 & W8 & W9) Es Ha; [discriminate|]. cbn [fill_source] in E.
  rewrite W1 in E. unfold fec_of in E. rewrite W2 in E. cbn [bind] in E.
  destruct (sbn_near e r f); cbn [negb] in E; [|injection E as <-; discriminate].
  assert (D : blknum_diff (c_sbn f) (r_sbn r) = 0) by (unfold blknum_diff; rewrite W4, Z.sub_diag; reflexivity).
  unfold blknum_le, blknum_lt in E. rewrite D in E. cbn [Z.leb Z.compare negb] in E.
  pose proof (back_forall _ _ _ (v_src _ _ _ _ _ V) W1) as [Sp Fp].
  rewrite (head_read _ _ W1) in E. cbn [fst] in E. set (r1 := set_src r _) in E.
  replace (blknum_diff (c_sbn f) (r_sbn r1)) with 0 in E by (symmetry; exact D). cbn [Z.ltb Z.compare] in E.
  replace (c_sbn f =? r_sbn r1) with true in E by (symmetry; apply Z.eqb_eq; exact W4). cbn [negb] in E.
  assert (V1 : inv r1 b). { apply inv_set_src; auto. cbn. apply removelast_forall. apply (v_src _ _ _ _ _ V). }
  assert (Eu : process_source e r1 f = (set_sres (set_pay r1 (c_psize f)), true)).
  { unfold process_source. rewrite W5. unfold can_payload. cbn. rewrite W6, Nat.eqb_refl. cbn [orb negb].
    unfold can_source. cbn. rewrite W7, Nat.eqb_refl. cbn. unfold update_source. cbn. rewrite W7, Nat.eqb_refl. reflexivity. }
  rewrite Eu in E. cbn [fst snd negb] in E. cbn [set_sres set_pay r_sb r1 set_src] in E. rewrite W7, Nat.eqb_refl in E. cbn [negb] in E.
  destruct (c_esi f <? c_sblen f)%nat eqn:El; cbn [negb] in E; [|discriminate].
  unfold arr in E. destruct (nth_error (r_sb r) (c_esi f)) as [[q|]|] eqn:En; cbn [bind] in E; [exfalso; exact (Es _ _ En)| |discriminate].
  apply fill_source_inv with (SP := SP) (RP := RP) (b := b) in E as (_ & _ & G & _); auto.
  - exists p. apply (g_slots _ _ G). change (nth_error (upd (r_sb r) (c_esi f) (Some p)) 0 = Some (Some p)). rewrite <- W3 at 1. rewrite nth_error_upd_eq; auto. lia.
  - pose proof (inv_process_source e SP RP r1 f b V1) as V2. rewrite Eu in V2. cbn [fst] in V2.
    apply (inv_store_s e SP RP _ b (c_esi f) p V2); auto.
    split; auto. exists f. cbn. splits; auto.
    + rewrite W4. apply (v_sbn _ _ _ _ _ V). + apply source_ok_spec in W5. tauto.
  - intros _. cbn. rewrite length_upd. apply Z. exact W8.
Qed.

(** * Reading *)
Lemma fetch_all_frame r i r' ok b : fetch_all e r i = Ok (r', ok) -> inv r b -> (forall p, In p (i_src i) -> SP p) -> (forall p, In p (i_rep i) -> RP p) ->
  inv r' b /\ r_started r' = r_started r /\ r_sbn r' = r_sbn r /\ r_sb r' = r_sb r /\ r_rb r' = r_rb r /\ r_next r' = r_next r /\ r_sres r' = r_sres r.
Proof.
  intros E V Hs Hr. unfold fetch_all in E. destruct (fetch e (r_src r) _ _) as [[[q1 a1] k1]| |] eqn:E1; cbn [bind] in E; try discriminate. cbn [fst snd] in E.
  apply fetch_forall with (P := SP) in E1; auto; [|apply (v_src _ _ _ _ _ V)].
  assert (V1 : inv (if a1 then set_src r q1 else set_dead (set_src r q1)) b).
  { destruct a1; [|apply inv_dead]; apply inv_set_src; auto. }
  destruct k1; cbn [negb] in E.
  2:{ injection E as <- <-. splits; auto; destruct a1; reflexivity. }
  set (r1 := if a1 then _ else _) in *.
  assert (K : r_rep r1 = r_rep r /\ r_started r1 = r_started r /\ r_sbn r1 = r_sbn r /\ r_sb r1 = r_sb r /\ r_rb r1 = r_rb r /\ r_next r1 = r_next r /\ r_sres r1 = r_sres r).
  { unfold r1; destruct a1; splits; reflexivity. }
  destruct K as (K0 & K1 & K2 & K3 & K4 & K5 & K6).
  destruct (fetch e (r_rep r1) _ _) as [[[q2 a2] k2]| |] eqn:E2; cbn [bind] in E; try discriminate. cbn [fst snd] in E.
  apply fetch_forall with (P := RP) in E2; auto; [|apply (v_rep _ _ _ _ _ V1)].
  injection E as <- <-. assert (V2 : inv (set_rep r1 q2) b) by (apply inv_set_rep; auto).
  destruct a2; splits; auto. apply inv_dead; auto.
Qed.
Lemma get_next_act r b r' st out : get_next e r = Ok (r', st, out) -> act r b -> r_alive r' = true ->
  exists b', act r' b' /\ b <= b' /\
   match st with
   | SOk => exists p x, out = Some p /\ right_packet e SP RP x p /\ nle (b, r_next r) x /\ later b (fst x) /\ after x b' (r_next r')
            /\ (waiting r -> empty (r_sb r) -> r_next r = O -> x = (b, r_next r))
   | SNoData => out = None /\ later b b' /\ nle (b, r_next r) (b', r_next r') /\ ~ (waiting r /\ empty (r_sb r) /\ r_next r = O)
   | SErr => False
   end.
Proof.
  intros E A Ha. unfold get_next in E. destruct (fill_block e r) as [r1| |] eqn:Ef; cbn [bind] in E; try discriminate.
  assert (Hw : r_alive r1 = true -> waiting r -> empty (r_sb r) -> r_next r = O -> exists q, nth_error (r_sb r1) (r_next r1) = Some (Some q)).
  { intros Ha1 W Em N0. unfold fill_block in Ef. destruct (fill_source _ e r) as [r0| |] eqn:E0; cbn [bind] in Ef; try discriminate.
    destruct A as (V & Z & N & T).
    pose proof (fill_source_inv e SP RP _ _ _ _ E0 V Z) as (V0 & Z0 & G0 & _).
    pose proof (fill_repair_inv e SP RP _ _ _ _ Ef V0 Z0) as (_ & _ & G1 & _).
    destruct (fill_first _ _ _ _ E0 V Z W Em (g_alive _ _ G1 Ha1)) as [q Hq].
    exists q. rewrite (g_next _ _ G1), (g_next _ _ G0), N0. apply (g_slots _ _ G1). exact Hq. }
  apply fill_act with (b := b) in Ef as (A1 & H1 & G1); auto.
  unfold arr in E. destruct (nth_error (r_sb r1) (r_next r1)) as [pp|] eqn:En; cbn [bind] in E; [|discriminate].
  pose proof (next_loop_act _ _ _ _ _ _ _ E A1 H1) as Hl.
  destruct Hl as (b' & A' & Hb & Hst); auto. { intros q ->. exact En. }
  assert (Ha1 : r_alive r1 = true).
  { destruct (r_alive r1) eqn:Ea; auto. unfold loop_bound in E. rewrite Nat.add_comm in E. cbn [plus mult] in E. destruct pp; cbn [next_loop] in E; rewrite Ea in E; cbn in E; injection E as <- _ _; congruence. }
  exists b'. splits; auto. rewrite (g_next _ _ G1) in Hst. destruct st; auto.
  - destruct Hst as (p & x & X1 & X2 & X3 & X4 & X5 & X6). exists p, x. splits; auto.
    intros W Em N0. destruct (Hw Ha1 W Em N0) as [q Hq]. apply (X6 q). congruence.
  - destruct Hst as (X1 & X2 & X3). splits; auto. intros (W & Em & N0). destruct (Hw Ha1 W Em N0) as [q Hq].
    assert (Hpp : pp = Some q) by congruence. subst pp.
    clear - E Ha1. unfold loop_bound in E. rewrite Nat.add_comm in E. cbn [plus mult next_loop] in E. rewrite Ha1 in E. cbn [negb] in E.
    destruct (r_next (set_next r1 (Datatypes.S (r_next r1))) =? length (r_sb (set_next r1 (Datatypes.S (r_next r1)))))%nat;
      [destruct (next_block e _) as [r2| |]|]; cbn [bind] in E; discriminate.
Qed.

Lemma decoded_app a b : decoded (a ++ b) = decoded a ++ decoded b.
Proof. induction a as [|[[[] []] [p|]] a IH]; cbn; auto. rewrite IH. reflexivity. Qed.
Lemma fr_run_snoc is : forall r i, fr_run e r (is ++ [i]) =
  (x <- fr_run e r is ;; y <- fr_read e (fst x) i ;; Ok (fst (fst y), snd x ++ [(r_started (fst (fst y)), snd (fst y), snd y)])).
Proof.
  induction is as [|j is IH]; intros r i; cbn [app fr_run bind].
  - cbn [fst snd]. destruct (fr_read e r i) as [[[a b] c]| |]; cbn; reflexivity.
  - destruct (fr_read e r j) as [x| |]; cbn [bind]; auto. rewrite IH.
    destruct (fr_run e (fst (fst x)) is) as [y| |]; cbn [bind]; auto. cbn [fst snd].
    destruct (fr_read e (fst y) i) as [z| |]; cbn [bind]; auto.
Qed.
Definition runinv (r : fr) (outs : list (bool * rstat * option rpk)) : Prop :=
  exists ps, Forall2 (right_packet e SP RP) ps (decoded outs) /\ (ps = [] \/ in_order e SP RP ps) /\
    (r_alive r = true -> (pre r /\ ps = []) \/
       exists b l x, act r b /\ ps = l ++ [x] /\ before x (b, r_next r) /\ may_skip e SP RP x (b, r_next r)).

Lemma after_before x b n : after x b n -> before x (b, n) /\ may_skip e SP RP x (b, n).
Proof.
  intros [[<- ->]|(-> & -> & B)]; split; unfold before, may_skip; cbn; intros; try lia.
  left. assert (c = fst x) by lia. subst c. auto.
Qed.
Lemma before_nle x y z : before x y -> nle y z -> before x z.
Proof. intros H [K| ->]; auto. unfold before in *. lia. Qed.
Lemma skip_later x b n y : may_skip e SP RP x (b, n) -> later b (fst y) -> may_skip e SP RP x y.
Proof. intros H K c Hc. destruct (Z_lt_le_dec c b); [apply H; cbn; lia|right; apply K; lia]. Qed.

Lemma read_run r outs i y : runinv r outs -> fr_read e r i = Ok y -> (forall p, In p (i_src i) -> SP p) -> (forall p, In p (i_rep i) -> RP p) ->
  runinv (fst (fst y)) (outs ++ [(r_started (fst (fst y)), snd (fst y), snd y)]).
Proof.
  intros (ps & R1 & R2 & R3) E Hs Hr. unfold fr_read in E.
  assert (Dead : forall rr, r_alive rr = false -> runinv rr (outs ++ [(r_started rr, SNoData, None)])).
  { intros rr Ea. exists ps. rewrite decoded_app. replace (decoded [(r_started rr, SNoData, None)]) with (@nil rpk) by (destruct (r_started rr); reflexivity).
    rewrite app_nil_r. splits; auto. congruence. }
  destruct (r_alive r) eqn:Ea; cbn [negb] in E; [|injection E as <-; apply Dead; exact Ea]. specialize (R3 eq_refl).
  destruct (fr_read_ e r i) as [[[r' st] out]| |] eqn:E1; cbn [bind fst] in E; try discriminate.
  destruct (r_alive r') eqn:Ea'; cbn [negb] in E; [|injection E as <-; apply Dead; exact Ea'].
  injection E as <-. cbn [fst snd]. unfold fr_read_ in E1.
  destruct (fetch_all e r i) as [[r1 ok]| |] eqn:E2; cbn [bind fst snd] in E1; try discriminate.
  assert (Q1 : (pre r1 /\ ps = []) \/ exists b l x, act r1 b /\ ps = l ++ [x] /\ before x (b, r_next r1) /\ may_skip e SP RP x (b, r_next r1)).
  { destruct R3 as [[(P1 & P2 & P3 & P4 & P5 & P6) Hps]|(b & l & x & (V & Z & N & T) & Hps & Hb & Hm)].
    - left. apply fetch_all_frame with (b := r_sbn r) in E2 as (W1 & W2 & W3 & W4 & W5 & W6 & W7); auto.
      split; auto. unfold pre. rewrite W2, W3, W4, W5, W6. splits; auto; lia.
    - right. apply fetch_all_frame with (b := b) in E2 as (W1 & W2 & W3 & W4 & W5 & W6 & W7); auto.
      exists b, l, x. rewrite W6. unfold act, nxt, FecReader_proof.szd. rewrite W2, W4, W6, W7. splits; auto. apply N. apply N. }
  destruct ok; cbn [negb] in E1.
  2:{ injection E1 as <- <- <-. exists ps. rewrite decoded_app. cbn. destruct (r_started r1); cbn; rewrite app_nil_r; splits; auto. }
  destruct Q1 as [[P Hps]|(b & l & x & A & Hps & Hb & Hm)].
  - assert (T : r_started r1 = false) by apply P. rewrite T in E1.
    destruct (try_start e r1) as [[r2 ok2]| |] eqn:E3; cbn [bind fst snd] in E1; try discriminate.
    apply try_start_pre in E3; auto. destruct ok2; cbn [negb] in E1.
    + destruct E3 as (b & A & N0 & Em & W). pose proof (get_next_act _ _ _ _ _ E1 A Ea') as (b' & A' & Hb & Hst).
      destruct st; [|exfalso; tauto|tauto].
      destruct Hst as (p & x & -> & X2 & X3 & X4 & X5 & X6). specialize (X6 W Em N0). rewrite N0 in X6.
      assert (Ts : r_started r' = true) by apply A'. rewrite Ts.
      subst x ps. exists [(b, 0%nat)]. rewrite decoded_app. destruct (decoded outs); [|inversion R1]. cbn. splits; auto.
      * right. apply io_first.
      * intros _. right. exists b', [], (b, 0%nat). apply after_before in X5 as [X5 X7]. splits; auto.
    + injection E1 as <- <- <-. destruct E3 as (P1 & P2 & P3 & P4 & P5 & P6).
      exists ps. cbn [r_started set_src]. rewrite P1, decoded_app. cbn. rewrite app_nil_r. splits; auto.
      intros _. left. split; auto. unfold pre. cbn. splits; auto; try lia.
      apply inv_set_src; auto. unfold sq_read. destruct (list_back _); cbn; [apply removelast_forall|]; apply (v_src _ _ _ _ _ P2).
  - assert (T : r_started r1 = true) by apply A. rewrite T in E1. cbn [bind fst snd negb] in E1.
    pose proof (get_next_act _ _ _ _ _ E1 A Ea') as (b' & A' & Hb' & Hst). assert (Ts : r_started r' = true) by apply A'. rewrite Ts.
    destruct st; [| |tauto].
    + destruct Hst as (p & y & -> & X2 & X3 & X4 & X5 & _).
      exists (l ++ [x; y]). rewrite decoded_app. cbn. subst ps. splits.
      * replace (l ++ [x; y]) with ((l ++ [x]) ++ [y]) by (rewrite <- app_assoc; reflexivity). apply Forall2_app; auto.
      * right. destruct R2 as [R2|R2]; [destruct l; discriminate|]. constructor; auto; [eapply before_nle; eauto|eapply skip_later; eauto].
      * intros _. right. exists b', (l ++ [x]), y. apply after_before in X5 as [X5 X7]. splits; auto. rewrite <- app_assoc. reflexivity.
    + destruct Hst as (-> & X1 & X2 & _). exists ps. rewrite decoded_app. cbn. rewrite app_nil_r. splits; auto.
      intros _. right. exists b', l, x. splits; auto; [eapply before_nle; eauto|]. eapply skip_later; eauto.
Qed.
Lemma run_order is : forall r outs, fr_run e fr_new is = Ok (r, outs) ->
  (forall p, In p (sources is) -> SP p) -> (forall p, In p (repairs is) -> RP p) -> runinv r outs.
Proof.
  induction is as [|i is IH] using rev_ind; intros r outs E Hs Hr.
  - injection E as <- <-. exists []. splits; auto; [constructor|]. intros _. left. split; auto.
    unfold pre. cbn. splits; auto; try lia; try (intros i p; destruct i; discriminate).
    constructor; cbn; auto; try discriminate; try (intros i p; destruct i; discriminate);
      intros _; try split; intros i p; destruct i; discriminate.
  - rewrite fr_run_snoc in E. destruct (fr_run e fr_new is) as [[r1 o1]| |] eqn:E1; cbn [bind fst snd] in E; try discriminate.
    destruct (fr_read e r1 i) as [y| |] eqn:E2; cbn [bind] in E; try discriminate. injection E as <- <-.
    unfold sources, repairs in Hs, Hr. rewrite flat_map_app in Hs, Hr. cbn in Hs, Hr. rewrite app_nil_r in Hs, Hr.
    eapply read_run; eauto.
    + apply IH; auto; intros p Hp; [apply Hs|apply Hr]; apply in_or_app; auto.
    + intros p Hp. apply Hs. apply in_or_app; auto.
    + intros p Hp. apply Hr. apply in_or_app; auto.
Qed.
End Run.
