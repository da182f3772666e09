(** The FEC reader neither crashes nor hangs, given a decoder that restores all missing packets of a
    block or none, and repair packets that agree on the length of a block. *)
From Verif Require Import Base Base_lemmas Seqnum_model Seqnum_proof RtpFilter_proof SortedQueue_model MemLimiter_proof FecReader_model FecReader_spec FecReader_proof FecReaderRun_proof.
Open Scope res_scope.
Local Open Scope Z_scope.

(** The decoder, handed a block, restores every missing packet or none. *)
Definition all_or_none (e : renv) : Prop := forall t sa ra,
  (forall i, nth_error sa i = Some None -> o_repair e t sa ra i = None) \/
  (forall i, nth_error sa i = Some None -> o_repair e t sa ra i <> None).

Section Safe.
Variable e : renv.
Variables SP RP : rpk -> Prop.
Variable B : nat.
Hypothesis HT : forall p, SP p \/ RP p -> typed p.
Hypothesis HP : plain e.
Hypothesis HC : all_or_none e.
Hypothesis HB : (0 < B <= o_max e)%nat.
Hypothesis HR : forall p f, RP p -> k_fec p = Some f -> c_blen f = B.
Notation inv := (inv e SP RP).
Notation szd := (szd SP RP).
Notation ahead := (ahead e).
Notation act := (act e SP RP).
Notation pre := (pre e SP RP).

Definition nr (l : list (option rpk)) : Prop := forall i p, nth_error l i = Some (Some p) -> k_fec p <> None.
Definition full (l : list (option rpk)) : Prop := forall i, nth_error l i <> Some None.
Definition sinv (r : fr) : Prop :=
  (r_rres r = true -> length (r_sb r) + length (r_rb r) = B)%nat /\ (nr (r_sb r) \/ full (r_sb r)).
Lemma nr_repeat n : nr (repeat None n).
Proof. intros i p Hi. exfalso. exact (nth_repeat_none _ _ _ Hi). Qed.
Lemma nr_empty l : empty l -> nr l.
Proof. intros H i p Hi. exfalso. exact (H _ _ Hi). Qed.
Lemma nr_upd l i p : nr l -> k_fec p <> None -> nr (upd l i (Some p)).
Proof.
  intros H Hp j q Hj. destruct (Nat.eq_dec i j) as [<-|N].
  - destruct (Nat.lt_ge_cases i (length l)) as [L|L].
    + rewrite nth_error_upd_eq in Hj by auto. congruence.
    + rewrite upd_out in Hj; eauto.
  - rewrite nth_error_upd_neq in Hj by auto. eauto.
Qed.
Lemma full_upd l i p : full l -> full (upd l i (Some p)).
Proof.
  intros H j Hj. destruct (Nat.eq_dec i j) as [<-|N].
  - destruct (Nat.lt_ge_cases i (length l)) as [L|L].
    + rewrite nth_error_upd_eq in Hj by auto. congruence.
    + rewrite upd_out in Hj; [exact (H _ Hj)|auto].
  - rewrite nth_error_upd_neq in Hj by auto. exact (H _ Hj).
Qed.

Lemma process_source_sinv r f b : inv r b -> sinv r -> sinv (fst (process_source e r f)).
Proof.
  intros V [S1 S2]. pose proof (process_source_spec e r f) as [F A1 A2 A3 A4 A5 A6 A7].
  destruct F as (F1 & F2 & F3 & F4 & F5 & F6 & F7 & F8). split.
  - rewrite F8, F3. intros Hr. destruct A3 as [-> |[A3 _]]; auto. rewrite (v_rs _ _ _ _ _ V Hr) in A3. discriminate.
  - destruct A3 as [-> |[A3 ->]]; auto. left. apply nr_empty, empty_resize. exact (proj1 (v_s0 _ _ _ _ _ V A3)).
Qed.
Lemma same_sbn a c b : c = u16 b -> 0 <= a < 65536 -> blknum_le a c = true -> blknum_lt a c = false -> a = c.
Proof.
  intros Hc Ha. unfold blknum_le, blknum_lt, blknum_diff. assert (0 <= c < 65536) by (subst c; unfold u16, wrapu; apply Z.mod_pos_bound; reflexivity).
  pose proof (s16_cases (a - c)). lia.
Qed.
Lemma fill_source_ok n : forall r b, inv r b -> szd r b -> sinv r -> (length (sq_list (r_src r)) < n)%nat ->
  exists r', fill_source n e r = Ok r' /\ sinv r' /\ (nr (r_sb r) -> nr (r_sb r')) /\
    (r_src r' = r_src r \/ (length (sq_list (r_src r')) < length (sq_list (r_src r)))%nat).
Proof.
  induction n as [|n IH]; intros r b V Z Sv L; [lia|]. cbn [fill_source].
  destruct (sq_head (r_src r)) as [p|] eqn:Eh; [|exists r; splits; auto].
  pose proof (back_forall _ _ _ (v_src _ _ _ _ _ V) Eh) as [Sp Fp]. unfold fec_of. destruct (k_fec p) as [f|] eqn:Ef; [|congruence]. cbn [bind].
  destruct (sbn_near e r f); cbn [negb]; [|eexists; splits; eauto].
  destruct (blknum_le (c_sbn f) (r_sbn r)) eqn:El; cbn [negb]; [|exists r; splits; auto].
  rewrite (head_read _ _ Eh). cbn [fst]. set (r1 := set_src r _).
  assert (V1 : inv r1 b). { apply inv_set_src; auto. cbn. apply removelast_forall. apply (v_src _ _ _ _ _ V). }
  assert (S1 : sinv r1) by exact Sv.
  assert (L1 : length (sq_list (r_src r)) = S (length (sq_list (r_src r1)))) by (cbn; eapply removelast_length; exact Eh).
  assert (Next : forall r2, inv r2 b -> szd r2 b -> sinv r2 -> r_src r2 = r_src r1 -> (nr (r_sb r) -> nr (r_sb r2)) ->
     exists r', fill_source n e r2 = Ok r' /\ sinv r' /\ (nr (r_sb r) -> nr (r_sb r')) /\ (r_src r' = r_src r \/ (length (sq_list (r_src r')) < length (sq_list (r_src r)))%nat)).
  { intros r2 V2 Z2 S2 Q2 N2. destruct (IH r2 b V2 Z2 S2) as (r' & E' & S' & N' & Q'); [rewrite Q2; lia|].
    exists r'. splits; auto. right. destruct Q' as [-> |Q']; rewrite Q2 in *; lia. }
  destruct (blknum_lt (c_sbn f) (r_sbn r1)) eqn:Elt; [apply Next; auto|].
  assert (Eq : c_sbn f = r_sbn r1).
  { apply (same_sbn _ _ b); auto; [apply (v_sbn _ _ _ _ _ V1)|apply (HT p); auto]. }
  rewrite Eq, Z.eqb_refl. cbn [negb].
  pose proof (process_source_spec e r1 f) as [F A1 A2 A3 A4 A5 A6 A7]. pose proof (inv_process_source e SP RP r1 f b V1) as V2.
  pose proof (process_source_sinv r1 f b V1 S1) as S2. destruct F as (F1 & F2 & F3 & F4 & F5 & F6 & F7 & F8).
  assert (N1 : nr (r_sb r) -> nr (r_sb (fst (process_source e r1 f)))).
  { intros H0. destruct A3 as [-> |[A3 ->]]; [exact H0|]. apply nr_empty, empty_resize. exact (proj1 (v_s0 _ _ _ _ _ V1 A3)). }
  set (u := process_source e r1 f) in *.
  assert (Hb : c_sbn f = u16 b). { rewrite Eq. apply (v_sbn _ _ _ _ _ V1). }
  assert (Z2 : szd (fst u) b).
  { intros Hs. destruct (snd u) eqn:Eu.
    - destruct (A1 eq_refl) as (_ & _ & -> & _). exists p, f. auto.
    - destruct (A2 eq_refl) as [B1 B2]. rewrite B1. apply Z. rewrite B2 in Hs. exact Hs. }
  destruct (snd u) eqn:Eu; cbn [negb]; [|apply Next; auto].
  destruct (A1 eq_refl) as (B1 & B2 & B3 & B4 & B5 & B6 & B7). apply source_ok_spec in B1 as [B1 B1'].
  rewrite B3, Nat.eqb_refl. cbn [negb]. replace (c_esi f <? c_sblen f)%nat with true by (symmetry; apply Nat.ltb_lt; auto). cbn [negb].
  unfold arr. destruct (nth_error (r_sb (fst u)) (c_esi f)) as [[q|]|] eqn:E3; cbn [bind]; [apply Next; auto| |apply nth_error_None in E3; lia].
  apply Next; auto.
  - apply inv_store_s; auto. split; auto. exists f. rewrite B4. splits; auto.
  - intros Hs. cbn. rewrite length_upd. apply Z2. exact B5.
  - destruct S2 as [S2 S3]. split; cbn; [rewrite length_upd; exact S2|].
    destruct S3; [left; apply nr_upd; auto; congruence|right; apply full_upd; auto].
  - intros H0. cbn. apply nr_upd; auto. congruence.
Qed.

Lemma process_repair_ok r f b : inv r b -> sinv r -> c_blen f = B ->
  exists u, process_repair e r f = Ok u /\ sinv (fst u) /\ (nr (r_sb r) -> nr (r_sb (fst u))).
Proof.
  intros V [S1 S2] Hf.
  assert (K : exists u, process_repair e r f = Ok u).
  { unfold process_repair. destruct (repair_ok f) eqn:Eok; cbn [negb]; [|eauto].
    destruct (can_payload r (c_psize f)); cbn [negb]; [|eauto].
    destruct (snd (can_source e r (c_sblen f))) eqn:Ec; cbn [negb]; [|eauto].
    destruct (snd (can_repair_size e _ (c_blen f))); cbn [negb]; [|eauto].
    destruct (snd (update_source e _ (c_sblen f))) eqn:Eu; cbn [negb]; [|eauto].
    set (r2 := fst (update_source _ _ _)) in *.
    assert (Hl : length (r_sb r2) = c_sblen f).
    { unfold r2, update_source in *. destruct (length _ =? c_sblen f)%nat eqn:El; [apply Nat.eqb_eq in El; exact El|].
      destruct (o_alloc _ _); [cbn; apply length_resize|discriminate]. }
    unfold update_repair. destruct (_ =? _)%nat; [eauto|]. rewrite Hl.
    apply repair_ok_spec in Eok. destruct (c_blen f <=? c_sblen f)%nat eqn:Ex; [lia|].
    destruct (o_alloc _ _); eauto. }
  destruct K as [u E]. exists u. split; auto.
  pose proof (process_repair_spec e r f u E (v_rs _ _ _ _ _ V)) as [F A1 A2 A3 A4 A5 A6 A7 A8 A9 A10].
  assert (Hn : nr (r_sb r) -> nr (r_sb (fst u))).
  { intros H0. destruct A2 as [-> |[A2 ->]]; [exact H0|]. apply nr_empty, empty_resize. exact (proj1 (v_s0 _ _ _ _ _ V A2)). }
  split; [|exact Hn]. split.
  - intros Hr. destruct (A7 Hr) as [Hr'|Hr'].
    + pose proof (v_rs _ _ _ _ _ V Hr'). destruct A2 as [-> |[A2 _]]; [|congruence]. destruct A4 as [-> |[A4 _]]; [|congruence]. auto.
    + destruct (A1 Hr') as (_ & _ & _ & _ & _ & _ & _ & ->). exact Hf.
  - destruct A2 as [-> |[A2 ->]]; auto. left. apply nr_empty, empty_resize. exact (proj1 (v_s0 _ _ _ _ _ V A2)).
Qed.
Lemma fill_repair_ok n : forall r b, inv r b -> szd r b -> sinv r -> (length (sq_list (r_rep r)) < n)%nat ->
  exists r', fill_repair n e r = Ok r' /\ sinv r' /\ (nr (r_sb r) -> nr (r_sb r')).
Proof.
  induction n as [|n IH]; intros r b V Z Sv L; [lia|]. cbn [fill_repair].
  destruct (sq_head (r_rep r)) as [p|] eqn:Eh; [|eauto].
  pose proof (back_forall _ _ _ (v_rep _ _ _ _ _ V) Eh) as [Sp Fp]. unfold fec_of. destruct (k_fec p) as [f|] eqn:Ef; [|congruence]. cbn [bind].
  destruct (sbn_near e r f); cbn [negb]; [|eexists; splits; eauto].
  destruct (blknum_le (c_sbn f) (r_sbn r)) eqn:El; cbn [negb]; [|exists r; splits; auto].
  rewrite (head_read _ _ Eh). cbn [fst]. set (r1 := set_rep r _).
  assert (V1 : inv r1 b). { apply inv_set_rep; auto. cbn. apply removelast_forall. apply (v_rep _ _ _ _ _ V). }
  assert (S1 : sinv r1) by exact Sv.
  assert (L1 : length (sq_list (r_rep r)) = S (length (sq_list (r_rep r1)))) by (cbn; eapply removelast_length; exact Eh).
  assert (Next : forall r2, inv r2 b -> szd r2 b -> sinv r2 -> r_rep r2 = r_rep r1 -> (nr (r_sb r) -> nr (r_sb r2)) ->
     exists r', fill_repair n e r2 = Ok r' /\ sinv r' /\ (nr (r_sb r) -> nr (r_sb r'))).
  { intros r2 V2 Z2 S2 Q2 N2. destruct (IH r2 b V2 Z2 S2) as (r' & E' & S' & N'); [rewrite Q2; lia|]. exists r'. splits; auto. }
  destruct (blknum_lt (c_sbn f) (r_sbn r1)) eqn:Elt; [apply Next; auto|].
  assert (Eq : c_sbn f = r_sbn r1).
  { apply (same_sbn _ _ b); auto; [apply (v_sbn _ _ _ _ _ V1)|apply (HT p); auto]. }
  rewrite Eq, Z.eqb_refl. cbn [negb].
  assert (Hb : c_sbn f = u16 b). { rewrite Eq. apply (v_sbn _ _ _ _ _ V1). }
  destruct (process_repair_ok r1 f b V1 S1 (HR p f Sp Ef)) as (u & Eu0 & S2 & N1). rewrite Eu0. cbn [bind].
  pose proof (process_repair_spec e r1 f u Eu0 (v_rs _ _ _ _ _ V1)) as [F A1 A2 A3 A4 A5 A6 A7 A8 A9 A10].
  destruct F as (F1 & F2 & F3 & F4 & F5 & F6).
  pose proof (inv_process_repair e SP RP r1 f b u V1 Eu0) as V2. pose proof (process_repair_grow e SP RP r1 f b u V1 Eu0) as G2.
  assert (Z2 : szd (fst u) b).
  { intros Hs. destruct (A3 Hs) as [A3'|A3']; [|rewrite A3'; exists p, f; auto].
    rewrite (g_len _ _ G2 A3'). apply Z. exact A3'. }
  destruct (snd u) eqn:Eu; cbn [negb]; [|apply Next; auto].
  destruct (A1 eq_refl) as (B1 & B2 & B3 & B4 & B5 & B6 & B7 & B8). apply repair_ok_spec in B1 as (B1 & B1' & B1'' & B1''').
  rewrite B3, Nat.eqb_refl. cbn [negb]. replace (c_sblen f <=? c_esi f)%nat with true by (symmetry; apply Nat.leb_le; auto). cbn [negb].
  pose proof (HR p f Sp Ef) as Hbl. replace (c_esi f <? c_sblen f + length (r_rb (fst u)))%nat with true by (symmetry; apply Nat.ltb_lt; lia). cbn [negb].
  unfold arr. destruct (nth_error (r_rb (fst u)) (c_esi f - c_sblen f)) as [[q|]|] eqn:E4; cbn [bind]; [apply Next; auto| |apply nth_error_None in E4; lia].
  apply Next; auto.
  - apply inv_store_r; auto. split; auto. exists f. rewrite B4. splits; auto; lia.
  - destruct S2 as [S2 S3]. split; cbn; [rewrite length_upd; exact S2|exact S3].
Qed.
Lemma fill_block_ok r b : inv r b -> szd r b -> sinv r -> exists r', fill_block e r = Ok r' /\ sinv r' /\ (nr (r_sb r) -> nr (r_sb r')) /\
    (r_src r' = r_src r \/ (length (sq_list (r_src r')) < length (sq_list (r_src r)))%nat).
Proof.
  intros V Z Sv. unfold fill_block. destruct (fill_source_ok (S (length (sq_list (r_src r)))) r b V Z Sv) as (r1 & E1 & S1 & N1 & Q1); [lia|].
  rewrite E1. cbn [bind]. apply fill_source_inv with (SP := SP) (RP := RP) (b := b) in E1 as (V1 & Z1 & G1 & _); auto.
  destruct (fill_repair_ok (S (length (sq_list (r_rep r1)))) r1 b V1 Z1 S1) as (r2 & E2 & S2 & N2); [lia|]. exists r2. splits; auto.
  apply fill_repair_inv with (SP := SP) (RP := RP) (b := b) in E2 as (_ & _ & _ & ->); auto.
Qed.
Lemma next_block_ok r b : inv r b -> (0 < length (r_sb r))%nat -> r_started r = true -> exists r', next_block e r = Ok r' /\ sinv r' /\
    nr (r_sb r') /\ (r_src r' = r_src r \/ (length (sq_list (r_src r')) < length (sq_list (r_src r)))%nat).
Proof.
  intros V L T. unfold next_block. set (r0 := mkFr _ _ _ _ _ _ _ _ _ _ _ _ _ _).
  assert (V0 : inv r0 (b + 1)).
  { destruct V as [V1 V2 V3 V4 V5 V6 V7 V8 V9]. constructor; cbn; auto.
      + rewrite V1. apply u16_succ.
      + intros i p Hi. exfalso. exact (nth_repeat_none _ _ _ Hi).
      + intros i p Hi. exfalso. exact (nth_repeat_none _ _ _ Hi).
      + intros _. split; apply empty_repeat.
      + intros _. split; apply empty_repeat.
      + intros _. apply empty_repeat. }
  assert (Z0 : szd r0 (b + 1)) by discriminate.
  assert (S0 : sinv r0) by (split; [discriminate|left; apply nr_repeat]).
  destruct (fill_block_ok r0 (b + 1) V0 Z0 S0) as (r' & E & S' & N' & Q'). exists r'. splits; auto.
  apply N'. apply nr_repeat.
Qed.

Lemma dec_set_ok k pay b l : (forall i p, nth_error l i = Some (Some p) -> slot SP k pay b i p \/ rslot RP k pay b i p) -> dec_set pay l = Ok tt.
Proof.
  assert (G : forall l, (forall i p, nth_error l i = Some (Some p) -> exists f, k_fec p = Some f /\ c_psize f = pay /\ pay <> O) -> dec_set pay l = Ok tt).
  { clear l. induction l as [|[p|] l IH]; intros H; cbn; auto.
    - destruct (H O p eq_refl) as (f & F1 & F2 & F3). unfold fec_of. rewrite F1. cbn [bind].
      rewrite F2, Nat.eqb_refl. destruct pay; [congruence|]. cbn. apply IH. intros i q Hq. apply (H (S i)). exact Hq.
    - apply IH. intros i q Hq. apply (H (S i)). exact Hq. }
  intros H. apply G. intros i p Hi. destruct (H i p Hi) as [(_ & f & F)|(_ & f & F)]; exists f; tauto.
Qed.
Lemma try_repair_ok r b : act r b -> sinv r -> nr (r_sb r) -> exists r', try_repair e r = Ok r' /\ sinv r'.
Proof.
  intros (V & Z & N & T) [S1 S2] Hn. unfold try_repair.
  destruct (r_can r); cbn [negb]; [|exists r; split; auto; split; auto].
  destruct (r_sres r && r_rres r && r_pres r) eqn:Ef; cbn [negb]; [|exists r; split; auto; split; auto].
  rewrite !Bool.andb_true_iff in Ef. destruct Ef as [[Es Er] Ep]. unfold dec_begin.
  rewrite (S1 Er). replace (o_max e <? B)%nat with false by (symmetry; apply Nat.ltb_ge; lia). cbn [bind].
  destruct (o_begin e (r_tick r)); cbn [negb]; [|eexists; splits; eauto; split; auto].
  rewrite (dec_set_ok (length (r_sb r)) _ b).
  2:{ intros i p Hi. left. destruct (v_sb _ _ _ _ _ V i p Hi) as [H|[H _]]; auto. exfalso. exact (Hn i p Hi H). }
  cbn [bind]. rewrite (dec_set_ok (length (r_sb r)) _ b).
  2:{ intros i p Hi. right. apply (v_rb _ _ _ _ _ V i p Hi). }
  cbn [bind]. eexists. split; [reflexivity|]. split; cbn; rewrite ?length_restore; auto.
  destruct (HC (r_tick r) (r_sb r) (r_rb r)) as [H|H]; [left|right].
  - intros i p Hi. rewrite restore_nth in Hi. destruct (nth_error (r_sb r) i) as [[q|]|] eqn:En; [|rewrite H in Hi by auto; discriminate|discriminate].
    injection Hi as ->. exact (Hn i p En).
  - intros i Hi. rewrite restore_nth in Hi. destruct (nth_error (r_sb r) i) as [[q|]|] eqn:En; [discriminate| |discriminate].
    specialize (H i En). injection Hi as Hi. congruence.
Qed.

(** * The loop ends *)
Definition jmp : nat := Z.to_nat (Z.min (o_jump e) 32768).
Definition dist (r : fr) : nat :=
  match sq_head (r_src r) with
  | Some p => match k_fec p with Some f => Z.to_nat (s16 (c_sbn f - r_sbn r)) | None => O end
  | None => O
  end.
Definition mu (r : fr) : nat := (length (sq_list (r_src r)) * S jmp + dist r)%nat.
Lemma dist_le r b : inv r b -> ahead r -> r_alive r = true -> (dist r <= jmp)%nat /\ (sq_list (r_src r) <> [] -> 0 < dist r)%nat.
Proof.
  intros V H Ha. unfold dist, jmp. destruct (sq_head (r_src r)) as [p|] eqn:Eh.
  2:{ split; [lia|]. intros Hq. apply back_none in Eh. congruence. }
  pose proof (back_forall _ _ _ (v_src _ _ _ _ _ V) Eh) as [Sp Fp]. destruct (k_fec p) as [f|] eqn:Ef; [|congruence].
  specialize (H Ha p f Eh Ef). pose proof (s16_range (c_sbn f - r_sbn r)). lia.
Qed.
Lemma mu_bound r b : inv r b -> ahead r -> r_alive r = true -> (mu r + 2 <= loop_bound e r)%nat.
Proof.
  intros V H Ha. destruct (dist_le r b V H Ha) as [D _]. unfold mu, loop_bound. fold jmp. nia.
Qed.
Lemma s16_pred x : 0 < s16 x -> s16 (x - 1) = s16 x - 1.
Proof.
  intros H. pose proof (s16_range x). pose proof (s16_mod x). pose proof (s16_range (x - 1)). pose proof (s16_mod (x - 1)). lia.
Qed.
Lemma s16_u16 x b : s16 (x - u16 (b + 1)) = s16 (x - u16 b - 1).
Proof.
  unfold u16, s16, wraps, wrapu. change (2 ^ 16) with 65536. change (2 ^ (16 - 1)) with 32768.
  replace ((x - (b + 1) mod 65536) mod 65536) with ((x - b mod 65536 - 1) mod 65536) by lia. reflexivity.
Qed.
Lemma mu_down r b r' : inv r b -> ahead r -> r_alive r = true -> inv r' (b + 1) -> ahead r' -> r_alive r' = true -> sq_list (r_src r) <> [] ->
  (r_src r' = r_src r \/ (length (sq_list (r_src r')) < length (sq_list (r_src r)))%nat) -> (mu r' < mu r)%nat.
Proof.
  intros V H Ha V' H' Ha' Hq [Q|Q].
  - unfold mu. rewrite Q. enough (dist r' < dist r)%nat by lia. destruct (dist_le r b V H Ha) as [D1 D2].
    unfold dist. rewrite Q. specialize (D2 Hq). unfold dist in D2. destruct (sq_head (r_src r)) as [p|] eqn:Eh; [|lia].
    destruct (k_fec p) as [f|] eqn:Ef; [|lia].
    rewrite (v_sbn _ _ _ _ _ V'). rewrite (v_sbn _ _ _ _ _ V) in D2 |- *. rewrite s16_u16, s16_pred by lia. lia.
  - destruct (dist_le r b V H Ha) as [D1 D2]. destruct (dist_le r' (b + 1) V' H' Ha') as [D3 D4]. specialize (D2 Hq). unfold mu. nia.
Qed.
Lemma inv_set_next r b n : inv r b -> inv (set_next r n) b.
Proof. intros [V1 V2 V3 V4 V5 V6 V7 V8 V9]. constructor; auto. Qed.
Lemma next_loop_ok n : forall r b pp, act r b -> ahead r -> sinv r -> (pp = None -> nr (r_sb r)) ->
  (if r_alive r then mu r + 2 <= n else 1 <= n)%nat ->
  exists o, next_loop n e r pp = Ok o /\ sinv (fst (fst o)).
Proof.
  induction n as [|n IH]; intros r b pp A H Sv Hpp Hn; [destruct (r_alive r); lia|]. cbn [next_loop].
  destruct (r_alive r) eqn:Ha; cbn [negb]; [|eexists; split; eauto].
  destruct A as (V & Z & N & T). destruct pp as [p|].
  - cbn [set_next r_next r_sb]. destruct (S (r_next r) =? length (r_sb r))%nat eqn:El.
    + destruct (next_block_ok (set_next r (S (r_next r))) b) as (r2 & E2 & S2 & _); [apply inv_set_next; auto|cbn; lia|exact T|].
      rewrite E2. cbn [bind]. eexists; split; eauto.
    + cbn [bind]. eexists; split; eauto.
  - destruct (try_repair_ok r b) as (r1 & E1 & S1); [unfold FecReaderRun_proof.act; splits; auto|auto|auto|]. rewrite E1. cbn [bind].
    pose proof (try_repair_act e SP RP HP r b r1 E1) as Ht. destruct Ht as (A1 & H1 & G1 & Q1 & L1); [unfold FecReaderRun_proof.act; splits; auto|auto|].
    destruct A1 as (V1 & Z1 & N1 & T1).
    pose proof (first_from_spec (r_sb r1) (length (r_sb r1) - r_next r1) (r_next r1)) as Hf.
    destruct Hf as (Hf1 & Hf2 & Hf3); [destruct N1; lia|]. set (k := first_from _ _ _) in *.
    destruct (k =? length (r_sb r1))%nat eqn:Ek.
    + destruct (length (sq_list (r_src r1)) =? 0)%nat eqn:Eq; [eexists; split; eauto|].
      cbn [set_next r_next r_sb]. rewrite Ek.
      destruct (next_block_ok (set_next r1 k) b) as (r2 & E2 & S2 & N2 & Q2); [apply inv_set_next; auto|cbn; destruct N1; lia|exact T1|].
      rewrite E2. cbn [bind].
      apply next_block_act with (SP := SP) (RP := RP) (b := b) in E2 as (A2 & H2 & X2 & L2); auto; [|apply inv_set_next; auto|cbn; destruct N1; lia].
      apply (IH r2 (b + 1)); auto. destruct (r_alive r2) eqn:Ea2; [|lia].
      cbn in L2. assert (Ha1 := L2 eq_refl). cbn in Q2. rewrite Q1 in Q2.
      enough (mu r2 < mu r)%nat by lia. apply (mu_down r b); auto; [apply A2|]. intros Hx. rewrite Q1, Hx in Eq. discriminate.
    + destruct Hf3 as [p Hp]; [lia|]. unfold arr. rewrite Hp. cbn [bind]. cbn [set_next r_next r_sb].
      destruct (S k =? length (r_sb r1))%nat eqn:El.
      * destruct (next_block_ok (set_next r1 (S k)) b) as (r2 & E2 & S2 & N2 & Q2); [apply inv_set_next; auto|cbn; destruct N1; lia|exact T1|].
        rewrite E2. cbn [bind]. eexists; split; eauto.
      * cbn [bind]. eexists; split; eauto.
Qed.
Lemma get_next_ok r b : act r b -> sinv r -> exists o, get_next e r = Ok o /\ sinv (fst (fst o)).
Proof.
  intros (V & Z & N & T) Sv. unfold get_next. destruct (fill_block_ok r b V Z Sv) as (r1 & E1 & S1 & N1 & Q1). rewrite E1. cbn [bind].
  apply fill_act with (SP := SP) (RP := RP) (b := b) in E1 as (A1 & H1 & G1); [|unfold FecReaderRun_proof.act; splits; auto].
  unfold arr. destruct (nth_error (r_sb r1) (r_next r1)) as [pp|] eqn:En.
  2:{ apply nth_error_None in En. destruct A1 as (_ & _ & [A1 _] & _). lia. }
  cbn [bind]. apply (next_loop_ok _ r1 b pp); auto.
  - intros ->. destruct S1 as [_ [S1|S1]]; auto. exfalso. exact (S1 _ En).
  - destruct (r_alive r1) eqn:Ea; [|unfold loop_bound; nia]. apply (mu_bound r1 b); auto. apply A1.
Qed.
Lemma drop_repair_ok n : forall r b, inv r b -> (length (sq_list (r_rep r)) < n)%nat -> exists r', drop_repair n r = Ok r'.
Proof.
  induction n as [|n IH]; intros r b V L; [lia|]. cbn [drop_repair].
  destruct (sq_head (r_rep r)) as [p|] eqn:Eh; [|eauto].
  pose proof (back_forall _ _ _ (v_rep _ _ _ _ _ V) Eh) as [Sp Fp]. unfold fec_of. destruct (k_fec p) as [f|] eqn:Ef; [|congruence]. cbn [bind].
  destruct (blknum_lt _ _); cbn [negb]; [|eauto]. rewrite (head_read _ _ Eh). cbn [fst]. apply (IH _ b).
  - apply inv_set_rep; auto. cbn. apply removelast_forall. apply (v_rep _ _ _ _ _ V).
  - cbn. pose proof (removelast_length _ _ Eh). lia.
Qed.
Lemma fetch_ok l : forall q err, (forall p, In p l -> k_fec p <> None) -> exists x, fetch e q l err = Ok x.
Proof.
  induction l as [|p l IH]; intros q err H; cbn [fetch]; [eauto|]. unfold scheme_ok.
  destruct (k_fec p) eqn:Ef; [|exfalso; exact (H p (or_introl eq_refl) Ef)]. cbn [bind]. destruct (_ =? _); [|eauto].
  apply IH. intros. apply H. right; auto.
Qed.
Definition fecs (i : rin) : Prop := forall p, In p (i_src i) \/ In p (i_rep i) -> k_fec p <> None.
Lemma fetch_all_ok r i : sinv r -> fecs i -> exists r' ok, fetch_all e r i = Ok (r', ok) /\ sinv r'.
Proof.
  intros Sv Hi. unfold fetch_all. destruct (fetch_ok (i_src i) (r_src r) (i_srcerr i)) as [[[q a] k] E]; [intros; apply Hi; auto|].
  rewrite E. cbn [bind fst snd]. destruct k; cbn [negb]; [|do 2 eexists; split; [reflexivity|destruct a; exact Sv]].
  set (r1 := if a then _ else _). assert (S1 : sinv r1) by (unfold r1; destruct a; exact Sv).
  destruct (fetch_ok (i_rep i) (r_rep r1) (i_reperr i)) as [[[q2 a2] k2] E2]; [intros; apply Hi; auto|].
  rewrite E2. cbn [bind fst snd]. do 2 eexists; split; [reflexivity|destruct a2; exact S1].
Qed.
Lemma try_start_ok r : pre r -> sinv r -> exists r' ok, try_start e r = Ok (r', ok) /\ sinv r'.
Proof.
  intros (P1 & P2 & P3 & P4 & P5 & P6) Sv. unfold try_start. destruct (sq_head (r_src r)) as [p|] eqn:Eh; [|eauto].
  pose proof (back_forall _ _ _ (v_src _ _ _ _ _ P2) Eh) as [Sp Fp]. unfold fec_of. destruct (k_fec p) as [f|] eqn:Ef; [|congruence]. cbn [bind].
  pose proof (process_source_sinv r f _ P2 Sv) as S1. pose proof (inv_process_source e SP RP r f _ P2) as V1.
  destruct (snd (process_source e r f)); cbn [negb]; [|eauto].
  set (r1 := set_sbn _ _). destruct (drop_repair_ok (S (length (sq_list (r_rep r1)))) r1 (c_sbn f)) as [r2 E2]; [|lia|].
  { pose proof (process_source_spec e r f) as [F _ _ A3 _ _ _ _]. destruct F as (F1 & F2 & F3 & F4 & F5 & F6 & F7 & F8).
    unfold r1. rewrite <- (u16_small (c_sbn f)) at 1 by (apply (HT p); auto). eapply inv_empty; eauto; [|rewrite F3; auto].
    destruct A3 as [-> |[_ ->]]; auto. apply empty_resize; auto. }
  rewrite E2. cbn [bind].
  assert (S2 : sinv r2).
  { clear - E2 S1. revert E2. generalize (S (length (sq_list (r_rep r1)))). assert (S0 : sinv r1) by exact S1. clearbody r1. clear S1. intros n. revert r1 S0.
    induction n as [|n IH]; intros r1 S0 E; [discriminate|]. cbn in E. destruct (sq_head _) as [q|]; [|injection E as <-; auto].
    unfold fec_of in E. destruct (k_fec q); [|discriminate]. cbn in E. destruct (negb _); [injection E as <-; auto|]. apply IH in E; auto. }
  destruct (0 <? c_esi f)%nat; do 2 eexists; split; eauto.
Qed.
Lemma read_ok r outs i : runinv e SP RP r outs -> (r_alive r = true -> sinv r) -> fecs i -> (forall p, In p (i_src i) -> SP p) -> (forall p, In p (i_rep i) -> RP p) ->
  exists y, fr_read e r i = Ok y /\ (r_alive (fst (fst y)) = true -> sinv (fst (fst y))).
Proof.
  intros (ps & _ & _ & R3) Hs Hi Hsp Hrp. unfold fr_read. destruct (r_alive r) eqn:Ea; cbn [negb]; [|eexists; split; [reflexivity|cbn; congruence]].
  specialize (R3 eq_refl). specialize (Hs eq_refl).
  enough (K : exists o, fr_read_ e r i = Ok o /\ sinv (fst (fst o))).
  { destruct K as (o & E & S1). rewrite E. cbn [bind]. destruct (r_alive (fst (fst o))) eqn:Eo; cbn [negb]; eexists; split; eauto. }
  unfold fr_read_. destruct (fetch_all_ok r i Hs Hi) as (r1 & ok & E1 & S1). rewrite E1. cbn [bind fst snd].
  destruct ok; cbn [negb]; [|eauto].
  destruct R3 as [[(P1 & P2 & P3 & P4 & P5 & P6) Hps]|(b & l & x & (V & Z & N & T) & Hps & Hb & Hm)].
  - apply fetch_all_frame with (SP := SP) (RP := RP) (b := r_sbn r) in E1 as (W1 & W2 & W3 & W4 & W5 & W6 & W7); auto.
    assert (P' : pre r1). { unfold FecReaderRun_proof.pre. rewrite W2, W3, W4, W5, W6. splits; auto; lia. }
    rewrite W2, P1. destruct (try_start_ok r1 P' S1) as (r2 & ok2 & E2 & S2). rewrite E2. cbn [bind fst snd].
    destruct ok2; cbn [negb]; [|eexists; split; [reflexivity|exact S2]].
    apply try_start_pre with (SP := SP) (RP := RP) in E2 as (b & A & _); auto. apply (get_next_ok r2 b); auto.
  - apply fetch_all_frame with (SP := SP) (RP := RP) (b := b) in E1 as (W1 & W2 & W3 & W4 & W5 & W6 & W7); auto.
    rewrite W2, T. cbn [bind fst snd negb]. apply (get_next_ok r1 b); auto.
    unfold FecReaderRun_proof.act, nxt, FecReader_proof.szd. rewrite W2, W4, W6, W7. splits; auto. apply N. apply N.
Qed.
Lemma run_ok is : Forall fecs is -> (forall p, In p (sources is) -> SP p) -> (forall p, In p (repairs is) -> RP p) ->
  exists r outs, fr_run e fr_new is = Ok (r, outs) /\ (r_alive r = true -> sinv r).
Proof.
  induction is as [|i is IH] using rev_ind; intros Hf Hs Hr.
  - exists fr_new, []. split; auto. intros _. split; [discriminate|]. left. intros i p Hi. destruct i; discriminate.
  - apply Forall_app in Hf as [Hf Hi]. inversion Hi; subst. unfold sources, repairs in Hs, Hr. rewrite flat_map_app in Hs, Hr. cbn in Hs, Hr. rewrite app_nil_r in Hs, Hr.
    destruct IH as (r & outs & E & S1); auto; try (intros p Hp; (apply Hs || apply Hr); apply in_or_app; auto).
    rewrite fr_run_snoc, E. cbn [bind fst snd].
    assert (R : runinv e SP RP r outs).
    { eapply run_order; eauto; intros p Hp; [apply Hs|apply Hr]; apply in_or_app; auto. }
    destruct (read_ok r outs i R S1) as (y & Ey & Sy); auto; try (intros p Hp; (apply Hs || apply Hr); apply in_or_app; auto).
    rewrite Ey. cbn [bind]. do 2 eexists. split; [reflexivity|]. exact Sy.
Qed.
End Safe.
