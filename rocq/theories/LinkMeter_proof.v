From Coq Require Import ZArith List Bool Lia.
From Verif Require Import Base Seqnum_model Seqnum_proof LinkMeter_model LinkMeter_spec.
Import ListNotations.
Local Open Scope Z_scope.

Definition seqs (st : lm) (xs : list Z) : lm := fold_left update_metrics (map (fun x => x mod 65536) xs) st.

(* the fields besides the encoding *)
Definition same (a b : lm) : Prop :=
  lm_first_packet a = lm_first_packet b /\ lm_has a = lm_has b /\ lm_first a = lm_first b /\ lm_hi a = lm_hi b /\
  lm_lo a = lm_lo b /\ lm_ext_first a = lm_ext_first b /\ lm_ext_last a = lm_ext_last b.

Lemma same_update a b s : same a b -> same (update_metrics a s) (update_metrics b s).
Proof. intros (A & B & C & D & E & F & G). unfold same, update_metrics. rewrite A, C, D, E. cbn. repeat split; reflexivity. Qed.

Lemma run_counted find ps : forall a b, same a b ->
  (match lm_enc a with Some e => find e = true | None => True end) ->
  same (lm_run find a (map on_wire ps)) (seqs b (counted find ps)).
Proof.
  induction ps as [|[[pt x]|] ps IH]; intros a b S E; cbn [map on_wire counted lm_run fold_left]; auto.
  2:{ apply IH; auto. }
  fold (lm_run find). unfold lm_write.
  set (enc := match lm_enc a with Some e => _ | None => _ end).
  assert (Q : enc = if find pt then Some pt else None).
  { unfold enc. destruct (lm_enc a) as [e|]; auto. destruct (Z.eqb_spec e pt) as [->|]; auto. now rewrite E. }
  clearbody enc. subst enc.
  destruct (find pt) eqn:F.
  - cbn [map fold_left seqs]. apply (IH (update_metrics _ _) (update_metrics b (x mod 65536))).
    + apply same_update. destruct S as (S1 & S2 & S3 & S4 & S5 & S6 & S7). repeat split; auto.
    + exact F.
  - apply IH; auto. exact I.
Qed.

Definition at_top (st : lm) (M : Z) : Prop :=
  lm_first_packet st = false /\ lm_has st = true /\ lm_lo st = M mod 65536 /\ lm_hi st = (65535 * (M / 65536)) mod 2 ^ 32 /\
  lm_ext_last st = (65535 * (M / 65536) + M mod 65536) mod 2 ^ 32.

Lemma diff_mod x y : Z.abs (x - y) < 32768 -> seqnum_diff (x mod 65536) (y mod 65536) = x - y.
Proof. intros H. rewrite <- seqnum_diff_pos; [reflexivity|]. lia. Qed.

Lemma top_step st M x : at_top st M -> Z.abs (x - M) < 32768 -> at_top (update_metrics st (x mod 65536)) (Z.max M x).
Proof.
  intros (A & B & C & D & E) H. unfold at_top, update_metrics. rewrite A, C, D. cbn [lm_first_packet lm_has lm_lo lm_hi lm_ext_last orb].
  rewrite diff_mod by exact H. split; auto. split; auto.
  assert (P : 0 <= M mod 65536 < 65536 /\ 0 <= x mod 65536 < 65536) by (split; apply Z.mod_pos_bound; lia).
  assert (DM := Z.div_mod M 65536 ltac:(lia)). assert (DX := Z.div_mod x 65536 ltac:(lia)).
  set (qm := M / 65536) in *. set (rm := M mod 65536) in *. set (qx := x / 65536) in *. set (rx := x mod 65536) in *.
  unfold u32, wrapu. change (2 ^ 32) with 4294967296.
  destruct (Z.ltb_spec 0 (x - M)) as [L|L].
  - rewrite Z.max_r by lia. fold qx rx. cbn [andb].
    destruct (Z.ltb_spec rx rm) as [W|W].
    + assert (qx = qm + 1) by (clear -W P DM DX H L; nia). split; auto. rewrite Zplus_mod_idemp_l. split.
      * f_equal. lia.
      * rewrite Zplus_mod_idemp_l. f_equal. lia.
    + assert (qx = qm) by (clear -W P DM DX H L; nia). split; auto. split; [f_equal; lia|].
      rewrite Zplus_mod_idemp_l. f_equal. lia.
  - rewrite Z.max_l by lia. fold qm rm. cbn [andb]. split; auto. split; auto. rewrite Zplus_mod_idemp_l. reflexivity.
Qed.

Lemma top_first st x : lm_first_packet st = true -> lm_hi st = 0 -> lm_lo st = 0 -> 0 <= x < 65536 -> at_top (update_metrics st (x mod 65536)) x.
Proof.
  intros A B C H. unfold at_top, update_metrics. rewrite A, B, C. cbn [orb andb lm_first_packet lm_has lm_lo lm_hi lm_ext_last].
  rewrite Z.mod_small, Z.div_small by lia. rewrite (proj2 (Z.ltb_ge x 0)) by lia. cbn [andb]. unfold u32, wrapu. repeat split; auto.
Qed.

Lemma top_run xs : forall st M, at_top st M -> orderly M xs -> at_top (seqs st xs) (highest M xs).
Proof.
  induction xs as [|x xs IH]; intros st M A O; cbn [seqs map fold_left highest]; auto.
  destruct O as [O1 O2]. apply IH; auto. now apply top_step.
Qed.

(* the first sequence number *)
Definition at_bottom (st : lm) (m : Z) : Prop := lm_first st = m /\ lm_ext_first st = m.

Lemma bottom_step st M m x : at_top st M -> at_bottom st m -> 0 <= m <= M -> M < 65536 ->
  0 <= x < 65536 -> Z.abs (x - m) < 32768 -> at_bottom (update_metrics st (x mod 65536)) (Z.min m x).
Proof.
  intros (A & B & C & D & E) (F & G) H1 H2 H3 H4. unfold at_bottom, update_metrics. rewrite A, D, F.
  cbn [lm_first lm_ext_first orb]. rewrite (Z.div_small M) by lia. cbn [Z.mul Z.modulo]. change (65535 * 0 mod 2 ^ 32) with 0.
  cbn [Z.eqb]. rewrite andb_true_r.
  assert (DD : seqnum_diff (x mod 65536) m = x - m) by (rewrite <- (Z.mod_small m 65536) at 1 by lia; apply diff_mod; lia).
  rewrite DD, (Z.mod_small x) by lia.
  destruct (Z.ltb_spec (x - m) 0); split; lia.
Qed.

Lemma bottom_run xs : forall st M m, at_top st M -> at_bottom st m -> 0 <= m <= M -> M < 65536 -> M - m < 32768 -> orderly M xs ->
  0 <= lowest m xs -> highest M xs < 65536 -> highest M xs - lowest m xs < 32768 ->
  at_bottom (seqs st xs) (lowest m xs).
Proof.
  assert (HX : forall l M, M <= highest M l).
  { induction l as [|x l IHl]; intros M; cbn [highest fold_left]; [lia|]. specialize (IHl (Z.max M x)). unfold highest in *. lia. }
  assert (LX : forall l m, lowest m l <= m).
  { induction l as [|x l IHl]; intros m; cbn [lowest fold_left]; [lia|]. specialize (IHl (Z.min m x)). unfold lowest in *. lia. }
  induction xs as [|x xs IH]; intros st M m A B H1 H2 H3 O H4 H5 H6; cbn [seqs map fold_left lowest highest] in *; auto.
  destruct O as [O1 O2]. pose proof (HX xs (Z.max M x)) as K1. pose proof (LX xs (Z.min m x)) as K2.
  unfold highest, lowest in *. apply (IH _ (Z.max M x) (Z.min m x)); auto; try lia.
  - now apply top_step.
  - apply bottom_step with (M := M); auto; lia.
Qed.
