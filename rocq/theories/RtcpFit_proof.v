From Coq Require Import Lia.
From Verif Require Import Base Base_lemmas RtcpTrav_model RtcpBuild_model RtcpBuild_spec RtcpBuild_proof RtcpProto_proof.
Open Scope res_scope.
Local Open Scope nat_scope.

(** the builder stays within its slice, whatever it is asked *)
Lemma len_wr {A} (l : list A) n x l' : wr l n x = Ok l' -> length l' = length l.
Proof. unfold wr. destruct (n <? length l); [|discriminate]. intros H. injection H as <-. apply length_upd. Qed.
Lemma len_set_len l h x l' : set_len l h x = Ok l' -> length l' = length l.
Proof. unfold set_len. intros H. bd H. destruct (wr l (h + 2) _) as [l1| |] eqn:E; cbn [bind] in H; [|discriminate..]. apply len_wr in E. apply len_wr in H. congruence. Qed.
Lemma len_inc l h l' : inc_counter l h = Ok l' -> length l' = length l.
Proof. unfold inc_counter. intros H. bd H. destruct (_ <? _); [discriminate|]. apply len_wr in H. exact H. Qed.
Lemma len_padding l h l' : set_padding l h = Ok l' -> length l' = length l.
Proof. unfold set_padding. intros H. bd H. apply len_wr in H. exact H. Qed.
Definition inner (s : wst) : Prop := s <> WTop /\ s <> WLast.
Definition fit (b : bld) : Prop :=
  length (w_buf b) <= w_cap b /\ w_rsz b <= length (w_buf b) /\ (w_trunc b = false -> (w_st b = WTop -> w_rsz b = length (w_buf b)) /\ (inner (w_st b) -> w_start b = w_rsz b)).
Lemma fit_st b s : fit b -> inner (w_st b) -> inner s -> fit (st_upd b s).
Proof. unfold fit, inner. cbn. intros (A & B & C) I1 I2. split; [exact A|]. split; [exact B|]. intros T. split; [intros E; tauto|]. intros _. apply C; assumption. Qed.
Lemma fit_begin b p : fit b -> w_st b = WTop -> forall s x y, inner s -> fit (begin_packet (srrr_upd (st_upd b s) x y) p) /\ w_cap (begin_packet (srrr_upd (st_upd b s) x y) p) = w_cap b.
Proof.
  intros (A & B & C) T s x y Is. unfold begin_packet, srrr_upd, st_upd. pj. destruct (w_trunc b) eqn:Tr; [split; [|reflexivity]; split; [exact A|]; split; [exact B|]; cbn; congruence|].
  destruct (C eq_refl) as [C1 _]. specialize (C1 T). rewrite C1, firstn_all.
  destruct (Nat.ltb_spec (w_cap b - length (w_buf b)) (length p)); (split; [|reflexivity]); unfold fit; cbn.
  - repeat split; try lia; congruence.
  - rewrite app_length. split; [lia|]. split; [lia|]. intros _. split; [|reflexivity]. destruct Is. contradiction.
Qed.
Lemma fit_begin' b p : fit b -> w_st b = WTop -> forall s, inner s -> fit (begin_packet (st_upd b s) p) /\ w_cap (begin_packet (st_upd b s) p) = w_cap b.
Proof. intros F T s Is. exact (fit_begin b p F T s (w_sr b) (w_rr b) Is). Qed.
Lemma fit_block b p : fit b -> inner (w_st b) -> fit (fst (add_block b p)) /\ w_cap (fst (add_block b p)) = w_cap b /\ w_st (fst (add_block b p)) = w_st b.
Proof.
  intros (A & B & C) Is. unfold add_block. destruct (w_trunc b) eqn:Tr; [split; [|split; reflexivity]; split; [exact A|]; split; [exact B|]; cbn; congruence|].
  destruct (Nat.ltb_spec (w_cap b - length (w_buf b)) (length p)); (split; [|split; reflexivity]); unfold fit; cbn.
  - split; [exact A|]. split; [exact B|discriminate].
  - rewrite app_length. split; [lia|]. split; [lia|]. intros _. split; [destruct Is; contradiction|]. intros _. apply C; [reflexivity|exact Is].
Qed.
Lemma fit_buf b l n : fit b -> length l = length (w_buf b) -> fit (buf_upd b l) /\ fit (xhdr_upd (buf_upd b l) n).
Proof. intros (A & B & C) L. unfold fit. cbn. rewrite L. repeat split; assumption || (apply C; assumption). Qed.
Lemma fit_report b r b' : fit b -> inner (w_st b) -> add_report b r = Ok b' -> fit b' /\ w_cap b' = w_cap b.
Proof.
  intros F Is. unfold add_report. destruct (fit_block b (enc_rin r) F Is) as (F1 & C1 & _). destruct (add_block b (enc_rin r)) as [b1 ok]. cbn [fst] in *. intros H.
  destruct (negb ok); [injection H as <-; split; assumption|]. destruct (w_hdr b1); [|discriminate]. destruct (set_len _ _ _) eqn:E1; cbn [bind] in H; [|discriminate..]. destruct (inc_counter _ _) eqn:E2; cbn [bind] in H; [|discriminate..].
  apply len_set_len in E1. apply len_inc in E2. assert (X : b' = buf_upd b1 a0) by congruence. rewrite X. split; [apply (fit_buf b1 a0 0); [exact F1|congruence]|exact C1].
Qed.
Lemma fit_counted b p b' : fit b -> inner (w_st b) -> add_counted b p = Ok b' -> fit b' /\ w_cap b' = w_cap b.
Proof.
  intros F Is. unfold add_counted. destruct (fit_block b p F Is) as (F1 & C1 & _). destruct (add_block b p) as [b1 ok]. cbn [fst] in *. intros H.
  destruct (negb ok); [injection H as <-; split; assumption|]. destruct (w_hdr b1); [|discriminate]. destruct (inc_counter _ _) eqn:E2; cbn [bind] in H; [|discriminate..].
  apply len_inc in E2. assert (X : b' = buf_upd b1 a) by congruence. rewrite X. split; [apply (fit_buf b1 a 0); [exact F1|congruence]|exact C1].
Qed.
Lemma fit_xblock b p b' : fit b -> inner (w_st b) -> add_xblock b p = Ok b' -> fit b' /\ w_cap b' = w_cap b.
Proof.
  intros F Is. unfold add_xblock. destruct (fit_block b p F Is) as (F1 & C1 & _). destruct (add_block b p) as [b1 ok]. cbn [fst] in *. cbv zeta. intros H.
  destruct (negb ok); [injection H as <-; split; assumption|]. destruct (set_len _ _ _) eqn:E2; cbn [bind] in H; [|discriminate..].
  apply len_set_len in E2. assert (X : b' = xhdr_upd (buf_upd b1 a) (length (w_buf b))) by congruence. rewrite X. split; [apply fit_buf; [exact F1|congruence]|exact C1].
Qed.
Lemma fit_end b b' : fit b -> inner (w_st b) -> end_packet (st_upd b WTop) = Ok b' -> fit b' /\ w_cap b' = w_cap b.
Proof.
  intros (A & B & C) Is. unfold end_packet, st_upd. pj. destruct (w_trunc b) eqn:Tr; intros H.
  - assert (X : b' = st_upd b WTop) by (unfold st_upd; congruence). rewrite X. split; [|reflexivity]. split; [exact A|]. split; [exact B|]. cbn. congruence.
  - destruct (_ || _); [discriminate|]. destruct (w_hdr b); [|discriminate]. destruct (set_len _ _ _) eqn:E2; cbn [bind] in H; [|discriminate..]. apply len_set_len in E2.
    match type of H with Ok ?x = _ => assert (X : b' = x) by congruence end. rewrite X. split; [|reflexivity]. destruct (C eq_refl) as [_ C2]. specialize (C2 Is). unfold fit, cur_size. cbn. rewrite E2, C2. repeat split; try lia. intros [Z0 _]. exfalso. apply Z0. reflexivity.
Qed.
Ltac ist G := ins G; repeat destruct G as [G|G]; try contradiction; try (symmetry in G).
Ltac inn := match goal with G : w_st ?b = _ |- inner (w_st ?b) => rewrite G; split; discriminate | |- inner _ => cbn; split; discriminate end.
Lemma fit_step b o b' : fit b -> w_step b o = Ok b' -> fit b' /\ w_cap b' = w_cap b.
Proof.
  intros F H. destruct o; cbn [w_step] in H.
  all: try (match type of H with (if _ then Panic else add_report _ _) = _ => gd H; ist G; (eapply fit_report in H; [exact H|apply fit_st; [exact F|inn|inn]|inn]) end).
  all: try (match type of H with (if _ then Panic else add_counted (st_upd _ _) _) = _ => gd H; ist G; (eapply fit_counted in H; [exact H|apply fit_st; [exact F|inn|inn]|inn]) end).
  all: try (match type of H with (if _ then Panic else end_packet _) = _ => gd H; ist G; (eapply fit_end in H; [exact H|exact F|inn]) end).
  all: try (match type of H with (if _ then Panic else add_xblock _ _) = _ => gd H; ist G; (eapply fit_xblock in H; [exact H|exact F|inn]) end).
  - destruct (is_st b [WTop]) eqn:G; cbn [negb orb] in H; [|discriminate]. destruct (c_srrr (w_cfg b)); [|discriminate]. cbn [negb] in H. ist G. match type of H with Ok ?x = _ => assert (X : b' = x) by congruence end. rewrite X. apply fit_begin; [exact F|exact G|split; discriminate].
  - destruct (is_st b [WTop]) eqn:G; cbn [negb orb] in H; [|discriminate]. destruct (c_srrr (w_cfg b)); [|discriminate]. cbn [negb] in H. ist G. match type of H with Ok ?x = _ => assert (X : b' = x) by congruence end. rewrite X. apply fit_begin; [exact F|exact G|split; discriminate].
  - destruct (is_st b [WTop]) eqn:G; cbn [negb orb] in H; [|discriminate]. destruct (_ || _); [discriminate|]. ist G. match type of H with Ok ?x = _ => assert (X : b' = x) by congruence end. rewrite X. apply fit_begin'; [exact F|exact G|split; discriminate].
  - gd H. ist G. eapply fit_counted in H; [exact H| |inn]. exact (fit_st b WSdesChunk F ltac:(inn) ltac:(inn)).
  - destruct (is_st b [WSdesChunk]) eqn:G; cbn [negb orb] in H; [|discriminate]. destruct (255 <? length text); [discriminate|]. ist G. destruct (_ && _); [discriminate|].
    match type of H with Ok ?x = _ => assert (X : b' = x) by congruence end. rewrite X. destruct (ty =? 1)%Z.
    + destruct (fit_block (cname_upd b true) ([u8 ty; u8 (Z.of_nat (length text))] ++ text)) as (F1 & C1 & _); [exact F|cbn; rewrite G; split; discriminate|]. split; assumption.
    + destruct (fit_block b ([u8 ty; u8 (Z.of_nat (length text))] ++ text)) as (F1 & C1 & _); [exact F|inn|]. split; assumption.
  - destruct (is_st b [WSdesChunk]) eqn:G; cbn [negb orb] in H; [|discriminate]. destruct (w_cname b); [|discriminate]. cbn [negb] in H. ist G.
    match type of H with Ok ?x = _ => assert (X : b' = x) by congruence end. rewrite X.
    destruct (fit_block (st_upd b WSdesHead) (repeat 0%Z (padding_len (cur_size b) 1))) as (F1 & C1 & _); [apply fit_st; [exact F|inn|inn]|inn|]. split; assumption.
  - destruct (is_st b [WTop]) eqn:G; cbn [negb orb] in H; [|discriminate]. destruct (negb (first_ok b)); [discriminate|]. ist G. match type of H with Ok ?x = _ => assert (X : b' = x) by congruence end. rewrite X. apply fit_begin'; [exact F|exact G|split; discriminate].
  - destruct (is_st b [WByeSsrc]) eqn:G; cbn [negb orb] in H; [|discriminate]. destruct (255 <? length text); [discriminate|]. ist G.
    match type of H with Ok (fst (add_block ?a ?p)) = _ => assert (X : b' = fst (add_block a p)) by congruence; destruct (fit_block a p) as (F1 & C1 & _); [apply fit_st; [exact F|inn|inn]|inn|] end. rewrite X. split; assumption.
  - destruct (is_st b [WTop]) eqn:G; cbn [negb orb] in H; [|discriminate]. destruct (_ || _); [discriminate|]. ist G. match type of H with Ok ?x = _ => assert (X : b' = x) by congruence end. rewrite X. apply fit_begin'; [exact F|exact G|split; discriminate].
  - gd H. ist G. cbv zeta in H. destruct (fit_block (st_upd b WDlrrHead) (xhead XR_DLRR 0)) as (F1 & C1 & _); [apply fit_st; [exact F|inn|inn]|inn|].
    destruct (add_block (st_upd b WDlrrHead) (xhead XR_DLRR 0)) as [b1 ok]. cbn [fst] in *. assert (X : b' = if ok then xhdr_upd b1 (length (w_buf b)) else b1) by congruence. rewrite X. destruct ok; split; assumption.
  - gd H. ist G; (match type of H with Ok (fst (add_block ?a ?p)) = _ => assert (X : b' = fst (add_block a p)) by congruence; destruct (fit_block a p) as (F1 & C1 & _); [apply fit_st; [exact F|inn|inn]|inn|] end; rewrite X; split; assumption).
  - gd H. assert (Is : inner (w_st b)) by (ist G; inn). destruct (w_trunc b); [assert (X : b' = st_upd b WXrHead) by congruence; rewrite X; split; [apply fit_st; [exact F|exact Is|inn]|reflexivity]|].
    destruct (set_len _ _ _) eqn:E; cbn [bind] in H; [|discriminate..]. apply len_set_len in E. assert (X : b' = buf_upd (st_upd b WXrHead) a) by congruence. rewrite X. split; [|reflexivity]. apply (fit_buf (st_upd b WXrHead) a 0); [apply fit_st; [exact F|exact Is|inn]|exact E].
  - destruct (is_st b [WTop]) eqn:G; cbn [negb orb] in H; [|discriminate]. ist G. destruct (_ || _) eqn:Eg; [discriminate|]. apply Bool.orb_false_iff in Eg. destruct Eg as [Eg _]. apply Bool.orb_false_iff in Eg. destruct Eg as [_ Eg]. apply Nat.ltb_ge in Eg. destruct F as (A & B & C). destruct (w_trunc b) eqn:Tr.
    + assert (X : b' = st_upd b WLast) by congruence. rewrite X. split; [|reflexivity]. split; [exact A|]. split; [exact B|]. cbn. congruence.
    + destruct (w_hdr b); [|discriminate]. destruct (set_padding _ _) eqn:E1; cbn [bind] in H; [|discriminate..]. bd H. bd H. destruct (set_len _ _ _) eqn:E2; cbn [bind] in H; [|discriminate..]. apply len_padding in E1. apply len_set_len in E2.
      destruct (C eq_refl) as [C1 _]. specialize (C1 G). destruct (Nat.ltb_spec (w_cap b - w_rsz b) n).
      * match type of H with Ok ?x = _ => assert (X : b' = x) by congruence end. rewrite X. split; [|reflexivity]. unfold fit. cbn. repeat split; try lia; discriminate.
      * match type of H with Ok ?x = _ => assert (X : b' = x) by congruence end. rewrite X. split; [|reflexivity]. unfold fit. cbn. rewrite !app_length, repeat_length. cbn [length]. rewrite E2, E1.
        split; [lia|]. split; [lia|]. intros _. split; [discriminate|]. intros [_ Z0]. exfalso. apply Z0. reflexivity.
Qed.
Lemma fit_run cfg cap ops b : w_run (w_new cfg cap) ops = Ok b -> fit b /\ w_cap b = cap.
Proof.
  revert b. induction ops as [|o ops IH] using rev_ind; intros b H.
  - injection H as <-. split; [|reflexivity]. unfold fit, inner. cbn. repeat split; try lia.
  - rewrite w_run_snoc in H. destruct (w_run (w_new cfg cap) ops) as [b1| |] eqn:R; cbn [bind] in H; [|discriminate..]. destruct (IH _ eq_refl) as [F1 C1]. destruct (fit_step _ _ _ F1 H). split; [assumption|congruence].
Qed.
