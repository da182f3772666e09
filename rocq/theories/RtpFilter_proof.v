From Verif Require Import Base Seqnum_model Seqnum_proof RtpFilter_model RtpFilter_spec.

Lemma newest_unique h q zq q' zq' : newest h q zq -> newest h q' zq' -> q = q' /\ zq = zq'.
Proof.
  intros (a & b & -> & Ha & Hb) (a' & b' & E & Ha' & Hb').
  revert a' E Ha'. induction a as [|x a IH]; intros [|x' a'] E Ha'; cbn in E.
  - injection E; intros; subst; auto.
  - injection E as E1 E2. subst.
    specialize (Ha' _ (or_introl eq_refl)). cbn in Ha'.
    assert (zq' <= zq) by (apply (Hb (q', zq')); apply in_or_app; cbn; auto). lia.
  - injection E as E1 E2; subst.
    specialize (Ha _ (or_introl eq_refl)). cbn in Ha.
    assert (zq <= zq') by (apply (Hb' (q, zq)); apply in_or_app; cbn; auto). lia.
  - injection E as E1 E2; subst. eapply IH; eauto; intros; [apply Ha|apply Ha']; cbn; auto.
Qed.

Lemma newest_add h q zq p z : newest h q zq ->
  newest (h ++ [(p, z)]) (if zq <? z then p else q) (if zq <? z then z else zq).
Proof.
  intros (a & b & -> & Ha & Hb). destruct (zq <? z) eqn:E.
  - exists (a ++ (q, zq) :: b), []. split; [reflexivity|]. split; [|intros ? []].
    intros x Hx. apply in_app_or in Hx. destruct Hx as [Hx|[<-|Hx]]; [specialize (Ha _ Hx)| |specialize (Hb _ Hx)]; cbn in *; lia.
  - exists a, (b ++ [(p, z)]). split; [rewrite <- app_assoc; reflexivity|].
    split; [exact Ha|]. intros x Hx. apply in_app_or in Hx. destruct Hx as [Hx|[<-|[]]]; cbn; [auto|lia].
Qed.

Lemma newest_In h q zq : newest h q zq -> In (q, zq) h.
Proof. intros (a & b & -> & _). apply in_or_app; cbn; auto. Qed.

Definition finv (h : list (rtp * Z)) (st : option rtp) : Prop :=
  match st with
  | None => h = []
  | Some q => rtp_wf q /\ exists zq, newest h q zq /\ zq mod 65536 = r_sn q
  end.

Lemma s16_cases x : -65536 < x < 65536 ->
  s16 x = x \/ s16 x = x - 65536 \/ s16 x = x + 65536.
Proof. unfold s16, wraps. change (2 ^ 16) with 65536. change (2 ^ (16 - 1)) with 32768.
  intros. destruct (_ <? _) eqn:E; lia. Qed.

Lemma s16_range x : -32768 <= s16 x < 32768.
Proof. unfold s16, wraps. change (2 ^ 16) with 65536. change (2 ^ (16 - 1)) with 32768.
  destruct (_ <? _) eqn:E; lia. Qed.

Lemma s16_mod x : (s16 x - x) mod 65536 = 0.
Proof. unfold s16, wraps. change (2 ^ 16) with 65536. change (2 ^ (16 - 1)) with 32768.
  destruct (_ <? _) eqn:E; lia. Qed.

Lemma s32_range x : -2147483648 <= s32 x < 2147483648.
Proof. unfold s32, wraps. change (2 ^ 32) with 4294967296. change (2 ^ (32 - 1)) with 2147483648.
  destruct (_ <? _) eqn:E; lia. Qed.

Lemma s32_mod x : (s32 x - x) mod 4294967296 = 0.
Proof. unfold s32, wraps. change (2 ^ 32) with 4294967296. change (2 ^ (32 - 1)) with 2147483648.
  destruct (_ <? _) eqn:E; lia. Qed.

Lemma u32_mod x : (u32 x - x) mod 4294967296 = 0.
Proof. unfold u32, wrapu. change (2 ^ 32) with 4294967296. lia. Qed.

Lemma tsd_spec a b d : Z.abs d < 2147483648 -> (a - b - d) mod 4294967296 = 0 ->
  stream_timestamp_diff a b = d.
Proof.
  intros Hd Hm. unfold stream_timestamp_diff.
  pose proof (s32_range (u32 (a - b))). pose proof (s32_mod (u32 (a - b))). pose proof (u32_mod (a - b)). lia.
Qed.

Lemma tsd_mod a b : (a - b - stream_timestamp_diff a b) mod 4294967296 = 0.
Proof. unfold stream_timestamp_diff. pose proof (s32_mod (u32 (a - b))). pose proof (u32_mod (a - b)). lia. Qed.

Lemma snd_spec a b d : -32768 <= d < 32768 -> (a - b - d) mod 65536 = 0 -> seqnum_diff a b = d.
Proof.
  intros Hd Hm. unfold seqnum_diff. pose proof (s16_range (a - b)). pose proof (s16_mod (a - b)). lia.
Qed.

(** The sequence check decides admissibility against the newest packet. *)
Lemma vseq_spec c h q zq p ok :
  0 <= max_sn_jump c < 32768 -> rtp_wf q -> rtp_wf (fp_hdr p) -> newest h q zq -> zq mod 65536 = r_sn q ->
  fp_rtp p = true -> fp_audio p = true ->
  validate_sequence c q (fp_hdr p) = Ok ok ->
  if ok then admissible c h p (zq + seqnum_diff (r_sn (fp_hdr p)) (r_sn q)) /\
             Z.abs (seqnum_diff (r_sn (fp_hdr p)) (r_sn q)) < 32768
  else forall z, ~ admissible c h p z.
Proof.
  intros Hc Wq Wp Hn Hz Hr Ha. unfold validate_sequence.
  assert (Hne : h <> []) by (destruct Hn as (a & b & -> & _); destruct a; discriminate).
  assert (K : forall z, admissible c h p z ->
     r_src (fp_hdr p) = r_src q /\ r_pt (fp_hdr p) = r_pt q /\ z mod 65536 = r_sn (fp_hdr p) /\
     Z.abs (z - zq) <= max_sn_jump c /\
     (exists d, Z.abs d < 2147483648 /\ (r_ts (fp_hdr p) - r_ts q - d) mod 4294967296 = 0 /\
                to_ns c (Z.abs d) <= max_ts_jump c) /\
     0 <= r_cts (fp_hdr p) /\ (r_cts (fp_hdr p) = 0 -> r_cts q = 0)).
  { intros z (_ & _ & Hzm & [->|(q' & zq' & Hn' & H)]); [congruence|].
    destruct (newest_unique _ _ _ _ _ Hn Hn') as [<- <-]. tauto. }
  destruct (r_src q =? r_src (fp_hdr p)) eqn:E1; cbn [negb];
    [|intros [= <-] z Hz'; apply K in Hz'; lia].
  destruct (r_pt (fp_hdr p) =? r_pt q) eqn:E2; cbn [negb];
    [|intros [= <-] z Hz'; apply K in Hz'; lia].
  set (d := seqnum_diff (r_sn (fp_hdr p)) (r_sn q)) in *.
  assert (Hdr : -32768 <= d < 32768) by apply s16_range.
  assert (Hdm : (r_sn (fp_hdr p) - r_sn q - d) mod 65536 = 0).
  { unfold d, seqnum_diff. pose proof (s16_mod (r_sn (fp_hdr p) - r_sn q)). lia. }
  assert (Hu : u64 (if d <? 0 then s16 (- d) else d) = Z.abs d \/
               (d = -32768 /\ u64 (if d <? 0 then s16 (- d) else d) = 2^64 - 32768)).
  { unfold u64, wrapu. destruct (d <? 0) eqn:Ed.
    - destruct (d =? -32768) eqn:Ed2.
      + right. split; [lia|]. replace d with (-32768) by lia. reflexivity.
      + left. pose proof (s16_range (-d)). pose proof (s16_mod (-d)).
        replace (s16 (-d)) with (-d) by lia. rewrite Z.mod_small; lia.
    - left. rewrite Z.mod_small; lia. }
  set (u := u64 (if d <? 0 then s16 (- d) else d)) in *. clearbody u.
  assert (KD : forall z, admissible c h p z -> z = zq + d).
  { intros z Hz'. apply K in Hz'. lia. }
  destruct (max_sn_jump c <? u) eqn:E3.
  { intros [= <-] z Hz'. pose proof (KD _ Hz'). apply K in Hz'. lia. }
  set (e := stream_timestamp_diff (r_ts (fp_hdr p)) (r_ts q)) in *.
  assert (He : (r_ts (fp_hdr p) - r_ts q - e) mod 4294967296 = 0) by apply tsd_mod.
  assert (KE : forall z, admissible c h p z -> to_ns c (Z.abs e) <= max_ts_jump c).
  { intros z Hz'. apply K in Hz'. destruct Hz' as (_ & _ & _ & _ & (d' & H1 & H2 & H3) & _).
    unfold e. rewrite (tsd_spec _ _ d' H1 H2). exact H3. }
  assert (Her : -2147483648 <= e < 2147483648) by apply s32_range.
  destruct (e =? - 2 ^ 31) eqn:E4; [discriminate|].
  replace (if e <? 0 then - e else e) with (Z.abs e) by (destruct (e <? 0) eqn:?; lia).
  destruct (max_ts_jump c <? to_ns c (Z.abs e)) eqn:E5.
  { intros [= <-] z Hz'. apply KE in Hz'. lia. }
  destruct (r_cts (fp_hdr p) <? 0) eqn:E6.
  { intros [= <-] z Hz'. apply K in Hz'. lia. }
  destruct ((r_cts (fp_hdr p) =? 0) && negb (r_cts q =? 0)) eqn:E7.
  { intros [= <-] z Hz'. apply K in Hz'. lia. }
  intros [= <-]. split.
  - split; [assumption|]. split; [assumption|]. split; [unfold rtp_wf in *; lia|].
    right. exists q, zq. split; [assumption|].
    split; [lia|]. split; [lia|]. split; [lia|]. split; [|lia].
    exists e. split; [lia|]. split; [exact He|lia].
  - destruct Hu as [Hu|[Hu1 Hu2]]; lia.
Qed.

Lemma validate_spec c h st p ok st' :
  0 <= max_sn_jump c < 32768 -> rtp_wf (fp_hdr p) -> finv h st ->
  validate c st p = Ok (ok, st') ->
  if ok then exists z, admissible c h p z /\ finv (h ++ [(fp_hdr p, z)]) st'
  else st' = st /\ forall z, ~ admissible c h p z.
Proof.
  intros Hc Wp Hi. unfold validate.
  destruct (fp_rtp p) eqn:Er; cbn [negb];
    [|intros [= <- <-]; split; [reflexivity|]; intros z (H & _); congruence].
  destruct (fp_audio p) eqn:Ea; cbn [negb];
    [|intros [= <- <-]; split; [reflexivity|]; intros z (_ & H & _); congruence].
  destruct st as [q|].
  - destruct Hi as (Wq & zq & Hn & Hz).
    destruct (validate_sequence c q (fp_hdr p)) as [okk| |] eqn:Ev; cbn [bind]; try discriminate.
    pose proof (vseq_spec c h q zq p okk Hc Wq Wp Hn Hz Er Ea Ev) as Hs.
    destruct okk; cbn [negb].
    + destruct Hs as [Had Hd]. set (d := seqnum_diff (r_sn (fp_hdr p)) (r_sn q)) in *.
      assert (Hcmp : (rtp_compare (r_sn q) (r_sn (fp_hdr p)) <? 0) = (0 <? d)).
      { unfold rtp_compare, seqnum_lt.
        assert (Hdm : (r_sn (fp_hdr p) - r_sn q - d) mod 65536 = 0).
        { unfold d, seqnum_diff. pose proof (s16_mod (r_sn (fp_hdr p) - r_sn q)). lia. }
        rewrite (snd_spec (r_sn q) (r_sn (fp_hdr p)) (- d)) by lia.
        destruct (- d <? 0) eqn:E1; [lia|].
        destruct (r_sn q =? r_sn (fp_hdr p)); lia. }
      rewrite Hcmp.
      pose proof (newest_add h q zq (fp_hdr p) (zq + d) Hn) as Hn'.
      replace (zq <? zq + d) with (0 <? d) in Hn' by lia.
      intros E. destruct (0 <? d); injection E; intros; subst ok st'.
      * exists (zq + d). split; [exact Had|]. split; [exact Wp|]. exists (zq + d). split; [exact Hn'|].
        destruct Had as (_ & _ & H & _). exact H.
      * exists (zq + d). split; [exact Had|]. split; [exact Wq|]. exists zq. split; [exact Hn'|exact Hz].
    + intros [= <- <-]. auto.
  - cbn in Hi. subst h. cbn [bind negb]. intros [= <- <-].
    exists (r_sn (fp_hdr p)). split.
    + unfold rtp_wf in Wp. split; [assumption|]. split; [assumption|]. split; [lia|]. left; reflexivity.
    + split; [exact Wp|]. exists (r_sn (fp_hdr p)). unfold rtp_wf in Wp. split; [|lia].
      exists [], []. split; [reflexivity|]. split; intros ? [].
Qed.

Lemma filter_run_spec c : 0 <= max_sn_jump c < 32768 -> forall is h st st' os,
  Forall in_wf is -> finv h st -> filter_run c st is = Ok (st', os) -> filter_spec c h is os.
Proof.
  intros Hc. induction is as [|i is IH]; intros h st st' os W Hi; cbn [filter_run].
  - intros [= <- <-]. exact I.
  - rewrite Forall_cons_iff in W. destruct W as [Wi W].
    destruct i as [p|s]; cbn [filter_read].
    + destruct (validate c st p) as [[ok st1]| |] eqn:Ev; cbn [bind]; try discriminate.
      pose proof (validate_spec c h st p ok st1 Hc Wi Hi Ev) as Hs.
      destruct ok; cbn [bind fst snd].
      * destruct Hs as (z & Had & Hi').
        destruct (filter_run c st1 is) as [[st2 os2]| |] eqn:Er; cbn [bind fst snd]; try discriminate.
        intros [= <- <-]. cbn [filter_spec]. left. exists z. split; [exact Had|].
        split; [|eapply IH; eauto].
        exists (populate c p). split; [reflexivity|]. unfold populate.
        destruct (r_dur (fp_hdr p) =? 0); cbn; repeat split; reflexivity.
      * destruct Hs as [-> Hna].
        destruct (filter_run c st is) as [[st2 os2]| |] eqn:Er; cbn [bind fst snd]; try discriminate.
        intros [= <- <-]. cbn [filter_spec]. right. split; [exact Hna|]. split; [reflexivity|]. eapply IH; eauto.
    + cbn [bind fst snd].
      destruct (filter_run c st is) as [[st2 os2]| |] eqn:Er; cbn [bind fst snd]; try discriminate.
      intros [= <- <-]. cbn [filter_spec]. split; [reflexivity|]. eapply IH; eauto.
Qed.

(** No overflow when no two packets are exactly half the timestamp range apart. *)
Definition in_ts (i : rd_in) (t : Z) : Prop := match i with InPkt p => t = r_ts (fp_hdr p) | InStatus _ => False end.

Lemma filter_run_ok c : forall is st,
  (forall i j s t, In i is -> In j is -> in_ts i s -> in_ts j t -> (s - t) mod 4294967296 <> 2147483648) ->
  (forall q, st = Some q -> forall i t, In i is -> in_ts i t -> (t - r_ts q) mod 4294967296 <> 2147483648) ->
  exists x, filter_run c st is = Ok x.
Proof.
  induction is as [|i is IH]; intros st H1 H2; cbn [filter_run]; [eauto|].
  assert (Hr : exists st' o, filter_read c st i = Ok (st', o) /\
             (st' = st \/ exists p, i = InPkt p /\ st' = Some (fp_hdr p))).
  { destruct i as [p|s]; cbn [filter_read]; [|eauto 6].
    unfold validate. destruct (negb (fp_rtp p)); [cbn; eauto 6|].
    destruct (negb (fp_audio p)); [cbn; eauto 6|].
    destruct st as [q|].
    - assert (Hv : exists b, validate_sequence c q (fp_hdr p) = Ok b).
      { unfold validate_sequence.
        destruct (negb _); [eauto|]. destruct (negb _); [eauto|]. destruct (_ <? u64 _); [eauto|].
        pose proof (H2 q eq_refl (InPkt p) _ (or_introl eq_refl) eq_refl) as Hn.
        pose proof (tsd_mod (r_ts (fp_hdr p)) (r_ts q)).
        destruct (_ =? - 2 ^ 31) eqn:E4; [exfalso; apply Hn; lia|].
        destruct (_ <? to_ns _ _); [eauto|]. destruct (_ <? 0); [eauto|]. destruct (_ && _); eauto. }
      destruct Hv as [b ->]. cbn [bind]. destruct b; cbn [negb].
      + destruct (_ <? 0); cbn; eauto 8.
      + cbn. eauto 6.
    - cbn. eauto 8. }
  destruct Hr as (st' & o & -> & Hst). cbn [bind fst snd].
  assert (Hx : exists x, filter_run c st' is = Ok x); [apply IH|destruct Hx as [x ->]; cbn [bind]; eauto].
  - intros i1 j1 s1 t1 A1 A2. apply H1; cbn; auto.
  - intros q Eq j t Hj Ht. destruct Hst as [->|(p & -> & ->)].
    + eapply H2; cbn; eauto.
    + injection Eq as <-. apply (H1 j (InPkt p)); cbn; auto.
Qed.

(** Consequences for the packets handed over. *)
Lemma spec_coherent c : forall is h os, filter_spec c h is os ->
  forall q, (exists zq t, h = (q, zq) :: t) ->
  (forall x, In x h -> r_src (fst x) = r_src q /\ r_pt (fst x) = r_pt q) ->
  Forall (fun p => fp_rtp p = true /\ fp_audio p = true /\ r_src (fp_hdr p) = r_src q /\ r_pt (fp_hdr p) = r_pt q) (out_pkts os).
Proof.
  induction is as [|i is IH]; intros h os H q Hq Hh; destruct os as [|o os]; cbn in H; try tauto.
  - constructor.
  - destruct i; contradiction H.
  - destruct i as [p|s].
    + destruct H as [(z & Had & (p' & -> & F1 & F2 & F3 & F4 & F5 & F6 & F7 & _) & H)|(_ & -> & H)].
      * assert (E : r_src (fp_hdr p) = r_src q /\ r_pt (fp_hdr p) = r_pt q).
        { destruct Had as (_ & _ & _ & [->|(q' & zq' & Hn & E1 & E2 & _)]).
          - destruct Hq as (? & ? & ?); discriminate.
          - apply newest_In in Hn. apply Hh in Hn. cbn in Hn. intuition congruence. }
        cbn [out_pkts]. constructor.
        -- destruct Had as (A1 & A2 & _). intuition congruence.
        -- apply (IH _ _ H).
           ++ destruct Hq as (zq & t & ->). exists zq. eexists. reflexivity.
           ++ intros x Hx. apply in_app_or in Hx. destruct Hx as [Hx|[<-|[]]]; [auto|exact E].
      * cbn. eapply IH; eauto.
    + destruct H as [-> H]. cbn. eapply IH; eauto.
Qed.

Lemma spec_coherent0 c : forall is os, filter_spec c [] is os ->
  match out_pkts os with
  | [] => True
  | q :: _ => Forall (fun p => fp_rtp p = true /\ fp_audio p = true /\
                       r_src (fp_hdr p) = r_src (fp_hdr q) /\ r_pt (fp_hdr p) = r_pt (fp_hdr q)) (out_pkts os)
  end.
Proof.
  induction is as [|i is IH]; intros os H; destruct os as [|o os]; cbn in H; try tauto.
  - destruct i; contradiction H.
  - destruct i as [p|s].
    + destruct H as [(z & Had & (p' & -> & F1 & F2 & F3 & F4 & F5 & F6 & F7 & _) & H)|(_ & -> & H)].
      * cbn [out_pkts]. destruct Had as (A1 & A2 & _).
        constructor; [intuition congruence|].
        eapply Forall_impl; [|eapply (spec_coherent _ _ _ _ H (fp_hdr p))].
        -- cbn. intros x (?&?&?&?). rewrite F3, F7. auto.
        -- exists z, []. reflexivity.
        -- intros x [<-|[]]. auto.
      * cbn. eapply IH; eauto.
    + destruct H as [-> H]. cbn. eapply IH; eauto.
Qed.

(** ** Link meter *)
Lemma u32_id x : 0 <= x < 4294967296 -> u32 x = x.
Proof. intros. unfold u32, wrapu. change (2^32) with 4294967296. lia. Qed.

Definition lm_inv (m : lm) (M : Z) : Prop :=
  lm_first_pkt m = false /\ 0 <= M /\ lm_lo m = M mod 65536 /\
  lm_hi m = u32 (65535 * (M / 65536)) /\
  lm_ext_first m = lm_first m /\ lm_ext_last m = u32 (lm_hi m + lm_lo m).

Lemma lm_step m M z : lm_inv m M -> Z.abs (z - M) < 32768 -> lm_inv (lm_update m (z mod 65536)) (Z.max M z).
Proof.
  intros (F & P & L & H & E1 & E2) Hz. unfold lm_update. rewrite F. cbn [orb].
  rewrite (snd_spec (z mod 65536) (lm_lo m) (z - M)) by lia.
  unfold lm_inv. cbn [lm_first_pkt lm_lo lm_hi lm_first lm_ext_first lm_ext_last].
  split; [reflexivity|]. split; [lia|].
  destruct (0 <? z - M) eqn:Eu.
  - replace (Z.max M z) with z by lia. split; [reflexivity|]. split; [|split; reflexivity].
    rewrite L, H. destruct (z mod 65536 <? M mod 65536) eqn:Ew.
    + replace (z / 65536) with (M / 65536 + 1) by lia.
      unfold u32, wrapu. rewrite Zplus_mod_idemp_l. f_equal. lia.
    + replace (z / 65536) with (M / 65536) by lia. reflexivity.
  - replace (Z.max M z) with M by lia. auto.
Qed.

Lemma lm_run_gen : forall zs m M, lm_inv m M -> near M zs ->
  lm_inv (fold_left lm_update (map (fun z => z mod 65536) zs) m) (maxl M zs).
Proof.
  induction zs as [|z zs IH]; intros m M Hi Hn; cbn in *; [exact Hi|].
  destruct Hn as [H1 H2]. apply (IH _ (Z.max M z)); [apply lm_step; auto|exact H2].
Qed.

Lemma lm_init_step z : 0 <= z < 65536 -> lm_inv (lm_update lm_init z) z.
Proof.
  intros. unfold lm_update, lm_init; cbn [lm_first_pkt orb lm_hi lm_lo lm_first]. unfold lm_inv. cbn.
  replace (z <? 0) with false by lia. replace (z / 65536) with 0 by lia.
  rewrite Z.mod_small by lia. repeat split; try lia; reflexivity.
Qed.

Lemma lm_last z zs : 0 <= z < 65536 -> near z zs ->
  let M := maxl z zs in
  lm_ext_last (lm_run (map (fun z => z mod 65536) (z :: zs))) = (M - M / 65536) mod 4294967296.
Proof.
  intros Hz Hn M. unfold lm_run. cbn [map fold_left]. rewrite (Z.mod_small z) by lia.
  destruct (lm_run_gen zs _ z (lm_init_step z Hz) Hn) as (_ & P & L & H & _ & E).
  fold M in P, L, H, E. rewrite E, H, L. unfold u32, wrapu. change (2^32) with 4294967296.
  rewrite Zplus_mod_idemp_l. f_equal. lia.
Qed.

Lemma maxl_ge : forall zs M, M <= maxl M zs.
Proof. induction zs as [|z zs IH]; intros M; cbn; [lia|]. specialize (IH (Z.max M z)). unfold maxl in IH. lia. Qed.
Lemma minl_le : forall zs M, minl M zs <= M.
Proof. induction zs as [|z zs IH]; intros M; cbn; [lia|]. specialize (IH (Z.min M z)). unfold minl in IH. lia. Qed.

Lemma lm_first_gen : forall zs m M mn, lm_inv m M -> lm_first m = mn mod 65536 -> mn <= M ->
  maxl M zs < 65536 -> maxl M zs - minl mn zs < 32768 ->
  lm_first (fold_left lm_update (map (fun z => z mod 65536) zs) m) = (minl mn zs) mod 65536.
Proof.
  induction zs as [|z zs IH]; intros m M mn Hi Hf Hle HM Hs; cbn [map fold_left maxl minl] in *; [exact Hf|].
  change (fold_left Z.max zs (Z.max M z)) with (maxl (Z.max M z) zs) in *.
  change (fold_left Z.min zs (Z.min mn z)) with (minl (Z.min mn z) zs) in *.
  pose proof (maxl_ge zs (Z.max M z)). pose proof (minl_le zs (Z.min mn z)).
  apply (IH _ (Z.max M z)); auto.
  - apply lm_step; auto; lia.
  - destruct Hi as (F & P & L & H2 & E1 & E2). unfold lm_update. cbn [lm_first]. rewrite F, Hf. cbn [orb].
    rewrite (snd_spec (z mod 65536) (mn mod 65536) (z - mn)) by lia.
    replace (lm_hi m =? 0) with true.
    2:{ rewrite H2. replace (M / 65536) with 0 by lia. reflexivity. }
    rewrite andb_true_r. destruct (z - mn <? 0) eqn:E; [replace (Z.min mn z) with z by lia|replace (Z.min mn z) with mn by lia]; reflexivity.
  - lia.
Qed.

Lemma lm_first_ok z zs : 0 <= z < 65536 ->
  maxl z zs < 65536 -> maxl z zs - minl z zs < 32768 ->
  lm_ext_first (lm_run (map (fun z => z mod 65536) (z :: zs))) = (minl z zs) mod 65536.
Proof.
  intros Hz HM Hs. unfold lm_run. cbn [map fold_left]. rewrite (Z.mod_small z) by lia.
  pose proof (lm_init_step z Hz) as Hi.
  assert (Hn : forall l M mn, mn <= M -> maxl M l - minl mn l < 32768 -> near M l).
  { clear. induction l as [|x l IH]; intros M mn Hle Hs; cbn in *; [exact I|].
    pose proof (maxl_ge l (Z.max M x)). pose proof (minl_le l (Z.min mn x)). unfold maxl, minl in *.
    split; [lia|]. apply (IH _ (Z.min mn x)); [lia|]. exact Hs. }
  destruct (lm_run_gen zs _ z Hi (Hn zs z z (Z.le_refl _) Hs)) as (_ & _ & _ & _ & -> & _).
  apply (lm_first_gen zs _ z z); auto; try lia.
  cbn. rewrite Z.mod_small by lia. reflexivity.
Qed.

(** ** Sequencer *)
Lemma seqr_spec : forall cs s, 0 <= sq_sn s < 65536 -> 0 <= sq_ts s < 4294967296 ->
  forall i r, nth_error (seqr_run s cs) i = Some r ->
  exists ssrc cts dur len, nth_error cs i = Some (ssrc, cts, dur, len) /\
    r = mkRtp ssrc ((sq_sn s + Z.of_nat i) mod 65536)
              ((sq_ts s + fold_right Z.add 0 (map (fun c => snd (fst c)) (firstn i cs))) mod 4294967296)
              dur cts (sq_pt s) len.
Proof.
  induction cs as [|[[[ssrc cts] dur] len] cs IH]; intros s H1 H2 i r; cbn [seqr_run seqr_next].
  - destruct i; discriminate.
  - destruct i as [|i]; cbn [nth_error].
    + intros [= <-]. exists ssrc, cts, dur, len. split; [reflexivity|].
      cbn [firstn map fold_right Z.of_nat]. rewrite !Z.add_0_r, !Z.mod_small by lia. reflexivity.
    + intros H. apply IH in H; [| |].
      2:{ cbn. unfold u16, wrapu. change (2^16) with 65536. lia. }
      2:{ cbn. unfold u32, wrapu. change (2^32) with 4294967296. lia. }
      destruct H as (a & b & c & d & E & ->). exists a, b, c, d. split; [exact E|].
      cbn [sq_sn sq_ts sq_pt firstn map fold_right fst snd]. unfold u16, u32, wrapu.
      change (2^16) with 65536. change (2^32) with 4294967296.
      rewrite !Zplus_mod_idemp_l. do 2 f_equal; lia || (f_equal; lia).
Qed.

Lemma seqr_len : forall cs s, length (seqr_run s cs) = length cs.
Proof. induction cs as [|[[[? ?] ?] ?] cs IH]; intros; cbn; auto. Qed.
