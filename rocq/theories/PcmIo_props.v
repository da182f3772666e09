(** C64: the stages of a pipeline that change the sample format. *)
From Coq Require Import Reals Lra.
From Verif Require Import Base Base_lemmas Pcm_model Pcm_spec Pcm_proof PcmCodec_proof Pcm_props TimeConv_model TimeConv_spec TimeConv_props.
From Verif Require Import ChanIo_model ChanIo_spec ChanIo_proof PcmIo_model PcmIo_spec PcmIo_proof.
Open Scope Z_scope.
Open Scope res_scope.

(** Formats of whole bytes, [ch] channels: what the constructors require. *)
Definition bytewise (cv : conv) (ch : nat) : Prop :=
  c_pw (cv_ic cv) mod 8 = 0 /\ c_pw (cv_oc cv) mod 8 = 0 /\ cv_ch cv = Z.of_nat ch /\ (0 < ch)%nat.

Lemma po_div c : c_pw c mod 8 = 0 -> Z.to_nat (c_pw c / 8) = c_po c.
Proof. intros A. unfold c_po. pose proof (pw_pos c). lia. Qed.
Lemma stored_image c e vs : c_pw c mod 8 = 0 -> stored c e vs = flat_map (image c e) vs.
Proof. intros A. unfold stored, image. now rewrite (po_div c A). Qed.
Lemma cpack_inv ci co eo vs : forall out off r, cpack ci co eo vs out off = Ok r -> exists zs, Forall2 (fun v z => convert ci co v = Ok z) vs zs.
Proof.
  induction vs as [|v vs IH]; intros out off r H; [exists []; constructor|]. cbn [cpack] in H.
  destruct (convert ci co v) as [z| |] eqn:E; cbn [bind] in H; try discriminate H.
  destruct (pack co eo out off z) as [p| |]; cbn [bind] in H; try discriminate H. destruct (IH _ _ _ H) as (zs & F). exists (z :: zs). now constructor.
Qed.
Lemma one_map_inv cv ch vs bytes : bytewise cv ch -> one_map cv vs bytes ->
  exists zs, Forall2 (goes cv) vs zs /\ bytes = flat_map (image (cv_oc cv) (cv_oe cv)) zs.
Proof.
  intros (AI & AO & _ & _) (L & a & b & H). rewrite stored_image in H by auto. rewrite (po_div _ AO) in L.
  assert (G : exists zs, Forall2 (goes cv) vs zs).
  { unfold mapper_map in H. rewrite flat_image_length in H. rewrite repeat_length, L in H.
    destruct (Z.ltb_spec (Z.of_nat (length vs * c_po (cv_ic cv)) * 8) 0); [lia|]. destruct (Z.ltb_spec (Z.of_nat (length vs * c_po (cv_oc cv)) * 8) 0); [lia|].
    assert (Q : forall c, c_pw c mod 8 = 0 -> (Z.of_nat (length vs * c_po c) * 8 - 0) / c_pw c = Z.of_nat (length vs)).
    { intros c Ha. rewrite <- (po_al c Ha). assert (0 < c_po c)%nat by (pose proof (pw_pos c); pose proof (po_al c Ha); lia).
      replace (Z.of_nat (length vs * c_po c) * 8 - 0) with (Z.of_nat (length vs) * (8 * Z.of_nat (c_po c))) by lia. apply Z.div_mul. lia. }
    rewrite !Q in H by assumption. rewrite !Z.min_id, Nat2Z.id in H.
    pose proof (map_loop_al (cv_ic cv) (cv_ie cv) (cv_oc cv) (cv_oe cv) (flat_map (image (cv_ic cv) (cv_ie cv)) vs) vs AI 0 (repeat 0 (length vs * c_po (cv_oc cv))) 0) as ML.
    change (8 * Z.of_nat 0) with 0 in ML. rewrite ML in H; clear ML.
    2:{ cbn [skipn]. apply firstn_all2. rewrite flat_image_length. lia. }
    destruct (cpack (cv_ic cv) (cv_oc cv) (cv_oe cv) (map (canon (cv_ic cv)) vs) (repeat 0 (length vs * c_po (cv_oc cv))) 0) as [r| |] eqn:E; cbn [bind] in H; try discriminate H.
    apply cpack_inv in E. destruct E as (zs & E). exists zs. clear - E. revert zs E. induction vs as [|v vs IH]; intros zs E; inversion E; subst; constructor; auto. }
  destruct G as (zs & G). exists zs. split; auto.
  pose proof (map_at cv AI AO vs zs 0 0 (flat_map (image (cv_ic cv) (cv_ie cv)) vs) (repeat 0 (length bytes)) G) as M.
  rewrite flat_image_length, repeat_length in M. cbn [skipn] in M. change (8 * Z.of_nat 0) with 0 in M.
  specialize (M ltac:(apply firstn_all2; rewrite flat_image_length; lia) ltac:(lia) ltac:(lia)). rewrite M in H.
  rewrite firstn_O, skipn_all2, app_nil_r in H by (rewrite repeat_length; lia). cbn [app] in H. congruence.
Qed.
Lemma one_map_split cv ch vs1 vs2 bytes : bytewise cv ch -> one_map cv (vs1 ++ vs2) bytes ->
  exists b1 b2, one_map cv vs1 b1 /\ one_map cv vs2 b2 /\ bytes = b1 ++ b2.
Proof.
  intros W H. destruct (one_map_inv cv ch _ _ W H) as (zs & G & ->). destruct W as (AI & AO & _ & _).
  apply Forall2_app_inv_l in G. destruct G as (z1 & z2 & G1 & G2 & ->).
  assert (K : forall vs zs, Forall2 (goes cv) vs zs -> one_map cv vs (flat_map (image (cv_oc cv) (cv_oe cv)) zs)).
  { intros vs zs G. split; [rewrite flat_image_length, (po_div _ AO), (goes_len _ _ _ G); reflexivity|]. rewrite stored_image by auto.
    pose proof (map_at cv AI AO vs zs 0 0 (flat_map (image (cv_ic cv) (cv_ie cv)) vs) (repeat 0 (length (flat_map (image (cv_oc cv) (cv_oe cv)) zs))) G) as M.
    rewrite repeat_length, !flat_image_length in M. cbn [skipn] in M. change (8 * Z.of_nat 0) with 0 in M. pose proof (goes_len _ _ _ G) as LG.
    specialize (M ltac:(apply firstn_all2; rewrite flat_image_length; lia) ltac:(lia) ltac:(rewrite LG; lia)).
    rewrite flat_image_length. rewrite M. rewrite firstn_O, skipn_all2, app_nil_r by (rewrite repeat_length, LG; lia). cbn [app]. eauto. }
  exists (flat_map (image (cv_oc cv) (cv_oe cv)) z1), (flat_map (image (cv_oc cv) (cv_oe cv)) z2). rewrite flat_map_app. auto.
Qed.

Lemma count_moments c ch n l : c_pw c mod 8 = 0 -> (0 < ch)%nat -> (n * moment c ch <= l < (n + 1) * moment c ch)%nat ->
  sample_count c (Z.of_nat l) / Z.of_nat ch = Z.of_nat n.
Proof.
  intros A C [L1 L2]. rewrite sample_al by auto. unfold moment in *. rewrite (po_div c A) in *. pose proof (po_pos c A).
  rewrite Z.div_div by lia. symmetry. apply Z.div_unique with (Z.of_nat l - Z.of_nat n * (Z.of_nat (c_po c) * Z.of_nat ch)); nia.
Qed.
Lemma set_raw_flags raw rs : flags_for raw (set_raw raw (lors 0 rs)) rs.
Proof.
  intros i I. unfold set_raw. pose proof (lors_union rs i I) as U. destruct raw; cbn [negb].
  - destruct (Z.eqb_spec i 0) as [->|N]; [rewrite Z.clearbit_eq; reflexivity|]. rewrite Z.clearbit_neq by lia. exact U.
  - destruct (Z.eqb_spec i 0) as [->|N]; [rewrite Z.setbit_eq by lia; reflexivity|]. rewrite Z.setbit_neq by lia. exact U.
Qed.

(** C64: whatever the size of the internal buffer, reading a frame gives what one call of
    the mapper makes of the samples that the source gives next, for every whole moment that
    fits into the frame, and leaves the bytes after that as they were; the frame has the
    flags that one of the source's frames has, except that "not raw" tells its own format,
    the capture time of the first of them and the duration of its own samples; and the
    source has given no more than that. *)
Theorem C64_read : forall cv ch raw b m fuel n out vs bytes more rs rest, bytewise cv ch ->
  (m * moment (cv_ic cv) ch <= b < (m + 1) * moment (cv_ic cv) ch)%nat ->
  (n * moment (cv_oc cv) ch <= length out < (n + 1) * moment (cv_oc cv) ch)%nat -> 0 < Z.of_nat n < 2 ^ 32 ->
  length vs = (n * ch)%nat -> one_map cv vs bytes -> parts n m (length rs) -> Forall fine rs -> (length rs < fuel)%nat ->
  exists fl t, flags_for raw fl rs /\ option_map snd (hd_error rs) = Some t /\
    pcm_read fuel cv raw (Z.of_nat b) out (mkBSrc (stored (cv_ic cv) (cv_ie cv) vs ++ more) (map Some rs ++ rest)) =
      Ok (Some (Some (mkB (bytes ++ skipn (length bytes) out) fl (Z.of_nat n) t), mkBSrc more rest)).
Proof.
  intros cv ch raw b m fuel n out vs bytes more rs rest W HB HO N LV OM P R L.
  destruct (one_map_inv cv ch _ _ W OM) as (zs & G & ->). destruct W as (AI & AO & CH & CP).
  destruct rs as [|[fl0 t0] rs]; [unfold parts in P; cbn [length] in P; lia|].
  exists (set_raw raw (lors 0 ((fl0, t0) :: rs))), t0. split; [apply set_raw_flags|]. split; [reflexivity|].
  unfold pcm_read. rewrite CH, (count_moments (cv_ic cv) ch m b), (count_moments (cv_oc cv) ch n) by auto.
  rewrite stored_image by auto. unfold moment in HO. rewrite (po_div _ AO) in HO.
  pose proof (pread_loop_ok cv AI AO ch CH CP ((fl0, t0) :: rs) fuel m n 0 vs zs out more rest 0 0 G) as X.
  rewrite Nat.sub_0_r in X. specialize (X LV ltac:(lia) ltac:(lia) P R L). cbn [Nat.mul Z.of_nat firstn app] in X.
  change (8 * 0) with 0 in X. rewrite X. cbn [bind Nat.eqb]. rewrite set_dur_ok by lia. cbn [bind].
  rewrite flat_image_length, <- (goes_len _ _ _ G), LV. replace (n * ch * c_po (cv_oc cv))%nat with (n * (ch * c_po (cv_oc cv)))%nat by lia. reflexivity.
Qed.
Print Assumptions C64_read.

(** C64: filling frames of any sizes one after the other gives one uninterrupted stream. A
    job is a frame to be filled, the number of moments that fit, and what the source says. *)
Definition pjob_ok (cv : conv) (ch m fuel : nat) (j : list Z * nat * list (Z * Z)) : Prop :=
  let '(out, n, rs) := j in
  length out = (n * moment (cv_oc cv) ch)%nat /\ 0 < Z.of_nat n < 2 ^ 32 /\ parts n m (length rs) /\ Forall fine rs /\ (length rs < fuel)%nat.
Theorem C64_stream : forall cv ch raw b m fuel js vs bytes more rest, bytewise cv ch ->
  (m * moment (cv_ic cv) ch <= b < (m + 1) * moment (cv_ic cv) ch)%nat -> Forall (pjob_ok cv ch m fuel) js ->
  length vs = (list_sum (map (fun j => snd (fst j)) js) * ch)%nat -> one_map cv vs bytes ->
  exists outs, 
    pcm_reads fuel cv raw (Z.of_nat b) (map (fun j => fst (fst j)) js)
      (mkBSrc (stored (cv_ic cv) (cv_ie cv) vs ++ more) (map Some (concat (map snd js)) ++ rest)) = Ok (Some (outs, mkBSrc more rest)) /\
    concat (map bf_bytes outs) = bytes.
Proof.
  intros cv ch raw b m fuel js vs bytes more rest W HB J. revert vs bytes. pose proof W as (AI & AO & CH & CP).
  induction J as [|[[out n] rs] js (LO & N & P & R & L) J IH]; intros vs bytes LV OM.
  - cbn [map list_sum fold_right Nat.mul] in LV. destruct vs; [|cbn [length] in LV; lia]. exists []. split; [reflexivity|].
    destruct OM as [LB _]. cbn [length Nat.mul] in LB. destruct bytes; [reflexivity|cbn [length] in LB; lia].
  - cbn [map list_sum fold_right fst snd] in LV. fold (list_sum (map (fun j : list Z * nat * list (Z * Z) => snd (fst j)) js)) in LV.
    rewrite <- (firstn_skipn (n * ch) vs) in OM. destruct (one_map_split cv ch _ _ _ W OM) as (b1 & b2 & O1 & O2 & ->).
    assert (L1 : length (firstn (n * ch) vs) = (n * ch)%nat) by (rewrite firstn_length; lia).
    destruct (IH (skipn (n * ch) vs) b2) as (outs & E & C); [rewrite skipn_length; lia|exact O2|].
    assert (MP : (0 < moment (cv_oc cv) ch)%nat). { unfold moment. rewrite (po_div _ AO). pose proof (po_pos _ AO). nia. }
    destruct (C64_read cv ch raw b m fuel n out (firstn (n * ch) vs) b1 (stored (cv_ic cv) (cv_ie cv) (skipn (n * ch) vs) ++ more) rs
      (map Some (concat (map snd js)) ++ rest) W HB) as (fl & t & _ & _ & E1); auto; [lia|].
    assert (LB : length b1 = length out). { destruct O1 as [O1 _]. rewrite O1, L1, LO. unfold moment. lia. }
    rewrite LB, skipn_all, app_nil_r in E1.
    exists (mkB b1 fl (Z.of_nat n) t :: outs). cbn [map concat fst snd pcm_reads bf_bytes]. split; [|now rewrite C].
    rewrite map_app, <- !app_assoc. rewrite app_assoc in E1. unfold stored in E1 at 1 2. rewrite <- flat_map_app, firstn_skipn in E1.
    fold (stored (cv_ic cv) (cv_ie cv) vs) in E1. rewrite E1. cbn [bind]. rewrite E. reflexivity.
Qed.
Print Assumptions C64_stream.

(** C64: when the source fails in the middle of a frame the read fails, and the samples that
    were taken from the source before that are gone. *)
Theorem C64_failed : forall cv ch raw b m fuel n out vs bytes more rs rest, bytewise cv ch -> (0 < m)%nat ->
  (m * moment (cv_ic cv) ch <= b < (m + 1) * moment (cv_ic cv) ch)%nat ->
  (n * moment (cv_oc cv) ch <= length out < (n + 1) * moment (cv_oc cv) ch)%nat ->
  length vs = (length rs * m * ch)%nat -> one_map cv vs bytes -> (length rs * m < n)%nat -> Forall fine rs -> (length rs < fuel)%nat ->
  pcm_read fuel cv raw (Z.of_nat b) out (mkBSrc (stored (cv_ic cv) (cv_ie cv) vs ++ more) (map Some rs ++ None :: rest)) =
    Ok (Some (None, mkBSrc more rest)).
Proof.
  intros cv ch raw b m fuel n out vs bytes more rs rest W MP HB HO LV OM LN R L.
  destruct (one_map_inv cv ch _ _ W OM) as (zs & G & ->). destruct W as (AI & AO & CH & CP).
  unfold pcm_read. rewrite CH, (count_moments (cv_ic cv) ch m b), (count_moments (cv_oc cv) ch n) by auto.
  rewrite stored_image by auto. unfold moment in HO. rewrite (po_div _ AO) in HO.
  pose proof (pread_loop_fails cv AI AO ch CH CP rs fuel m n 0 vs zs out more rest 0 0 G LV MP ltac:(lia) ltac:(lia) R L) as X.
  cbn [Nat.mul Z.of_nat] in X. change (8 * 0) with 0 in X. rewrite X. reflexivity.
Qed.
Print Assumptions C64_failed.

(** C64: writing a frame hands on what one call of the mapper makes of its whole moments, cut
    into as few frames as the internal buffer allows; flags and capture times are those of
    the frame, as for C63, but the flag "not raw" tells the new format. *)
Theorem C64_write : forall cv ch raw sp m fuel n vs bytes junk fl d ts buf p, bytewise cv ch -> usual sp -> (0 < m)%nat ->
  (m * moment (cv_oc cv) ch <= length buf < (m + 1) * moment (cv_oc cv) ch)%nat -> 
  length vs = (n * ch)%nat -> (length junk < moment (cv_ic cv) ch)%nat -> one_map cv vs bytes -> Z.of_nat n < 2 ^ 32 -> 0 <= ts ->
  parts n m p -> (p < fuel)%nat -> (IZR ts + 2 * exact_ns (Z.of_nat n) (s_rate sp) + INR p < IZR (2 ^ 62))%R ->
  exists outs, pcm_write fuel cv raw sp buf (mkB (stored (cv_ic cv) (cv_ie cv) vs ++ junk) fl d ts) = Ok (Some outs) /\
    concat (map bf_bytes outs) = bytes /\ length outs = p /\
    forall k g, nth_error outs k = Some g ->
      flags_for raw (bf_flags g) [(fl, ts)] /\
      bf_dur g = Z.of_nat (Nat.min m (n - k * m)) /\ Z.of_nat (length (bf_bytes g)) = bf_dur g * Z.of_nat (moment (cv_oc cv) ch) /\
      (ts = 0 -> bf_ts g = 0) /\
      (0 < ts -> let x := exact_ns (Z.of_nat (k * m)) (s_rate sp) in
         (Rabs (IZR (bf_ts g) - (IZR ts + x)) <= x / 4194304 + INR k / 2)%R).
Proof.
  intros cv ch raw sp m fuel n vs bytes junk fl d ts buf p W U MP HB LV LJ OM N T P L B.
  destruct (one_map_inv cv ch _ _ W OM) as (zs & G & ->). destruct W as (AI & AO & CH & CP).
  assert (LS : length (stored (cv_ic cv) (cv_ie cv) vs) = (n * moment (cv_ic cv) ch)%nat).
  { rewrite stored_image by auto. unfold moment. rewrite (po_div _ AI), flat_image_length, LV. lia. }
  unfold pcm_write. cbn [bf_bytes bf_flags bf_ts]. rewrite CH, (count_moments (cv_oc cv) ch m) by auto.
  rewrite (count_moments (cv_ic cv) ch n) by (auto; rewrite app_length, LS; lia).
  unfold moment in *. rewrite (po_div _ AO), (po_div _ AI) in *. rewrite stored_image in * by auto.
  pose proof (pwrite_loop_ok cv AI AO ch CH CP sp m (set_raw raw fl) (flat_map (image (cv_ic cv) (cv_ie cv)) vs ++ junk) U MP p fuel 0 n vs zs buf ts G LV) as X.
  cbn [Nat.mul Nat.add Z.of_nat skipn] in X. change (8 * 0) with 0 in X.
  destruct X as (outs & E & C & LO & O); auto; try lia.
  { rewrite <- LS. rewrite firstn_app, firstn_all, Nat.sub_diag, firstn_O, app_nil_r. reflexivity. }
  { rewrite app_length, LS. lia. }
  exists outs. split; [exact E|split; [exact C|split; [exact LO|]]]. intros k g H. destruct (O k g H) as (O1 & O2 & O3 & O4 & O5).
  split; [|split; [exact O2|split; [exact O3|split; [exact O4|exact O5]]]].
  rewrite O1. pose proof (set_raw_flags raw [(fl, ts)]) as F. cbn [lors fold_left fst] in F. rewrite Z.lor_0_l in F. exact F.
Qed.
Print Assumptions C64_write.

(** C64: for integer formats, what one call makes of the samples: every level
    becomes the corresponding one of the new format (see C42). *)
Theorem C64_levels : forall cv ch ks, bytewise cv ch -> c_int (cv_ic cv) = true -> c_int (cv_oc cv) = true ->
  Forall (fun k => - 2 ^ (c_w (cv_ic cv) - 1) <= k < 2 ^ (c_w (cv_ic cv) - 1)) ks ->
  exists vs, length vs = length ks /\ stored (cv_ic cv) (cv_ie cv) vs = payload_of (cv_ic cv) (cv_ie cv) ks /\
    one_map cv vs (payload_of (cv_oc cv) (cv_oe cv)
      (map (new_level (negb (c_sig (cv_ic cv))) (negb (c_sig (cv_oc cv))) (c_w (cv_ic cv)) (c_w (cv_oc cv))) ks)).
Proof.
  intros cv ch ks (AI & AO & _ & _) HI HO R. exists (map (sval (cv_ic cv)) ks). split; [apply map_length|].
  assert (S : stored (cv_ic cv) (cv_ie cv) (map (sval (cv_ic cv)) ks) = payload_of (cv_ic cv) (cv_ie cv) ks).
  { rewrite stored_image by auto. unfold payload_of. rewrite (po_div _ AI).
    clear - R. induction R as [|k ks Hk _ IH]; [reflexivity|]. cbn [flat_map map]. rewrite IH. f_equal. apply cell_image; [exact Hk|]. apply sval_field. exact Hk. }
  split; [exact S|]. set (zs := payload_of (cv_oc cv) (cv_oe cv) _).
  assert (LZ : length zs = (length ks * c_po (cv_oc cv))%nat) by (unfold zs; rewrite cells_length by auto; now rewrite map_length).
  split; [rewrite map_length, (po_div _ AO); exact LZ|]. rewrite S, map_length.
  pose proof (C42_map (cv_ic cv) (cv_ie cv) (cv_oc cv) (cv_oe cv) ks (repeat 0 (length zs)) HI HO AI AO R) as M.
  rewrite repeat_length, LZ in M. rewrite byte_al in M by (auto; lia). specialize (M ltac:(lia)). rewrite <- LZ in M. unfold mapped in M. fold zs in M.
  pose proof (C42_safe (cv_ic cv) (cv_ie cv) (cv_oc cv) (cv_oe cv) (payload_of (cv_ic cv) (cv_ie cv) ks) 0 (repeat 0 (length zs)) 0 (Z.of_nat (length ks)) (or_introl HI)) as SF.
  rewrite repeat_length, cells_length in SF by auto. specialize (SF ltac:(lia) ltac:(lia) ltac:(lia)). cbv zeta in SF. destruct SF as (o & SF & _).
  rewrite SF in M. cbn [bind fst snd] in M. assert (EO : o = zs) by congruence. subst o. rewrite SF. pose proof (po_pos _ AI). pose proof (po_pos _ AO).
  assert (Q : forall c, c_pw c mod 8 = 0 -> (8 * Z.of_nat (length ks * c_po c) - 0) / c_pw c = Z.of_nat (length ks)).
  { intros c Ha. rewrite <- (po_al c Ha). assert (0 < c_po c)%nat by (apply po_pos; auto).
    replace (8 * Z.of_nat (length ks * c_po c) - 0) with (Z.of_nat (length ks) * (8 * Z.of_nat (c_po c))) by lia. apply Z.div_mul. lia. }
  rewrite LZ, !Q by auto. rewrite !Z.min_id. eauto.
Qed.
Print Assumptions C64_levels.

(** C64: an internal buffer too small for one moment makes the reader ask the source for
    empty frames for as long as the source agrees; the writer panics. *)
Theorem C64_small_buffer : forall cv ch raw sp b fuel, bytewise cv ch ->
  ((b < moment (cv_ic cv) ch)%nat -> forall out s rs, (moment (cv_oc cv) ch <= length out)%nat -> Forall fine rs -> (length rs < fuel)%nat ->
     pcm_read fuel cv raw (Z.of_nat b) out (mkBSrc s (map Some rs)) = Ok (Some (None, mkBSrc s []))) /\
  (forall buf f, (length buf < moment (cv_oc cv) ch)%nat -> (moment (cv_ic cv) ch <= length (bf_bytes f))%nat -> (0 < fuel)%nat ->
     pcm_write fuel cv raw sp buf f = Panic).
Proof.
  intros cv ch raw sp b fuel (AI & AO & CH & CP). unfold moment. rewrite (po_div _ AO), (po_div _ AI). pose proof (po_pos _ AI) as PI. pose proof (po_pos _ AO) as PO.
  assert (Z0 : forall c l, aligned c -> (l < ch * c_po c)%nat -> sample_count c (Z.of_nat l) / Z.of_nat ch = 0).
  { intros c l A H. rewrite sample_al by auto. pose proof (po_pos c A). rewrite Z.div_div by lia. apply Z.div_small. nia. }
  assert (Z1 : forall c l, aligned c -> (ch * c_po c <= l)%nat -> 1 <= sample_count c (Z.of_nat l) / Z.of_nat ch).
  { intros c l A H. rewrite sample_al by auto. pose proof (po_pos c A). rewrite Z.div_div by lia. apply Z.div_le_lower_bound; nia. }
  assert (ME : forall inp ioff out ooff, 0 <= ioff <= 8 * Z.of_nat (length inp) -> 0 <= ooff <= 8 * Z.of_nat (length out) ->
    mapper_map (cv_ic cv) (cv_ie cv) (cv_oc cv) (cv_oe cv) inp ioff out ooff 0 = Ok (0, out, ioff, ooff)).
  { intros inp ioff out ooff A B. unfold mapper_map. destruct (Z.ltb_spec (Z.of_nat (length inp) * 8) ioff); [lia|]. destruct (Z.ltb_spec (Z.of_nat (length out) * 8) ooff); [lia|].
    pose proof (pw_pos (cv_ic cv)). pose proof (pw_pos (cv_oc cv)).
    rewrite (Z.min_l 0 (_ / c_pw (cv_ic cv))) by (apply Z.div_pos; lia). rewrite (Z.min_l 0) by (apply Z.div_pos; lia). reflexivity. }
  split.
  - intros B out s rs LO R L. unfold pcm_read. rewrite CH, (Z0 _ _ AI B). pose proof (Z1 _ _ AO LO) as N. set (n := sample_count (cv_oc cv) (Z.of_nat (length out)) / Z.of_nat ch) in *. clearbody n.
    assert (K : forall rs fuel fl ts, Forall fine rs -> (length rs < fuel)%nat ->
      pread_loop fuel cv 0 n 0 0 out (mkBSrc s (map Some rs)) fl ts = Ok (Some (None, mkBSrc s []))).
    { clear R L rs fuel. induction rs as [|[fl0 t0] rs IH]; intros fuel fl ts R L; (destruct fuel as [|fuel]; [cbn [length] in L; lia|]); cbn [pread_loop];
      (rewrite (proj2 (Z.ltb_lt _ _)) by (unfold bit_count; pose proof (pw_pos (cv_oc cv)); rewrite CH; nia)).
      - reflexivity.
      - rewrite Z.min_r by lia. rewrite Z.mul_0_l. change (Z.to_nat (byte_count (cv_ic cv) 0)) with 0%nat. unfold bsrc_read. cbn [bs_reads bs_bytes map].
        cbn [Nat.leb firstn skipn]. rewrite ME by (cbn [length]; lia). cbn [bind fst snd Z.eqb]. rewrite set_ts_ok by apply (Forall_inv R). cbn [bind Z.add].
        apply IH; [exact (Forall_inv_tail R)|cbn [length] in L; lia]. }
    rewrite K by auto. reflexivity.
  - intros buf f B LI L. unfold pcm_write. rewrite CH, (Z0 _ _ AO B). pose proof (Z1 _ _ AI LI) as N. set (n := sample_count (cv_ic cv) (Z.of_nat (length (bf_bytes f))) / Z.of_nat ch) in *. clearbody n.
    destruct fuel as [|fuel]; [lia|]. cbn [pwrite_loop]. rewrite (proj2 (Z.ltb_lt _ _)) by (unfold bit_count; pose proof (pw_pos (cv_ic cv)); rewrite CH; nia).
    rewrite Z.min_r by lia. rewrite Z.mul_0_l. rewrite ME by lia. reflexivity.
Qed.
Print Assumptions C64_small_buffer.

(** C64: a frame too short for one moment: reading into it panics, writing it does nothing. *)
Theorem C64_short : forall cv ch raw sp b fuel, bytewise cv ch ->
  (forall out s, (length out < moment (cv_oc cv) ch)%nat -> pcm_read (S fuel) cv raw b out s = Panic) /\
  (forall buf f, (length (bf_bytes f) < moment (cv_ic cv) ch)%nat -> pcm_write (S fuel) cv raw sp buf f = Ok (Some [])).
Proof.
  intros cv ch raw sp b fuel (AI & AO & CH & CP). unfold moment. rewrite (po_div _ AO), (po_div _ AI).
  assert (Z0 : forall c l, aligned c -> (l < ch * c_po c)%nat -> sample_count c (Z.of_nat l) / Z.of_nat ch = 0).
  { intros c l A H. rewrite sample_al by auto. pose proof (po_pos c A). rewrite Z.div_div by lia. apply Z.div_small. nia. }
  split; [intros out s H|intros buf f H].
  - unfold pcm_read. rewrite CH, (Z0 _ _ AO H). cbn [pread_loop]. reflexivity.
  - unfold pcm_write. rewrite CH, (Z0 _ _ AI H). cbn [pwrite_loop]. reflexivity.
Qed.
Print Assumptions C64_short.

(** Concrete cases: signed 16 bits to unsigned 8 bits, two channels, five bytes of memory. *)
Definition ex_cv := mkConv SInt16 Big UInt8 Little 2.
Definition ex_vs : list Z := [256; 512; -256; 0; 32767; -32768].
Example C64_ex : bytewise ex_cv 2 /\ (1 * moment SInt16 2 <= 5 < 2 * moment SInt16 2)%nat /\
  stored SInt16 Big ex_vs = [1; 0; 2; 0; 255; 0; 0; 0; 127; 255; 128; 0] /\ one_map ex_cv ex_vs [129; 130; 127; 128; 255; 0] /\
  parts 3 1 3 /\ Forall fine [(2, 70); (4, 90); (0, 110)] /\
  pcm_read 4 ex_cv false 5 (repeat 9 7) (mkBSrc (stored SInt16 Big ex_vs ++ [44]) [Some (2, 70); Some (4, 90); Some (0, 110); None]) =
    Ok (Some (Some (mkB [129; 130; 127; 128; 255; 0; 9] 7 3 70), mkBSrc [44] [None])) /\
  pcm_read 4 ex_cv false 5 (repeat 9 7) (mkBSrc (stored SInt16 Big ex_vs) [Some (2, 70); None]) =
    Ok (Some (None, mkBSrc [255; 0; 0; 0; 127; 255; 128; 0] [])).
Proof.
  split; [repeat split; lia|]. split; [vm_compute; lia|]. split; [vm_compute; reflexivity|].
  split; [split; [vm_compute; reflexivity|]; eexists _, _; vm_compute; reflexivity|].
  split; [split; [lia|]; intros; lia|]. split; [repeat constructor; cbn; lia|]. split; vm_compute; reflexivity.
Qed.
Example C64_ex_write : parts 3 2 2 /\
  pcm_write 3 ex_cv false studio (repeat 0 5) (mkB (stored SInt16 Big ex_vs ++ [1]) 8 3 1000000) =
    Ok (Some [mkB [129; 130; 127; 128] 9 2 1000000; mkB [255; 0] 9 1 1041667]).
Proof. split; [split; [lia|]; intros; lia|]. vm_compute. reflexivity. Qed.
