(** C15: traversing RTCP compound packets. *)
From Coq Require Import Lia.
From Verif Require Import Base Base_lemmas RtcpTrav_model RtcpTrav_spec RtcpTrav_proof RtcpCompound_proof RtcpMean_spec RtcpMean_proof.
Open Scope res_scope.
Local Open Scope nat_scope.

(** Whatever the bytes received, visiting all packets, blocks, chunks, items and sources and reading
    all their fields ends, without panic and without reading outside the buffer (or outside the part
    of it that belongs to the element), and there are no more packets than the buffer can hold. *)
Theorem C15_safe buf : bytes_ok buf ->
  exists r, walk buf = Ok r /\ (forall vs e, r = Some (vs, e) -> 4 * length vs <= length buf).
Proof. exact (walk_ok buf). Qed.
Print Assumptions C15_safe.

(** The same holds for each packet given alone to the SDES, BYE and XR readers, even if it is a part
    of a larger buffer and whatever its length field says. *)
Theorem C15_safe_single buf : bytes_ok buf -> is_ok (read_sdes buf) /\ is_ok (read_bye buf) /\ is_ok (read_xr buf).
Proof. intros B. split; [apply read_sdes_ok, B|]. split; [apply read_bye_ok, B|apply read_xr_ok, B]. Qed.
Print Assumptions C15_safe_single.

(** The elements of a compound packet are those of its parts: if the buffer divides into the packets
    [ps], what is read is, in order, what is read from each of them alone, and an error is reported
    exactly if one of them has an error or the end of the buffer is not a packet. Excluded are padded
    sender or receiver reports that are not first (see below). *)
Theorem C15_compound buf ps e : bytes_ok buf -> layout buf ps e -> 4 <= length buf ->
  Forall (fun p => ~ padded_report p) (tl ps) ->
  exists rs, Forall2 (fun p r => walk p = Ok (Some r)) ps rs /\
    walk buf = Ok (Some (concat (map fst rs), e || existsb snd rs)).
Proof.
  intros B Ly L P.
  assert (X : exists rs, Forall2 (fun p r => walk p = Ok (Some r)) ps rs).
  { clear L P. induction Ly as [|t N Bad|p t ps e Ip Ly IH]; [exists []; constructor|exists []; constructor|].
    assert (Bp : bytes_ok p /\ bytes_ok t) by (unfold bytes_ok in *; apply Forall_app; exact B). destruct Bp as [Bp Bt]. destruct (IH Bt) as (rs & F).
    destruct (walk_ok p Bp) as (r & Er & _). destruct r as [r|]; [exists (r :: rs); constructor; assumption|].
    destruct (packet_shape p Bp Ip) as (_ & _ & _ & _ & _ & _ & _ & _ & G). unfold walk in Er. destruct (Nat.ltb_spec (length p) 4); [lia|].
    destruct (t_walk (S (length p)) p t_begin); discriminate. }
  destruct X as (rs & F). exists rs. split; [exact F|].
  pose proof (layout_runs buf ps e Ly [] false rs B F (or_introl eq_refl) P) as R. cbn [app length orb] in R.
  destruct (walk_ok buf B) as (r & Er & _). destruct r as [[vs e']|].
  - pose proof (walk_runs _ _ _ Er) as R'. destruct (runs_det _ _ _ _ _ R _ _ R') as [-> ->]. rewrite Er. do 4 f_equal.
    clear. induction rs as [|[v b] rs IH]; cbn; [reflexivity|rewrite IH; reflexivity].
  - unfold walk in Er. destruct (Nat.ltb_spec (length buf) 4); [lia|]. destruct (t_walk (S (length buf)) buf t_begin); discriminate.
Qed.
Print Assumptions C15_compound.

(** Every buffer divides into packets, in one way. *)
Theorem C15_layout buf : bytes_ok buf -> exists ps e, layout buf ps e.
Proof.
  remember (length buf) as n eqn:Hn. revert buf Hn. induction n as [n IH] using lt_wf_ind. intros buf Hn B.
  destruct buf as [|b0 r]; [exists [], false; constructor|]. set (buf := b0 :: r) in *.
  assert (D : (exists p t, buf = p ++ t /\ is_packet p) \/ (forall p t, buf = p ++ t -> ~ is_packet p)).
  { destruct r as [|ty [|h [|l body]]].
    1,2,3: right; intros p t E (c & d & x & y & bd & -> & _); apply (f_equal (@length Z)) in E; cbn in E; rewrite ?app_length in E; cbn in E; lia.
    destruct (Z.eq_dec (b0 / 64) 2) as [V|V].
    - destruct (Z_le_gt_dec (4 * (256 * h + l + 1)) (Z.of_nat (length buf))) as [Le|Gt].
      + assert (Bs : byte_ok h /\ byte_ok l) by (unfold bytes_ok, buf in B; rewrite !Forall_cons_iff in B; tauto). unfold byte_ok in Bs.
        set (k := Z.to_nat (4 * (256 * h + l + 1))). left. exists (firstn k buf), (skipn k buf). split; [symmetry; apply firstn_skipn|].
        assert (Lk : length (firstn k buf) = k) by (rewrite firstn_length; unfold k; lia).
        assert (K4 : 4 <= k) by (unfold k; lia).
        exists b0, ty, h, l, (firstn (k - 4) body). split; [|split; [exact V|rewrite Lk; unfold k; lia]].
        unfold buf. destruct k as [|[|[|[|k']]]]; try lia. cbn [firstn]. replace (S (S (S (S k'))) - 4) with k' by lia. reflexivity.
      + right. intros p t E (c & d & x & y & bd & Ep & _ & Lp). rewrite Ep in E. unfold buf in E. cbn [app] in E. injection E as <- <- <- <- E.
        assert (length p <= length buf) by (unfold buf; subst p; cbn; rewrite E, app_length; lia). lia.
    - right. intros p t E (c & d & x & y & bd & Ep & Vp & _). rewrite Ep in E. unfold buf in E. cbn [app] in E. injection E as <- _ _ _ _. contradiction. }
  destruct D as [(p & t & E & Ip)|Bad].
  - assert (4 <= length p) by (destruct Ip as (c & d & x & y & bd & -> & _); cbn; lia).
    assert (Lb : length buf = length p + length t) by (rewrite E, app_length; reflexivity).
    destruct (IH (length t)) with (buf := t) as (ps & e & Ly); [lia|reflexivity|unfold bytes_ok in *; rewrite E in B; apply Forall_app in B; tauto|].
    exists (p :: ps), e. rewrite E. constructor; assumption.
  - exists [], true. constructor; [discriminate|exact Bad].
Qed.
Print Assumptions C15_layout.

(** What is read from a single packet, whatever its bytes, is exactly what the bytes mean by the formats
    (RtcpMean_spec.v): every field, chunk, item, source and block, what is skipped, where reading stops
    and whether an error is reported. With C15_compound this settles what is read from any buffer. *)
Theorem C15_meaning b0 ty h w body vs e : bytes_ok (b0 :: ty :: h :: w :: body) -> (b0 / 64 = 2)%Z ->
  Z.of_nat (length (b0 :: ty :: h :: w :: body)) = (4 * (256 * h + w + 1))%Z ->
  walk (b0 :: ty :: h :: w :: body) = Ok (Some (vs, e)) <-> means b0 ty body vs e.
Proof.
  intros B V L. set (p := b0 :: ty :: h :: w :: body) in *. assert (K : is_packet p) by (exists b0, ty, h, w, body; auto).
  assert (X : exists vs e, walk p = Ok (Some (vs, e)) /\ means b0 ty body vs e).
  { destruct (walk_ok p B) as (r & Er & _). destruct r as [[v x]|].
    - exists v, x. split; [exact Er|]. destruct (single_runs p v x B K (walk_runs _ _ _ Er)) as (c & t & ov & E0 & E1 & E2 & ->). assert (c = b0) by (unfold p in E0; cbn in E0; congruence). assert (t = ty) by (unfold p in E1; cbn in E1; congruence). subst c t.
      destruct (one_mean b0 ty h w body B L) as (ov' & x' & E3 & M). fold p in E3. rewrite E2 in E3. assert (ov' = ov) by congruence. assert (x' = x) by congruence. subst. exact M.
    - exfalso. unfold walk in Er. assert (length p <? 4 = false)%nat by reflexivity. rewrite H in Er. destruct (t_walk (S (length p)) p t_begin) as [y| |]; discriminate Er. }
  destruct X as (v & x & E & M). split; intros H.
  - rewrite H in E. assert (v = vs) by congruence. assert (x = e) by congruence. subst. exact M.
  - destruct (means_det _ _ _ _ _ M _ _ H) as [-> ->]. exact E.
Qed.
Print Assumptions C15_meaning.
(** A source description whose second chunk is not ended by a null byte, and one that is cut: the first is
    read without error, the second with one. *)
Definition sdes_open : list Z := [130; 202; 0; 4; 0; 0; 0; 1; 1; 1; 97; 0; 0; 0; 0; 2; 1; 2; 98; 99]%Z.
Definition sdes_cut : list Z := [130; 202; 0; 4; 0; 0; 0; 1; 1; 1; 97; 0; 0; 0; 0; 2; 1; 3; 98; 99]%Z.
Example C15_open : walk sdes_open = Ok (Some ([VSDES (Some (2%nat, [SChunkV 1; SItemV 1 [97%Z]; SChunkV 2; SItemV 1 [98; 99]%Z], false))], false)). Proof. reflexivity. Qed.
Example C15_cut : walk sdes_cut = Ok (Some ([VSDES (Some (2%nat, [SChunkV 1; SItemV 1 [97%Z]; SChunkV 2], true))], false)). Proof. reflexivity. Qed.
Example C15_open_means : means 130 202 (skipn 4 sdes_open) [VSDES (Some (2%nat, [SChunkV 1; SItemV 1 [97%Z]; SChunkV 2; SItemV 1 [98; 99]%Z], false))] false.
Proof. apply (C15_meaning 130 202 0 4); [repeat constructor; unfold byte_ok; lia|reflexivity|reflexivity|reflexivity]. Qed.

(** Two reports, the second with padding: what is read for the second is taken from the bytes of the
    first (its source id, 1, instead of 2), because the slice without padding is cut from the
    beginning of the buffer (traverser.cpp:145). *)
Definition rr1 : list Z := [128; 201; 0; 1; 0; 0; 0; 1]%Z.
Definition rr2p : list Z := [160; 201; 0; 2; 0; 0; 0; 2; 0; 0; 0; 4]%Z.
Theorem C15_padding_refuted :
  bytes_ok (rr1 ++ rr2p) /\ layout (rr1 ++ rr2p) [rr1; rr2p] false /\
  walk rr1 = Ok (Some ([VRR 1 []], false)) /\ walk rr2p = Ok (Some ([VRR 2 []], false)) /\
  walk (rr1 ++ rr2p) = Ok (Some ([VRR 1 []; VRR 1 []], false)).
Proof.
  split; [unfold bytes_ok, rr1, rr2p; cbn [app]; repeat constructor; lia|]. split.
  - constructor; [exists 128%Z, 201%Z, 0%Z, 1%Z, [0; 0; 0; 1]%Z; repeat split|].
    rewrite <- (app_nil_r rr2p). constructor; [exists 160%Z, 201%Z, 0%Z, 2%Z, [0; 0; 0; 2; 0; 0; 0; 4]%Z; repeat split|]. constructor.
  - split; [vm_compute; reflexivity|]. split; vm_compute; reflexivity.
Qed.
Print Assumptions C15_padding_refuted.

(** The hypotheses of [C15_compound] hold for a padded report followed by a source description and by
    bytes that are no packet. *)
Definition sd1 : list Z := [129; 202; 0; 3; 0; 0; 0; 2; 1; 2; 97; 98; 0; 0; 0; 0]%Z.
Example C15_compound_example :
  layout (rr2p ++ sd1 ++ [7]%Z) [rr2p; sd1] true /\ Forall (fun p => ~ padded_report p) [sd1] /\
  walk (rr2p ++ sd1 ++ [7]%Z) = Ok (Some ([VRR 2 []; VSDES (Some (1, [SChunkV 2; SItemV 1 [97; 98]%Z], false))], true)).
Proof.
  split; [|split].
  - constructor; [exists 160%Z, 201%Z, 0%Z, 2%Z, [0; 0; 0; 2; 0; 0; 0; 4]%Z; repeat split|]. constructor; [exists 129%Z, 202%Z, 0%Z, 3%Z, [0; 0; 0; 2; 1; 2; 97; 98; 0; 0; 0; 0]%Z; repeat split|].
    constructor; [discriminate|]. intros p r E (a & b & c & d & bd & -> & _). discriminate.
  - constructor; [|constructor]. intros (b0 & ty & r & E & T & _). injection E as _ <- _. lia.
  - vm_compute. reflexivity.
Qed.
