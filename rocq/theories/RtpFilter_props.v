(** C09 (RTP stream filter), C10 (link meter), C11 (sequencer). *)
From Verif Require Import Base RtpFilter_model RtpFilter_spec RtpFilter_proof.

(** Every answer of the filter is the specified one: packets are handed over
    exactly when they continue the stream accepted so far (same source, same
    payload type, within the jump limits of the newest accepted packet, with a
    valid capture time), all others are refused and leave no trace. [h] below
    is the list of accepted packets; it starts empty. *)
Theorem C09_decides c is st os :
  0 <= max_sn_jump c < 32768 -> Forall in_wf is ->
  filter_run c None is = Ok (st, os) -> filter_spec c [] is os.
Proof. intros Hc W H. exact (filter_run_spec c Hc is [] None st os W eq_refl H). Qed.
Print Assumptions C09_decides.

(** All packets handed over are RTP audio packets of one source with one
    payload type. *)
Theorem C09_one_stream c is st os :
  0 <= max_sn_jump c < 32768 -> Forall in_wf is ->
  filter_run c None is = Ok (st, os) ->
  match out_pkts os with
  | [] => True
  | q :: _ => Forall (fun p => fp_rtp p = true /\ fp_audio p = true /\
                       r_src (fp_hdr p) = r_src (fp_hdr q) /\ r_pt (fp_hdr p) = r_pt (fp_hdr q)) (out_pkts os)
  end.
Proof. intros Hc W H. exact (spec_coherent0 c is os (filter_run_spec c Hc is [] None st os W eq_refl H)). Qed.
Print Assumptions C09_one_stream.

(** The filter does not overflow unless two packets have timestamps exactly
    half the timestamp range apart. *)
Theorem C09_no_overflow c is :
  (forall i j s t, In i is -> In j is -> in_ts i s -> in_ts j t -> (s - t) mod 4294967296 <> 2147483648) ->
  exists x, filter_run c None is = Ok x.
Proof. intros H. apply filter_run_ok; [exact H|intros q Hq; discriminate]. Qed.
Print Assumptions C09_no_overflow.

(** That restriction is needed: two packets 2^31 apart make the filter negate
    INT32_MIN, whatever the (non-negative) limits. *)
Theorem C09_half_range_refuted c :
  0 <= max_sn_jump c ->
  exists p q, rtp_wf (fp_hdr p) /\ rtp_wf (fp_hdr q) /\
    filter_run c None [InPkt p; InPkt q] = UB.
Proof.
  intros H. exists (mkFp true true (mkRtp 1 0 0 10 0 11 40)), (mkFp true true (mkRtp 1 0 2147483648 10 0 11 40)).
  split; [cbv; intuition congruence|]. split; [cbv; intuition congruence|].
  cbn [filter_run filter_read validate fp_rtp fp_audio negb bind fst snd fp_hdr r_sn r_src].
  unfold validate_sequence. cbn [r_src r_pt r_sn]. change (negb (1 =? 1)) with false. change (negb (11 =? 11)) with false.
  cbv iota zeta. change (u64 _) with 0. destruct (max_sn_jump c <? 0) eqn:E; [lia|]. reflexivity.
Qed.
Print Assumptions C09_half_range_refuted.

(** Example: a filter with jump limit 10 around the sequence wrap; a reordered
    packet and a packet of another source, and a too long jump. *)
Definition c9 := mkFcfg 10 1000 (fun d => d) (fun n => n / 4).
Definition p9 src sn ts dur := mkFp true true (mkRtp src sn ts dur 0 11 40).
Example C09_example :
  filter_run c9 None [InPkt (p9 1 65534 100 0); InPkt (p9 1 2 140 10); InPkt (p9 1 65535 110 10);
                      InPkt (p9 2 3 150 10); InStatus 5; InPkt (p9 1 13 250 10); InPkt (p9 1 12 240 10)] =
  Ok (Some (mkRtp 1 12 240 10 0 11 40),
      [OutPkt (p9 1 65534 100 10); OutPkt (p9 1 2 140 10); OutPkt (p9 1 65535 110 10);
       OutStatus st_nodata; OutStatus 5; OutStatus st_nodata; OutPkt (p9 1 12 240 10)]).
Proof. vm_compute. reflexivity. Qed.

(** Link meter. [z :: zs] are the unwrapped positions of the received packets,
    each closer than 2^15 to the highest one before it. The reported last
    sequence number falls behind the true one by one for every wrap. *)
Theorem C10_last z zs :
  0 <= z < 65536 -> near z zs ->
  let true_last := maxl z zs in
  lm_ext_last (lm_run (map (fun z => z mod 65536) (z :: zs))) =
    (true_last - true_last / 65536) mod 4294967296.
Proof. exact (lm_last z zs). Qed.
Print Assumptions C10_last.

(** Hence it is exact before the first wrap... *)
Theorem C10_last_before_wrap z zs :
  0 <= z < 65536 -> near z zs -> maxl z zs < 65536 ->
  lm_ext_last (lm_run (map (fun z => z mod 65536) (z :: zs))) = maxl z zs.
Proof.
  intros Hz Hn HM. rewrite lm_last by auto. pose proof (maxl_ge zs z).
  rewrite Z.div_small, Z.sub_0_r, Z.mod_small by lia. reflexivity.
Qed.
Print Assumptions C10_last_before_wrap.

(** ... and wrong after it: two consecutive packets over the wrap are reported
    with the same extended number. *)
Theorem C10_wrap_refuted :
  exists z zs, 0 <= z < 65536 /\ near z zs /\ maxl z zs = 65536 /\
    lm_ext_last (lm_run (map (fun z => z mod 65536) (z :: zs))) = 65535.
Proof. exists 65535, [65536]. vm_compute. intuition congruence. Qed.
Print Assumptions C10_wrap_refuted.

(** The reported first sequence number is the lowest one received, as long as
    the numbers received span less than 2^15 and did not wrap. *)
Theorem C10_first z zs :
  0 <= z < 65536 -> maxl z zs < 65536 -> maxl z zs - minl z zs < 32768 ->
  lm_ext_first (lm_run (map (fun z => z mod 65536) (z :: zs))) = (minl z zs) mod 65536.
Proof. exact (lm_first_ok z zs). Qed.
Print Assumptions C10_first.

(** Beyond 2^15 packets without a wrap the first sequence number is replaced by
    the current one. *)
Theorem C10_first_refuted :
  exists z zs, 0 <= z < 65536 /\ near z zs /\ maxl z zs < 65536 /\ minl z zs = 10 /\
    lm_ext_first (lm_run (map (fun z => z mod 65536) (z :: zs))) = 40000.
Proof. exists 10, [20000; 40000]. vm_compute. intuition congruence. Qed.
Print Assumptions C10_first_refuted.

Example C10_example :
  near 5 [7; 6; 3; 200; 70000 - 65536] /\
  lm_ext_last (lm_run (map (fun z => z mod 65536) [5; 7; 6; 3; 200; 70000 - 65536])) = 4464 /\
  lm_ext_first (lm_run (map (fun z => z mod 65536) [5; 7; 6; 3; 200; 70000 - 65536])) = 3.
Proof. vm_compute. intuition congruence. Qed.

(** Sequencer. The i-th packet carries the start number plus i and the start
    timestamp plus the durations of all packets before it, the constant payload
    type, and the source id and capture time supplied with it; one packet
    per call. *)
Theorem C11_numbering pt sn0 ts0 calls :
  0 <= sn0 < 65536 -> 0 <= ts0 < 4294967296 ->
  length (seqr_run (mkSeqr pt sn0 ts0) calls) = length calls /\
  forall i r, nth_error (seqr_run (mkSeqr pt sn0 ts0) calls) i = Some r ->
    exists ssrc cts dur len, nth_error calls i = Some (ssrc, cts, dur, len) /\
      r = mkRtp ssrc ((sn0 + Z.of_nat i) mod 65536)
                ((ts0 + fold_right Z.add 0 (map (fun c => snd (fst c)) (firstn i calls))) mod 4294967296)
                dur cts pt len.
Proof.
  intros H1 H2. split; [apply seqr_len|].
  exact (seqr_spec calls (mkSeqr pt sn0 ts0) H1 H2).
Qed.
Print Assumptions C11_numbering.

(** Therefore a receiver comparing consecutive packets sees a step of exactly
    one packet and exactly the previous duration. *)
Theorem C11_consecutive pt sn0 ts0 calls i r r' :
  0 <= sn0 < 65536 -> 0 <= ts0 < 4294967296 ->
  nth_error (seqr_run (mkSeqr pt sn0 ts0) calls) i = Some r ->
  nth_error (seqr_run (mkSeqr pt sn0 ts0) calls) (S i) = Some r' ->
  r_sn r' = (r_sn r + 1) mod 65536 /\ r_ts r' = (r_ts r + r_dur r) mod 4294967296 /\ r_pt r' = r_pt r.
Proof.
  intros H1 H2 Hr Hr'.
  apply (seqr_spec calls (mkSeqr pt sn0 ts0) H1 H2) in Hr, Hr'.
  destruct Hr as (a & b & d & e & E & ->), Hr' as (a' & b' & d' & e' & E' & ->).
  cbn [sq_sn sq_ts sq_pt r_sn r_ts r_pt r_dur]. split; [|split; [|reflexivity]].
  - rewrite Zplus_mod_idemp_l. f_equal. lia.
  - rewrite Zplus_mod_idemp_l. f_equal.
    assert (K : forall (l : list (Z*Z*Z*Z)) i x, nth_error l i = Some x -> firstn (S i) l = firstn i l ++ [x]).
    { clear. induction l as [|y l IH]; intros [|i] x H; cbn in *; try discriminate.
      - congruence.
      - f_equal. apply IH; auto. }
    rewrite (K _ _ _ E), map_app, fold_right_app. cbn [map fold_right fst snd].
    assert (A : forall l x, fold_right Z.add x l = fold_right Z.add 0 l + x).
    { clear. induction l as [|y l IH]; intros x; cbn; [lia|]. rewrite IH. lia. }
    rewrite A. lia.
Qed.
Print Assumptions C11_consecutive.

Example C11_example :
  seqr_run (mkSeqr 11 65535 4294967290) [(7, 100, 10, 40); (7, 200, 10, 40); (8, 300, 20, 80)] =
  [mkRtp 7 65535 4294967290 10 100 11 40; mkRtp 7 0 4 10 200 11 40; mkRtp 8 1 14 20 300 11 80].
Proof. vm_compute. reflexivity. Qed.
