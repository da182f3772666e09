(** C07 (compose/parse round trip) and C08 (parser safety), for the protocol
    stacks the toolkit builds (sender_endpoint.cpp:30-90, receiver_endpoint.cpp:40-90):
    plain RTP, RTP with a FEC source footer, and FEC repair packets. *)
From Verif Require Import Base Slice_model FecHeaders_model Align_model Rtp_model Rtp_spec Rtp_proof
  RtpCompose_spec RtpCompose_proof.
Local Open Scope nat_scope.

(** C07 for RTP ([fec = None]) and for RTP with a FEC source payload ID after
    it ([fec = Some kind]).  [send] aligns, prepares, writes [data], cuts
    [pad] padding, fills the fields and composes.  It succeeds whenever the
    buffer is large enough, puts the payload at an aligned address, writes
    nothing outside the slice it returns, and parsing that slice gives back
    every field and the payload. *)
Theorem C07_rtp_round_trip : forall (fec : option pid_kind) addr mem al data pad f enc,
  0 < al -> (Z.of_nat al <= 2 ^ 63)%Z -> addr mod al = 0 ->
  Z.to_nat (pad_as 12 (Z.of_nat al)) + 12 + length data + footer fec <= length mem ->
  bytes_ok data -> pad_len pad <= length data -> pad_len pad <= 255 ->
  rtp_fits f -> src_fits fec f -> enc_ok enc ->
  exists b mem' payload_addr q,
    send (source_stack fec) addr mem al data pad f = Ok (Some (b, mem', payload_addr)) /\
    payload_addr mod al = 0 /\
    s_size b = 12 + length data + footer fec /\ same_outside mem mem' b /\
    p_parse enc (source_parser fec) mem' pkt_new b = Ok (Some q) /\
    p_src q = f_src f /\ p_seq q = f_seq f /\ p_ts q = f_ts f /\ p_marker q = f_marker f /\ p_pt q = f_pt f /\
    sl_bytes mem' (p_pay q) = firstn (length data - pad_len pad) data /\
    length (opt_bytes mem' (p_pad q)) = pad_len pad /\
    fec_back fec f q.
Proof. exact send_source. Qed.
Print Assumptions C07_rtp_round_trip.

(** C07 for FEC repair packets. *)
Theorem C07_repair_round_trip : forall kind addr mem al data f enc,
  0 < al -> (Z.of_nat al <= 2 ^ 63)%Z -> addr mod al = 0 ->
  Z.to_nat (pad_as (Z.of_nat (pid_size kind)) (Z.of_nat al)) + pid_size kind + length data <= length mem ->
  fec_fits kind f ->
  exists b mem' payload_addr q,
    send (CFec kind Repair Header CNone) addr mem al data None f = Ok (Some (b, mem', payload_addr)) /\
    payload_addr mod al = 0 /\
    s_size b = pid_size kind + length data /\ same_outside mem mem' b /\
    p_parse enc (PFec kind Repair Header PNone) mem' pkt_new b = Ok (Some q) /\
    sl_bytes mem' (p_fpay q) = data /\ fec_back (Some kind) f q.
Proof. exact send_repair. Qed.
Print Assumptions C07_repair_round_trip.

(** If the buffer is too small, composing RTP or FEC source packets reports
    failure instead of overrunning it. *)
Theorem C07_small_buffer : forall (fec : option pid_kind) addr mem al data pad f,
  0 < al -> addr mod al = 0 ->
  length mem < Z.to_nat (pad_as 12 (Z.of_nat al)) + 12 + length data + footer fec ->
  send (source_stack fec) addr mem al data pad f = Ok None.
Proof. exact send_small. Qed.
Print Assumptions C07_small_buffer.

(** The same does not hold for FEC repair packets: the composer aborts the
    process (fec/composer.h:89 reslices without a capacity check). *)
Theorem C07_repair_small_buffer_refuted :
  exists kind addr mem al data f,
    fec_fits kind f /\
    send (CFec kind Repair Header CNone) addr mem al data None f = Panic.
Proof.
  exists RS8M, 0, [0; 0; 0; 0; 0; 0; 0]%Z, 1, [1; 2]%Z, (mkF 0 0 0 false 0 1 2 3 4).
  split; [|vm_compute; reflexivity]. unfold fec_fits. cbn. lia.
Qed.
Print Assumptions C07_repair_small_buffer_refuted.

(** Concrete instance: alignment 8, FEC source footer, 2 bytes of padding. *)
Example C07_example :
  let f := mkF 305419896 65535 4294967295 true 10 5 300 20 0 in
  let mem := repeat 170%Z 40 in
  rtp_fits f /\ src_fits (Some LdpcSource) f /\
  exists b mem' q, send (source_stack (Some LdpcSource)) 64 mem 8 [1; 2; 3; 4; 5]%Z (Some 2) f = Ok (Some (b, mem', 80)) /\
    sl_bytes mem' b = [160; 138; 255; 255; 255; 255; 255; 255; 18; 52; 86; 120; 1; 2; 3; 0; 2; 1; 44; 0; 5; 0; 20]%Z /\
    p_parse (fun _ => Some FlagAudio) (source_parser (Some LdpcSource)) mem' pkt_new b = Ok (Some q) /\ p_esi q = 5%Z.
Proof.
  cbv zeta. split; [unfold rtp_fits; cbn; lia|]. split; [unfold src_fits, fec_fits; cbn; lia|].
  do 3 eexists. split; [vm_compute; reflexivity|]. split; [vm_compute; reflexivity|].
  split; [vm_compute; reflexivity|]. reflexivity.
Qed.

(** C08: the RTP parser accepts exactly the RTP datagrams ([rtp_datagram] is the
    RFC layout), for every byte string [d] anywhere in memory; it never reads
    outside [d] (that would be [UB]) and never panics; what it accepts is
    reported with the right fields, and header, payload and padding are
    adjacent slices covering [d]. *)
Theorem C08_rtp_exact : forall enc pre d post,
  bytes_ok d -> enc_ok enc ->
  let b := mkSl (length pre) (length d) in
  let mem := pre ++ d ++ post in
  (exists q src seq ts mk pt hdr payload padding,
     p_parse enc (PRtp PNone) mem pkt_new b = Ok (Some q) /\
     rtp_datagram d src seq ts mk pt hdr payload padding /\
     p_src q = src /\ p_seq q = seq /\ p_ts q = ts /\ p_marker q = mk /\ p_pt q = pt /\
     p_hdr q = mkSl (length pre) (length hdr) /\
     p_pay q = mkSl (length pre + length hdr) (length payload) /\
     sl_bytes mem (p_pay q) = payload /\
     p_pad q = (if length padding =? 0 then None
                else Some (mkSl (length pre + length hdr + length payload) (length padding))))
  \/
  (p_parse enc (PRtp PNone) mem pkt_new b = Ok None /\
   forall src seq ts mk pt hdr payload padding, ~ rtp_datagram d src seq ts mk pt hdr payload padding).
Proof.
  intros enc pre d post HB HE. cbv zeta.
  assert (F0 : flags_ok enc pkt_new).
  { split; [reflexivity|]. intros pt fl E. exact (enc_ok_rtp enc pt fl HE E). }
  destruct (rtp_parse_spec enc pkt_new pre d post HB F0) as [(s & q & t & m & y & h & pl & pd & HD & E)|[E N]].
  - left. do 9 eexists. split; [exact E|]. split; [exact HD|]. unfold parsed. cbn.
    do 7 (split; [reflexivity|]). split; [|reflexivity].
    destruct HD as (? & ? & ? & ? & ? & ? & ? & ? & ? & ? & ? & ? & ? & ? & _ & ED & _). rewrite ED.
    apply (Slice_lemmas.sl_bytes_app' (pre ++ h) pl (pd ++ post)); [rewrite <- !app_assoc; reflexivity|apply eq_sym, app_length|reflexivity].
  - right. auto.
Qed.
Print Assumptions C08_rtp_exact.

(** A wrong version is rejected, etc.: instances of the second alternative. *)
Theorem C08_rejects : forall enc pre d post,
  bytes_ok d -> enc_ok enc ->
  (length d < 12 \/ (exists b0 t, d = b0 :: t /\
     (b0 / 64 <> 2 \/ Z.of_nat (length d) < 12 + 4 * (b0 mod 16) \/
      ((b0 / 16) mod 2 = 1 /\ Z.of_nat (length d) < 16 + 4 * (b0 mod 16)) \/
      ((b0 / 32) mod 2 = 1 /\ last d 0 = 0) \/
      ((b0 / 32) mod 2 = 1 /\ Z.of_nat (length d) < 12 + 4 * (b0 mod 16) + last d 0))%Z)) ->
  p_parse enc (PRtp PNone) (pre ++ d ++ post) pkt_new (mkSl (length pre) (length d)) = Ok None.
Proof.
  intros enc pre d post HB HE HX.
  destruct (C08_rtp_exact enc pre d post HB HE) as [(q & s & sq & t & m & y & h & pl & pd & _ & HD & _)|[E _]]; [|exact E].
  exfalso. destruct HD as (b0 & b1 & b2 & b3 & b4 & b5 & b6 & b7 & b8 & b9 & b10 & b11 & cs & ex & -> & E & V & LC & LE & LP & _).
  assert (HL : length d = 12 + length cs + length ex + length pl + length pd) by (rewrite E, !app_length; cbn; lia).
  destruct HX as [L|(c0 & u & Ed & HX)]; [lia|].
  assert (c0 = b0) by (rewrite Ed in E; cbn in E; congruence). subst c0.
  assert (HLst : pd <> [] -> last d 0%Z = last pd 0%Z).
  { intros N. rewrite E. destruct (exists_last N) as (z & x & ->). rewrite !app_assoc, !last_last. reflexivity. }
  destruct HX as [H|[H|[[HX1 H]|[[HX1 H]|[HX1 H]]]]].
  - lia.
  - lia.
  - destruct LE as [[? _]|[_ (e0 & e1 & e2 & e3 & dt & -> & _)]]; [lia|]. cbn in HL. lia.
  - destruct LP as [[? _]|(_ & N & L)]; [lia|]. rewrite HLst in H by auto. destruct pd; [congruence|]. cbn [length] in L. lia.
  - destruct LP as [[? _]|(_ & N & L)]; [lia|]. rewrite HLst in H by auto. lia.
Qed.
Print Assumptions C08_rejects.

(** All deployed parsers (RTP, RTP with FEC footer, FEC repair) are total and
    stay inside the datagram on arbitrary bytes. *)
Theorem C08_all_stacks_safe : forall enc pr mem b,
  deployed pr -> enc_ok enc -> bytes_ok mem -> s_off b + s_size b <= length mem ->
  p_parse enc pr mem pkt_new b = Ok None \/
  exists q, p_parse enc pr mem pkt_new b = Ok (Some q) /\
    (has_flag q FlagRTP = true ->
       inside b (p_hdr q) /\ inside b (p_pay q) /\ (forall s, p_pad q = Some s -> inside b s)) /\
    (has_flag q FlagFEC = true -> inside b (p_fpay q)).
Proof. exact parse_safe. Qed.
Print Assumptions C08_all_stacks_safe.

Example C08_example_accept :
  exists q, p_parse (fun _ => None) (PRtp PNone)
    [177; 139; 0; 7; 0; 0; 1; 0; 0; 0; 0; 9; 1; 1; 1; 1; 0; 0; 0; 1; 5; 5; 5; 5; 42; 0; 2]%Z pkt_new (mkSl 0 27) = Ok (Some q)
    /\ p_hdr q = mkSl 0 24 /\ p_pay q = mkSl 24 1 /\ p_pad q = Some (mkSl 25 2).
Proof. eexists. vm_compute. auto. Qed.
Example C08_example_reject :
  p_parse (fun _ => None) (PRtp PNone) [177; 139; 0; 7; 0; 0; 1; 0; 0; 0; 0; 9; 1; 1; 1; 1; 0; 0; 0; 9]%Z pkt_new (mkSl 0 20) = Ok None.
Proof. vm_compute. reflexivity. Qed.

(** Every setter of the RTP header, on arbitrary header bytes, stores its value
    and leaves the other fields alone. *)
Local Open Scope Z_scope.
Definition hdr_fields (h : list Z) :=
  (h_version h, h_has_padding h, h_has_extension h, h_num_csrc h, h_marker h, h_payload_type h,
   (h_seqnum h, h_timestamp h, h_ssrc h)).

Lemma hdr_byte0 b0 v (p : bool) : byte_ok b0 -> 0 <= v < 4 ->
  let bv := u8 (Z.lor (Z.land b0 (u8 (Z.lnot (Z.shiftl 3 6)))) (Z.shiftl v 6)) in
  let bp := u8 (Z.lor (Z.land b0 (u8 (Z.lnot (Z.shiftl 1 5)))) (Z.shiftl (if p then 1 else 0) 5)) in
  let get x := (Z.land (Z.shiftr x 6) 3, negb (Z.land x (Z.shiftl 1 5) =? 0), negb (Z.land x (Z.shiftl 1 4) =? 0), Z.land (Z.shiftr x 0) 15) in
  get bv = (v, snd (fst (fst (get b0))), snd (fst (get b0)), snd (get b0)) /\
  get bp = (fst (fst (fst (get b0))), p, snd (fst (get b0)), snd (get b0)).
Proof.
  intros Hb Hv. cbv zeta.
  assert (H : all_below 256 (fun b => all_below 4 (fun v =>
    let bv := u8 (Z.lor (Z.land b (u8 (Z.lnot (Z.shiftl 3 6)))) (Z.shiftl v 6)) in
    let bp p := u8 (Z.lor (Z.land b (u8 (Z.lnot (Z.shiftl 1 5)))) (Z.shiftl p 5)) in
    let g1 x := Z.land (Z.shiftr x 6) 3 in let g2 x := negb (Z.land x (Z.shiftl 1 5) =? 0) in
    let g3 x := negb (Z.land x (Z.shiftl 1 4) =? 0) in let g4 x := Z.land (Z.shiftr x 0) 15 in
    (g1 bv =? v) && Bool.eqb (g2 bv) (g2 b) && Bool.eqb (g3 bv) (g3 b) && (g4 bv =? g4 b) &&
    (g1 (bp 1) =? g1 b) && g2 (bp 1) && Bool.eqb (g3 (bp 1)) (g3 b) && (g4 (bp 1) =? g4 b) &&
    (g1 (bp 0) =? g1 b) && negb (g2 (bp 0)) && Bool.eqb (g3 (bp 0)) (g3 b) && (g4 (bp 0) =? g4 b))) = true)
    by (vm_compute; reflexivity).
  pose proof (all_below_spec _ _ H b0 Hb) as K. cbv beta in K. pose proof (all_below_spec _ _ K v Hv) as L. cbv beta zeta in L.
  rewrite !andb_true_iff in L. cbn [fst snd].
  destruct L as (((((((((((L1 & L2) & L3) & L4) & L5) & L6) & L7) & L8) & L9) & L10) & L11) & L12).
  apply eqb_prop in L2, L3, L7, L11. apply Z.eqb_eq in L1, L4, L5, L8, L9, L12. apply negb_true_iff in L10.
  split; [congruence|]. destruct p; congruence.
Qed.
Lemma hdr_byte1 b1 pt (m : bool) : byte_ok b1 -> 0 <= pt < 128 ->
  let bt := u8 (Z.lor (Z.land b1 (u8 (Z.lnot 127))) pt) in
  let bm := u8 (Z.lor (Z.land b1 (u8 (Z.lnot (Z.shiftl 1 7)))) (Z.shiftl (if m then 1 else 0) 7)) in
  Z.land bt 127 = pt /\ (Z.land bt (Z.shiftl 1 7) =? 0) = (Z.land b1 (Z.shiftl 1 7) =? 0) /\
  Z.land bm 127 = Z.land b1 127 /\ negb (Z.land bm (Z.shiftl 1 7) =? 0) = m.
Proof.
  intros Hb Hv. cbv zeta.
  assert (H : all_below 256 (fun b => all_below 128 (fun pt =>
    let bt := u8 (Z.lor (Z.land b (u8 (Z.lnot 127))) pt) in
    let bm m := u8 (Z.lor (Z.land b (u8 (Z.lnot (Z.shiftl 1 7)))) (Z.shiftl m 7)) in
    (Z.land bt 127 =? pt) && Bool.eqb (Z.land bt (Z.shiftl 1 7) =? 0) (Z.land b (Z.shiftl 1 7) =? 0) &&
    (Z.land (bm 1) 127 =? Z.land b 127) && negb (Z.land (bm 1) (Z.shiftl 1 7) =? 0) &&
    (Z.land (bm 0) 127 =? Z.land b 127) && (Z.land (bm 0) (Z.shiftl 1 7) =? 0))) = true) by (vm_compute; reflexivity).
  pose proof (all_below_spec _ _ H b1 Hb) as K. cbv beta in K. pose proof (all_below_spec _ _ K pt Hv) as L. cbv beta zeta in L.
  rewrite !andb_true_iff in L.
  destruct L as (((((L1 & L2) & L3) & L4) & L5) & L6). apply Z.eqb_eq in L1, L3, L5. apply eqb_prop in L2.
  split; [exact L1|]. split; [exact L2|]. destruct m; [split; [exact L3|exact L4]|split; [exact L5|rewrite L6; reflexivity]].
Qed.

Theorem C07_header_fields (h : list Z) (v pt sn ts ssrc : Z) (p m : bool) :
  length h = rtp_hdr_size -> bytes_ok h -> 0 <= v < 4 -> 0 <= pt < 128 ->
  0 <= sn < 65536 -> 0 <= ts < 2 ^ 32 -> 0 <= ssrc < 2 ^ 32 ->
  let '(v0, p0, e0, c0, m0, pt0, (sn0, ts0, ssrc0)) := hdr_fields h in
  hdr_fields (h_set_version h v) = (v, p0, e0, c0, m0, pt0, (sn0, ts0, ssrc0)) /\
  hdr_fields (h_set_padding h p) = (v0, p, e0, c0, m0, pt0, (sn0, ts0, ssrc0)) /\
  hdr_fields (h_set_marker h m) = (v0, p0, e0, c0, m, pt0, (sn0, ts0, ssrc0)) /\
  (exists h', h_set_payload_type h pt = Ok h' /\ hdr_fields h' = (v0, p0, e0, c0, m0, pt, (sn0, ts0, ssrc0))) /\
  hdr_fields (h_set_seqnum h sn) = (v0, p0, e0, c0, m0, pt0, (sn, ts0, ssrc0)) /\
  hdr_fields (h_set_timestamp h ts) = (v0, p0, e0, c0, m0, pt0, (sn0, ts, ssrc0)) /\
  hdr_fields (h_set_ssrc h ssrc) = (v0, p0, e0, c0, m0, pt0, (sn0, ts0, ssrc)).
Proof.
  intros Hl Hb Hv Hp Hsn Hts Hss.
  do 12 (destruct h as [|? h]; [discriminate Hl|]). destruct h; [|discriminate Hl]. clear Hl.
  assert (H0 : byte_ok z) by (inversion Hb; assumption). assert (H1 : byte_ok z0) by (inversion Hb as [|? ? ? Hb']; inversion Hb'; assumption).
  destruct (hdr_byte0 z v p H0 Hv) as [A1 A2]. destruct (hdr_byte1 z0 pt m H1 Hp) as (B1 & B2 & B3 & B4). cbv zeta in *.
  assert (E1 : u8 pt = pt) by (apply FecHeaders_proof.u8_id; lia).
  assert (E2 : u16 sn = sn) by (apply FecHeaders_proof.u16_id; lia).
  assert (E3 : u32 ts = ts) by (apply FecHeaders_proof.u32_id; lia).
  assert (E4 : u32 ssrc = ssrc) by (apply FecHeaders_proof.u32_id; lia).
  assert (E5 : Z.land pt 127 = pt) by (change 127 with (Z.ones 7); rewrite Z.land_ones by lia; apply Z.mod_small; exact Hp).
  unfold hdr_fields, h_version, h_set_version, h_has_padding, h_set_padding, h_has_extension, h_payload_type, h_set_payload_type,
    h_marker, h_set_marker, h_seqnum, h_set_seqnum, h_timestamp, h_set_timestamp, h_ssrc, h_set_ssrc, h_num_csrc, get16_at, put16_at, get32_at, put32_at in *.
  rewrite E1, E2, E3, E4, E5, Z.eqb_refl. cbn [nth upd plus]. cbn [fst snd] in A1, A2.
  rewrite (Base_lemmas.be16_put16 sn Hsn), (Base_lemmas.be32_put32 ts Hts), (Base_lemmas.be32_put32 ssrc Hss).
  pose proof (f_equal (fun t => fst (fst (fst t))) A1) as A11. pose proof (f_equal (fun t => snd (fst (fst t))) A1) as A12.
  pose proof (f_equal (fun t => snd (fst t)) A1) as A13. pose proof (f_equal snd A1) as A14.
  pose proof (f_equal (fun t => fst (fst (fst t))) A2) as A21. pose proof (f_equal (fun t => snd (fst (fst t))) A2) as A22.
  pose proof (f_equal (fun t => snd (fst t)) A2) as A23. pose proof (f_equal snd A2) as A24.
  cbn beta iota delta [fst snd] in A11, A12, A13, A14, A21, A22, A23, A24.
  split; [rewrite A11, A12, A13, A14; reflexivity|]. split; [rewrite A21, A22, A23, A24; reflexivity|].
  split; [rewrite B3, B4; reflexivity|]. split; [eexists; split; [reflexivity|]; cbn [nth upd]; rewrite B1, B2; reflexivity|].
  repeat split.
Qed.
Print Assumptions C07_header_fields.

(** Each kind of header is marked on its own: a packet can be marked once with each, in any order, and is
    then of exactly these kinds. *)
Theorem C07_kinds : forall p f p', In f [FlagRTP; FlagFEC; FlagAudio; FlagRepair] -> has_flag p f = false ->
  add_flags p f = Ok p' -> has_flag p' f = true /\ forall g, In g [FlagRTP; FlagFEC; FlagAudio; FlagRepair] -> g <> f -> has_flag p' g = has_flag p g.
Proof.
  assert (D : forall f g : N, In f [FlagRTP; FlagFEC; FlagAudio; FlagRepair] -> In g [FlagRTP; FlagFEC; FlagAudio; FlagRepair] -> g <> f -> N.land f g = 0%N).
  { intros f g F G. cbn in F, G. repeat (destruct F as [F|F]; [|]); try contradiction; repeat (destruct G as [G|G]; [|]); try contradiction; subst; intros N; try reflexivity; exfalso; apply N; reflexivity. }
  intros p f p' F H E. unfold add_flags in E. destruct (N.eqb _ _); [|discriminate E]. assert (X : p_flags p' = N.lor (p_flags p) f) by (match type of E with Ok ?x = _ => assert (Y : x = p') by congruence end; rewrite <- Y; reflexivity).
  unfold has_flag. rewrite X. split.
  - rewrite N.land_lor_distr_l, N.land_diag. destruct (N.eqb_spec (N.lor (N.land (p_flags p) f) f) 0) as [Q|]; [|reflexivity]. apply N.lor_eq_0_iff in Q; destruct Q as [_ Q]. cbn in F. repeat (destruct F as [F|F]; [subst; discriminate Q|]). contradiction.
  - intros g G N. rewrite N.land_lor_distr_l, (D f g F G N), N.lor_0_r. reflexivity.
Qed.
Print Assumptions C07_kinds.
Example C07_kinds_ex : exists p1 p2, add_flags pkt_new FlagRTP = Ok p1 /\ add_flags p1 FlagFEC = Ok p2 /\ has_flag p2 FlagRTP = true /\ has_flag p2 FlagFEC = true /\ has_flag p2 FlagRepair = false.
Proof. eexists _, _. repeat split. Qed.
