From Verif Require Import Base Base_lemmas Slice_model Slice_lemmas FecHeaders_model Align_model Rtp_model Rtp_spec.
Local Open Scope nat_scope.

(** Exhaustive check over a byte, by computation. *)
Definition all_below (n : nat) (f : Z -> bool) : bool := forallb (fun i => f (Z.of_nat i)) (List.seq 0 n).

Lemma all_below_spec n f : all_below n f = true -> forall b, (0 <= b < Z.of_nat n)%Z -> f b = true.
Proof.
  unfold all_below. rewrite forallb_forall. intros H b Hb.
  specialize (H (Z.to_nat b)). rewrite Z2Nat.id in H by lia. apply H. apply in_seq. lia.
Qed.

Local Open Scope Z_scope.
Lemma byte_bits b : byte_ok b ->
  Z.land (Z.shiftr b 6) 3 = b / 64 /\
  negb (Z.land b 32 =? 0) = ((b / 32) mod 2 =? 1) /\
  negb (Z.land b 16 =? 0) = ((b / 16) mod 2 =? 1) /\
  Z.land (Z.shiftr b 0) 15 = b mod 16 /\
  negb (Z.land b 128 =? 0) = (128 <=? b) /\
  Z.land b 127 = b mod 128.
Proof.
  intros Hb.
  assert (H : all_below 256 (fun b =>
   (Z.land (Z.shiftr b 6) 3 =? b / 64) &&
   (Bool.eqb (negb (Z.land b 32 =? 0)) ((b / 32) mod 2 =? 1)) &&
   (Bool.eqb (negb (Z.land b 16 =? 0)) ((b / 16) mod 2 =? 1)) &&
   (Z.land (Z.shiftr b 0) 15 =? b mod 16) &&
   (Bool.eqb (negb (Z.land b 128 =? 0)) (128 <=? b)) &&
   (Z.land b 127 =? b mod 128)) = true) by (vm_compute; reflexivity).
  pose proof (all_below_spec _ _ H b Hb) as K. cbv beta in K.
  rewrite !andb_true_iff, !eqb_true_iff, !Z.eqb_eq in K. tauto.
Qed.

Lemma be16_range a b : byte_ok a -> byte_ok b -> 0 <= be16 a b < 65536.
Proof. unfold byte_ok, be16. lia. Qed.

Lemma shiftl2 x : Z.shiftl x 2 = 4 * x.
Proof. rewrite Z.shiftl_mul_pow2 by lia. change (2 ^ 2) with 4. lia. Qed.

Local Open Scope nat_scope.

Lemma sl_read_app (pre d post : list Z) i k :
  i + k <= length d ->
  sl_read (pre ++ d ++ post) (mkSl (length pre) (length d)) i k = Ok (firstn k (skipn i d)).
Proof.
  revert i. induction k as [|k IH]; intros i H; cbn [sl_read]; [reflexivity|].
  destruct (nth_error d i) as [x|] eqn:E.
  2:{ apply nth_error_None in E. lia. }
  rewrite (sl_rd_app pre d post i x E). cbn [bind]. rewrite IH by lia. cbn [bind].
  assert (ES : skipn i d = x :: skipn (S i) d).
  { clear - E. revert i E. induction d as [|a d IH]; intros [|i] E; cbn in *; try discriminate; [congruence|auto]. }
  rewrite ES. reflexivity.
Qed.

Definition flags_ok (enc : Z -> option N) (p : pkt) : Prop :=
  N.land (p_flags p) FlagRTP = 0%N /\
  forall pt fl, enc pt = Some fl -> N.land (N.lor (p_flags p) FlagRTP) fl = 0%N.

(** What a successful parse produces. *)
Definition parsed (p : pkt) (enc : Z -> option N) (off : nat) src seq ts mk pt (hl pl pad : nat) : pkt :=
  mkPkt (N.lor (N.lor (p_flags p) FlagRTP) (match enc pt with Some fl => fl | None => 0%N end))
        src seq ts mk pt (mkSl off hl) (mkSl (off + hl) pl)
        (if pad =? 0 then p_pad p else Some (mkSl (off + hl + pl) pad))
        (p_esi p) (p_sbn p) (p_k p) (p_n p) (p_pid p) (p_fpay p).

Lemma twelve (d : list Z) : 12 <= length d ->
  exists b0 b1 b2 b3 b4 b5 b6 b7 b8 b9 b10 b11 r,
  d = b0 :: b1 :: b2 :: b3 :: b4 :: b5 :: b6 :: b7 :: b8 :: b9 :: b10 :: b11 :: r.
Proof.
  intros H. do 12 (destruct d as [|? d]; [cbn in H; lia|]). repeat eexists.
Qed.

Lemma last_nth_error (l : list Z) : l <> [] -> nth_error l (length l - 1) = Some (last l 0%Z).
Proof.
  intros H. destruct (exists_last H) as (t & x & ->). rewrite last_last, app_length. cbn.
  rewrite nth_error_app2 by lia. replace (length t + 1 - 1 - length t) with 0 by lia. reflexivity.
Qed.

(** Split a list in three. *)
Lemma split3 (d : list Z) a b : a + b <= length d ->
  d = firstn a d ++ firstn b (skipn a d) ++ skipn (a + b) d.
Proof.
  intros. rewrite <- (firstn_skipn a d) at 1. f_equal.
  rewrite <- (firstn_skipn b (skipn a d)) at 1. f_equal. rewrite skipn_skipn. f_equal. lia.
Qed.

Lemma app_inv_len {A} (a b c d : list A) : length a = length c -> a ++ b = c ++ d -> a = c /\ b = d.
Proof.
  revert c. induction a as [|x a IH]; intros [|y c]; cbn; intros Hl H; try discriminate; auto.
  inversion H; subst. destruct (IH c) as [-> ->]; auto.
Qed.


Lemma last_skipn (d : list Z) n x : n < length d -> last (skipn n d) x = last d x.
Proof.
  revert n. induction d as [|a d IH]; intros [|n] H; cbn in H; try lia; auto.
  cbn [skipn]. rewrite IH by lia. destruct d; [cbn in H; lia|reflexivity].
Qed.

Definition pad_prop (b0 : Z) (padding : list Z) : Prop :=
  ((b0 / 32) mod 2 = 0 /\ padding = [] \/
   (b0 / 32) mod 2 = 1 /\ padding <> [] /\ last padding 0 = Z.of_nat (length padding))%Z.

(** The last part of the RTP parser: padding, then the fields. *)
Local Open Scope res_scope.
Definition rtp_tail (enc : Z -> option N) (p : pkt) (h mem : list Z) (buffer : slice) (hsize2 : nat) : res (option pkt) :=
  (let size := s_size buffer in
      pad <- (if h_has_padding h then
                if hsize2 =? size then Ok None else
                b <- sl_rd mem buffer (size - 1) ;;
                if (b =? 0)%Z then Ok None
                else if size - hsize2 <? Z.to_nat b then Ok None
                else Ok (Some (Z.to_nat b))
              else Ok (Some 0)) ;;
      match pad with
      | None => Ok None
      | Some pad =>
          let pend := size - pad in
          p <- add_flags p FlagRTP ;;
          let p := set_rtp_fields p (h_ssrc h) (h_seqnum h) (h_timestamp h) (h_marker h) (h_payload_type h) in
          hs <- sl_sub buffer 0 hsize2 ;;
          pl <- sl_sub buffer hsize2 pend ;;
          pd <- (if 0 <? pad then x <- sl_sub buffer pend (pend + pad) ;; Ok (Some x) else Ok (p_pad p)) ;;
          let p := set_rtp_slices p hs pl pd in
          p <- match enc (h_payload_type h) with
               | Some fl => add_flags p fl
               | None => Ok p
               end ;; Ok (Some p)
      end).

Lemma rtp_tail_spec enc p pre d post hd b0 hs :
  bytes_ok d -> flags_ok enc p -> d <> [] -> hs <= length d ->
  h_has_padding hd = ((b0 / 32) mod 2 =? 1)%Z ->
  (forall src seq ts mk pt hdr payload padding,
      rtp_datagram d src seq ts mk pt hdr payload padding ->
      length hdr = hs /\ d = hdr ++ payload ++ padding /\ pad_prop b0 padding) ->
  (forall payload padding, d = firstn hs d ++ payload ++ padding -> pad_prop b0 padding ->
       rtp_datagram d (h_ssrc hd) (h_seqnum hd) (h_timestamp hd) (h_marker hd) (h_payload_type hd)
         (firstn hs d) payload padding) ->
  let r := rtp_tail enc p hd (pre ++ d ++ post) (mkSl (length pre) (length d)) hs in
  (exists src seq ts mk pt hdr payload padding,
     rtp_datagram d src seq ts mk pt hdr payload padding /\
     r = Ok (Some (parsed p enc (length pre) src seq ts mk pt (length hdr) (length payload) (length padding))))
  \/ (r = Ok None /\ forall src seq ts mk pt hdr payload padding,
        ~ rtp_datagram d src seq ts mk pt hdr payload padding).
Proof.
  intros HB HF ND L HP HD2 MK. cbv zeta. unfold rtp_tail. cbn [s_size]. rewrite HP. unfold pad_prop in *.
  destruct (Z.eqb_spec ((b0 / 32) mod 2) 1) as [EP|NP].
  + destruct (Nat.eqb_spec hs (length d)) as [L3|L3].
    { right. split; [reflexivity|]. intros; intros H. apply HD2 in H.
      destruct H as (EL & E & [[? _]|(_ & NE & _)]); [lia|].
      apply (f_equal (@length Z)) in E. rewrite !app_length in E. destruct padding; [congruence|cbn in E; lia]. }
    rewrite (sl_rd_app pre d post _ _ (last_nth_error d ND)). cbn [bind].
    assert (HBl : byte_ok (last d 0%Z)).
    { unfold bytes_ok in HB. rewrite Forall_forall in HB. apply HB. apply (nth_error_In _ _ (last_nth_error d ND)). }
    set (b := last d 0%Z) in *.
    assert (HL : forall src seq ts mk pt hdr payload padding,
      rtp_datagram d src seq ts mk pt hdr payload padding -> (b = Z.of_nat (length padding))%Z /\ padding <> [] /\ length padding <= length d - hs).
    { intros src seq ts mk pt hdr payload padding H. apply HD2 in H.
      destruct H as (EL & E & [[? _]|(_ & NE & EQ)]); [lia|].
      assert (b = last padding 0%Z). { unfold b. rewrite E. destruct (exists_last NE) as (t & x & ->). rewrite !app_assoc, !last_last. reflexivity. }
      split; [congruence|]. split; [auto|]. apply (f_equal (@length Z)) in E. rewrite !app_length in E. lia. }
    destruct (Z.eqb_spec b 0) as [E0|N0].
    { right. split; [reflexivity|]. intros; intros H. apply HL in H. destruct H as (H1 & H2 & _). destruct padding; [congruence|cbn in H1; lia]. }
    destruct (Nat.ltb_spec (length d - hs) (Z.to_nat b)) as [L4|L4].
    { right. split; [reflexivity|]. intros; intros H. apply HL in H. destruct H as (H1 & _ & H2). lia. }
    cbn [bind]. left. unfold byte_ok in HBl.
    set (pad := Z.to_nat b) in *.
    set (payload := firstn (length d - pad - hs) (skipn hs d)). set (padding := skipn (length d - pad) d).
    assert (LPad : length padding = pad) by (unfold padding; rewrite skipn_length; lia).
    assert (LPay : length payload = length d - pad - hs) by (unfold payload; rewrite firstn_length, skipn_length; lia).
    assert (Lh : length (firstn hs d) = hs) by (rewrite firstn_length; lia).
    exists (h_ssrc hd), (h_seqnum hd), (h_timestamp hd), (h_marker hd), (h_payload_type hd), (firstn hs d), payload, padding.
    split.
    * apply MK.
      { unfold payload, padding. replace (length d - pad) with (hs + (length d - pad - hs)) at 2 by lia. apply split3. lia. }
      right. split; [exact EP|]. split; [intros E; rewrite E in LPad; cbn in LPad; lia|].
      rewrite LPad. assert (last padding 0%Z = b); [|lia].
      unfold b, padding. apply last_skipn. lia.
    * destruct HF as [HF1 HF2]. unfold add_flags at 1. cbn [set_rtp_slices set_rtp_fields p_flags]. rewrite HF1. cbn [N.eqb bind].
      rewrite sl_sub_ok by (cbn; lia). cbn [bind]. rewrite sl_sub_ok by (cbn; lia). cbn [bind].
      destruct (Nat.ltb_spec 0 pad); [|lia].
      rewrite sl_sub_ok by (cbn; lia). cbn [bind s_off].
      unfold parsed. rewrite Lh, LPay, LPad. rewrite Nat.add_0_r, Nat.sub_0_r.
      replace (length d - pad + pad - (length d - pad)) with pad by lia.
      replace (length pre + (length d - pad)) with (length pre + hs + (length d - pad - hs)) by lia.
      destruct (Nat.eqb_spec pad 0); [lia|].
      destruct (enc (h_payload_type hd)) as [fl|] eqn:EE.
      -- unfold add_flags. cbn [set_rtp_slices set_rtp_fields p_flags p_src p_seq p_ts p_marker p_pt p_hdr p_pay p_pad p_esi p_sbn p_k p_n p_pid p_fpay]. rewrite (HF2 _ _ EE). cbn [N.eqb bind]. reflexivity.
      -- cbn [bind]. unfold set_rtp_slices, set_rtp_fields. cbn [p_flags p_src p_seq p_ts p_marker p_pt p_hdr p_pay p_pad p_esi p_sbn p_k p_n p_pid p_fpay]. rewrite N.lor_0_r. reflexivity.
  + assert (EP0 : ((b0 / 32) mod 2 = 0)%Z) by (pose proof (Z.mod_pos_bound (b0 / 32) 2 ltac:(lia)); lia).
    cbn [bind]. left.
    assert (Lh : length (firstn hs d) = hs) by (rewrite firstn_length; lia).
    exists (h_ssrc hd), (h_seqnum hd), (h_timestamp hd), (h_marker hd), (h_payload_type hd), (firstn hs d), (skipn hs d), [].
    split.
    * apply MK; [rewrite app_nil_r, firstn_skipn; reflexivity|]. left; auto.
    * destruct HF as [HF1 HF2]. unfold add_flags at 1. cbn [set_rtp_slices set_rtp_fields p_flags]. rewrite HF1. cbn [N.eqb bind].
      rewrite sl_sub_ok by (cbn; lia). cbn [bind]. rewrite sl_sub_ok by (cbn; lia). cbn [bind s_off].
      change (0 <? 0) with false. cbv iota. cbn [bind].
      unfold parsed. rewrite Lh, skipn_length. rewrite !Nat.add_0_r, !Nat.sub_0_r. cbn [length Nat.eqb].
      destruct (enc (h_payload_type hd)) as [fl|] eqn:EE.
      -- unfold add_flags. cbn [set_rtp_slices set_rtp_fields p_flags p_src p_seq p_ts p_marker p_pt p_hdr p_pay p_pad p_esi p_sbn p_k p_n p_pid p_fpay]. rewrite (HF2 _ _ EE). cbn [N.eqb bind]. reflexivity.
      -- cbn [bind]. unfold set_rtp_slices, set_rtp_fields. cbn [p_flags p_src p_seq p_ts p_marker p_pt p_hdr p_pay p_pad p_esi p_sbn p_k p_n p_pid p_fpay]. rewrite N.lor_0_r. reflexivity.
Qed.

Lemma rtp_parse_spec enc p pre d post :
  bytes_ok d -> flags_ok enc p ->
  let r := p_parse enc (PRtp PNone) (pre ++ d ++ post) p (mkSl (length pre) (length d)) in
  (exists src seq ts mk pt hdr payload padding,
     rtp_datagram d src seq ts mk pt hdr payload padding /\
     r = Ok (Some (parsed p enc (length pre) src seq ts mk pt (length hdr) (length payload) (length padding))))
  \/ (r = Ok None /\ forall src seq ts mk pt hdr payload padding,
        ~ rtp_datagram d src seq ts mk pt hdr payload padding).
Proof.
  intros HB HF. cbv zeta. unfold p_parse. cbn [s_size]. unfold rtp_hdr_size.
  destruct (Nat.ltb_spec (length d) 12) as [L|L].
  { right. split; [reflexivity|]. intros src seq ts mk pt hdr payload padding H.
    destruct H as (? & ? & ? & ? & ? & ? & ? & ? & ? & ? & ? & ? & ? & ? & -> & -> & _).
    rewrite !app_length in L. cbn in L. lia. }
  assert (ND : d <> []) by (intros ->; cbn in L; lia).
  rewrite sl_read_app by lia. cbn [bind].
  destruct (twelve d L) as (b0 & b1 & b2 & b3 & b4 & b5 & b6 & b7 & b8 & b9 & b10 & b11 & r & ED).
  assert (EH : firstn 12 (skipn 0 d) = [b0; b1; b2; b3; b4; b5; b6; b7; b8; b9; b10; b11]) by (rewrite ED; reflexivity).
  rewrite EH.
  assert (HB0 : byte_ok b0) by (rewrite ED in HB; inversion HB; auto).
  assert (HB1 : byte_ok b1) by (rewrite ED in HB; inversion HB as [|? ? _ HB']; inversion HB'; auto).
  destruct (byte_bits b0 HB0) as (V & PB & XB & CC & _). destruct (byte_bits b1 HB1) as (_ & _ & _ & _ & MB & PTB).
  set (hd := [b0; b1; b2; b3; b4; b5; b6; b7; b8; b9; b10; b11]) in *.
  assert (h_version hd = (b0 / 64)%Z) as -> by (unfold h_version, hd; cbn [nth]; exact V).
  change (h_has_padding hd = ((b0 / 32) mod 2 =? 1)%Z) in PB.
  assert (h_has_extension hd = ((b0 / 16) mod 2 =? 1)%Z) as -> by exact XB.
  assert (h_header_size hd = 12 + Z.to_nat (b0 mod 16) * 4) as -> by (unfold h_header_size, h_num_csrc, hd, rtp_hdr_size; cbn [nth]; rewrite CC; reflexivity).
  (* facts every decomposition of d shares *)
  assert (HD : forall src seq ts mk pt hdr payload padding,
      rtp_datagram d src seq ts mk pt hdr payload padding ->
      exists csrc ext, hdr = hd ++ csrc ++ ext /\ d = hdr ++ payload ++ padding /\
        (b0 / 64 = 2)%Z /\ length csrc = Z.to_nat (b0 mod 16) * 4 /\
        ((b0 / 16) mod 2 = 0 /\ ext = [] \/ (b0 / 16) mod 2 = 1 /\
           exists e0 e1 e2 e3 data, ext = e0 :: e1 :: e2 :: e3 :: data /\ Z.of_nat (length data) = 4 * be16 e2 e3)%Z /\
        pad_prop b0 padding).
  { intros src seq ts mk pt hdr payload padding H.
    destruct H as (c0 & c1 & c2 & c3 & c4 & c5 & c6 & c7 & c8 & c9 & c10 & c11 & csrc & ext & -> & E & V2 & LC & LE & LP & _).
    assert (E' := E). rewrite ED in E'. cbn [app] in E'. inversion E'; subst c0 c1 c2 c3 c4 c5 c6 c7 c8 c9 c10 c11.
    exists csrc, ext. split; [reflexivity|]. split; [exact E|]. split; [exact V2|]. split; [lia|]. split; auto. }
  destruct (Z.eqb_spec (b0 / 64) 2) as [EV|NV]; cbn [negb].
  2:{ right. split; [reflexivity|]. intros. intros H. apply HD in H. destruct H as (? & ? & _ & _ & H & _). lia. }
  set (cl := Z.to_nat (b0 mod 16) * 4) in *.
  destruct (Z.eqb_spec ((b0 / 16) mod 2) 1) as [EX|NX].
  - (* extension *)
    destruct (Nat.ltb_spec (length d) (12 + cl + 4)) as [L1|L1].
    { right. split; [reflexivity|]. intros; intros H. apply HD in H.
      destruct H as (csrc & ext & -> & E & _ & LC & [[? _]|[_ LE]] & _); [lia|].
      destruct LE as (e0 & e1 & e2 & e3 & data & -> & _).
      apply (f_equal (@length Z)) in E. rewrite !app_length in E. cbn in E. lia. }
    rewrite sl_read_app by lia. cbn [bind].
    remember (skipn (12 + cl) d) as tail eqn:ET.
    assert (LT : length tail = length d - (12 + cl)) by (rewrite ET; apply skipn_length).
    destruct tail as [|e0 [|e1 [|e2 [|e3 rest]]]]; try (cbn in LT; lia).
    cbn [firstn]. change (get16_at [e0; e1; e2; e3] 2) with (be16 e2 e3). rewrite shiftl2.
    assert (HBt : bytes_ok (e0 :: e1 :: e2 :: e3 :: rest)).
    { rewrite ET. unfold bytes_ok in *. rewrite Forall_forall in *. intros x Hx. apply HB.
      rewrite <- (firstn_skipn (12 + cl) d). apply in_or_app; auto. }
    assert (HR : (0 <= be16 e2 e3 < 65536)%Z).
    { unfold bytes_ok in HBt. rewrite !Forall_cons_iff in HBt. apply be16_range; tauto. }
    set (el := Z.to_nat (4 * be16 e2 e3)) in *.
    assert (HD2 : forall src seq ts mk pt hdr payload padding,
      rtp_datagram d src seq ts mk pt hdr payload padding ->
      length hdr = 12 + cl + 4 + el /\ d = hdr ++ payload ++ padding /\
      pad_prop b0 padding).
    { intros src seq ts mk pt hdr payload padding H. apply HD in H.
      destruct H as (csrc & ext & -> & E & _ & LC & [[? _]|[_ LE]] & LP); [lia|].
      destruct LE as (f0 & f1 & f2 & f3 & data & -> & EL).
      rewrite E in ET. rewrite <- !app_assoc in ET. rewrite (app_assoc hd csrc) in ET.
      rewrite skipn_app in ET. rewrite skipn_all2 in ET by (rewrite app_length; cbn; lia).
      replace (12 + cl - length (hd ++ csrc)) with 0 in ET by (rewrite app_length; cbn; lia).
      cbn [skipn app] in ET. inversion ET; subst f0 f1 f2 f3.
      split; [rewrite !app_length; cbn [length]; unfold hd; cbn [length]; lia|]. auto. }
    destruct (Nat.ltb_spec (length d) (12 + cl + 4 + el)) as [L2|L2].
    { right. split; [reflexivity|]. intros; intros H. apply HD2 in H. destruct H as (EL & E & _).
      apply (f_equal (@length Z)) in E. rewrite !app_length in E. lia. }
    assert (Ehdr : firstn (12 + cl + 4 + el) d = hd ++ firstn cl (skipn 12 d) ++ e0 :: e1 :: e2 :: e3 :: firstn el rest).
    { assert (ES : skipn (12 + cl) d = e0 :: e1 :: e2 :: e3 :: rest) by auto.
      rewrite <- (firstn_skipn 12 d) at 1. rewrite firstn_app.
      rewrite (firstn_all2 (firstn 12 d)) by (rewrite firstn_length; lia).
      replace (firstn 12 d) with hd by (rewrite ED; reflexivity). f_equal.
      replace (12 + cl + 4 + el - length hd) with (cl + (4 + el)) by (cbn; lia).
      rewrite <- (firstn_skipn cl (skipn 12 d)) at 1. rewrite skipn_skipn, (Nat.add_comm cl 12), ES.
      rewrite firstn_app. rewrite (firstn_all2 (firstn cl (skipn 12 d))) by (rewrite firstn_length; lia).
      f_equal. rewrite firstn_length, skipn_length.
      replace (cl + (4 + el) - Nat.min cl (length d - 12)) with (4 + el) by lia. reflexivity. }
    assert (MK : forall payload padding, d = firstn (12 + cl + 4 + el) d ++ payload ++ padding ->
       pad_prop b0 padding ->
       rtp_datagram d (h_ssrc hd) (h_seqnum hd) (h_timestamp hd) (h_marker hd) (h_payload_type hd)
         (firstn (12 + cl + 4 + el) d) payload padding).
    { intros payload padding E LP.
      exists b0, b1, b2, b3, b4, b5, b6, b7, b8, b9, b10, b11, (firstn cl (skipn 12 d)), (e0 :: e1 :: e2 :: e3 :: firstn el rest).
      split; [exact Ehdr|]. split; [exact E|]. split; [exact EV|].
      split; [rewrite firstn_length, skipn_length; lia|].
      split; [right; split; [exact EX|]; exists e0, e1, e2, e3, (firstn el rest); split; [reflexivity|]; rewrite firstn_length; cbn in LT; lia|].
      split; [exact LP|]. unfold h_marker, h_payload_type, hd. cbn [nth]. change (Z.shiftl 1 7) with 128%Z. rewrite MB, PTB.
      unfold byte_ok in HB1. split; [destruct (Z.leb_spec 128 b1); lia|]. split; [lia|]. repeat split. }
    exact (rtp_tail_spec enc p pre d post hd b0 _ HB HF ND L2 PB HD2 MK).
  - (* no extension *)
    cbn [bind]. rewrite Nat.add_0_r.
    assert (EX0 : ((b0 / 16) mod 2 = 0)%Z) by (pose proof (Z.mod_pos_bound (b0 / 16) 2 ltac:(lia)); lia).
    assert (HD2 : forall src seq ts mk pt hdr payload padding,
      rtp_datagram d src seq ts mk pt hdr payload padding ->
      length hdr = 12 + cl /\ d = hdr ++ payload ++ padding /\ pad_prop b0 padding).
    { intros src seq ts mk pt hdr payload padding H. apply HD in H.
      destruct H as (csrc & ext & -> & E & _ & LC & [[_ ->]|[? _]] & LP); [|lia].
      split; [rewrite app_nil_r, app_length; unfold hd; cbn [length]; lia|]. auto. }
    destruct (Nat.ltb_spec (length d) (12 + cl)) as [L2|L2].
    { right. split; [reflexivity|]. intros; intros H. apply HD2 in H. destruct H as (EL & E & _).
      apply (f_equal (@length Z)) in E. rewrite !app_length in E. lia. }
    destruct (Nat.ltb_spec (length d) (12 + cl)) as [L2'|_]; [lia|].
    assert (Ehdr : firstn (12 + cl) d = hd ++ firstn cl (skipn 12 d) ++ []).
    { rewrite app_nil_r. rewrite <- (firstn_skipn 12 d) at 1. rewrite firstn_app.
      rewrite (firstn_all2 (firstn 12 d)) by (rewrite firstn_length; lia).
      replace (firstn 12 d) with hd by (rewrite ED; reflexivity). f_equal.
      f_equal. cbn; lia. }
    assert (MK : forall payload padding, d = firstn (12 + cl) d ++ payload ++ padding ->
       pad_prop b0 padding ->
       rtp_datagram d (h_ssrc hd) (h_seqnum hd) (h_timestamp hd) (h_marker hd) (h_payload_type hd)
         (firstn (12 + cl) d) payload padding).
    { intros payload padding E LP.
      exists b0, b1, b2, b3, b4, b5, b6, b7, b8, b9, b10, b11, (firstn cl (skipn 12 d)), [].
      split; [exact Ehdr|]. split; [exact E|]. split; [exact EV|].
      split; [rewrite firstn_length, skipn_length; lia|].
      split; [left; auto|].
      split; [exact LP|]. unfold h_marker, h_payload_type, hd. cbn [nth]. change (Z.shiftl 1 7) with 128%Z. rewrite MB, PTB.
      unfold byte_ok in HB1. split; [destruct (Z.leb_spec 128 b1); lia|]. split; [lia|]. repeat split. }
    exact (rtp_tail_spec enc p pre d post hd b0 _ HB HF ND L2 PB HD2 MK).
Qed.
