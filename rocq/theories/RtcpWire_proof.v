From Coq Require Import Lia.
From Verif Require Import Base Base_lemmas Ntp_model Ntp_proof RtcpTrav_model RtcpBuild_model RtcpBuild_spec RtcpBuild_proof RtcpRead_proof RtcpBack_proof RtcpWire_spec.
Local Open Scope nat_scope.

Lemma len_be n : forall x, length (be n x) = n.
Proof. induction n as [|n IH]; intros x; cbn [be]; [reflexivity|]. rewrite app_length, IH. cbn. lia. Qed.
Lemma div256 x k : (0 <= k)%Z -> (x / 256 / 2 ^ (8 * k) = x / 2 ^ (8 * (k + 1)))%Z.
Proof. intros H. rewrite Z.div_div by (try lia; apply Z.pow_pos_nonneg; lia). f_equal. replace (8 * (k + 1))%Z with (8 + 8 * k)%Z by lia. rewrite Z.pow_add_r by lia. reflexivity. Qed.
Lemma put32_be x : put32 x = be 4 x.
Proof.
  unfold put32, byte_of. cbn [be app]. rewrite (Z.div_div (x / 256)) by lia. rewrite !Z.div_div by lia. cbn. change (2 ^ 0)%Z with 1%Z. rewrite ?Z.div_1_r. reflexivity.
Qed.
Lemma put16_be x : put16 x = be 2 x.
Proof. unfold put16, byte_of. cbn [be app]. cbn. rewrite ?Z.div_1_r. reflexivity. Qed.
Lemma be_split a b x : be (a + b) x = be a (x / 256 ^ Z.of_nat b) ++ be b (x mod 256 ^ Z.of_nat b).
Proof.
  revert x. induction b as [|b IH]; intros x.
  - rewrite Nat.add_0_r. cbn [be]. change (256 ^ Z.of_nat 0)%Z with 1%Z. rewrite Z.div_1_r, app_nil_r. reflexivity.
  - rewrite Nat.add_succ_r. cbn [be]. rewrite IH, <- app_assoc. assert (P : (0 < 256 ^ Z.of_nat b)%Z) by (apply Z.pow_pos_nonneg; lia).
    replace (256 ^ Z.of_nat (S b))%Z with (256 * 256 ^ Z.of_nat b)%Z by (rewrite Nat2Z.inj_succ, Z.pow_succ_r by lia; reflexivity).
    rewrite Z.div_div by lia. do 2 f_equal.
    + f_equal. rewrite Z.rem_mul_r by lia. rewrite (Z.mul_comm 256), Z.div_add by lia. rewrite (Z.div_small (x mod 256)) by lia. reflexivity.
    + f_equal. rewrite Z.rem_mul_r by lia. rewrite (Z.mul_comm 256), Z.mod_add by lia. rewrite Zmod_mod. reflexivity.
Qed.
Lemma get_units m y : ntp32_get m = y -> m = units y.
Proof. intros <-. unfold ntp32_get, units. rewrite Z.shiftl_mul_pow2 by lia. rewrite Z.div_mul by lia. reflexivity. Qed.
Lemma time_be x : is_u 64 x -> put_ntp32 (ntp32_set x) = be 4 (units (middle x)).
Proof. intros H. unfold put_ntp32. rewrite put32_be, (get_units _ _ (mid_time x H)). reflexivity. Qed.
Lemma delay_be x : is_dur x -> put_ntp32 (set_delay x) = be 4 (units (delay x)).
Proof. intros H. unfold put_ntp32. rewrite put32_be, (get_units _ _ (mid_delay x H)). reflexivity. Qed.
Lemma metric_be x : is_odur x -> put_ntp32 (metric32 x) = be 4 (units (metric x)).
Proof. intros H. unfold put_ntp32. rewrite put32_be, (get_units _ _ (mid_metric x H)). reflexivity. Qed.
Lemma pair_be m : (0 <= snd m < 2 ^ 32)%Z -> put32 (fst m) ++ put32 (snd m) = be 8 (ntp64_get m).
Proof.
  intros H. rewrite !put32_be. change 8 with (4 + 4) at 1. rewrite be_split. unfold ntp64_get. rewrite lor_shiftl_add by lia.
  change (256 ^ Z.of_nat 4)%Z with (2 ^ 32)%Z. rewrite Z.add_comm, Z.div_add, Z.mod_add by lia. rewrite (Z.div_small (snd m)), (Z.mod_small (snd m)) by lia. reflexivity.
Qed.
Lemma ntp64_be t : is_u 64 t -> put_ntp64 t = be 8 t.
Proof. intros H. unfold put_ntp64. rewrite pair_be by apply u32_range. rewrite ntp64_rt by exact H. reflexivity. Qed.
Lemma latency_be o : match o with Some x => is_u 64 x | None => True end -> put32 (fst (metric64 o)) ++ put32 (snd (metric64 o)) = be 8 (latency o).
Proof. intros H. rewrite pair_be by apply metric64_range. rewrite mid_latency by exact H. reflexivity. Qed.
Lemma clamp_max c : clamp_cum c = Z.max (- 2 ^ 23) (Z.min (2 ^ 23 - 1) c).
Proof. unfold clamp_cum. change (2 ^ 23)%Z with 8388608%Z. destruct (Z.ltb_spec 0x7FFFFF c); [lia|]. destruct (Z.ltb_spec c (-0x7FFFFF - 1)); lia. Qed.
Lemma losses_be f c : is_u 8 f -> put32 (put_losses f c) = be 1 f ++ be 3 (Z.max (- 2 ^ 23) (Z.min (2 ^ 23 - 1) c) mod 2 ^ 24)%Z.
Proof.
  intros H. rewrite losses_val by exact H. rewrite clamp_max, put32_be. set (y := (Z.max _ _ mod 2 ^ 24)%Z). assert (R : (0 <= y < 2 ^ 24)%Z) by (apply Z.mod_pos_bound; lia). clearbody y.
  change 4 with (1 + 3). rewrite be_split. change (256 ^ Z.of_nat 3)%Z with (2 ^ 24)%Z. rewrite Z.add_comm, Z.div_add, Z.mod_add by lia. rewrite (Z.div_small y), (Z.mod_small y) by lia. reflexivity.
Qed.
Lemma report_be r : rin_ok r -> enc_rin r = wire_report r.
Proof. intros (A & B & C & D & E & F). unfold enc_rin, wire_report. rewrite losses_be, time_be, delay_be by assumption. rewrite !put32_be, <- !app_assoc. reflexivity. Qed.
Lemma sub_be d : din_ok d -> enc_din d = wire_sub d.
Proof. intros (A & B & C). unfold enc_din, wire_sub. rewrite time_be, delay_be by assumption. rewrite put32_be. reflexivity. Qed.
Lemma concat_ext {A} (f g : A -> list Z) (P : A -> Prop) l : (forall x, P x -> f x = g x) -> Forall P l -> concat (map f l) = concat (map g l).
Proof. intros H F. induction F as [|x l Px F IH]; cbn [map concat]; [reflexivity|]. rewrite IH, (H x Px). reflexivity. Qed.
Lemma pkt_block ty fl f body : fl = (f * 64)%Z -> pkt ty fl body = block ty f body.
Proof. intros ->. unfold pkt, hd4, block. rewrite <- put16_be. reflexivity. Qed.
Lemma flag_mul f : is_u 2 f -> set_flag f = (f * 64)%Z.
Proof. intros H. unfold is_u in H. assert (C : (f = 0 \/ f = 1 \/ f = 2 \/ f = 3)%Z) by lia. destruct C as [C|[C|[C|C]]]; rewrite C; reflexivity. Qed.
Lemma block_be x : xin_ok x -> enc_xin x = wire_block x.
Proof.
  destruct x as [n|l|m|d|q]; cbn [xin_ok enc_xin wire_block]; intros H.
  - rewrite (pkt_block _ _ 0) by reflexivity. rewrite ntp64_be by exact H. reflexivity.
  - rewrite (pkt_block _ _ 0) by reflexivity. rewrite (concat_ext enc_din wire_sub _ l sub_be H). reflexivity.
  - rewrite (pkt_block _ _ 0) by reflexivity. destruct H as (A & B & C & D & E & F). unfold enc_meas. cbn [xhead app skipn].
    rewrite delay_be, ntp64_be by assumption. rewrite !put32_be, !put16_be. reflexivity.
  - destruct H as (A & B & C & D & E & F). rewrite (pkt_block _ _ (yi_flag d)) by (apply flag_mul; exact A). unfold enc_delay. cbn [xhead app skipn].
    rewrite latency_be, !metric_be by assumption. rewrite !put32_be. reflexivity.
  - destruct H as (A & B & C & D). rewrite (pkt_block _ _ (qi_flag q)) by (apply flag_mul; exact A). unfold enc_queue. cbn [xhead app skipn].
    rewrite !metric_be by assumption. rewrite !put32_be. reflexivity.
Qed.
Lemma up4_gap n : up4 (n + 1) - n = gap n.
Proof.
  unfold up4, gap. pose proof (Nat.div_mod n 4 ltac:(lia)) as E. pose proof (Nat.mod_upper_bound n 4 ltac:(lia)) as L. set (q := n / 4) in *. set (r := n mod 4) in *.
  replace (Z.of_nat (n + 1) + 3)%Z with (Z.of_nat r + (Z.of_nat q + 1) * 4)%Z by lia. rewrite Z.div_add by lia. rewrite Z.div_small by lia. lia.
Qed.
Lemma up4_pad n : up4 n - n = padding_len n 0.
Proof.
  unfold up4, padding_len. rewrite Nat.add_0_r, Nat.add_0_l. assert (Ld : Z.land (Z.of_nat n) 3 = (Z.of_nat n mod 4)%Z) by (change 3%Z with (Z.ones 2); rewrite Z.land_ones by lia; reflexivity). rewrite Ld. clear Ld.
  pose proof (Z.div_mod (Z.of_nat n) 4 ltac:(lia)) as E. pose proof (Z.mod_pos_bound (Z.of_nat n) 4 ltac:(lia)) as L. set (q := (Z.of_nat n / 4)%Z) in *. set (r := (Z.of_nat n mod 4)%Z) in *. clearbody q r.
  assert (D : ((Z.of_nat n + 3) / 4 = if r =? 0 then q else q + 1)%Z) by (destruct (Z.eqb_spec r 0); lia). rewrite D. destruct (Z.eqb_spec r 0); lia.
Qed.
Lemma item_be i : item_ok i -> enc_item i = wire_item i.
Proof. intros (A & B & _). unfold enc_item, wire_item. f_equal. unfold u8, wrapu. rewrite !Z.mod_small by lia. reflexivity. Qed.
Lemma chunk_be c : chunk_ok c -> enc_chunk c = wire_chunk c.
Proof.
  intros (A & B & _). unfold enc_chunk, wire_chunk. unfold enc_items. rewrite (concat_ext enc_item wire_item _ _ item_be B). rewrite put32_be, up4_gap. reflexivity.
Qed.
Lemma reason_be t : text_ok t -> enc_reason t = wire_reason t.
Proof.
  intros (A & _). unfold enc_reason, wire_reason. cbn [length]. rewrite up4_pad. change (S (length t)) with (1 + length t).
  assert (E : u8 (Z.of_nat (length t)) = Z.of_nat (length t)) by (unfold u8, wrapu; apply Z.mod_small; lia). rewrite E. reflexivity.
Qed.
Lemma body_be p : pk_ok p -> body_of p = wire_body p.
Proof.
  destruct p as [s rs|s rs|cs|ss r|s bs]; cbn [pk_ok body_of wire_body]; intros H.
  - destruct H as ((A & B & C & D & E) & F & _). rewrite (concat_ext enc_rin wire_report _ rs report_be F). unfold enc_sr. cbn [head app skipn].
    rewrite ntp64_be by exact B. rewrite !put32_be, <- !app_assoc. reflexivity.
  - destruct H as (A & F & _). rewrite (concat_ext enc_rin wire_report _ rs report_be F), put32_be. reflexivity.
  - destruct H as (F & _). apply (concat_ext enc_chunk wire_chunk _ cs chunk_be F).
  - destruct H as (F & _ & T). rewrite (concat_ext put32 (be 4) _ ss (fun x _ => put32_be x) F). f_equal. destruct r as [t|]; [apply reason_be; exact T|reflexivity].
  - destruct H as (A & F). rewrite (concat_ext enc_xin wire_block _ bs block_be F), put32_be. reflexivity.
Qed.
Lemma penc_be p pad : pk_ok p -> pad_ok pad -> penc p pad = wire p pad.
Proof.
  intros H P. unfold penc, phead, wire. rewrite <- (body_be p H).
  assert (E : wire_padding pad = padb pad) by (destruct pad; reflexivity). rewrite E.
  replace (length (body_of p ++ padb pad)) with (length (body_of p) + padn pad) by (rewrite app_length, len_padb by exact P; reflexivity).
  unfold hd4. rewrite <- put16_be, <- app_assoc. cbn [app put16].
  assert (Et : wire_type p = ty_of p) by (destruct p; reflexivity). rewrite Et. f_equal. unfold hbyte. assert (Ec : wire_count p = cnt_of p) by (destruct p; reflexivity). rewrite Ec. destruct pad; cbn [padf]; lia.
Qed.
Lemma cenc_be ps pad : Forall pk_ok ps -> pad_ok pad -> concat (cenc ps pad) = wire_all ps pad.
Proof.
  intros F P. induction F as [|p ps H F IH]; [reflexivity|]. destruct ps as [|p' ps].
  - cbn [cenc concat wire_all]. rewrite app_nil_r. apply penc_be; assumption.
  - change (cenc (p :: p' :: ps) pad) with (penc p None :: cenc (p' :: ps) pad). change (wire_all (p :: p' :: ps) pad) with (wire p None ++ wire_all (p' :: ps) pad).
    cbn [concat]. rewrite IH, penc_be by (try exact H; exact I). reflexivity.
Qed.
