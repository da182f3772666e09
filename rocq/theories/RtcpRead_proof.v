From Coq Require Import Lia.
From Verif Require Import Base Base_lemmas Ntp_model Ntp_proof RtcpTrav_model RtcpTrav_spec RtcpTrav_proof RtcpCompound_proof RtcpBuild_model RtcpBuild_spec RtcpBuild_proof.
Open Scope res_scope.
Local Open Scope nat_scope.

(** *** Bytes at an offset *)
Definition at_ (l : list Z) (p : nat) (bs : list Z) : Prop := exists q r, l = q ++ bs ++ r /\ length q = p.
Lemma at_app l p a b : at_ l p (a ++ b) -> at_ l p a /\ at_ l (p + length a) b.
Proof.
  intros (q & r & -> & <-). split.
  - exists q, (b ++ r). rewrite <- app_assoc. auto.
  - exists (q ++ a), r. rewrite app_length, <- !app_assoc. auto.
Qed.
Lemma at_len l p a : at_ l p a -> p + length a <= length l.
Proof. intros (q & r & -> & <-). rewrite !app_length. lia. Qed.
Lemma at_rd l p x r : at_ l p (x :: r) -> rd l p = Ok x.
Proof. intros (q & t & -> & <-). apply rd_mid0. Qed.
Lemma at_cons l p x r : at_ l p (x :: r) -> rd l p = Ok x /\ at_ l (p + 1) r.
Proof. intros H. split; [apply (at_rd _ _ _ _ H)|]. change (x :: r) with ([x] ++ r) in H. apply at_app in H. apply H. Qed.
Lemma at_idx l p x r : at_ l p (x :: r) -> idx l p = Ok x.
Proof. intros H. unfold idx. pose proof (at_len _ _ _ H). cbn [length] in *. destruct (Nat.ltb_spec (length l) p); [lia|]. apply (at_rd _ _ _ _ H). Qed.
Lemma at_sub l p a : at_ l p a -> sub l p (p + length a) = Ok a.
Proof. intros (q & r & -> & <-). apply sub_mid. Qed.
Lemma at_mid pre a r : at_ (pre ++ a ++ r) (length pre) a.
Proof. exists pre, r. auto. Qed.
Lemma r32_bytes l p x : at_ l p (put32 x) -> (0 <= x < 2 ^ 32)%Z -> r32 l p = Ok x.
Proof.
  intros A H. unfold r32, put32 in *. apply at_cons in A. destruct A as [-> A]. cbn [bind]. apply at_cons in A. destruct A as [-> A]. cbn [bind].
  replace (p + 2) with (p + 1 + 1) by lia. apply at_cons in A. destruct A as [-> A]. cbn [bind]. replace (p + 3) with (p + 1 + 1 + 1) by lia.
  apply at_cons in A. destruct A as [-> A]. cbn [bind]. rewrite be32_put32 by exact H. reflexivity.
Qed.
Lemma r16_bytes l p x : at_ l p (put16 x) -> (0 <= x < 65536)%Z -> r16 l p = Ok x.
Proof.
  intros A H. unfold r16, put16 in *. apply at_cons in A. destruct A as [-> A]. cbn [bind]. apply at_cons in A. destruct A as [-> A]. cbn [bind].
  rewrite be16_put16 by exact H. reflexivity.
Qed.
Lemma u32_range x : (0 <= u32 x < 2 ^ 32)%Z. Proof. unfold u32, wrapu. apply Z.mod_pos_bound. lia. Qed.
Lemma r64_bytes l p m : at_ l p (put32 (fst m) ++ put32 (snd m)) -> (0 <= fst m < 2 ^ 32)%Z -> (0 <= snd m < 2 ^ 32)%Z -> r64 l p = Ok (ntp64_get m).
Proof. intros A H1 H2. apply at_app in A. destruct A as [A1 A2]. cbn [length put32] in A2. unfold r64. rewrite (r32_bytes _ _ _ A1 H1). cbn [bind]. rewrite (r32_bytes _ _ _ A2 H2). reflexivity. Qed.
Lemma r64_ntp l p t : at_ l p (put_ntp64 t) -> is_u 64 t -> r64 l p = Ok t.
Proof. intros A H. rewrite (r64_bytes l p (ntp64_set t) A); [|apply u32_range|apply u32_range]. rewrite ntp64_rt by exact H. reflexivity. Qed.
Lemma rmid_bytes l p m : at_ l p (put_ntp32 m) -> (0 <= m < 2 ^ 32)%Z -> rmid l p = Ok (ntp32_get m).
Proof. intros A H. unfold rmid. rewrite (r32_bytes _ _ _ A H). reflexivity. Qed.
Lemma mid_time x : is_u 64 x -> ntp32_get (ntp32_set x) = middle x.
Proof. intros H. rewrite ntp32_get_set by apply H. reflexivity. Qed.
Lemma mid_delay x : is_dur x -> ntp32_get (set_delay x) = delay x.
Proof.
  intros H. unfold is_dur in H. unfold set_delay. rewrite clamp32_spec by (unfold max_delay; ntp_pow; lia). unfold delay, rounded, max_delay. ntp_pow.
  rewrite ntp32_get_set by lia. rewrite Z.div_mul by lia. rewrite Z.mod_small by lia. f_equal. rewrite Z.min_comm. reflexivity.
Qed.
Lemma mid_metric o : is_odur o -> ntp32_get (metric32 o) = metric o.
Proof.
  destruct o as [x|]; cbn [is_odur metric32 metric]; intros H.
  - unfold is_dur in H. unfold set_metric_32. rewrite clamp32_spec by (unfold metric_unavail_32; ntp_pow; lia). unfold rounded, metric_unavail_32. ntp_pow.
    rewrite ntp32_get_set by lia. rewrite Z.div_mul by lia. rewrite Z.mod_small by lia. f_equal. rewrite Z.min_comm. reflexivity.
  - vm_compute. reflexivity.
Qed.
Lemma mid_latency o : match o with Some x => is_u 64 x | None => True end -> ntp64_get (metric64 o) = latency o.
Proof.
  destruct o as [x|]; cbn [metric64 latency]; intros H; [|vm_compute; reflexivity]. unfold is_u in H. unfold set_metric_64, ntp_clamp_64, metric_unavail_64. ntp_pow.
  destruct (Z.ltb_spec (18446744073709551615 - 1) x); rewrite ntp64_rt by lia; lia.
Qed.
Lemma metric64_range o : (0 <= fst (metric64 o) < 2 ^ 32)%Z /\ (0 <= snd (metric64 o) < 2 ^ 32)%Z.
Proof. destruct o; split; apply u32_range. Qed.
Lemma metric32_range o : (0 <= metric32 o < 2 ^ 32)%Z.
Proof. destruct o; apply u32_range. Qed.

(** *** Losses *)
Lemma losses_val f c : is_u 8 f -> put_losses f c = (f * 2 ^ 24 + clamp_cum c mod 2 ^ 24)%Z.
Proof.
  intros H. unfold is_u in H. unfold put_losses. cbv zeta. rewrite Z.land_0_l, Z.lor_0_l.
  assert (E1 : Z.land f 0xFF = f) by (change 0xFF%Z with (Z.ones 8); rewrite Z.land_ones by lia; apply Z.mod_small; lia). rewrite E1.
  assert (E2 : u32 (Z.shiftl f 24) = (f * 2 ^ 24)%Z) by (unfold u32, wrapu; rewrite Z.shiftl_mul_pow2 by lia; apply Z.mod_small; lia). rewrite E2.
  assert (E3 : Z.land (f * 2 ^ 24) (u32 (Z.lnot 0xFFFFFF)) = (f * 2 ^ 24)%Z).
  { change (u32 (Z.lnot 0xFFFFFF)) with (Z.shiftl (Z.ones 8) 24). rewrite land_mid by lia. rewrite Z.div_mul by lia. rewrite (Z.mod_small f) by lia. reflexivity. }
  rewrite E3.
  assert (E4 : u32 (Z.land (u32 (clamp_cum c)) 0xFFFFFF) = (clamp_cum c mod 2 ^ 24)%Z).
  { change 0xFFFFFF%Z with (Z.ones 24). rewrite Z.land_ones by lia. unfold u32, wrapu. lia. }
  rewrite E4. apply (lor_add _ _ 24); [lia|apply Z.mod_pos_bound; lia|apply Z.mod_mul; lia].
Qed.
Lemma losses_fract_rt f c : is_u 8 f -> losses_fract (put_losses f c) = f.
Proof.
  intros H. rewrite losses_val by exact H. unfold is_u in H. unfold losses_fract. change 0xFF%Z with (Z.ones 8). rewrite Z.land_ones, Z.shiftr_div_pow2 by lia.
  rewrite Z.div_add_l by lia. pose proof (Z.mod_pos_bound (clamp_cum c) (2 ^ 24) ltac:(lia)). rewrite (Z.div_small (_ mod _)) by lia. rewrite Z.add_0_r. apply Z.mod_small. lia.
Qed.
Lemma losses_cum_rt f c : is_u 8 f -> losses_cum (put_losses f c) = Z.max (- 2 ^ 23) (Z.min (2 ^ 23 - 1) c).
Proof.
  intros H. rewrite losses_val by exact H. unfold is_u in H.
  assert (Ec : Z.max (- 2 ^ 23) (Z.min (2 ^ 23 - 1) c) = clamp_cum c). { unfold clamp_cum. destruct (Z.ltb_spec 0x7FFFFF c), (Z.ltb_spec c (-0x7FFFFF - 1)); lia. }
  assert (Rc : (- 2 ^ 23 <= clamp_cum c < 2 ^ 23)%Z) by (rewrite <- Ec; lia). rewrite Ec. set (v := clamp_cum c) in *. unfold losses_cum. rewrite Z.shiftr_0_r.
  assert (E : Z.land (f * 2 ^ 24 + v mod 2 ^ 24) 0xFFFFFF = (v mod 2 ^ 24)%Z).
  { change 0xFFFFFF%Z with (Z.ones 24). rewrite Z.land_ones by lia. rewrite Z.add_comm, Z.mod_add by lia. apply Z.mod_mod. lia. }
  rewrite E. cbv zeta. assert (Em : (v mod 2 ^ 24 = if v <? 0 then v + 2 ^ 24 else v)%Z).
  { destruct (Z.ltb_spec v 0); [symmetry; apply Z.mod_unique with (q := (-1)%Z); lia|apply Z.mod_small; lia]. }
  assert (Eb : Z.land (v mod 2 ^ 24) (Z.shiftl 1 23) = (if v <? 0 then 2 ^ 23 else 0)%Z).
  { change (Z.shiftl 1 23) with (Z.shiftl (Z.ones 1) 23). rewrite land_mid by lia. rewrite Em. destruct (Z.ltb_spec v 0).
    - replace ((v + 2 ^ 24) / 2 ^ 23)%Z with 1%Z by (apply Z.div_unique with (r := (v + 2 ^ 23)%Z); lia). reflexivity.
    - rewrite (Z.div_small v) by lia. reflexivity. }
  rewrite Eb. destruct (Z.ltb_spec v 0).
  - change (2 ^ 23 =? 0)%Z with false. cbn iota. rewrite Z.lor_comm, (lor_add _ _ 24); [|lia|apply Z.mod_pos_bound; lia|vm_compute; reflexivity].
    rewrite Em. change (u32 (Z.lnot 0xFFFFFF)) with (2 ^ 32 - 2 ^ 24)%Z. unfold s32, wraps. replace (2 ^ 32 - 2 ^ 24 + (v + 2 ^ 24))%Z with (v + 2 ^ 32)%Z by lia.
    rewrite (Z.mod_small (v + 2 ^ 32)) by lia. cbv zeta. destruct (Z.ltb_spec (v + 2 ^ 32) (2 ^ (32 - 1))); lia.
  - cbn [Z.eqb]. rewrite Em. unfold s32, wraps. rewrite Z.mod_small by lia. cbv zeta. destruct (Z.ltb_spec v (2 ^ (32 - 1))); lia.
Qed.
Lemma losses_range f c : is_u 8 f -> (0 <= put_losses f c < 2 ^ 32)%Z.
Proof. intros H. rewrite losses_val by exact H. unfold is_u in H. pose proof (Z.mod_pos_bound (clamp_cum c) (2 ^ 24) ltac:(lia)). lia. Qed.

(** *** Blocks *)
Lemma len_put16 x : length (put16 x) = 2. Proof. reflexivity. Qed.
Lemma len_ntp32 x : length (put_ntp32 x) = 4. Proof. reflexivity. Qed.
Lemma len_ntp64 x : length (put_ntp64 x) = 8. Proof. reflexivity. Qed.
Ltac cut A := apply at_app in A; let H := fresh "A" in destruct A as [H A]; rewrite ?len_put32, ?len_put16, ?len_ntp32, ?len_ntp64 in A.
Lemma rblock_at l p r : at_ l p (enc_rin r) -> rin_ok r -> read_rblock l p = Ok (see_rin r).
Proof.
  intros A (O1 & O2 & O3 & O4 & O5 & O6). unfold enc_rin in A. do 5 cut A. unfold read_rblock.
  rewrite (r32_bytes _ _ _ A0 O1). cbn [bind]. rewrite (r32_bytes _ _ _ A1 (losses_range _ _ O2)). cbn [bind].
  replace (p + 8) with (p + 4 + 4) by lia. rewrite (r32_bytes _ _ _ A2 O3). cbn [bind]. replace (p + 12) with (p + 4 + 4 + 4) by lia. rewrite (r32_bytes _ _ _ A3 O4). cbn [bind].
  replace (p + 16) with (p + 4 + 4 + 4 + 4) by lia. rewrite (rmid_bytes _ _ _ A4 (u32_range _)). cbn [bind]. replace (p + 20) with (p + 4 + 4 + 4 + 4 + 4) by lia.
  rewrite (rmid_bytes _ _ _ A (u32_range _)). cbn [bind]. rewrite losses_fract_rt, losses_cum_rt, mid_time, mid_delay by assumption. reflexivity.
Qed.
Lemma dblock_at l p r : at_ l p (enc_din r) -> din_ok r -> read_dblock l p = Ok (see_din r).
Proof.
  intros A (O1 & O2 & O3). unfold enc_din in A. do 2 cut A. unfold read_dblock.
  rewrite (r32_bytes _ _ _ A0 O1). cbn [bind]. rewrite (rmid_bytes _ _ _ A1 (u32_range _)). cbn [bind]. replace (p + 8) with (p + 4 + 4) by lia.
  rewrite (rmid_bytes _ _ _ A (u32_range _)). cbn [bind]. rewrite mid_time, mid_delay by assumption. reflexivity.
Qed.
Lemma blocks_at {A B} (rdb : nat -> res B) (enc : A -> list Z) (sv : A -> B) (okp : A -> Prop) size l p num :
  (forall x q, okp x -> at_ l q (enc x) -> rdb q = Ok (sv x)) -> (forall x, length (enc x) = size) ->
  forall xs i, at_ l (p + size * i) (concat (map enc xs)) -> Forall okp xs -> i + length xs <= num -> read_blocks rdb size p num i (length xs) = Ok (map sv xs).
Proof.
  intros H1 H2. induction xs as [|x xs IH]; intros i At F L; cbn [length read_blocks map]; [reflexivity|]. cbn [length map concat] in *. inversion F; subst.
  destruct (Nat.leb_spec num i); [lia|]. apply at_app in At. destruct At as [A1 A2]. rewrite (H1 x) by assumption. cbn [bind].
  rewrite H2 in A2. rewrite (IH (i + 1)); [reflexivity|replace (p + size * (i + 1)) with (p + size * i + size) by lia; exact A2|assumption|lia].
Qed.

(** *** Header bytes *)
Lemma head_byte c (f : bool) : c <= 31 -> let b := (128 + Z.of_nat c + if f then 32 else 0)%Z in
  counter b = c /\ version b = 2%Z /\ has_padding b = f /\ byte_ok b.
Proof. intros H. cbv zeta. unfold byte_ok. do 32 (destruct c as [|c]; [destruct f; repeat split; vm_compute; congruence|]). lia. Qed.
Lemma len_field n : n mod 4 = 0 -> (Z.of_nat n + 4 <= 65535)%Z -> (0 <= Z.of_nat n / 4 < 65536)%Z /\ len_bytes (Z.of_nat n / 4) = 4 + n.
Proof. intros H L. assert (Z.of_nat n mod 4 = 0)%Z by (change 4%Z with (Z.of_nat 4); rewrite <- (Nat2Z.inj_mod n 4); rewrite H; reflexivity). split; [lia|]. unfold len_bytes. lia. Qed.

(** *** Reports *)
Lemma at_here a r : at_ (a ++ r) 0 a. Proof. exists [], r. auto. Qed.
Lemma at_skip a b : at_ (a ++ b) (length a) b. Proof. exists a, []. rewrite app_nil_r. auto. Qed.
Lemma sr_core b0 h2 h3 s rs : pk_ok (PSr s rs) -> counter b0 = length rs ->
  read_sr ([b0; RTCP_SR; h2; h3] ++ body_of (PSr s rs)) = Ok (see (PSr s rs)) /\ check_sr ([b0; RTCP_SR; h2; h3] ++ body_of (PSr s rs)) = Ok true.
Proof.
  intros ((O1 & O2 & O3 & O4 & O5) & F & L) C. set (l := [b0; RTCP_SR; h2; h3] ++ body_of (PSr s rs)).
  assert (A : at_ l 4 (body_of (PSr s rs))) by (apply (at_skip [b0; RTCP_SR; h2; h3])).
  assert (Ll : length l = 28 + 24 * length rs) by (unfold l; rewrite app_length; pose proof (len_pk (PSr s rs)) as X; unfold enc_pk in X; rewrite len_pkt in X; cbn [size length] in *; lia).
  cbn [body_of] in A. change (skipn 4 (enc_sr s)) with (put32 (si_ssrc s) ++ put_ntp64 (si_ntp s) ++ put32 (si_rtp s) ++ put32 (si_packets s) ++ put32 (si_octets s)) in A.
  rewrite <- !app_assoc in A. do 5 cut A. cbn [Nat.add] in A, A0, A1, A2, A3, A4.
  split.
  - unfold read_sr. change (rd l 0) with (Ok b0). cbn [bind]. rewrite (r32_bytes _ _ _ A0 O1). cbn [bind]. rewrite (r64_ntp _ _ _ A1 O2). cbn [bind].
    rewrite (r32_bytes _ _ _ A2 O3). cbn [bind]. rewrite (r32_bytes _ _ _ A3 O4). cbn [bind]. rewrite (r32_bytes _ _ _ A4 O5). cbn [bind]. rewrite C.
    rewrite (blocks_at (read_rblock l) enc_rin see_rin rin_ok 24 l 28 (length rs)); [reflexivity| |apply len_rin|exact A|exact F|lia].
    intros x q Ox Ax. apply rblock_at; assumption.
  - unfold check_sr. change (rd l 0) with (Ok b0). cbn [bind]. rewrite C, Ll. destruct (Nat.leb_spec (28 + length rs * 24) (28 + 24 * length rs)); [reflexivity|lia].
Qed.
Lemma rr_core b0 h2 h3 s rs : pk_ok (PRr s rs) -> counter b0 = length rs ->
  read_rr ([b0; RTCP_RR; h2; h3] ++ body_of (PRr s rs)) = Ok (see (PRr s rs)) /\ check_rr ([b0; RTCP_RR; h2; h3] ++ body_of (PRr s rs)) = Ok true.
Proof.
  intros (O1 & F & L) C. set (l := [b0; RTCP_RR; h2; h3] ++ body_of (PRr s rs)).
  assert (A : at_ l 4 (body_of (PRr s rs))) by (apply (at_skip [b0; RTCP_RR; h2; h3])).
  assert (Ll : length l = 8 + 24 * length rs) by (unfold l; rewrite app_length; pose proof (len_pk (PRr s rs)) as X; unfold enc_pk in X; rewrite len_pkt in X; cbn [size length] in *; lia).
  cbn [body_of] in A. do 1 cut A. cbn [Nat.add] in A, A0.
  split.
  - unfold read_rr. change (rd l 0) with (Ok b0). cbn [bind]. rewrite (r32_bytes _ _ _ A0 O1). cbn [bind]. rewrite C.
    rewrite (blocks_at (read_rblock l) enc_rin see_rin rin_ok 24 l 8 (length rs)); [reflexivity| |apply len_rin|exact A|exact F|lia].
    intros x q Ox Ax. apply rblock_at; assumption.
  - unfold check_rr. change (rd l 0) with (Ok b0). cbn [bind]. rewrite C, Ll. destruct (Nat.leb_spec (8 + length rs * 24) (8 + 24 * length rs)); [reflexivity|lia].
Qed.

(** *** Source descriptions *)
Definition s_after (l : list Z) (n f : nat) (r : res siter) : res (list sview * bool) :=
  it <- r ;; match s_st it with SEnd => Ok ([], s_err it) | _ => p <- s_walk f l n it ;; Ok (s_el it :: fst p, snd p) end.
Lemma s_walk_S l n f it : s_walk (S f) l n it = s_after l n f (s_next l n it). Proof. reflexivity. Qed.
Lemma skip_pad_to l t : forall fuel p, p < t -> t <= p + fuel -> t <= p + 4 -> t mod 4 = 0 -> t <= length l -> skip_pad fuel l p = Ok t.
Proof.
  induction fuel as [|f IH]; intros p H1 H2 H3 H4 H5; [lia|]. cbn [skip_pad]. cbv zeta. rewrite land3.
  assert (Z.of_nat t mod 4 = 0)%Z by (change 4%Z with (Z.of_nat 4); rewrite <- (Nat2Z.inj_mod t 4); rewrite H4; reflexivity).
  destruct (Nat.eq_dec (p + 1) t) as [E|E].
  - rewrite E. rewrite H. rewrite Z.eqb_refl, Bool.andb_false_r. reflexivity.
  - destruct (Nat.ltb_spec (p + 1) (length l)); [|lia]. destruct (Z.eqb_spec (Z.of_nat (p + 1) mod 4) 0)%Z; [lia|]. cbn [andb negb]. apply IH; lia.
Qed.
Definition tailz (cs : list (Z * list (Z * list Z))) : list Z := concat (map enc_chunk cs).
Definition tailv (cs : list (Z * list (Z * list Z))) : list sview := concat (map see_chunk cs).
Definition claimB (l : list Z) (n : nat) (cs : list (Z * list (Z * list Z))) : Prop :=
  forall pos chunk ilen el fuel, at_ l pos (tailz cs) -> pos + length (tailz cs) = length l -> pos mod 4 = 0 -> chunk + length cs = n -> length (tailv cs) <= fuel ->
  s_after l n fuel (s_chunk_or_end l n pos chunk ilen false el) = Ok (tailv cs, false).
Lemma items_walk l n cs : claimB l n cs -> forall items k pos chunk ilen el fuel, Forall item_ok items ->
  at_ l pos (enc_items items ++ zeros k ++ tailz cs) -> pos + length (enc_items items ++ zeros k ++ tailz cs) = length l -> 1 <= k <= 4 ->
  (pos + length (enc_items items) + k) mod 4 = 0 -> chunk + 1 + length cs = n -> length items + length (tailv cs) <= fuel ->
  s_after l n fuel (s_item l n pos chunk ilen false el) = Ok (map (fun i => SItemV (fst i) (snd i)) items ++ tailv cs, false).
Proof.
  intros HB. induction items as [|[t x] items IH]; intros k pos chunk ilen el fuel F A L K M N Fu.
  - cbn [enc_items map concat app length] in *. rewrite Nat.add_0_r in M. rewrite app_length in L. unfold zeros in L. rewrite repeat_length in L. fold (zeros k) in A.
    unfold s_item. destruct (Nat.eqb_spec pos (length l)); [lia|]. destruct k as [|k]; [lia|]. pose proof A as A0. cbn [zeros repeat app] in A0. rewrite (at_idx _ _ _ _ A0). cbn [bind Z.eqb].
    rewrite (skip_pad_to l (pos + S k)) by lia. cbn [bind]. apply HB.
    + apply at_app in A. destruct A as [_ A]. unfold zeros in A. rewrite repeat_length in A. exact A.
    + lia.
    + exact M.
    + lia.
    + lia.
  - inversion F as [|? ? [Ot [Lx Ox]] F']; subst. cbn [fst snd] in *. change (enc_items ((t, x) :: items)) with (enc_item (t, x) ++ enc_items items) in *.
    unfold enc_item in *. cbn [fst snd] in *. rewrite <- !app_assoc in A, L. pose proof (at_len _ _ _ A) as LA. cbn [app] in A, L. rewrite !app_length in *. cbn [length] in *. rewrite !app_length in *.
    unfold s_item. destruct (Nat.eqb_spec pos (length l)); [lia|]. pose proof (at_idx _ _ _ _ A) as Ei. rewrite Ei. cbn [bind].
    assert (Et : u8 t = t) by (unfold u8, wrapu; apply Z.mod_small; lia). rewrite Et in *. destruct (Z.eqb_spec t 0); [lia|].
    destruct (Nat.ltb_spec (length l) (pos + 2)); [lia|]. apply at_cons in A. destruct A as [_ A]. apply at_cons in A. destruct A as [El A]. rewrite El. cbn [bind]. cbv zeta.
    assert (Eu : Z.to_nat (u8 (Z.of_nat (length x))) = length x) by (unfold u8, wrapu; rewrite Z.mod_small by lia; lia). rewrite Eu in *.
    destruct (Nat.ltb_spec (length l) (pos + (2 + length x))); [lia|]. unfold parse_item. rewrite Ei. cbn [bind]. rewrite El. cbn [bind]. rewrite Eu. cbv zeta.
    replace (Nat.min (Nat.min (length x) (length l - (pos + 2))) 255) with (length x) by lia. apply at_app in A. destruct A as [Ax A].
    replace (pos + 1 + 1) with (pos + 2) in * by lia. rewrite (at_sub _ _ _ Ax). cbn [bind]. cbn [s_after bind s_st]. destruct fuel as [|f]; [lia|]. rewrite s_walk_S. cbn [s_next].
    assert (A' : at_ l (pos + (2 + length x)) (enc_items items ++ zeros k ++ tailz cs)) by (replace (pos + (2 + length x)) with (pos + 2 + length x) by lia; exact A).
    rewrite (IH k (pos + (2 + length x)) chunk (2 + length x) _ f); [cbn [bind fst snd s_el map app]; reflexivity|assumption|exact A'|rewrite !app_length; lia|exact K| |reflexivity|lia].
    replace (pos + (2 + length x) + length (enc_items items) + k) with (pos + (2 + length x + length (enc_items items)) + k) by lia. exact M.
Qed.
Lemma chunks_walk l n : forall cs, Forall chunk_ok cs -> claimB l n cs.
Proof.
  induction cs as [|c cs IH]; intros F pos chunk ilen el fuel A L M N Fu; unfold tailz, tailv in *; cbn [map concat length] in *.
  - unfold s_chunk_or_end. destruct (Nat.eqb_spec chunk n); [|lia]. reflexivity.
  - inversion F as [|? ? [Oc [Oi _]] F']; subst. specialize (IH F'). unfold s_chunk_or_end. destruct (Nat.eqb_spec chunk (chunk + S (length cs))); [lia|].
    unfold enc_chunk at 1 in A; unfold enc_chunk at 1 in L. rewrite <- !app_assoc in A, L. pose proof (at_len _ _ _ A) as LA. rewrite !app_length in L. rewrite len_put32 in L. unfold zeros in L. rewrite repeat_length in L.
    destruct (Nat.ltb_spec (length l) (pos + 4)); [lia|]. apply at_app in A. destruct A as [A0 A]. rewrite len_put32 in A. pose proof A0 as A1. unfold put32 in A1. rewrite (at_idx _ _ _ _ A1). cbn [bind].
    rewrite (r32_bytes _ _ _ A0 Oc). cbn [bind s_after s_st]. unfold see_chunk in Fu at 1. cbn [app length] in Fu. destruct fuel as [|f]; [lia|]. rewrite s_walk_S. cbn [s_next].
    rewrite app_length, map_length in Fu.
    assert (G : 1 <= gap (length (enc_items (snd c))) <= 4) by (unfold gap; pose proof (Nat.mod_upper_bound (length (enc_items (snd c))) 4 ltac:(lia)); lia).
    rewrite (items_walk l (chunk + S (length cs)) cs IH (snd c) (gap (length (enc_items (snd c)))) (pos + 4) chunk ilen (SChunkV (fst c)) f); [|exact Oi|exact A| |exact G| |lia|unfold tailv; lia].
    + cbn [bind fst snd s_el]. reflexivity.
    + unfold tailz. rewrite !app_length. unfold zeros. rewrite repeat_length. lia.
    + unfold gap. set (k := length (enc_items (snd c))). assert (k mod 4 < 4) by (apply Nat.mod_upper_bound; lia). assert (Ek : k = 4 * (k / 4) + k mod 4) by (apply Nat.div_mod; lia).
      replace (pos + 4 + k + (4 - k mod 4)) with (pos + 4 * (2 + k / 4)) by lia. apply mod4_add; [exact M|]. rewrite Nat.mul_comm. apply Nat.mod_mul. lia.
Qed.
Lemma see_short cs : length (tailv cs) <= length (tailz cs).
Proof.
  unfold tailv, tailz. induction cs as [|c cs IH]; cbn [map concat length]; [lia|]. rewrite !app_length. unfold see_chunk at 1; unfold enc_chunk at 1. cbn [length]. rewrite map_length, !app_length, len_put32.
  assert (length (snd c) <= length (enc_items (snd c))). { unfold enc_items. induction (snd c) as [|i it IHi]; cbn [map concat length]; [lia|]. rewrite app_length. unfold enc_item at 1. cbn [length app]. lia. }
  lia.
Qed.
Lemma sdes_core b0 ty h2 h3 cs : Forall chunk_ok cs -> let l := [b0; ty; h2; h3] ++ body_of (PSdes cs) in
  s_walk (S (length l + length cs)) l (length cs) s_begin = Ok (tailv cs, false).
Proof.
  intros F l. rewrite s_walk_S. unfold s_begin. cbn [s_next]. assert (Ll : length l = 4 + length (tailz cs)) by reflexivity. destruct (Nat.ltb_spec (length l) (0 + 4)); [lia|].
  apply (chunks_walk l (length cs) cs F); [apply (at_skip [b0; ty; h2; h3])|lia|reflexivity|reflexivity|]. pose proof (see_short cs). lia.
Qed.

(** *** Goodbyes *)
Definition b_after (l : list Z) (n f : nat) (r : res biter) : res (list bview * bool) :=
  it <- r ;; match b_st it with BEnd => Ok ([], b_err it) | _ => p <- b_walk f l n it ;; Ok (b_el it :: fst p, snd p) end.
Lemma b_walk_S l n f it : b_walk (S f) l n it = b_after l n f (b_next l n it). Proof. reflexivity. Qed.
Definition tailr (r : option (list Z)) : list Z := match r with Some t => enc_reason t | None => [] end.
Definition viewr (r : option (list Z)) : list bview := match r with Some t => [BReasonV t] | None => [] end.
Lemma bye_walk l n r : match r with Some t => text_ok t | None => True end -> forall ss pos cur el fuel, Forall (is_u 32) ss ->
  at_ l pos (concat (map put32 ss) ++ tailr r) -> pos + length (concat (map put32 ss) ++ tailr r) = length l -> cur + length ss = n -> length ss + 1 <= fuel ->
  b_after l n fuel (b_element l n pos cur false el) = Ok (map BSsrcV ss ++ viewr r, false).
Proof.
  intros Or. induction ss as [|s ss IH]; intros pos cur el fuel F A L N Fu; cbn [map concat length] in *.
  - cbn [app] in *. unfold b_element. destruct (Nat.eqb_spec cur n); [|lia]. destruct r as [t|]; cbn [tailr viewr] in *.
    + rewrite len_reason in L. destruct Or as [Lt Ot]. assert (1 + length t <= up4 (1 + length t)) by (rewrite <- padding_len0; lia).
      destruct (Nat.ltb_spec pos (length l)); [|lia]. destruct (Nat.ltb_spec (length l) (pos + 1)); [lia|]. unfold enc_reason in A. cbn [app] in A.
      pose proof (at_idx _ _ _ _ A) as Ei. rewrite Ei. cbn [bind]. assert (Eu : Z.to_nat (u8 (Z.of_nat (length t))) = length t) by (unfold u8, wrapu; rewrite Z.mod_small by lia; lia). rewrite Eu.
      destruct (Nat.ltb_spec (length l) (pos + 1 + length t)); [lia|]. unfold parse_reason. rewrite Ei. cbn [bind]. rewrite Eu. cbv zeta.
      replace (Nat.min (Nat.min (length t) (length l - (pos + 1))) 255) with (length t) by lia. apply at_cons in A. destruct A as [_ A]. apply at_app in A. destruct A as [A _].
      rewrite (at_sub _ _ _ A). cbn [bind b_after b_st]. destruct fuel as [|f]; [lia|]. reflexivity.
    + destruct (Nat.ltb_spec pos (length l)); [cbn in L; lia|]. reflexivity.
  - inversion F; subst. unfold b_element. destruct (Nat.eqb_spec cur (cur + S (length ss))); [lia|]. rewrite <- app_assoc in A, L. pose proof (at_len _ _ _ A) as LA. rewrite app_length, len_put32 in L, LA.
    destruct (Nat.ltb_spec (length l) (pos + 4)); [lia|]. apply at_app in A. destruct A as [A0 A]. rewrite len_put32 in A. pose proof A0 as A1. unfold put32 in A1. rewrite (at_idx _ _ _ _ A1). cbn [bind].
    rewrite (r32_bytes _ _ _ A0) by assumption. cbn [bind b_after b_st]. destruct fuel as [|f]; [lia|]. rewrite b_walk_S. cbn [b_next].
    rewrite (IH (pos + 4) (cur + 1) (BSsrcV s) f); [reflexivity|assumption|exact A|lia|lia|lia].
Qed.
Lemma bye_core b0 ty h2 h3 ss r : pk_ok (PBye ss r) -> let l := [b0; ty; h2; h3] ++ body_of (PBye ss r) in
  b_walk (length ss + 3) l (length ss) b_begin = Ok (map BSsrcV ss ++ viewr r, false).
Proof.
  intros (F & L & Or) l. replace (length ss + 3) with (S (length ss + 2)) by lia. rewrite b_walk_S. unfold b_begin. cbn [b_next].
  assert (Ll : length l = 4 + length (body_of (PBye ss r))) by reflexivity. destruct (Nat.ltb_spec (length l) (0 + 4)); [lia|].
  apply (bye_walk l (length ss) r Or ss); [exact F|apply (at_skip [b0; ty; h2; h3])|exact (eq_sym Ll)|reflexivity|lia].
Qed.

(** *** Extended reports *)
Definition xty (x : xin) : Z := match x with IRrtr _ => XR_RRTR | IDlrr _ => XR_DLRR | IMeas _ => XR_MEAS | IDelay _ => XR_DELAY | IQueue _ => XR_QUEUE end.
Lemma xin_shape x : exists fl r, enc_xin x = [xty x; fl; byte_of (Z.of_nat (size_xin x - 4) / 4) 1; byte_of (Z.of_nat (size_xin x - 4) / 4) 0] ++ r.
Proof.
  destruct x; cbn [enc_xin xty]; try (eexists; eexists; reflexivity). cbn [size_xin]. unfold pkt, hd4. rewrite (len_cat _ 12) by apply len_din.
  replace (4 + 12 * length l - 4) with (12 * length l) by lia. eexists. eexists. reflexivity.
Qed.
Lemma div12 n : 12 * n / 12 = n. Proof. rewrite Nat.mul_comm. apply Nat.div_mul. lia. Qed.
Lemma xr_check_ok x : xr_check (xty x) (size_xin x) = Some true.
Proof.
  destruct x; try reflexivity. cbn [xty size_xin]. unfold xr_check. cbn [Z.eqb XR_DLRR XR_RRTR]. unfold num_subblocks. replace (4 + 12 * length l - 4) with (12 * length l) by lia.
  rewrite div12. destruct (Nat.leb_spec (4 + length l * 12) (4 + 12 * length l)); [reflexivity|lia].
Qed.
Lemma size_ge x : 4 <= size_xin x. Proof. destruct x; cbn [size_xin]; lia. Qed.
Lemma xblock_head l p x : at_ l p (enc_xin x) -> (Z.of_nat (size_xin x) <= 65535)%Z -> idx l p = Ok (xty x) /\ exists w, r16 l (p + 2) = Ok w /\ len_bytes w = size_xin x.
Proof.
  intros A L. destruct (xin_shape x) as (fl & r & E). rewrite E in A. pose proof (size_ge x). pose proof (xin_mod x) as M.
  destruct (len_field (size_xin x - 4)) as [R1 R2].
  { assert (Em : size_xin x = (size_xin x - 4) + 1 * 4) by lia. rewrite Em, Nat.mod_add in M by lia. exact M. }
  { lia. }
  split; [apply (at_idx _ _ _ _ A)|]. exists (Z.of_nat (size_xin x - 4) / 4)%Z. split; [|rewrite R2; lia]. apply r16_bytes; [|lia].
  cbn [app] in A. apply at_cons in A. destruct A as [_ A]. apply at_cons in A. destruct A as [_ A]. replace (p + 1 + 1) with (p + 2) in A by lia.
  change (byte_of (Z.of_nat (size_xin x - 4) / 4) 1 :: byte_of (Z.of_nat (size_xin x - 4) / 4) 0 :: r) with (put16 (Z.of_nat (size_xin x - 4) / 4) ++ r) in A. apply at_app in A. apply A.
Qed.
Lemma flag_rt f : is_u 2 f -> metric_flag (set_flag f) = f.
Proof. unfold is_u. intros H. assert (E : (f = 0 \/ f = 1 \/ f = 2 \/ f = 3)%Z) by lia. destruct E as [-> | [-> | [-> | ->]]]; reflexivity. Qed.
Lemma at_body l p a b r : at_ l p (pkt a b r) -> at_ l (p + 4) r.
Proof. intros A. unfold pkt in A. apply at_app in A. apply A. Qed.
Lemma xblock_at l p x : at_ l p (enc_xin x) -> xin_ok x -> (Z.of_nat (size_xin x) <= 65535)%Z -> read_xblock l p (xty x) = Ok (see_xin x).
Proof.
  intros A O L. destruct (xblock_head l p x A L) as (_ & w & Ew & Elw). destruct x as [n|dl|m|d|q]; cbn [xty enc_xin xin_ok see_xin] in *; unfold read_xblock; cbn [Z.eqb Pos.eqb XR_RRTR XR_DLRR XR_MEAS XR_DELAY XR_QUEUE].
  - apply at_body in A. rewrite (r64_ntp _ _ _ A O). reflexivity.
  - rewrite Ew. cbn [bind]. cbv zeta. rewrite Elw. cbn [size_xin]. unfold num_subblocks. replace (4 + 12 * length dl - 4) with (12 * length dl) by lia. rewrite div12.
    apply at_body in A. rewrite (blocks_at (read_dblock l) enc_din see_din din_ok 12 l (p + 4) (length dl)); [reflexivity| |apply len_din|rewrite Nat.mul_0_r, Nat.add_0_r; exact A|exact O|lia].
    intros x q Ox Ax. apply dblock_at; assumption.
  - apply at_body in A. destruct O as (O1 & O2 & O3 & O4 & O5 & O6).
    change (skipn 4 (enc_meas m)) with (put32 (mi_ssrc m) ++ put16 0 ++ put16 (mi_first m) ++ put32 (mi_ifirst m) ++ put32 (mi_ilast m) ++ put_ntp32 (set_delay (mi_idur m)) ++ put_ntp64 (mi_cdur m)) in A.
    do 6 cut A. rewrite (r32_bytes _ _ _ A0 O1). cbn [bind]. replace (p + 10) with (p + 4 + 4 + 2) by lia. rewrite (r16_bytes _ _ _ A2 O2). cbn [bind].
    replace (p + 12) with (p + 4 + 4 + 2 + 2) by lia. rewrite (r32_bytes _ _ _ A3 O3). cbn [bind]. replace (p + 16) with (p + 4 + 4 + 2 + 2 + 4) by lia. rewrite (r32_bytes _ _ _ A4 O4). cbn [bind].
    replace (p + 20) with (p + 4 + 4 + 2 + 2 + 4 + 4) by lia. rewrite (rmid_bytes _ _ _ A5 (u32_range _)). cbn [bind]. replace (p + 24) with (p + 4 + 4 + 2 + 2 + 4 + 4 + 4) by lia. rewrite (r64_ntp _ _ _ A O6). cbn [bind].
    rewrite mid_delay by assumption. reflexivity.
  - assert (Ef : rd l (p + 1) = Ok (set_flag (yi_flag d))) by (unfold pkt, hd4 in A; cbn [app] in A; apply at_cons in A; destruct A as [_ A]; apply (at_rd _ _ _ _ A)).
    apply at_body in A. destruct O as (O1 & O2 & O3 & O4 & O5 & O6). rewrite Ef. cbn [bind].
    change (skipn 4 (enc_delay d)) with (put32 (yi_ssrc d) ++ put_ntp32 (metric32 (yi_mean d)) ++ put_ntp32 (metric32 (yi_min d)) ++
      put_ntp32 (metric32 (yi_max d)) ++ put32 (fst (metric64 (yi_e2e d))) ++ put32 (snd (metric64 (yi_e2e d)))) in A.
    do 4 cut A. rewrite (r32_bytes _ _ _ A0 O2). cbn [bind]. replace (p + 8) with (p + 4 + 4) by lia. rewrite (rmid_bytes _ _ _ A1 (metric32_range _)). cbn [bind].
    replace (p + 12) with (p + 4 + 4 + 4) by lia. rewrite (rmid_bytes _ _ _ A2 (metric32_range _)). cbn [bind]. replace (p + 16) with (p + 4 + 4 + 4 + 4) by lia. rewrite (rmid_bytes _ _ _ A3 (metric32_range _)). cbn [bind].
    replace (p + 20) with (p + 4 + 4 + 4 + 4 + 4) by lia. rewrite (r64_bytes _ _ _ A) by apply metric64_range. cbn [bind].
    rewrite flag_rt, !mid_metric, mid_latency by assumption. reflexivity.
  - assert (Ef : rd l (p + 1) = Ok (set_flag (qi_flag q))) by (unfold pkt, hd4 in A; cbn [app] in A; apply at_cons in A; destruct A as [_ A]; apply (at_rd _ _ _ _ A)).
    apply at_body in A. destruct O as (O1 & O2 & O3 & O4). rewrite Ef. cbn [bind].
    change (skipn 4 (enc_queue q)) with (put32 (qi_ssrc q) ++ put_ntp32 (metric32 (qi_lat q)) ++ put_ntp32 (metric32 (qi_stall q))) in A.
    do 2 cut A. rewrite (r32_bytes _ _ _ A0 O2). cbn [bind]. replace (p + 8) with (p + 4 + 4) by lia. rewrite (rmid_bytes _ _ _ A1 (metric32_range _)). cbn [bind].
    replace (p + 12) with (p + 4 + 4 + 4) by lia. rewrite (rmid_bytes _ _ _ A (metric32_range _)). cbn [bind]. rewrite flag_rt, !mid_metric by assumption. reflexivity.
Qed.
Definition x_after (l : list Z) (f : nat) (r : res xiter) : res (list xview * bool) :=
  it <- r ;; match x_st it with XAt ty => v <- read_xblock l (x_pos it) ty ;; p <- x_walk f l it ;; Ok (v :: fst p, snd p) | _ => Ok ([], x_err it) end.
Lemma x_walk_S l f it : x_walk (S f) l it = x_after l f (x_next l it). Proof. reflexivity. Qed.
Lemma xs_walk l g : forall bs pos len fuel, Forall xin_ok bs -> at_ l pos (concat (map enc_xin bs)) -> pos + length (concat (map enc_xin bs)) = length l ->
  (Z.of_nat (total (map size_xin bs)) <= 65535)%Z -> length bs <= fuel -> (1 <= g)%nat -> g = S (length l) ->
  x_after l fuel (x_loop g l pos len false) = Ok (map see_xin bs, false).
Proof.
  induction bs as [|x bs IH]; intros pos len fuel F A L T Fu G Eg; cbn [map concat length] in *; destruct g as [|g]; try lia; cbn [x_loop].
  - rewrite Nat.add_0_r in L. destruct (Nat.eqb_spec pos (length l)); [reflexivity|contradiction].
  - inversion F; subst. cbn [map] in T. rewrite total_cons in T. apply at_app in A. destruct A as [A0 A]. rewrite app_length, len_xin in *. pose proof (size_ge x).
    destruct (Nat.eqb_spec pos (length l)); [lia|]. destruct (Nat.ltb_spec (length l) (pos + 4)); [lia|].
    destruct (xblock_head l pos x A0) as (E1 & w & E2 & E3); [lia|]. rewrite E1. cbn [bind]. rewrite E2. cbn [bind]. cbv zeta. rewrite E3.
    destruct (Nat.ltb_spec (length l) (pos + size_xin x)); [lia|]. rewrite xr_check_ok. cbn [x_after bind x_st x_pos]. rewrite (xblock_at l pos x A0) by (assumption || lia). cbn [bind].
    destruct fuel as [|f]; [lia|]. rewrite x_walk_S. cbn [x_next]. rewrite <- Eg. rewrite (IH (pos + size_xin x) (size_xin x) f); [reflexivity|assumption|exact A|lia|lia|lia|lia|exact Eg].
Qed.
Lemma xins_short bs : length bs <= total (map size_xin bs).
Proof. induction bs as [|x bs IH]; cbn [map length]; [lia|]. rewrite total_cons. pose proof (size_ge x). lia. Qed.
Lemma xr_core b0 ty h2 h3 s bs : pk_ok (PXr s bs) -> (Z.of_nat (size (PXr s bs)) <= 65535)%Z -> let l := [b0; ty; h2; h3] ++ body_of (PXr s bs) in
  r32 l 4 = Ok s /\ x_walk (S (length l)) l x_begin = Ok (map see_xin bs, false).
Proof.
  intros (Os & F) L l. assert (A : at_ l 4 (body_of (PXr s bs))) by (apply (at_skip [b0; ty; h2; h3])). cbn [body_of] in A. cut A. split; [apply r32_bytes; assumption|].
  assert (Ll : length l = 8 + length (concat (map enc_xin bs))) by reflexivity. pose proof (len_tot enc_xin size_xin bs len_xin) as T. pose proof (xins_short bs). cbn [size] in L.
  rewrite x_walk_S. unfold x_begin. cbn [x_next]. destruct (Nat.ltb_spec (length l) (0 + 8)); [lia|]. apply xs_walk; [exact F|exact A|lia|lia|lia|lia|reflexivity].
Qed.
