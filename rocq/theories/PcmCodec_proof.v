(** The PCM encoder and decoder. *)
From Coq Require Import Reals Lra.
From Flocq Require Import Core.Core IEEE754.BinarySingleNaN.
From Verif Require Import Base Base_lemmas Float32 Pcm_model Pcm_spec PcmFloat_proof Pcm_proof.
Open Scope Z_scope.
Open Scope res_scope.

Definition pat32 (x : Z) : Prop := 0 <= x < 2 ^ 32.

Lemma al_f32 : aligned Float32.
Proof. reflexivity. Qed.
Lemma image_f32 host v : image Float32 host v = container (is_big host) 4 v.
Proof.
  unfold image. change (c_po Float32) with 4%nat. change (c_w Float32) with 32.
  destruct host; cbn [is_big container]; rewrite octets_mod by lia; reflexivity.
Qed.
Lemma sample_bytes_images host s : sample_bytes host s = flat_map (image Float32 host) s.
Proof.
  unfold sample_bytes. induction s as [|v s IH]; [reflexivity|]. cbn [flat_map]. rewrite IH. f_equal.
  rewrite order_bytes, image_f32. reflexivity.
Qed.
Lemma sample_bytes_length host s : length (sample_bytes host s) = (length s * 4)%nat.
Proof. rewrite sample_bytes_images. apply flat_image_length. Qed.
Lemma canon_f32 v : pat32 v -> canon Float32 v = v.
Proof. intros H. unfold canon. cbn [c_int c_sig andb c_w]. apply Z.mod_small. exact H. Qed.
Lemma map_canon s : Forall pat32 s -> map (canon Float32) s = s.
Proof. induction 1 as [|v s Hv _ IH]; [reflexivity|]. cbn [map]. rewrite IH, canon_f32 by exact Hv. reflexivity. Qed.
Lemma Forall_firstn' {A} (P : A -> Prop) n l : Forall P l -> Forall P (firstn n l).
Proof. revert n. induction l as [|a l IH]; intros [|n] H; cbn [firstn]; auto. inversion H; subst. constructor; auto. Qed.
Lemma flat_firstn c e n s : firstn (n * c_po c) (flat_map (image c e) s) = flat_map (image c e) (firstn n s).
Proof.
  revert n. induction s as [|v s IH]; intros [|n]; cbn [firstn flat_map Nat.mul]; try reflexivity.
  - apply firstn_nil.
  - rewrite firstn_app, image_length. rewrite (firstn_all2 (image c e v)) by (rewrite image_length; lia). f_equal.
    rewrite <- IH. f_equal. lia.
Qed.

(** What one write does: as many samples as fit in the frame are converted and stored. *)
Definition room (s : encoder) (frame : list Z) : Z := (Z.of_nat (length frame) * 8 - en_off s) / c_pw (en_code s).
Definition en_set (s : encoder) (frame : list Z) (off : Z) : encoder :=
  {| en_code := en_code s; en_end := en_end s; en_chans := en_chans s; en_frame := Some frame; en_off := off |}.

Lemma enc_write_eq host s frame xs :
  en_frame s = Some frame -> 0 < en_chans s -> (en_chans s | Z.of_nat (length xs)) ->
  0 <= en_off s <= 8 * Z.of_nat (length frame) -> Forall pat32 xs ->
  enc_write host s xs =
  (let k := Z.min (Z.of_nat (length xs)) (room s frame) in
   r <- cpack Float32 (en_code s) (en_end s) (firstn (Z.to_nat k) xs) frame (en_off s) ;;
   Ok (k / en_chans s, en_set s (fst r) (snd r))).
Proof.
  intros Hf Hc Hd Ho Hp. unfold enc_write. rewrite Hf. cbv zeta.
  assert (N : Z.of_nat (length xs) / en_chans s * en_chans s = Z.of_nat (length xs)).
  { destruct Hd as (q & Hq). rewrite Hq. rewrite Z.div_mul by lia. reflexivity. }
  rewrite N. rewrite Nat2Z.id, firstn_all. unfold mapper_map. rewrite sample_bytes_length.
  change (c_pw Float32) with 32.
  destruct (Z.ltb_spec (Z.of_nat (length xs * 4) * 8) 0); [lia|].
  destruct (Z.ltb_spec (Z.of_nat (length frame) * 8) (en_off s)); [lia|].
  replace ((Z.of_nat (length xs * 4) * 8 - 0) / 32) with (Z.of_nat (length xs)) by (rewrite Nat2Z.inj_mul; lia).
  rewrite Z.min_id. fold (room s frame).
  assert (R0 : 0 <= room s frame) by (unfold room; pose proof (pw_pos (en_code s)); apply Z.div_pos; lia).
  set (k := Z.min (Z.of_nat (length xs)) (room s frame)) in *.
  assert (Lk : length (firstn (Z.to_nat k) xs) = Z.to_nat k) by (apply firstn_length_le; subst k; lia).
  pose proof (map_loop_al Float32 host (en_code s) (en_end s) (sample_bytes host xs) (firstn (Z.to_nat k) xs) al_f32 0 frame (en_off s)) as M.
  rewrite Lk in M. change (8 * Z.of_nat 0) with 0 in M. change (0 + Z.to_nat k * c_po Float32)%nat with (Z.to_nat k * c_po Float32)%nat in M.
  rewrite M; clear M.
  - rewrite map_canon by (apply Forall_firstn'; exact Hp). change (c_po Float32) with 4%nat.
    destruct (cpack Float32 (en_code s) (en_end s) (firstn (Z.to_nat k) xs) frame (en_off s)) as [r| |]; cbn [bind fst snd]; try reflexivity.
    replace ((8 * Z.of_nat (Z.to_nat k * 4)) mod 8 =? 0) with true by (symmetry; apply Z.eqb_eq; rewrite Z.mul_comm; apply Z.mod_mul; lia).
    cbn [negb]. destruct (Z.ltb_spec (Z.of_nat (length xs) / en_chans s) (k / en_chans s)) as [L|L]; [|reflexivity].
    exfalso. assert (k / en_chans s <= Z.of_nat (length xs) / en_chans s) by (apply Z.div_le_mono; subst k; lia). lia.
  - rewrite sample_bytes_images. cbn [skipn]. apply flat_firstn.
Qed.

(** A sequence of writes. *)
Fixpoint enc_writes (host : pcm_endian) (s : encoder) (chunks : list (list Z)) : res encoder :=
  match chunks with
  | [] => Ok s
  | c :: t => r <- enc_write host s c ;; enc_writes host (snd r) t
  end.

Lemma room_after s frame f' n : length f' = length frame -> en_off s <= 8 * Z.of_nat (length frame) ->
  room (en_set s f' (en_off s + n * c_pw (en_code s))) f' = room s frame - n.
Proof.
  intros L H. unfold room, en_set. cbn [en_off en_code]. rewrite L.
  pose proof (pw_pos (en_code s)).
  replace (Z.of_nat (length frame) * 8 - (en_off s + n * c_pw (en_code s)))
    with (Z.of_nat (length frame) * 8 - en_off s + (- n) * c_pw (en_code s)) by lia.
  rewrite Z.div_add by lia. lia.
Qed.
Lemma room_bound s frame : 0 <= en_off s <= 8 * Z.of_nat (length frame) -> room s frame * c_pw (en_code s) + en_off s <= 8 * Z.of_nat (length frame) /\ 0 <= room s frame.
Proof.
  intros H. unfold room. pose proof (pw_pos (en_code s)). split; [|apply Z.div_pos; lia].
  pose proof (Z.mul_div_le (Z.of_nat (length frame) * 8 - en_off s) (c_pw (en_code s)) ltac:(lia)). lia.
Qed.

Lemma enc_split2 host s frame a b :
  en_frame s = Some frame -> 0 < en_chans s -> (en_chans s | Z.of_nat (length a)) -> (en_chans s | Z.of_nat (length b)) ->
  0 <= en_off s <= 8 * Z.of_nat (length frame) -> Forall pat32 a -> Forall pat32 b ->
  (r <- enc_write host s a ;; r' <- enc_write host (snd r) b ;; Ok (snd r')) = (r <- enc_write host s (a ++ b) ;; Ok (snd r)).
Proof.
  intros Hf Hc Da Db Ho Pa Pb.
  rewrite (enc_write_eq host s frame a) by assumption.
  rewrite (enc_write_eq host s frame (a ++ b)); try assumption.
  2:{ rewrite app_length, Nat2Z.inj_add. apply Z.divide_add_r; assumption. }
  2:{ apply Forall_app. split; assumption. }
  cbv zeta. rewrite app_length, Nat2Z.inj_add.
  destruct (room_bound s frame Ho) as [RB R0].
  set (R := room s frame) in *. set (ka := Z.min (Z.of_nat (length a)) R) in *.
  set (kb := Z.min (Z.of_nat (length b)) (R - ka)).
  assert (E : firstn (Z.to_nat (Z.min (Z.of_nat (length a) + Z.of_nat (length b)) R)) (a ++ b) = firstn (Z.to_nat ka) a ++ firstn (Z.to_nat kb) b).
  { rewrite firstn_app. destruct (Z.leb_spec (Z.of_nat (length a)) R).
    - assert (ka = Z.of_nat (length a)) by (subst ka; lia). f_equal; [rewrite !firstn_all2 by lia; reflexivity|f_equal; subst kb; lia].
    - assert (ka = R) by (subst ka; lia). assert (kb = 0) by (subst kb; lia). rewrite Z.min_r by lia.
      replace (Z.to_nat R - length a)%nat with O by lia. replace (Z.to_nat kb) with O by lia. rewrite !firstn_O. f_equal. f_equal. lia. }
  rewrite E, cpack_app.
  destruct (cpack Float32 (en_code s) (en_end s) (firstn (Z.to_nat ka) a) frame (en_off s)) as [r| |] eqn:C; cbn [bind snd]; try reflexivity.
  pose proof (pw_pos (en_code s)) as P.
  assert (La : length (firstn (Z.to_nat ka) a) = Z.to_nat ka) by (apply firstn_length_le; lia).
  assert (KR : 0 <= ka <= R) by (subst ka; lia).
  assert (Bd0 : en_off s + ka * c_pw (en_code s) <= 8 * Z.of_nat (length frame)).
  { apply Z.le_trans with (en_off s + R * c_pw (en_code s)); [|lia]. apply Zplus_le_compat_l. apply Z.mul_le_mono_nonneg_r; lia. }
  assert (Bd : en_off s + Z.of_nat (length (firstn (Z.to_nat ka) a)) * c_pw (en_code s) <= 8 * Z.of_nat (length frame)) by (rewrite La, Z2Nat.id by lia; exact Bd0).
  assert (Sh := cpack_shape _ _ _ _ _ _ _ (proj1 Ho) Bd C). rewrite La, Z2Nat.id in Sh by lia. destruct Sh as [S1 S2].
  rewrite (enc_write_eq host _ (fst r) b); cbn [en_set en_frame en_chans en_off en_code en_end]; try assumption; try reflexivity.
  2:{ rewrite S1, S2. nia. }
  cbv zeta. fold (en_set s (fst r) (snd r)). rewrite S1. rewrite (room_after s frame (fst r) ka S2) by lia. fold R. fold kb. fold R. 
  destruct (cpack Float32 (en_code s) (en_end s) (firstn (Z.to_nat kb) b) (fst r) _) as [r'| |]; cbn [bind snd]; reflexivity.
Qed.

Lemma enc_write_shape host s frame a r :
  en_frame s = Some frame -> 0 < en_chans s -> (en_chans s | Z.of_nat (length a)) ->
  0 <= en_off s <= 8 * Z.of_nat (length frame) -> Forall pat32 a -> enc_write host s a = Ok r ->
  exists f', en_frame (snd r) = Some f' /\ length f' = length frame /\ 0 <= en_off (snd r) <= 8 * Z.of_nat (length f') /\
    en_chans (snd r) = en_chans s /\ en_code (snd r) = en_code s /\ en_end (snd r) = en_end s.
Proof.
  intros Hf Hc Da Ho Pa. rewrite (enc_write_eq host s frame a) by assumption. cbv zeta.
  destruct (room_bound s frame Ho) as [RB R0]. set (R := room s frame) in *. set (ka := Z.min (Z.of_nat (length a)) R) in *.
  destruct (cpack Float32 (en_code s) (en_end s) (firstn (Z.to_nat ka) a) frame (en_off s)) as [q| |] eqn:C; cbn [bind]; try discriminate.
  intros E. assert (Er : r = (ka / en_chans s, en_set s (fst q) (snd q))) by congruence. subst r. cbn [snd en_set en_frame en_off en_chans en_code en_end].
  pose proof (pw_pos (en_code s)) as P.
  assert (La : length (firstn (Z.to_nat ka) a) = Z.to_nat ka) by (apply firstn_length_le; lia).
  assert (KR : 0 <= ka <= R) by (subst ka; lia).
  assert (Bd0 : en_off s + ka * c_pw (en_code s) <= 8 * Z.of_nat (length frame)).
  { apply Z.le_trans with (en_off s + R * c_pw (en_code s)); [|lia]. apply Zplus_le_compat_l. apply Z.mul_le_mono_nonneg_r; lia. }
  assert (Bd : en_off s + Z.of_nat (length (firstn (Z.to_nat ka) a)) * c_pw (en_code s) <= 8 * Z.of_nat (length frame)) by (rewrite La, Z2Nat.id by lia; exact Bd0).
  assert (Sh := cpack_shape _ _ _ _ _ _ _ (proj1 Ho) Bd C). rewrite La, Z2Nat.id in Sh by lia. destruct Sh as [S1 S2].
  exists (fst q). split; [reflexivity|]. split; [exact S2|]. split; [|split; [reflexivity|split; reflexivity]]. rewrite S1, S2. nia.
Qed.

(** Any partition of the samples into writes has the effect of one write. *)
Lemma enc_split host chunks : forall s frame,
  en_frame s = Some frame -> 0 < en_chans s -> Forall (fun c => (en_chans s | Z.of_nat (length c)) /\ Forall pat32 c) chunks ->
  0 <= en_off s <= 8 * Z.of_nat (length frame) ->
  enc_writes host s chunks = enc_writes host s [concat chunks].
Proof.
  induction chunks as [|a t IH]; intros s frame Hf Hc HF Ho.
  - cbn [enc_writes concat]. rewrite (enc_write_eq host s frame []); try assumption; [|exists 0; reflexivity|constructor].
    cbv zeta. destruct (room_bound s frame Ho) as [RB R0]. cbn [length]. rewrite Z.min_l by lia. cbn [Z.of_nat Z.to_nat firstn cpack bind fst snd].
    f_equal. unfold en_set. rewrite <- Hf. destruct s; reflexivity.
  - inversion HF as [|a' t' [Ha Pa] HF']; subst.
    cbn [concat]. assert (T : (en_chans s | Z.of_nat (length (concat t))) /\ Forall pat32 (concat t)).
    { clear - HF'. induction HF' as [|c t [H1 H2] _ [IH1 IH2]]; cbn [concat]; [split; [exists 0; reflexivity|constructor]|].
      split; [rewrite app_length, Nat2Z.inj_add; apply Z.divide_add_r; assumption|apply Forall_app; split; assumption]. }
    destruct T as [T1 T2].
    assert (Q := enc_split2 host s frame a (concat t) Hf Hc Ha T1 Ho Pa T2).
    cbn [enc_writes].
    transitivity (r <- enc_write host s (a ++ concat t);; Ok (snd r)); [|destruct (enc_write host s (a ++ concat t)); reflexivity].
    rewrite <- Q. destruct (enc_write host s a) as [r| |] eqn:E; cbn [bind]; try reflexivity.
    destruct (enc_write_shape host s frame a r Hf Hc Ha Ho Pa E) as (f' & F1 & F2 & F3 & F4 & F5 & F6).
    rewrite (IH (snd r) f'); try assumption.
    + cbn [enc_writes]. reflexivity.
    + rewrite F4. exact Hc.
    + rewrite F4. exact HF'.
Qed.

(** ** Decoder *)
Lemma convert_f32_ok c v : exists z, convert c Float32 v = Ok z.
Proof. unfold convert. destruct (code_eq_dec c Float32); [eexists; reflexivity|]. destruct c; try congruence; cbn; eexists; reflexivity. Qed.

(** Sample number [j] of a frame. *)
Definition dsample (c : pcm_code) (e : pcm_endian) (frame : list Z) (j : nat) : Z :=
  match unpack c e frame (Z.of_nat j * c_pw c) with
  | Ok u => match convert c Float32 (fst u) with Ok z => z | _ => 0 end
  | _ => 0
  end.

Lemma map_loop_dec c e host frame n : forall j b buf,
  (Z.of_nat j + Z.of_nat n) * c_pw c <= 8 * Z.of_nat (length frame) -> (b + n * 4 <= length buf)%nat ->
  map_loop c e Float32 host n frame (Z.of_nat j * c_pw c) buf (8 * Z.of_nat b) =
  Ok (firstn b buf ++ sample_bytes host (map (dsample c e frame) (seq j n)) ++ skipn (b + n * 4) buf,
      (Z.of_nat j + Z.of_nat n) * c_pw c, 8 * Z.of_nat (b + n * 4)).
Proof.
  induction n as [|n IH]; intros j b buf Hf Hb; cbn [map_loop seq map].
  - cbn [sample_bytes flat_map app Nat.mul]. rewrite Nat.add_0_r, firstn_skipn. do 3 f_equal. lia.
  - pose proof (pw_pos c). destruct (unpack_ok c e frame (Z.of_nat j * c_pw c)) as (v & Hu); [nia|nia|].
    rewrite Hu. cbn [bind fst snd]. destruct (convert_f32_ok c v) as (z & Hz). rewrite Hz. cbn [bind].
    rewrite (pack_al Float32 host) by (try reflexivity; change (c_po Float32) with 4%nat; lia).
    change (c_po Float32) with 4%nat. cbn [bind fst snd].
    assert (L0 : length (firstn b buf ++ image Float32 host z) = (b + 4)%nat).
    { rewrite app_length, firstn_length_le, image_length by lia. reflexivity. }
    replace (Z.of_nat j * c_pw c + c_pw c) with (Z.of_nat (S j) * c_pw c) by lia. rewrite IH.
    2:{ nia. } 2:{ rewrite app_assoc, app_length, L0, skipn_length. lia. }
    assert (Ez : dsample c e frame j = z) by (unfold dsample; rewrite Hu; cbn [fst]; rewrite Hz; reflexivity).
    rewrite (sample_bytes_images host (dsample c e frame j :: _)). cbn [flat_map]. rewrite Ez, <- sample_bytes_images.
    f_equal. f_equal; [f_equal|lia]; [|lia].
    rewrite (app_assoc (firstn b buf) (image Float32 host z)).
    rewrite firstn_app, L0, Nat.sub_diag, firstn_O, app_nil_r. rewrite (firstn_all2 (firstn b buf ++ _)) by lia.
    rewrite <- !app_assoc. do 3 f_equal. rewrite app_assoc, skipn_app. rewrite skipn_all2 by lia. cbn [app]. rewrite L0, skipn_skipn. f_equal. lia.
Qed.

(** State of the decoder after [p] of [T] samples of a frame. *)
Record dec_at (s : decoder) (c : pcm_code) (e : pcm_endian) (ch : Z) (frame : list Z) (pos0 p : Z) : Prop := {
  da_code : de_code s = c; da_end : de_end s = e; da_ch : de_chans s = ch;
  da_frame : de_frame s = Some frame;
  da_off : de_off s = p * ch * c_pw c;
  da_avail : de_avail s = sample_count c (Z.of_nat (length frame)) / ch - p;
  da_pos : de_pos s = u32 (pos0 + p);
  da_p : 0 <= p <= sample_count c (Z.of_nat (length frame)) / ch }.

Lemma dec_begin_at c e ch frame pos : 0 < ch -> 0 <= pos < 2 ^ 32 -> sample_count c (Z.of_nat (length frame)) / ch < 2 ^ 32 ->
  exists s, dec_begin (dec_new c e ch) pos frame = Ok s /\ dec_at s c e ch frame pos 0.
Proof.
  intros Hc Hp Hn. eexists. split; [reflexivity|].
  assert (0 <= sample_count c (Z.of_nat (length frame)) / ch).
  { apply Z.div_pos; [|lia]. unfold sample_count. pose proof (pw_pos c). apply Z.div_pos; lia. }
  constructor; cbn [dec_new de_code de_end de_chans de_frame de_off de_avail de_pos]; try reflexivity; try lia.
  - unfold u32. rewrite wrapu_small by lia. lia.
  - unfold u32. rewrite wrapu_small by lia. lia.
Qed.

Lemma dec_read_at host s c e ch frame pos0 p n buf :
  dec_at s c e ch frame pos0 p -> 0 < ch -> 0 <= n -> sample_count c (Z.of_nat (length frame)) / ch < 2 ^ 32 ->
  length buf = Z.to_nat (n * ch * 4) ->
  let m := Z.min n (sample_count c (Z.of_nat (length frame)) / ch - p) in
  exists s', dec_read host s buf n =
    Ok (m, sample_bytes host (map (dsample c e frame) (seq (Z.to_nat (p * ch)) (Z.to_nat (m * ch)))) ++ skipn (Z.to_nat (m * ch * 4)) buf, s')
    /\ dec_at s' c e ch frame pos0 (p + m).
Proof.
  intros D Hc Hn HT Hb m. destruct D as [D1 D2 D3 D4 D5 D6 D7 D8]. set (T := sample_count c (Z.of_nat (length frame)) / ch) in *.
  unfold dec_read. rewrite D4. cbv zeta. rewrite D6.
  assert (Em : (if T - p <? n then T - p else n) = m) by (subst m; destruct (Z.ltb_spec (T - p) n); lia).
  rewrite Em, D3, D1, D2, D5. assert (0 <= m /\ m <= n) as [M0 M1] by (subst m; lia).
  destruct (Nat.ltb_spec (length buf) (Z.to_nat (m * ch * 4))); [nia|].
  unfold mapper_map. rewrite firstn_length_le by lia. pose proof (pw_pos c) as P.
  assert (TS : T * ch <= sample_count c (Z.of_nat (length frame))).
  { subst T. pose proof (Z.mul_div_le (sample_count c (Z.of_nat (length frame))) ch Hc). lia. }
  assert (SB : sample_count c (Z.of_nat (length frame)) * c_pw c <= 8 * Z.of_nat (length frame)).
  { unfold sample_count. pose proof (Z.mul_div_le (Z.of_nat (length frame) * 8) (c_pw c) ltac:(lia)). lia. }
  assert (PM : (p + m) * ch <= T * ch) by (apply Z.mul_le_mono_nonneg_r; lia).
  assert (B1 : (p + m) * ch * c_pw c <= 8 * Z.of_nat (length frame)).
  { apply Z.le_trans with (sample_count c (Z.of_nat (length frame)) * c_pw c); [|exact SB]. apply Z.mul_le_mono_nonneg_r; lia. }
  assert (0 <= m * ch * c_pw c) by (apply Z.mul_nonneg_nonneg; nia).
  destruct (Z.ltb_spec (Z.of_nat (length frame) * 8) (p * ch * c_pw c)); [lia|].
  destruct (Z.ltb_spec (Z.of_nat (Z.to_nat (m * ch * 4)) * 8) 0); [lia|].
  change (c_pw Float32) with 32.
  assert (mch0 : 0 <= m * ch) by nia.
  replace ((Z.of_nat (Z.to_nat (m * ch * 4)) * 8 - 0) / 32) with (m * ch).
  2:{ rewrite Z2Nat.id by lia. replace (m * ch * 4 * 8 - 0) with (m * ch * 32) by lia. rewrite Z.div_mul by lia. reflexivity. }
  rewrite (Z.min_l (m * ch)).
  2:{ replace (Z.of_nat (length frame) * 8 - p * ch * c_pw c) with (Z.of_nat (length frame) * 8 + (- (p * ch)) * c_pw c) by lia.
      rewrite Z.div_add by lia. fold (sample_count c (Z.of_nat (length frame))). lia. }
  rewrite Z.min_id.
  assert (PC : 0 <= p * ch) by nia.
  pose proof (map_loop_dec c e host frame (Z.to_nat (m * ch)) (Z.to_nat (p * ch)) 0 (firstn (Z.to_nat (m * ch * 4)) buf)) as ML.
  rewrite !Z2Nat.id in ML by lia. change (8 * Z.of_nat 0) with 0 in ML. rewrite ML; clear ML.
  - cbn [bind fst snd]. rewrite firstn_O. cbn [app].
    replace ((8 * Z.of_nat (0 + Z.to_nat (m * ch) * 4)) mod 8 =? 0) with true by (symmetry; apply Z.eqb_eq; rewrite Z.mul_comm; apply Z.mod_mul; lia).
    cbn [negb]. rewrite Z.div_mul by lia. rewrite Z.ltb_irrefl.
    rewrite (skipn_all2 (firstn _ buf)) by (rewrite firstn_length; lia). rewrite app_nil_r.
    eexists. split; [reflexivity|].
    constructor; cbn [de_code de_end de_chans de_frame de_off de_avail de_pos]; try reflexivity.
    + lia.
    + fold T. unfold u32. rewrite (wrapu_small 32 m) by lia. rewrite wrapu_small by lia. lia.
    + rewrite D7. unfold u32, wrapu. rewrite (Z.mod_small m) by lia. rewrite Zplus_mod_idemp_l. f_equal. lia.
    + fold T. lia.
  - rewrite <- Z.mul_add_distr_r. lia.
  - rewrite firstn_length_le by lia. lia.
Qed.

Lemma dec_shift_at s c e ch frame pos0 p n :
  dec_at s c e ch frame pos0 p -> 0 < ch -> 0 <= n -> sample_count c (Z.of_nat (length frame)) / ch < 2 ^ 32 ->
  let m := Z.min n (sample_count c (Z.of_nat (length frame)) / ch - p) in
  exists s', dec_shift s n = Ok (m, s') /\ dec_at s' c e ch frame pos0 (p + m).
Proof.
  intros D Hc Hn HT m. destruct D as [D1 D2 D3 D4 D5 D6 D7 D8]. set (T := sample_count c (Z.of_nat (length frame)) / ch) in *.
  unfold dec_shift. rewrite D4. cbv zeta. rewrite D6.
  assert (Em : (if T - p <? n then T - p else n) = m) by (subst m; destruct (Z.ltb_spec (T - p) n); lia).
  rewrite Em. assert (0 <= m /\ m <= n) as [M0 M1] by (subst m; lia).
  eexists. split; [reflexivity|].
  constructor; cbn [de_code de_end de_chans de_frame de_off de_avail de_pos]; try assumption; try reflexivity.
  - rewrite D5, D1, D3. unfold bit_count. lia.
  - fold T. unfold u32. rewrite (wrapu_small 32 m) by lia. rewrite wrapu_small by lia. lia.
  - rewrite D7. unfold u32, wrapu. rewrite (Z.mod_small m) by lia. rewrite Zplus_mod_idemp_l. f_equal. lia.
  - fold T. lia.
Qed.

(** ** Levels *)
Definition in_range (w k : Z) : Prop := - 2 ^ (w - 1) <= k < 2 ^ (w - 1).

Lemma level_range w r k : 0 < w -> level_of w r k -> in_range w k.
Proof.
  intros Hw (A & B & C). assert (P : 0 < 2 ^ (w - 1)) by (apply Z.pow_pos_nonneg; lia). unfold in_range.
  destruct (Rlt_le_dec r (-1)) as [H|H]; [rewrite (A H); lia|].
  destruct (Rlt_le_dec r 1) as [H2|H2]; [|rewrite (B H2); lia].
  rewrite (C (conj H H2)). set (B0 := 2 ^ (w - 1)) in *. assert (PB : (0 < IZR B0)%R) by (apply IZR_lt; exact P).
  destruct (Rlt_le_dec r 0) as [N|N].
  - rewrite Ztrunc_ceil by nra. split.
    + rewrite <- (Zceil_IZR (- B0)). apply Zceil_le. rewrite opp_IZR. nra.
    + assert (Zceil (r * IZR B0) <= 0); [|lia]. rewrite <- (Zceil_IZR 0). apply Zceil_le. nra.
  - rewrite Ztrunc_floor by nra. split.
    + assert (0 <= Zfloor (r * IZR B0)); [|lia]. rewrite <- (Zfloor_IZR 0). apply Zfloor_le. nra.
    + apply lt_IZR. apply Rle_lt_trans with (r * IZR B0)%R; [apply Zfloor_lb|nra].
Qed.
Lemma level_amp w k : 0 < w -> in_range w k -> level_of w (amplitude w k) k.
Proof.
  intros Hw [R1 R2]. assert (P : 0 < 2 ^ (w - 1)) by (apply Z.pow_pos_nonneg; lia). unfold level_of, amplitude.
  set (B := 2 ^ (w - 1)) in *. assert (PB : (0 < IZR B)%R) by (apply IZR_lt; exact P).
  apply IZR_le in R1. apply IZR_lt in R2. rewrite opp_IZR in R1.
  assert (Q : (IZR k / IZR B * IZR B = IZR k)%R) by (field; lra).
  split; [intros H; exfalso; nra|]. split; [intros H; exfalso; nra|]. intros _. rewrite Q. symmetry. apply Ztrunc_IZR.
Qed.
Lemma level_fun w r k k' : level_of w r k -> level_of w r k' -> k = k'.
Proof.
  intros (A & B & C) (A' & B' & C'). destruct (Rlt_le_dec r (-1)) as [H|H]; [rewrite A, A' by exact H; reflexivity|].
  destruct (Rlt_le_dec r 1) as [H2|H2]; [rewrite C, C' by lra|rewrite B, B' by exact H2]; reflexivity.
Qed.

(** Container of a level. *)
Definition cell (c : pcm_code) (e : pcm_endian) (k : Z) : list Z :=
  container (is_big e) (c_po c) (field (c_sig c) (c_w c) k).
Definition sval (c : pcm_code) (k : Z) : Z := if c_sig c then k else k + 2 ^ (c_w c - 1).

Lemma field_range c k : in_range (c_w c) k -> 0 <= field (c_sig c) (c_w c) k < 2 ^ c_w c.
Proof.
  intros [R1 R2]. pose proof (w_range c). pose proof (pow2_split (c_w c) ltac:(lia)). unfold field.
  assert (0 < 2 ^ (c_w c - 1)) by (apply Z.pow_pos_nonneg; lia).
  destruct (c_sig c); [apply Z.mod_pos_bound|]; lia.
Qed.
Lemma cell_image c e k v : in_range (c_w c) k -> v mod 2 ^ c_w c = field (c_sig c) (c_w c) k -> image c e v = cell c e k.
Proof. intros H E. unfold image, cell. rewrite E. reflexivity. Qed.
Lemma sval_field c k : in_range (c_w c) k -> sval c k mod 2 ^ c_w c = field (c_sig c) (c_w c) k.
Proof.
  intros [R1 R2]. pose proof (w_range c). pose proof (pow2_split (c_w c) ltac:(lia)). unfold sval, field.
  destruct (c_sig c); [reflexivity|]. apply Z.mod_small. lia.
Qed.
Lemma canon_field c v k : c_int c = true -> in_range (c_w c) k -> v mod 2 ^ c_w c = field (c_sig c) (c_w c) k -> canon c v = sval c k.
Proof.
  intros Hi [R1 R2] E. unfold canon, sval. rewrite Hi. cbn [andb]. pose proof (w_range c). unfold field in E. destruct (c_sig c).
  - rewrite <- (wraps_small (c_w c) k) by lia. apply wraps_mod_eq. exact E.
  - exact E.
Qed.
Lemma uw_ge c : c_w c <= c_uw c.
Proof. destruct c; cbn; lia. Qed.
Lemma mod_mod_pow a b x : 0 <= a <= b -> (x mod 2 ^ b) mod 2 ^ a = x mod 2 ^ a.
Proof.
  intros H. replace (2 ^ b) with (2 ^ a * 2 ^ (b - a)) by (rewrite <- Z.pow_add_r by lia; f_equal; lia).
  assert (0 < 2 ^ a) by (apply Z.pow_pos_nonneg; lia). assert (0 < 2 ^ (b - a)) by (apply Z.pow_pos_nonneg; lia).
  rewrite Z.rem_mul_r by lia. rewrite Z.mul_comm, Z.mod_add by lia. apply Z.mod_mod. lia.
Qed.
Lemma wraps_mod_pow a b x : 0 <= a <= b -> 0 < b -> wraps b x mod 2 ^ a = x mod 2 ^ a.
Proof. intros H Hb. rewrite <- (mod_mod_pow a b) by lia. rewrite wraps_mod by lia. apply mod_mod_pow. lia. Qed.
Lemma from_signed_field c o k : c_sig c = false -> in_range (c_w c) k -> o mod 2 ^ c_w c = k mod 2 ^ c_w c ->
  from_signed c o mod 2 ^ c_w c = field (c_sig c) (c_w c) k.
Proof.
  intros Hs [R1 R2] E. unfold from_signed, smax, field. rewrite Hs. pose proof (w_range c). pose proof (uw_ge c).
  unfold wrapu. rewrite mod_mod_pow by lia. pose proof (pow2_split (c_w c) ltac:(lia)).
  replace (o + (2 ^ (c_w c - 1) - 1) + 1) with (o + 2 ^ (c_w c - 1)) by lia.
  rewrite <- Zplus_mod_idemp_l, E, Zplus_mod_idemp_l. apply Z.mod_small. lia.
Qed.
Lemma to_signed_val c k : in_range (c_w c) k -> to_signed c (k + 2 ^ (c_w c - 1)) = k.
Proof.
  intros [R1 R2]. unfold to_signed, smax. replace (k + 2 ^ (c_w c - 1) - (2 ^ (c_w c - 1) - 1) - 1) with k by lia.
  pose proof (w_range c). pose proof (uw_ge c). assert (2 ^ (c_w c - 1) <= 2 ^ (c_uw c - 1)) by (apply Z.pow_le_mono_r; lia).
  apply wraps_small; lia.
Qed.

(** Single to integer format. *)
Lemma convert_from_f32 c x : c_int c = true -> f32_fin (f32_of_bits x) = true ->
  exists k z, convert Float32 c x = Ok z /\ level_of (c_w c) (f32_val (f32_of_bits x)) k /\
    z mod 2 ^ c_w c = field (c_sig c) (c_w c) k.
Proof.
  intros Hi Hf. destruct (f32_to_int_val c _ Hi Hf) as (k & E & L). exists k.
  assert (R : in_range (c_w c) k) by (apply (level_range _ _ _ (proj2 (conj I (Z.lt_le_trans 0 8 _ eq_refl (proj1 (w_range c))))) L)).
  unfold convert. destruct (code_eq_dec Float32 c); [subst c; discriminate|]. cbn [c_sig negb andb].
  assert (M : match Float32, c with
         | Float32, Float64 => Ok (bits_of_f64 (f64_of_f32 (f32_of_bits x)))
         | Float64, Float32 => Ok (bits_of_f32 (f32_of_f64 (f64_of_bits x)))
         | Float32, _ => float_to_int c (f64_of_f32 (f32_of_bits x))
         | Float64, _ => float_to_int c (f64_of_bits x)
         | _, Float32 => Ok (bits_of_f32 (f32_of_f64 (int_to_float Float32 x)))
         | _, Float64 => Ok (bits_of_f64 (int_to_float Float32 x))
         | _, _ => Ok (int_to_int Float32 c x)
         end = Ok k).
  { rewrite <- E. destruct c; try discriminate Hi; reflexivity. }
  rewrite M. cbn [bind]. eexists. split; [reflexivity|]. split; [exact L|].
  destruct (c_sig c) eqn:S; cbn [negb andb]; [reflexivity|]. rewrite <- S. apply from_signed_field; [exact S|exact R|reflexivity].
Qed.

(** Integer format to single. *)
Lemma convert_to_f32 c k : c_int c = true -> in_range (c_w c) k ->
  convert c Float32 (sval c k) = Ok (bits_of_f32 (f32_of_f64 (int_to_float c k))).
Proof.
  intros Hi R. unfold convert. destruct (code_eq_dec c Float32); [subst c; discriminate|].
  assert (V : (if negb (c_sig c) && negb (negb (c_sig c) && negb (c_sig Float32)) then to_signed c (sval c k) else sval c k) = k).
  { unfold sval. cbn [c_sig]. destruct (c_sig c); cbn [negb andb]; [reflexivity|]. apply to_signed_val. exact R. }
  cbv zeta. rewrite V. destruct c; try discriminate Hi; reflexivity.
Qed.

(** Integer format to integer format, on levels. *)
Definition relevel (ci co : pcm_code) (k : Z) : Z :=
  let d := c_w ci - c_w co in
  if c_w co <? c_w ci then
    if negb (c_sig ci) && negb (c_sig co) then k / 2 ^ d
    else Z.min ((k + 2 ^ (d - 1)) / 2 ^ d) (2 ^ (c_w co - 1) - 1)
  else k * 2 ^ (c_w co - c_w ci).

Lemma relevel_range ci co k : in_range (c_w ci) k -> in_range (c_w co) (relevel ci co k).
Proof.
  intros [R1 R2]. pose proof (w_range ci). pose proof (w_range co). unfold relevel, in_range.
  assert (Po : 0 < 2 ^ (c_w co - 1)) by (apply Z.pow_pos_nonneg; lia).
  destruct (Z.ltb_spec (c_w co) (c_w ci)).
  - set (d := c_w ci - c_w co). assert (Pd : 0 < 2 ^ d) by (apply Z.pow_pos_nonneg; lia).
    assert (Pr : 0 < 2 ^ (d - 1)) by (apply Z.pow_pos_nonneg; lia).
    assert (E : 2 ^ (c_w ci - 1) = 2 ^ (c_w co - 1) * 2 ^ d) by (rewrite <- Z.pow_add_r by lia; f_equal; lia).
    destruct (negb (c_sig ci) && negb (c_sig co)).
    + split; [apply Z.div_le_lower_bound; lia|apply Z.div_lt_upper_bound; lia].
    + split; [|lia]. apply Z.min_glb; [|lia]. apply Z.div_le_lower_bound; lia.
  - set (d := c_w co - c_w ci). assert (Pd : 0 < 2 ^ d) by (apply Z.pow_pos_nonneg; lia).
    assert (E : 2 ^ (c_w co - 1) = 2 ^ (c_w ci - 1) * 2 ^ d) by (rewrite <- Z.pow_add_r by lia; f_equal; lia).
    rewrite E. split; [|apply Z.mul_lt_mono_pos_r; lia].
    replace (- (2 ^ (c_w ci - 1) * 2 ^ d)) with (- 2 ^ (c_w ci - 1) * 2 ^ d) by lia. apply Z.mul_le_mono_nonneg_r; lia.
Qed.

Lemma wraps_wrapu_shift uw w a d : 0 <= w <= uw -> 0 < uw -> 0 <= d -> wraps uw (Z.shiftl (wrapu uw a) d) mod 2 ^ w = (a * 2 ^ d) mod 2 ^ w.
Proof.
  intros. rewrite wraps_mod_pow by lia. rewrite Z.shiftl_mul_pow2 by lia. unfold wrapu.
  rewrite <- Zmult_mod_idemp_l. rewrite mod_mod_pow by lia. apply Zmult_mod_idemp_l.
Qed.

Lemma convert_int ci co k : c_int ci = true -> c_int co = true -> in_range (c_w ci) k ->
  exists z, convert ci co (sval ci k) = Ok z /\ z mod 2 ^ c_w co = field (c_sig co) (c_w co) (relevel ci co k).
Proof.
  intros Hi Ho R. pose proof (relevel_range ci co k R) as R'.
  pose proof (w_range ci) as Wi. pose proof (w_range co) as Wo. pose proof (uw_ge ci) as Ui. pose proof (uw_ge co) as Uo.
  unfold convert. destruct (code_eq_dec ci co) as [E|NE].
  { subst co. eexists. split; [reflexivity|]. rewrite sval_field by exact R. unfold relevel. rewrite Z.ltb_irrefl, Z.sub_diag, Z.mul_1_r. reflexivity. }
  cbv zeta.
  set (both := (negb (c_sig ci) && negb (c_sig co))%bool) in *.
  set (v := if negb (c_sig ci) && negb both then to_signed ci (sval ci k) else sval ci k).
  assert (M : match ci, co with
         | Float32, Float64 => Ok (bits_of_f64 (f64_of_f32 (f32_of_bits v)))
         | Float64, Float32 => Ok (bits_of_f32 (f32_of_f64 (f64_of_bits v)))
         | Float32, _ => float_to_int co (f64_of_f32 (f32_of_bits v))
         | Float64, _ => float_to_int co (f64_of_bits v)
         | _, Float32 => Ok (bits_of_f32 (f32_of_f64 (int_to_float ci v)))
         | _, Float64 => Ok (bits_of_f64 (int_to_float ci v))
         | _, _ => Ok (int_to_int ci co v)
         end = Ok (int_to_int ci co v)).
  { clear - Hi Ho. destruct ci; try discriminate Hi; destruct co; try discriminate Ho; reflexivity. }
  rewrite M. clear M. cbn [bind]. eexists. split; [reflexivity|].
  destruct both eqn:Eb.
  - (* both unsigned *)
    assert (Si : c_sig ci = false /\ c_sig co = false) by (subst both; destruct (c_sig ci), (c_sig co); try discriminate; auto).
    destruct Si as [Si So]. rewrite andb_false_r.
    assert (Ev : v = k + 2 ^ (c_w ci - 1)) by (subst v; rewrite andb_false_r; unfold sval; rewrite Si; reflexivity).
    rewrite Ev. unfold int_to_int, relevel in *. rewrite Si, So in *. cbn [negb andb] in *. unfold field. destruct R as [R1 R2], R' as [R1' R2'].
    pose proof (pow2_split (c_w co) ltac:(lia)) as Eo.
    destruct (Z.eqb_spec (c_w co) (c_w ci)) as [E|E].
    + rewrite E in *. rewrite Z.ltb_irrefl, Z.sub_diag, Z.mul_1_r in *. apply Z.mod_small. lia.
    + destruct (Z.ltb_spec (c_w co) (c_w ci)) as [L|L].
      * set (d := c_w ci - c_w co) in *. assert (Pd : 0 < 2 ^ d) by (apply Z.pow_pos_nonneg; lia).
        assert (E2 : 2 ^ (c_w ci - 1) = 2 ^ (c_w co - 1) * 2 ^ d) by (rewrite <- Z.pow_add_r by lia; f_equal; lia).
        rewrite Z.shiftr_div_pow2 by lia. unfold wrapu. rewrite mod_mod_pow by lia. rewrite E2, Z.div_add by lia. apply Z.mod_small. lia.
      * set (d := c_w co - c_w ci) in *. assert (Pd : 0 < 2 ^ d) by (apply Z.pow_pos_nonneg; lia).
        assert (E2 : 2 ^ (c_w co - 1) = 2 ^ (c_w ci - 1) * 2 ^ d) by (rewrite <- Z.pow_add_r by lia; f_equal; lia).
        unfold wrapu. rewrite mod_mod_pow by lia. rewrite Z.shiftl_mul_pow2 by lia. rewrite Z.mul_add_distr_r, <- E2. apply Z.mod_small. lia.
  - (* through signed values *)
    assert (Ev : v = k).
    { subst v. cbn [negb]. rewrite andb_true_r. unfold sval. destruct (c_sig ci); cbn [negb]; [reflexivity|]. apply to_signed_val. exact R. }
    rewrite Ev. cbn [negb]. rewrite andb_true_r.
    assert (K : int_to_int ci co k mod 2 ^ c_w co = relevel ci co k mod 2 ^ c_w co).
    { unfold int_to_int, relevel. fold both. rewrite Eb.
      destruct (Z.eqb_spec (c_w co) (c_w ci)) as [E|E].
      - rewrite E. rewrite Z.ltb_irrefl, Z.sub_diag, Z.mul_1_r. reflexivity.
      - destruct (Z.ltb_spec (c_w co) (c_w ci)) as [L|L].
        + set (d := c_w ci - c_w co) in *. assert (Pd : 0 < 2 ^ d) by (apply Z.pow_pos_nonneg; lia).
          assert (E2 : 2 ^ (c_w ci - 1) = 2 ^ (c_w co - 1) * 2 ^ d) by (rewrite <- Z.pow_add_r by lia; f_equal; lia).
          assert (E3 : 2 ^ d = 2 * 2 ^ (d - 1)) by (apply pow2_split; lia).
          destruct R as [R1 R2]. unfold smax.
          destruct (Z.ltb_spec (2 ^ (c_w ci - 1) - 1 - 2 ^ (d - 1)) k) as [C|C].
          * rewrite Z.min_r; [reflexivity|]. assert (2 ^ (c_w co - 1) <= (k + 2 ^ (d - 1)) / 2 ^ d); [|lia]. apply Z.div_le_lower_bound; lia.
          * rewrite Z.min_l. 2:{ assert ((k + 2 ^ (d - 1)) / 2 ^ d < 2 ^ (c_w co - 1)); [|lia]. apply Z.div_lt_upper_bound; lia. }
            rewrite wraps_mod_pow by lia. rewrite Z.shiftr_div_pow2 by lia. unfold wrapu.
            assert (X : (k + 2 ^ (d - 1)) mod 2 ^ c_uw ci = (k + 2 ^ (d - 1)) + (- ((k + 2 ^ (d - 1)) / 2 ^ c_uw ci) * 2 ^ (c_uw ci - d)) * 2 ^ d).
            { rewrite <- Z.mul_assoc, <- Z.pow_add_r by lia. replace (c_uw ci - d + d) with (c_uw ci) by lia.
              pose proof (Z.div_mod (k + 2 ^ (d - 1)) (2 ^ c_uw ci) ltac:(pose proof (Z.pow_pos_nonneg 2 (c_uw ci)); lia)). lia. }
            rewrite X, Z.div_add by lia.
            replace (2 ^ (c_uw ci - d)) with (2 ^ (c_uw ci - c_w ci) * 2 ^ c_w co) by (rewrite <- Z.pow_add_r by lia; f_equal; lia).
            rewrite Z.mul_assoc. apply Z.mod_add. pose proof (Z.pow_pos_nonneg 2 (c_w co)). lia.
        + apply wraps_wrapu_shift; lia. }
    destruct (c_sig co) eqn:So; cbn [negb].
    + unfold field. exact K.
    + rewrite <- So. apply from_signed_field; [exact So|exact R'|exact K].
Qed.
