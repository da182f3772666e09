(** C42: PCM encoding and decoding. *)
From Coq Require Import Reals Lra.
From Flocq Require Import Core.Core IEEE754.BinarySingleNaN.
From Verif Require Import Base Base_lemmas Float32 Pcm_model Pcm_spec PcmFloat_proof Pcm_proof PcmCodec_proof.
Open Scope Z_scope.
Open Scope res_scope.
Local Ltac splits := repeat match goal with |- _ /\ _ => split end.

(** ** Vocabulary of the statements *)

(** Amplitude of a sample given by its bit pattern. *)
Definition amp (x : Z) : R := f32_val (f32_of_bits x).
(** A sample: the bit pattern of a finite single. *)
Definition finite_sample (x : Z) : Prop := 0 <= x < 2 ^ 32 /\ f32_fin (f32_of_bits x) = true.

(** Encode [chunks], one write call each, into [frame]. *)
Definition encode (host : pcm_endian) (c : pcm_code) (e : pcm_endian) (ch : Z) (frame : list Z) (chunks : list (list Z)) : res (list Z) :=
  s <- enc_begin (enc_new c e ch) frame ;; s <- enc_writes host s chunks ;; r <- enc_end s ;; Ok (fst r).

(** Chunks hold whole frames of all channels. *)
Definition whole (ch : Z) (chunks : list (list Z)) : Prop := Forall (fun c => (ch | Z.of_nat (length c))) chunks.

(** Use of a decoder between begin and end: read into a zeroed array, or skip. *)
Inductive dec_op := Read (n : Z) | Skip (n : Z).
Definition op_ok (o : dec_op) : Prop := match o with Read n | Skip n => 0 <= n end.
Fixpoint dec_run (host : pcm_endian) (s : decoder) (ops : list dec_op) : res (list (Z * list Z)) :=
  match ops with
  | [] => Ok []
  | Read n :: t =>
      r <- dec_read host s (repeat 0 (Z.to_nat (n * de_chans s * 4))) n ;;
      rest <- dec_run host (snd r) t ;; Ok (fst r :: rest)
  | Skip n :: t => r <- dec_shift s n ;; rest <- dec_run host (snd r) t ;; Ok ((fst r, []) :: rest)
  end.
Definition decode (host : pcm_endian) (c : pcm_code) (e : pcm_endian) (ch : Z) (frame : list Z) (ops : list dec_op) : res (list (Z * list Z)) :=
  s <- dec_begin (dec_new c e ch) 0 frame ;; dec_run host s ops.

(** What the operations should return if the frame holds the samples [D]: consecutive
    pieces of [D], up to its end; the rest of an array is not touched. *)
Fixpoint pieces (host : pcm_endian) (ch : Z) (D : list Z) (ops : list dec_op) : list (Z * list Z) :=
  match ops with
  | [] => []
  | o :: t =>
      let n := match o with Read n | Skip n => n end in
      let m := Z.min n (Z.of_nat (length D) / ch) in
      let k := Z.to_nat (m * ch) in
      (m, match o with
          | Read _ => sample_bytes host (firstn k D) ++ repeat 0 (Z.to_nat ((n - m) * ch * 4))
          | Skip _ => []
          end) :: pieces host ch (skipn k D) t
  end.

(** ** Byte counts *)

(** The frame of [n] samples is the shortest that holds them, and holds no other sample. *)
Theorem C42_bytes c n : 0 <= n ->
  n * c_pw c <= 8 * byte_count c n /\ (forall b, n * c_pw c <= 8 * b -> byte_count c n <= b) /\
  sample_count c (byte_count c n) = n.
Proof.
  intros Hn. unfold byte_count, sample_count. pose proof (pw_pos c). assert (0 <= n * c_pw c) by nia.
  set (q := n * c_pw c) in *. split; [lia|]. split; [intros; lia|].
  symmetry. apply Z.div_unique with ((q + 7) / 8 * 8 - q); subst q; lia.
Qed.
Print Assumptions C42_bytes.
Example C42_bytes_ex : byte_count SInt20 3 = 8 /\ byte_count SInt18 1 = 3 /\ byte_count SInt24 5 = 15.
Proof. vm_compute. auto. Qed.

(** ** Splitting into calls *)

(** For every format: the frame does not depend on how the samples are divided into write
    calls. *)
Theorem C42_encode_split host c e ch frame chunks :
  0 < ch -> whole ch chunks -> Forall (Forall (fun x => 0 <= x < 2 ^ 32)) chunks ->
  encode host c e ch frame chunks = encode host c e ch frame [concat chunks].
Proof.
  intros Hc Hw Hp. unfold encode, enc_begin. cbn [enc_new en_frame bind en_code en_end en_chans en_off].
  rewrite (enc_split host chunks _ frame); cbn [en_frame en_chans en_off]; try reflexivity; try lia.
  apply Forall_forall. intros x Hx. split; [exact (proj1 (Forall_forall _ _) Hw x Hx)|exact (proj1 (Forall_forall _ _) Hp x Hx)].
Qed.
Print Assumptions C42_encode_split.
Example C42_encode_split_ex :
  encode Little SInt20 Big 2 (repeat 0 10) [[0x3f000000; 0x3e000000]; []; [0x3f000000; 0x3d800000]]
  = encode Little SInt20 Big 2 (repeat 0 10) [[0x3f000000; 0x3e000000; 0x3f000000; 0x3d800000]]
  /\ is_ok (encode Little SInt20 Big 2 (repeat 0 10) [[0x3f000000; 0x3e000000]; []; [0x3f000000; 0x3d800000]]).
Proof. vm_compute. split; [reflexivity|]. eexists. reflexivity. Qed.

Lemma dec_run_at host ops : forall s c e ch frame p, dec_at s c e ch frame 0 p -> 0 < ch -> Forall op_ok ops ->
  let T := sample_count c (Z.of_nat (length frame)) / ch in
  T < 2 ^ 32 ->
  dec_run host s ops = Ok (pieces host ch (map (dsample c e frame) (seq (Z.to_nat (p * ch)) (Z.to_nat ((T - p) * ch)))) ops).
Proof.
  induction ops as [|o ops IH]; intros s c e ch frame p D Hc Ho T HT; [reflexivity|].
  inversion Ho as [|o' ops' Hn Ho']; subst. pose proof (da_p _ _ _ _ _ _ _ D) as HP. fold T in HP.
  assert (L : Z.of_nat (length (map (dsample c e frame) (seq (Z.to_nat (p * ch)) (Z.to_nat ((T - p) * ch))))) / ch = T - p).
  { rewrite map_length, seq_length, Z2Nat.id by nia. apply Z.div_mul. lia. }
  assert (SK : forall m, 0 <= m <= T - p -> skipn (Z.to_nat (m * ch)) (map (dsample c e frame) (seq (Z.to_nat (p * ch)) (Z.to_nat ((T - p) * ch))))
                = map (dsample c e frame) (seq (Z.to_nat ((p + m) * ch)) (Z.to_nat ((T - (p + m)) * ch)))).
  { intros m Hm. rewrite skipn_map. f_equal.
    replace (Z.to_nat ((T - p) * ch)) with (Z.to_nat (m * ch) + Z.to_nat ((T - (p + m)) * ch))%nat by nia.
    rewrite seq_app, skipn_app, seq_length, Nat.sub_diag. rewrite skipn_all2 by (rewrite seq_length; lia). cbn [app skipn].
    f_equal. nia. }
  assert (FI : forall m, 0 <= m <= T - p -> firstn (Z.to_nat (m * ch)) (map (dsample c e frame) (seq (Z.to_nat (p * ch)) (Z.to_nat ((T - p) * ch))))
                = map (dsample c e frame) (seq (Z.to_nat (p * ch)) (Z.to_nat (m * ch)))).
  { intros m Hm. rewrite firstn_map. f_equal.
    replace (Z.to_nat ((T - p) * ch)) with (Z.to_nat (m * ch) + Z.to_nat ((T - (p + m)) * ch))%nat by nia.
    rewrite seq_app, firstn_app, seq_length, Nat.sub_diag. rewrite firstn_all2 by (rewrite seq_length; lia). rewrite firstn_O, app_nil_r. reflexivity. }
  destruct o as [n|n]; cbn [op_ok] in Hn; cbn [dec_run pieces]; rewrite L.
  - assert (HM : 0 <= Z.min n (T - p) <= T - p) by lia.
    destruct (dec_read_at host s c e ch frame 0 p n (repeat 0 (Z.to_nat (n * de_chans s * 4))) D Hc Hn HT) as (s' & E & D').
    { rewrite repeat_length, (da_ch _ _ _ _ _ _ _ D). reflexivity. }
    cbv zeta in E, D'. fold T in E, D'. rewrite E. cbn [bind fst snd]. rewrite (IH s' c e ch frame _ D' Hc Ho' HT). cbn [bind].
    fold T. rewrite SK, FI by exact HM. do 4 f_equal.
    rewrite (da_ch _ _ _ _ _ _ _ D). set (m := Z.min n (T - p)) in *.
    assert (0 <= m <= n) by (subst m; lia).
    replace (Z.to_nat (n * ch * 4)) with (Z.to_nat (m * ch * 4) + Z.to_nat ((n - m) * ch * 4))%nat by nia.
    rewrite repeat_app, skipn_app, repeat_length, Nat.sub_diag. rewrite skipn_all2 by (rewrite repeat_length; lia). reflexivity.
  - assert (HM : 0 <= Z.min n (T - p) <= T - p) by lia.
    destruct (dec_shift_at s c e ch frame 0 p n D Hc Hn HT) as (s' & E & D').
    cbv zeta in E, D'. fold T in E, D'. rewrite E. cbn [bind fst snd]. rewrite (IH s' c e ch frame _ D' Hc Ho' HT). cbn [bind].
    fold T. rewrite SK by exact HM. reflexivity.
Qed.

(** The samples of a frame. *)
Definition frame_samples (c : pcm_code) (e : pcm_endian) (ch : Z) (frame : list Z) : list Z :=
  map (dsample c e frame) (seq 0 (Z.to_nat (sample_count c (Z.of_nat (length frame)) / ch * ch))).
Lemma decode_pieces host c e ch frame ops : 0 < ch -> sample_count c (Z.of_nat (length frame)) / ch < 2 ^ 32 -> Forall op_ok ops ->
  decode host c e ch frame ops = Ok (pieces host ch (frame_samples c e ch frame) ops).
Proof.
  intros Hc HT Ho. unfold decode. destruct (dec_begin_at c e ch frame 0 Hc ltac:(lia) HT) as (s & -> & D). cbn [bind].
  rewrite (dec_run_at host ops s c e ch frame 0 D Hc Ho HT). unfold frame_samples. do 4 f_equal; lia.
Qed.

(** For every format and every frame there is one sequence of samples such that every
    sequence of reads and skips returns consecutive pieces of it; so the result does not
    depend on how the reading is divided into calls. It has all the samples that fit in
    the frame. No panic and no access outside the frame. *)
Theorem C42_decode_split host c e ch frame :
  0 < ch -> sample_count c (Z.of_nat (length frame)) / ch < 2 ^ 32 ->
  exists D, Z.of_nat (length D) = Z.of_nat (length frame) * 8 / c_pw c / ch * ch /\
    forall ops, Forall op_ok ops -> decode host c e ch frame ops = Ok (pieces host ch D ops).
Proof.
  intros Hc HT. exists (frame_samples c e ch frame). split.
  - unfold frame_samples. rewrite map_length, seq_length. unfold sample_count. rewrite Z2Nat.id; [reflexivity|].
    pose proof (pw_pos c). apply Z.mul_nonneg_nonneg; [|lia]. apply Z.div_pos; [|lia]. apply Z.div_pos; lia.
  - intros ops Ho. apply decode_pieces; assumption.
Qed.
Print Assumptions C42_decode_split.
Example C42_decode_split_ex :
  decode Little UInt16 Big 1 [192; 0; 64; 0] [Read 1; Skip 0; Read 2]
  = Ok [(1, [0;0;0;63]); (0, []); (1, [0;0;0;191] ++ [0;0;0;0])].
Proof. vm_compute. reflexivity. Qed.

(** ** Layout: containers of whole octets *)

Lemma Forall2_len {A B} (R : A -> B -> Prop) l l' : Forall2 R l l' -> length l = length l'.
Proof. induction 1; cbn [length]; congruence. Qed.


Lemma encode_al host c e ch frame xs zs : c_pw c mod 8 = 0 -> 0 < ch -> (ch | Z.of_nat (length xs)) -> Forall pat32 xs ->
  Forall2 (fun v z => convert Float32 c v = Ok z) xs zs -> length frame = (length xs * c_po c)%nat ->
  encode host c e ch frame [xs] = Ok (flat_map (image c e) zs).
Proof.
  intros Ha Hc HW HF K2 LF.
  unfold encode, enc_begin. cbn [enc_new en_frame bind en_code en_end en_chans en_off enc_writes].
  rewrite (enc_write_eq host _ frame xs); cbn [en_frame en_chans en_off]; try assumption; try reflexivity; try lia.
  cbv zeta. unfold room. cbn [en_off en_code en_end]. rewrite LF.
  replace ((Z.of_nat (length xs * c_po c) * 8 - 0) / c_pw c) with (Z.of_nat (length xs)).
  2:{ rewrite <- (po_al c Ha). symmetry. assert (0 < c_po c)%nat by (pose proof (pw_pos c); pose proof (po_al c Ha); lia).
      replace (Z.of_nat (length xs * c_po c) * 8 - 0) with (Z.of_nat (length xs) * (8 * Z.of_nat (c_po c))) by lia. apply Z.div_mul. lia. }
  rewrite Z.min_id, Nat2Z.id, firstn_all.
  pose proof (cpack_al Float32 c e xs zs Ha K2 0 frame ltac:(lia)) as CP. change (8 * Z.of_nat 0) with 0 in CP. rewrite CP; clear CP.
  cbn [bind fst snd en_set enc_end en_frame]. f_equal. rewrite firstn_O. cbn [app]. rewrite skipn_all2 by lia. rewrite app_nil_r.
  reflexivity.
Qed.

(** Encoding: sample after sample, the container of its level. *)
Theorem C42_encode host c e ch frame chunks :
  c_int c = true -> c_pw c mod 8 = 0 -> 0 < ch -> whole ch chunks -> Forall (Forall finite_sample) chunks ->
  Z.of_nat (length frame) = byte_count c (Z.of_nat (length (concat chunks))) ->
  exists ks, Forall2 (fun x k => level_of (c_w c) (amp x) k) (concat chunks) ks /\
    encode host c e ch frame chunks =
    Ok (flat_map (fun k => container (is_big e) (Z.to_nat (c_pw c / 8)) (field (c_sig c) (c_w c) k)) ks).
Proof.
  intros Hi Ha Hc Hw Hf Hl.
  rewrite C42_encode_split; [|assumption|assumption|].
  2:{ apply Forall_forall. intros x Hx. eapply Forall_impl; [|exact (proj1 (Forall_forall _ _) Hf x Hx)]. intros y Hy. apply Hy. }
  assert (HF : Forall finite_sample (concat chunks)) by (apply Forall_concat; exact Hf).
  assert (HW : (ch | Z.of_nat (length (concat chunks)))).
  { clear - Hw. induction Hw as [|a t H _ IH]; cbn [concat]; [exists 0; reflexivity|]. rewrite app_length, Nat2Z.inj_add. apply Z.divide_add_r; assumption. }
  set (xs := concat chunks) in *.
  assert (KZ : exists ks zs, Forall2 (fun x k => level_of (c_w c) (amp x) k) xs ks /\ Forall2 (fun v z => convert Float32 c v = Ok z) xs zs /\
             Forall2 (fun z k => z mod 2 ^ c_w c = field (c_sig c) (c_w c) k) zs ks).
  { clear - Hi HF. induction HF as [|x xs Hx _ (ks & zs & I1 & I2 & I3)]; [exists [], []; repeat split; constructor|].
    destruct (convert_from_f32 c x Hi (proj2 Hx)) as (k & z & C1 & C2 & C3). exists (k :: ks), (z :: zs). split; [constructor; assumption|]. split; constructor; assumption. }
  destruct KZ as (ks & zs & K1 & K2 & K3). exists ks. split; [exact K1|].
  assert (PO : Z.to_nat (c_pw c / 8) = c_po c) by (unfold c_po; pose proof (pw_pos c); lia). rewrite PO.
  assert (Lx : length ks = length xs) by (symmetry; exact (Forall2_len _ _ _ K1)).
  assert (LF : length frame = (length xs * c_po c)%nat).
  { unfold byte_count in Hl. pose proof (po_al c Ha) as PA. rewrite <- PA in Hl. nia. }
  rewrite (encode_al host c e ch frame xs zs); try assumption; [|eapply Forall_impl; [|exact HF]; intros y Hy; apply Hy]. f_equal.
  clear - K3. induction K3 as [|z k zs ks H _ IH]; [reflexivity|]. cbn [flat_map]. rewrite IH. f_equal. unfold image. rewrite H. reflexivity.
Qed.
Print Assumptions C42_encode.

(** Half and minus half in big-endian 16-bit. *)
Example C42_encode_ex : encode Little SInt16 Big 2 (repeat 7 4) [[0x3f000000; 0xbf000000]] = Ok [64; 0; 192; 0]
  /\ encode Little UInt24 Little 1 (repeat 7 6) [[0x3f000000]; [0xbf000000]] = Ok [0; 0; 192; 0; 0; 64].
Proof. vm_compute. auto. Qed.

Lemma dsample_cell c e ks j k : c_int c = true -> c_pw c mod 8 = 0 -> Forall (in_range (c_w c)) ks -> nth_error ks j = Some k ->
  dsample c e (flat_map (cell c e) ks) j = bits_of_f32 (f32_of_f64 (int_to_float c k)).
Proof.
  intros Hi Ha HR Hj. assert (R : in_range (c_w c) k) by (eapply Forall_forall; [exact HR|eapply nth_error_In; exact Hj]).
  unfold dsample. replace (Z.of_nat j * c_pw c) with (8 * Z.of_nat (j * c_po c)) by (rewrite <- (po_al c Ha); lia).
  rewrite (unpack_al c e _ _ (field (c_sig c) (c_w c) k) Ha).
  - cbn [fst]. rewrite (canon_field c _ k Hi R) by (apply Z.mod_small; apply field_range; exact R).
    rewrite convert_to_f32 by assumption. reflexivity.
  - clear HR. revert j Hj. induction ks as [|k' ks IH]; intros [|j] Hj; cbn [nth_error] in Hj; try discriminate.
    + assert (k' = k) by congruence. subst k'. cbn [flat_map Nat.mul skipn]. rewrite firstn_app.
      assert (LC : length (cell c e k) = c_po c) by apply container_length.
      rewrite LC, Nat.sub_diag, firstn_O, app_nil_r. rewrite firstn_all2 by lia.
      unfold image. rewrite Z.mod_small by (apply field_range; exact R). reflexivity.
    + cbn [flat_map]. assert (LC : length (cell c e k') = c_po c) by apply container_length.
      rewrite skipn_app, skipn_all2 by (rewrite LC; lia). rewrite LC. cbn [app].
      replace (S j * c_po c - c_po c)%nat with (j * c_po c)%nat by lia. apply IH. exact Hj.
Qed.

Lemma list_of_nth {A} (f : nat -> A) (l : list Z) (g : Z -> A) :
  (forall j k, nth_error l j = Some k -> f j = g k) -> map f (seq 0 (length l)) = map g l.
Proof.
  intros H. apply nth_error_ext. intros i. rewrite !nth_error_map.
  destruct (Nat.ltb_spec i (length l)) as [L|L].
  - rewrite (nth_error_nth' (seq 0 (length l)) O) by (rewrite seq_length; exact L). rewrite seq_nth by exact L.
    destruct (nth_error l i) eqn:E; [|apply nth_error_None in E; lia]. cbn [option_map plus]. f_equal. apply H. exact E.
  - rewrite (proj2 (nth_error_None (seq 0 (length l)) i)) by (rewrite seq_length; exact L).
    rewrite (proj2 (nth_error_None l i)) by exact L. reflexivity.
Qed.

Lemma frame_samples_cells c e ch ks : c_int c = true -> c_pw c mod 8 = 0 -> Forall (in_range (c_w c)) ks -> 0 < ch -> (ch | Z.of_nat (length ks)) ->
  frame_samples c e ch (flat_map (cell c e) ks) = map (fun k => bits_of_f32 (f32_of_f64 (int_to_float c k))) ks.
Proof.
  intros Hi Ha HR Hc Hd. unfold frame_samples.
  assert (LF : length (flat_map (cell c e) ks) = (length ks * c_po c)%nat).
  { clear. induction ks as [|k t IH]; [reflexivity|]. cbn [flat_map length]. rewrite app_length, IH. unfold cell. rewrite container_length. lia. }
  assert (SC : sample_count c (Z.of_nat (length (flat_map (cell c e) ks))) = Z.of_nat (length ks)).
  { unfold sample_count. rewrite LF, <- (po_al c Ha). assert (0 < c_po c)%nat by (pose proof (pw_pos c); pose proof (po_al c Ha); lia).
    replace (Z.of_nat (length ks * c_po c) * 8) with (Z.of_nat (length ks) * (8 * Z.of_nat (c_po c))) by lia. apply Z.div_mul. lia. }
  rewrite SC. replace (Z.to_nat (Z.of_nat (length ks) / ch * ch)) with (length ks).
  2:{ destruct Hd as (q & Hq). rewrite Hq, Z.div_mul by lia. lia. }
  apply list_of_nth. intros j k Hj. apply dsample_cell; assumption.
Qed.

(** Decoding a frame of levels gives their amplitudes, rounded to single precision; exactly
    the amplitudes if the format has at most 24 bits. *)
Theorem C42_decode host c e ch ks :
  c_int c = true -> c_pw c mod 8 = 0 -> 0 < ch -> (ch | Z.of_nat (length ks)) -> Z.of_nat (length ks) < 2 ^ 32 ->
  Forall (fun k => - 2 ^ (c_w c - 1) <= k < 2 ^ (c_w c - 1)) ks ->
  exists D,
    Forall2 (fun d k => finite_sample d /\ amp d = rnd32 (rnd64 (IZR k) / IZR (2 ^ (c_w c - 1))) /\
                        (c_w c <= 24 -> amp d = amplitude (c_w c) k)) D ks /\
    forall ops, Forall op_ok ops ->
      decode host c e ch (flat_map (fun k => container (is_big e) (Z.to_nat (c_pw c / 8)) (field (c_sig c) (c_w c) k)) ks) ops
      = Ok (pieces host ch D ops).
Proof.
  intros Hi Ha Hc Hd Hn HR. exists (map (fun k => bits_of_f32 (f32_of_f64 (int_to_float c k))) ks). split.
  - clear - Hi HR. induction HR as [|k ks Hk _ IH]; cbn [map]; constructor; [|exact IH].
    destruct (int_to_f32_val c k Hi ltac:(lia)) as [V F]. unfold finite_sample, amp. rewrite f32_bits_id.
    split; [split; [apply bits32_range|exact F]|]. split; [exact V|]. intros Hw.
    destruct (amp_single c k Hi Hw ltac:(lia)) as [A1 A2]. rewrite <- A1. apply int_to_f32_exact; try assumption. lia.
  - intros ops Ho. assert (PO : Z.to_nat (c_pw c / 8) = c_po c) by (unfold c_po; pose proof (pw_pos c); lia). rewrite PO.
    change (fun k => container (is_big e) (c_po c) (field (c_sig c) (c_w c) k)) with (cell c e).
    rewrite decode_pieces; try assumption.
    + rewrite frame_samples_cells by assumption. reflexivity.
    + assert (LF : length (flat_map (cell c e) ks) = (length ks * c_po c)%nat).
      { clear. induction ks as [|k t IH]; [reflexivity|]. cbn [flat_map length]. rewrite app_length, IH. unfold cell. rewrite container_length. lia. }
      unfold sample_count. rewrite LF, <- (po_al c Ha). assert (0 < c_po c)%nat by (pose proof (pw_pos c); pose proof (po_al c Ha); lia).
      replace (Z.of_nat (length ks * c_po c) * 8) with (Z.of_nat (length ks) * (8 * Z.of_nat (c_po c))) by lia. rewrite Z.div_mul by lia.
      eapply Z.le_lt_trans; [|exact Hn]. apply Z.div_le_upper_bound; nia.
Qed.
Print Assumptions C42_decode.

(** Round trip of samples: what is a level of the format comes back exactly, however
    writing and reading are divided into calls. *)
Theorem C42_roundtrip host c e ch frame chunks :
  c_int c = true -> c_pw c mod 8 = 0 -> 0 < ch -> whole ch chunks ->
  Forall (Forall (fun x => finite_sample x /\
    exists k, - 2 ^ (c_w c - 1) <= k < 2 ^ (c_w c - 1) /\ amp x = amplitude (c_w c) k)) chunks ->
  Z.of_nat (length frame) = byte_count c (Z.of_nat (length (concat chunks))) ->
  Z.of_nat (length (concat chunks)) < 2 ^ 32 ->
  exists payload D,
    encode host c e ch frame chunks = Ok payload /\
    Forall2 (fun x d => finite_sample d /\ amp d = amp x) (concat chunks) D /\
    forall ops, Forall op_ok ops -> decode host c e ch payload ops = Ok (pieces host ch D ops).
Proof.
  intros Hi Ha Hc Hw Hf Hl Hn.
  assert (Hf1 : Forall (Forall finite_sample) chunks).
  { eapply Forall_impl; [|exact Hf]. intros l Hx. eapply Forall_impl; [|exact Hx]. intros y Hy. apply Hy. }
  destruct (C42_encode host c e ch frame chunks Hi Ha Hc Hw Hf1 Hl) as (ks & K & E).
  apply Forall_concat in Hf.
  assert (HW : (ch | Z.of_nat (length (concat chunks)))).
  { clear - Hw. induction Hw as [|a t H _ IH]; cbn [concat]; [exists 0; reflexivity|]. rewrite app_length, Nat2Z.inj_add. apply Z.divide_add_r; assumption. }
  pose proof (w_range c) as W.
  assert (KR : Forall (fun k => - 2 ^ (c_w c - 1) <= k < 2 ^ (c_w c - 1)) ks).
  { clear - K W. induction K as [|x k xs ks H _ IH]; constructor; [|exact IH]. apply (level_range _ (amp x)); [lia|exact H]. }
  rewrite (Forall2_len _ _ _ K) in HW, Hn.
  destruct (C42_decode host c e ch ks Hi Ha Hc HW Hn KR) as (D & HD & HO).
  eexists. exists D. split; [exact E|]. split; [|exact HO].
  clear - K HD Hf Hi W. revert D HD. induction K as [|x k xs ks H _ IH]; intros D HD; inversion HD as [|d k' D' ks' H1 H2]; subst; constructor.
  - inversion Hf as [|x' xs' (Fx & k0 & R0 & A0) _]; subst. destruct H1 as (F1 & V1 & _). split; [exact F1|].
    assert (k = k0).
    { eapply level_fun; [exact H|]. rewrite A0. apply level_amp; [lia|exact R0]. }
    subst k0. rewrite V1. destruct (int_to_f32_val c k Hi ltac:(lia)) as [V _]. rewrite <- V. apply int_to_f32_exact; [exact Hi|lia|apply Fx|exact A0].
  - inversion Hf; subst. apply IH; assumption.
Qed.
Print Assumptions C42_roundtrip.

(** Example: the hypotheses hold, with a partition into two writes. *)
Example C42_roundtrip_ex : exists payload D,
  encode Little SInt16 Big 1 (repeat 0 6) [[0x3f000000; 0xbf800000]; [0]] = Ok payload /\
  Forall2 (fun x d => finite_sample d /\ amp d = amp x) [0x3f000000; 0xbf800000; 0] D /\
  forall ops, Forall op_ok ops -> decode Little SInt16 Big 1 payload ops = Ok (pieces Little 1 D ops).
Proof.
  assert (V : forall x k, 0 <= x < 2 ^ 32 -> Z.abs k <= 2 ^ 15 -> B2SF (f32_of_bits x) = B2SF (f32_make k (-15)) -> finite_sample x /\ amp x = amplitude 16 k).
  { intros x k Hx Hk E. apply B2SF_inj in E. destruct (amp_single SInt16 k eq_refl ltac:(cbn; lia) Hk) as [A B].
    change (1 - c_w SInt16) with (-15) in A, B. rewrite <- E in A, B. split; [split; assumption|exact A]. }
  assert (G : forall x k, 0 <= x < 2 ^ 32 -> - 2 ^ 15 <= k < 2 ^ 15 -> B2SF (f32_of_bits x) = B2SF (f32_make k (-15)) ->
    finite_sample x /\ exists k, - 2 ^ (c_w SInt16 - 1) <= k < 2 ^ (c_w SInt16 - 1) /\ amp x = amplitude (c_w SInt16) k).
  { intros x k Hx Hk E. destruct (V x k Hx ltac:(lia) E) as [V1 V2]. split; [exact V1|]. exists k. split; [exact Hk|exact V2]. }
  apply C42_roundtrip; try reflexivity.
  - constructor; [apply Z.divide_1_l|]. constructor; [apply Z.divide_1_l|constructor].
  - constructor; [constructor; [|constructor; [|constructor]]|constructor; [constructor; [|constructor]|constructor]].
    + apply (G _ 16384); [lia|lia|vm_compute; reflexivity].
    + apply (G _ (-32768)); [lia|lia|vm_compute; reflexivity].
    + apply (G _ 0); [lia|lia|vm_compute; reflexivity].
Qed.

(** The other direction: a payload of at most 24 bits that is decoded and encoded again is
    restored octet by octet. *)
Theorem C42_restore host c e ch ks :
  c_int c = true -> c_pw c mod 8 = 0 -> c_w c <= 24 -> 0 < ch -> (ch | Z.of_nat (length ks)) -> Z.of_nat (length ks) < 2 ^ 32 ->
  Forall (fun k => - 2 ^ (c_w c - 1) <= k < 2 ^ (c_w c - 1)) ks ->
  let payload := flat_map (fun k => container (is_big e) (Z.to_nat (c_pw c / 8)) (field (c_sig c) (c_w c) k)) ks in
  exists D, (forall ops, Forall op_ok ops -> decode host c e ch payload ops = Ok (pieces host ch D ops)) /\
    forall frame chunks, concat chunks = D -> whole ch chunks -> length frame = length payload ->
      encode host c e ch frame chunks = Ok payload.
Proof.
  intros Hi Ha H24 Hc Hd Hn HR payload. destruct (C42_decode host c e ch ks Hi Ha Hc Hd Hn HR) as (D & HD & HO).
  exists D. split; [exact HO|]. intros frame chunks Ec Hw Hl. pose proof (w_range c) as W.
  assert (HF : Forall (Forall finite_sample) chunks).
  { assert (Forall finite_sample (concat chunks)) as H by (rewrite Ec; clear - HD; induction HD as [|d k D ks H _ IH]; constructor; [apply H|exact IH]).
    clear - H. induction chunks as [|a t IH]; constructor; cbn [concat] in H; apply Forall_app in H; [apply H|apply IH; apply H]. }
  assert (LP : length payload = (length ks * c_po c)%nat).
  { subst payload. assert (PO : Z.to_nat (c_pw c / 8) = c_po c) by (unfold c_po; pose proof (pw_pos c); lia). rewrite PO.
    clear. induction ks as [|k t IH]; [reflexivity|]. cbn [flat_map length]. rewrite app_length, IH, container_length. lia. }
  destruct (C42_encode host c e ch frame chunks Hi Ha Hc Hw HF) as (ks' & K & E).
  { rewrite Hl, LP, Ec, (Forall2_len _ _ _ HD). unfold byte_count. rewrite <- (po_al c Ha). lia. }
  rewrite E. subst payload. do 2 f_equal. rewrite Ec in K.
  clear - K HD H24 HR W. revert ks' K. induction HD as [|d k D ks H _ IH]; intros ks' K; inversion K as [|x y l l' K1 K2]; subst; [reflexivity|].
  inversion HR; subst. f_equal; [|apply IH; assumption].
  eapply level_fun; [exact K1|]. destruct H as (_ & _ & H). rewrite (H H24). apply level_amp; [lia|assumption].
Qed.
Print Assumptions C42_restore.
Example C42_restore_ex : c_int SInt24 = true /\ c_pw SInt24 mod 8 = 0 /\ c_w SInt24 <= 24
  /\ Forall (fun k => - 2 ^ (c_w SInt24 - 1) <= k < 2 ^ (c_w SInt24 - 1)) [-8388608; -1; 5; 8388607]
  /\ flat_map (fun k => container true (Z.to_nat (c_pw SInt24 / 8)) (field true 24 k)) [-8388608; -1; 5; 8388607]
     = [128;0;0; 255;255;255; 0;0;5; 127;255;255].
Proof. split; [reflexivity|]. split; [reflexivity|]. split; [cbn; lia|]. split; [repeat constructor; cbn; lia|reflexivity]. Qed.

(** ** Floating point formats *)
Lemma dsample_image c e vs j v z : c_pw c mod 8 = 0 -> nth_error vs j = Some v -> convert c Float32 (canon c v) = Ok z ->
  dsample c e (flat_map (image c e) vs) j = z.
Proof.
  intros Ha Hj Hz. unfold dsample. replace (Z.of_nat j * c_pw c) with (8 * Z.of_nat (j * c_po c)) by (rewrite <- (po_al c Ha); lia).
  rewrite (unpack_al c e _ _ v Ha); [cbn [fst]; rewrite Hz; reflexivity|].
  revert j Hj. induction vs as [|v' vs IH]; intros [|j] Hj; cbn [nth_error] in Hj; try discriminate.
  - assert (v' = v) by congruence. subst v'. cbn [flat_map Nat.mul skipn]. rewrite firstn_app, image_length, Nat.sub_diag, firstn_O, app_nil_r.
    apply firstn_all2. rewrite image_length. lia.
  - cbn [flat_map]. rewrite skipn_app, skipn_all2 by (rewrite image_length; lia). rewrite image_length. cbn [app].
    replace (S j * c_po c - c_po c)%nat with (j * c_po c)%nat by lia. apply IH. exact Hj.
Qed.
Lemma frame_samples_images c e ch vs (f : Z -> Z) : c_pw c mod 8 = 0 -> 0 < ch -> (ch | Z.of_nat (length vs)) ->
  (forall v, In v vs -> convert c Float32 (canon c v) = Ok (f v)) ->
  frame_samples c e ch (flat_map (image c e) vs) = map f vs /\ sample_count c (Z.of_nat (length (flat_map (image c e) vs))) = Z.of_nat (length vs).
Proof.
  intros Ha Hc Hd Hf. unfold frame_samples.
  assert (SC : sample_count c (Z.of_nat (length (flat_map (image c e) vs))) = Z.of_nat (length vs)).
  { unfold sample_count. rewrite flat_image_length, <- (po_al c Ha). assert (0 < c_po c)%nat by (pose proof (pw_pos c); pose proof (po_al c Ha); lia).
    replace (Z.of_nat (length vs * c_po c) * 8) with (Z.of_nat (length vs) * (8 * Z.of_nat (c_po c))) by lia. apply Z.div_mul. lia. }
  split; [|exact SC]. rewrite SC. replace (Z.to_nat (Z.of_nat (length vs) / ch * ch)) with (length vs).
  2:{ destruct Hd as (q & Hq). rewrite Hq, Z.div_mul by lia. lia. }
  apply list_of_nth. intros j v Hj. eapply dsample_image; [exact Ha|exact Hj|]. apply Hf. eapply nth_error_In. exact Hj.
Qed.
Lemma whole_concat ch chunks : whole ch chunks -> (ch | Z.of_nat (length (concat chunks))).
Proof. intros Hw. induction Hw as [|a t H _ IH]; cbn [concat]; [exists 0; reflexivity|]. rewrite app_length, Nat2Z.inj_add. apply Z.divide_add_r; assumption. Qed.

(** The Float32 format carries every sample bit by bit, NaNs and infinities included. *)
Theorem C42_float32 host e ch frame chunks :
  0 < ch -> whole ch chunks -> Forall (Forall (fun x => 0 <= x < 2 ^ 32)) chunks ->
  Z.of_nat (length frame) = byte_count Float32 (Z.of_nat (length (concat chunks))) ->
  Z.of_nat (length (concat chunks)) < 2 ^ 32 ->
  exists payload, encode host Float32 e ch frame chunks = Ok payload /\
    forall ops, Forall op_ok ops -> decode host Float32 e ch payload ops = Ok (pieces host ch (concat chunks) ops).
Proof.
  intros Hc Hw Hp Hl Hn. rewrite C42_encode_split by assumption. pose proof (whole_concat _ _ Hw) as HW.
  apply Forall_concat in Hp. set (xs := concat chunks) in *. exists (flat_map (image Float32 e) xs). split.
  - apply encode_al; try assumption; try reflexivity.
    + clear. induction xs; constructor; [reflexivity|assumption].
    + unfold byte_count in Hl. change (c_pw Float32) with 32 in Hl. change (c_po Float32) with 4%nat. lia.
  - intros ops Ho. destruct (frame_samples_images Float32 e ch xs (fun x => x) eq_refl Hc HW) as [F1 F2].
    { intros v Hv. rewrite canon_f32; [reflexivity|]. exact (proj1 (Forall_forall _ _) Hp v Hv). }
    rewrite decode_pieces; try assumption; [rewrite F1, map_id; reflexivity|]. rewrite F2.
    eapply Z.le_lt_trans; [|exact Hn]. apply Z.div_le_upper_bound; nia.
Qed.
Print Assumptions C42_float32.
Example C42_float32_ex : decode Little Float32 Big 1 [255; 192; 0; 1] [Read 1] = Ok [(1, [1; 0; 192; 255])].
Proof. vm_compute. reflexivity. Qed.

(** The Float64 format keeps the value of every finite sample. *)
Lemma f64_round_trip x : f32_fin x = true -> f32_val (f32_of_f64 (f64_of_f32 x)) = f32_val x /\ f32_fin (f32_of_f64 (f64_of_f32 x)) = true.
Proof.
  intros F. destruct (f64_of_f32_val x F) as [V F']. destruct (f64_of_f32 x) as [s|s| |s m e B]; try discriminate.
  - rewrite <- V. split; reflexivity.
  - unfold f32_of_f64. pose proof (binary_normalize_correct 24 128 _ _ mode_NE (cond_Zopp s (Z.pos m)) e s) as H. cbv zeta in H.
    change (F2R (Float radix2 (cond_Zopp s (Z.pos m)) e)) with (f64_val (B754_finite s m e B)) in H. rewrite V in H.
    rewrite round_generic in H; [|apply valid_rnd_round_mode|apply generic_format_B2R].
    rewrite Rlt_bool_true in H by apply abs_B2R_lt_emax. destruct H as (H1 & H2 & _). split; [exact H1|exact H2].
Qed.
Theorem C42_float64 host e ch frame chunks :
  0 < ch -> whole ch chunks -> Forall (Forall finite_sample) chunks ->
  Z.of_nat (length frame) = byte_count Float64 (Z.of_nat (length (concat chunks))) ->
  Z.of_nat (length (concat chunks)) < 2 ^ 32 ->
  exists payload D, encode host Float64 e ch frame chunks = Ok payload /\
    Forall2 (fun x d => finite_sample d /\ amp d = amp x) (concat chunks) D /\
    forall ops, Forall op_ok ops -> decode host Float64 e ch payload ops = Ok (pieces host ch D ops).
Proof.
  intros Hc Hw Hf Hl Hn. pose proof (whole_concat _ _ Hw) as HW.
  rewrite C42_encode_split; [|assumption|assumption|].
  2:{ apply Forall_forall. intros x Hx. eapply Forall_impl; [|exact (proj1 (Forall_forall _ _) Hf x Hx)]. intros y Hy. apply Hy. }
  apply Forall_concat in Hf. set (xs := concat chunks) in *.
  set (g := fun x => bits_of_f64 (f64_of_f32 (f32_of_bits x))). set (h := fun v => bits_of_f32 (f32_of_f64 (f64_of_bits v))).
  exists (flat_map (image Float64 e) (map g xs)), (map h (map g xs)). split; [|split].
  - apply encode_al; try assumption; try reflexivity.
    + eapply Forall_impl; [|exact Hf]. intros y Hy. apply Hy.
    + clear. induction xs; constructor; [reflexivity|assumption].
    + unfold byte_count in Hl. change (c_pw Float64) with 64 in Hl. change (c_po Float64) with 8%nat. lia.
  - clear - Hf. induction Hf as [|x xs Hx _ IH]; cbn [map]; constructor; [|exact IH]. unfold finite_sample, amp, g, h.
    rewrite f32_bits_id, f64_bits_id. destruct (f64_round_trip _ (proj2 Hx)) as [V F]. split; [split; [apply bits32_range|exact F]|exact V].
  - intros ops Ho. destruct (frame_samples_images Float64 e ch (map g xs) h eq_refl Hc) as [F1 F2].
    { rewrite map_length. exact HW. }
    { intros v Hv. apply in_map_iff in Hv. destruct Hv as (x & <- & _). unfold canon. cbn [c_int c_sig andb c_w].
      rewrite Z.mod_small by apply bits64_range. reflexivity. }
    rewrite decode_pieces; try assumption; [rewrite F1; reflexivity|]. rewrite F2, map_length.
    eapply Z.le_lt_trans; [|exact Hn]. apply Z.div_le_upper_bound; nia.
Qed.
Print Assumptions C42_float64.
Example C42_float64_ex : encode Little Float64 Big 1 (repeat 0 8) [[0x3f000000]] = Ok [63; 224; 0; 0; 0; 0; 0; 0].
Proof. vm_compute. reflexivity. Qed.

(** ** Integer to integer *)

(** Level after a change of width: widening multiplies, narrowing rounds half up and clips,
    or truncates if both formats are unsigned. *)
Definition new_level (ui uo : bool) (wi wo k : Z) : Z :=
  if wi <=? wo then k * 2 ^ (wo - wi)
  else if ui && uo then k / 2 ^ (wi - wo)
  else Z.min ((k + 2 ^ (wi - wo - 1)) / 2 ^ (wi - wo)) (2 ^ (wo - 1) - 1).
Definition payload_of (c : pcm_code) (e : pcm_endian) (ks : list Z) : list Z :=
  flat_map (fun k => container (is_big e) (Z.to_nat (c_pw c / 8)) (field (c_sig c) (c_w c) k)) ks.
Definition mapped (ci : pcm_code) (ei : pcm_endian) (co : pcm_code) (eo : pcm_endian) (inp out : list Z) (n : Z) : res (list Z) :=
  r <- mapper_map ci ei co eo inp 0 out 0 n ;; Ok (snd (fst (fst r))).

Lemma cells_length c e ks : c_pw c mod 8 = 0 -> length (payload_of c e ks) = (length ks * c_po c)%nat.
Proof.
  intros Ha. unfold payload_of. assert (PO : Z.to_nat (c_pw c / 8) = c_po c) by (unfold c_po; pose proof (pw_pos c); lia). rewrite PO.
  induction ks as [|k t IH]; [reflexivity|]. cbn [flat_map length]. rewrite app_length, IH, container_length. lia.
Qed.
Lemma new_level_relevel ci co k : new_level (negb (c_sig ci)) (negb (c_sig co)) (c_w ci) (c_w co) k = relevel ci co k.
Proof. unfold new_level, relevel. destruct (Z.leb_spec (c_w ci) (c_w co)), (Z.ltb_spec (c_w co) (c_w ci)); try lia; reflexivity. Qed.

Theorem C42_map ci ei co eo ks out :
  c_int ci = true -> c_int co = true -> c_pw ci mod 8 = 0 -> c_pw co mod 8 = 0 ->
  Forall (fun k => - 2 ^ (c_w ci - 1) <= k < 2 ^ (c_w ci - 1)) ks ->
  Z.of_nat (length out) = byte_count co (Z.of_nat (length ks)) ->
  mapped ci ei co eo (payload_of ci ei ks) out (Z.of_nat (length ks)) =
  Ok (payload_of co eo (map (new_level (negb (c_sig ci)) (negb (c_sig co)) (c_w ci) (c_w co)) ks)).
Proof.
  intros Hi Ho Ai Ao HR Hl. unfold mapped, mapper_map. rewrite cells_length by exact Ai.
  assert (LO : length out = (length ks * c_po co)%nat) by (unfold byte_count in Hl; rewrite <- (po_al co Ao) in Hl; lia).
  rewrite LO. destruct (Z.ltb_spec (Z.of_nat (length ks * c_po ci) * 8) 0); [lia|]. destruct (Z.ltb_spec (Z.of_nat (length ks * c_po co) * 8) 0); [lia|].
  assert (Q : forall c, c_pw c mod 8 = 0 -> (Z.of_nat (length ks * c_po c) * 8 - 0) / c_pw c = Z.of_nat (length ks)).
  { intros c Ha. rewrite <- (po_al c Ha). assert (0 < c_po c)%nat by (pose proof (pw_pos c); pose proof (po_al c Ha); lia).
    replace (Z.of_nat (length ks * c_po c) * 8 - 0) with (Z.of_nat (length ks) * (8 * Z.of_nat (c_po c))) by lia. apply Z.div_mul. lia. }
  rewrite !Q by assumption. rewrite !Z.min_id, Nat2Z.id.
  assert (PI : payload_of ci ei ks = flat_map (image ci ei) (map (sval ci) ks)).
  { unfold payload_of. assert (PO : Z.to_nat (c_pw ci / 8) = c_po ci) by (unfold c_po; pose proof (pw_pos ci); lia). rewrite PO.
    clear - HR. induction HR as [|k ks Hk _ IH]; [reflexivity|]. cbn [flat_map map]. rewrite IH. f_equal. symmetry. apply cell_image; [exact Hk|]. apply sval_field. exact Hk. }
  pose proof (map_loop_al ci ei co eo (payload_of ci ei ks) (map (sval ci) ks) Ai 0 out 0) as ML.
  rewrite map_length in ML. change (8 * Z.of_nat 0) with 0 in ML. rewrite ML; clear ML.
  2:{ cbn [skipn]. rewrite PI. apply firstn_all2. rewrite flat_image_length, map_length. lia. }
  assert (CZ : exists zs, Forall2 (fun v z => convert ci co v = Ok z) (map (canon ci) (map (sval ci) ks)) zs /\
            flat_map (image co eo) zs = payload_of co eo (map (new_level (negb (c_sig ci)) (negb (c_sig co)) (c_w ci) (c_w co)) ks)).
  { unfold payload_of. assert (PO : Z.to_nat (c_pw co / 8) = c_po co) by (unfold c_po; pose proof (pw_pos co); lia). rewrite PO.
    clear - HR Hi Ho. induction HR as [|k ks Hk _ (zs & I1 & I2)]; [exists []; split; [constructor|reflexivity]|].
    destruct (convert_int ci co k Hi Ho Hk) as (z & C1 & C2). exists (z :: zs). cbn [map flat_map]. split.
    - constructor; [|exact I1]. rewrite (canon_field ci _ k Hi Hk) by (apply sval_field; exact Hk). exact C1.
    - rewrite I2. f_equal. rewrite new_level_relevel. apply cell_image; [apply relevel_range; exact Hk|exact C2]. }
  destruct CZ as (zs & Z1 & Z2).
  pose proof (cpack_al ci co eo _ zs Ao Z1 0 out) as CP. rewrite !map_length in CP. change (8 * Z.of_nat 0) with 0 in CP. rewrite CP by lia.
  cbn [bind fst snd]. rewrite firstn_O. cbn [app]. rewrite skipn_all2 by lia. rewrite app_nil_r, Z2. reflexivity.
Qed.
Print Assumptions C42_map.
Example C42_map_ex : mapped SInt24 Big UInt16 Little [0;1;128; 255;255;255; 127;255;255] (repeat 0 6) 3 = Ok [2;128; 0;128; 255;255].
Proof. vm_compute. reflexivity. Qed.

(** Mapping to a format that is at least as wide and back restores the payload. *)
Theorem C42_widen ci ei co eo ks out out' :
  c_int ci = true -> c_int co = true -> c_pw ci mod 8 = 0 -> c_pw co mod 8 = 0 -> c_w ci <= c_w co ->
  Forall (fun k => - 2 ^ (c_w ci - 1) <= k < 2 ^ (c_w ci - 1)) ks ->
  Z.of_nat (length out) = byte_count co (Z.of_nat (length ks)) -> Z.of_nat (length out') = byte_count ci (Z.of_nat (length ks)) ->
  (wide <- mapped ci ei co eo (payload_of ci ei ks) out (Z.of_nat (length ks)) ;;
   mapped co eo ci ei wide out' (Z.of_nat (length ks))) = Ok (payload_of ci ei ks).
Proof.
  intros Hi Ho Ai Ao Hw HR L1 L2. rewrite C42_map by assumption. cbn [bind].
  pose proof (w_range ci) as Wi.
  assert (HR2 : Forall (fun k => - 2 ^ (c_w co - 1) <= k < 2 ^ (c_w co - 1)) (map (new_level (negb (c_sig ci)) (negb (c_sig co)) (c_w ci) (c_w co)) ks)).
  { clear - HR. induction HR as [|k ks Hk _ IH]; cbn [map]; constructor; [|exact IH]. rewrite new_level_relevel. apply (relevel_range ci co k). exact Hk. }
  set (f := new_level (negb (c_sig ci)) (negb (c_sig co)) (c_w ci) (c_w co)) in *.
  replace (Z.of_nat (length ks)) with (Z.of_nat (length (map f ks))) by (rewrite map_length; reflexivity).
  rewrite C42_map; try assumption; [|rewrite map_length; exact L2]. do 2 f_equal. rewrite map_map. rewrite <- (map_id ks) at 2.
  apply map_ext_in. intros k Hk. pose proof (proj1 (Forall_forall _ _) HR k Hk) as R. cbn beta in R.
  subst f. unfold new_level. destruct (Z.leb_spec (c_w ci) (c_w co)); [|lia]. destruct (Z.leb_spec (c_w co) (c_w ci)) as [L|L].
  - assert (E : c_w ci = c_w co) by lia. rewrite E, Z.sub_diag. change (2 ^ 0) with 1. lia.
  - set (d := c_w co - c_w ci). assert (Pd : 0 < 2 ^ d) by (apply Z.pow_pos_nonneg; lia).
    assert (E2 : 2 ^ d = 2 * 2 ^ (d - 1)) by (apply pow2_split; lia).
    destruct (negb (c_sig co) && negb (c_sig ci)).
    + apply Z.div_mul. lia.
    + rewrite Z.add_comm, Z.div_add by lia. rewrite (Z.div_small (2 ^ (d - 1))) by lia. lia.
Qed.
Print Assumptions C42_widen.
Example C42_widen_ex : mapped SInt8 Big SInt32 Little [128; 255; 1] (repeat 0 12) 3 = Ok [0;0;0;128; 0;0;0;255; 0;0;0;1].
Proof. vm_compute. reflexivity. Qed.

(** ** No access outside the buffers *)

(** Unless a floating point input is converted to an integer format, mapping succeeds for
    every pair of formats, all buffers and offsets within them; it stores exactly as many
    samples as were asked for, are present and fit. *)
Theorem C42_safe ci ei co eo inp ioff out ooff n :
  c_int ci = true \/ c_int co = false -> 0 <= ioff <= 8 * Z.of_nat (length inp) -> 0 <= ooff <= 8 * Z.of_nat (length out) -> 0 <= n ->
  let m := Z.min n (Z.min ((8 * Z.of_nat (length inp) - ioff) / c_pw ci) ((8 * Z.of_nat (length out) - ooff) / c_pw co)) in
  exists out', mapper_map ci ei co eo inp ioff out ooff n = Ok (m, out', ioff + m * c_pw ci, ooff + m * c_pw co) /\ length out' = length out.
Proof.
  intros Hf Hi Ho Hn m. unfold mapper_map. destruct (Z.ltb_spec (Z.of_nat (length inp) * 8) ioff); [lia|]. destruct (Z.ltb_spec (Z.of_nat (length out) * 8) ooff); [lia|].
  pose proof (pw_pos ci) as Pi. pose proof (pw_pos co) as Po.
  rewrite <- Z.min_assoc. rewrite !(Z.mul_comm _ 8). fold m.
  assert (M1 : m * c_pw ci <= 8 * Z.of_nat (length inp) - ioff).
  { apply Z.le_trans with ((8 * Z.of_nat (length inp) - ioff) / c_pw ci * c_pw ci); [apply Z.mul_le_mono_nonneg_r; lia|].
    rewrite Z.mul_comm. apply Z.mul_div_le. lia. }
  assert (M2 : m * c_pw co <= 8 * Z.of_nat (length out) - ooff).
  { apply Z.le_trans with ((8 * Z.of_nat (length out) - ooff) / c_pw co * c_pw co); [apply Z.mul_le_mono_nonneg_r; lia|].
    rewrite Z.mul_comm. apply Z.mul_div_le. lia. }
  assert (M0 : 0 <= m).
  { subst m. apply Z.min_glb; [lia|]. apply Z.min_glb; apply Z.div_pos; lia. }
  assert (ML : forall k ioff out ooff, 0 <= ioff -> 0 <= ooff -> ioff + Z.of_nat k * c_pw ci <= 8 * Z.of_nat (length inp) ->
     ooff + Z.of_nat k * c_pw co <= 8 * Z.of_nat (length out) ->
     exists b, map_loop ci ei co eo k inp ioff out ooff = Ok (b, ioff + Z.of_nat k * c_pw ci, ooff + Z.of_nat k * c_pw co) /\ length b = length out).
  { clear - Hf Pi Po. induction k as [|k IH]; intros ioff out ooff I0 O0 I1 O1; cbn [map_loop].
    - exists out. split; [|reflexivity]. do 3 f_equal; lia.
    - destruct (unpack_ok ci ei inp ioff) as (v & ->); [lia|nia|]. cbn [bind fst snd].
      assert (exists z, convert ci co v = Ok z) as (z & ->).
      { unfold convert. destruct (code_eq_dec ci co); [eexists; reflexivity|]. destruct Hf as [Hf|Hf].
        - destruct ci; try discriminate Hf; destruct co; eexists; reflexivity.
        - destruct co; try discriminate Hf; destruct ci; try congruence; eexists; reflexivity. }
      cbn [bind]. destruct (pack_ok co eo out ooff z) as (b & -> & L); [lia|nia|]. cbn [bind fst snd].
      destruct (IH (ioff + c_pw ci) b (ooff + c_pw co)) as (b' & -> & L'); [lia|lia|nia|rewrite L; nia|].
      exists b'. split; [|congruence].
      replace (Z.of_nat (S k)) with (1 + Z.of_nat k) by lia. rewrite !Z.mul_add_distr_r, !Z.mul_1_l, !Z.add_assoc. reflexivity. }
  destruct (ML (Z.to_nat m) ioff out ooff) as (b & -> & L); [lia|lia|lia|lia|]. cbn [bind fst snd]. rewrite Z2Nat.id by lia.
  exists b. split; [reflexivity|exact L].
Qed.
Print Assumptions C42_safe.
Example C42_safe_ex : mapper_map SInt20 Big SInt18 Little [16; 2; 3; 4; 5] 0 (repeat 0 5) 0 9 = Ok (2, [8; 64; 0; 52; 4], 40, 36).
Proof. vm_compute. reflexivity. Qed.

(** ** Where the property fails *)

(** 20-bit packed formats: reading a sample that starts in the middle of an octet keeps
    the bits of its neighbour, writing one spills its sign bits into it. Two samples, 2^-19
    and 1/2, come back as 2^-19 and 5/2. *)
Theorem C42_packed20_refuted :
  encode Little SInt20 Big 1 (repeat 0 5) [[0x36000000; 0x3f000000]] = Ok [0; 0; 20; 0; 0] /\
  decode Little SInt20 Big 1 [0; 0; 20; 0; 0] [Read 2] = Ok [(2, [0;0;0;0x36] ++ [0;0;0x20;0x40])] /\
  amp 0x3f000000 = (1 / 2)%R /\ amp 0x40200000 = (5 / 2)%R.
Proof.
  split; [vm_compute; reflexivity|]. split; [vm_compute; reflexivity|]. split.
  - unfold amp. replace (f32_of_bits 0x3f000000) with (f32_make 1 (-1)) by (apply B2SF_inj; vm_compute; reflexivity).
    rewrite (proj1 (f32_make_exact 1 (-1) ltac:(lia) ltac:(lia))). change (bpow radix2 (-1)) with (/ 2)%R. lra.
  - unfold amp. replace (f32_of_bits 0x40200000) with (f32_make 5 (-1)) by (apply B2SF_inj; vm_compute; reflexivity).
    rewrite (proj1 (f32_make_exact 5 (-1) ltac:(lia) ltac:(lia))). change (bpow radix2 (-1)) with (/ 2)%R. lra.
Qed.
Print Assumptions C42_packed20_refuted.

(** 18-bit packed formats: even a single sample is damaged, because the part of an octet
    that belongs in the next octet is shifted by the wrong amount. 2^-17 comes back as 0. *)
Theorem C42_packed18_refuted :
  encode Little UInt18 Big 1 (repeat 0 3) [[0x37000000]] = Ok [128; 0; 4] /\
  decode Little UInt18 Big 1 [128; 0; 4] [Read 1] = Ok [(1, [0; 0; 0; 0])] /\
  amp 0x37000000 = amplitude 18 1.
Proof.
  split; [vm_compute; reflexivity|]. split; [vm_compute; reflexivity|].
  unfold amp. replace (f32_of_bits 0x37000000) with (f32_make 1 (-17)) by (apply B2SF_inj; vm_compute; reflexivity).
  rewrite (proj1 (f32_make_exact 1 (-17) ltac:(lia) ltac:(lia))). unfold amplitude. change (IZR (2 ^ (18 - 1))) with (bpow radix2 17).
  unfold Rdiv. rewrite <- bpow_opp. reflexivity.
Qed.
Print Assumptions C42_packed18_refuted.

(** A NaN sample makes encoding to any integer format undefined. *)
Theorem C42_nan_refuted c e : c_int c = true ->
  encode Little c e 1 (repeat 0 8) [[0x7fc00000]] = UB.
Proof. destruct c; try discriminate; destruct e; intros _; vm_compute; reflexivity. Qed.
Print Assumptions C42_nan_refuted.

(** ** One encoder, one decoder, many frames *)

(** Encode frame after frame with the same encoder. *)
Fixpoint enc_frames (host : pcm_endian) (s : encoder) (jobs : list (list Z * list (list Z))) : res (list (list Z)) :=
  match jobs with
  | [] => Ok []
  | (frame, chunks) :: t =>
      s <- enc_begin s frame ;; s <- enc_writes host s chunks ;; r <- enc_end s ;;
      rest <- enc_frames host (snd r) t ;; Ok (fst r :: rest)
  end.
(** The same with a new encoder for each. *)
Fixpoint enc_each (host : pcm_endian) (c : pcm_code) (e : pcm_endian) (ch : Z) (jobs : list (list Z * list (list Z))) : res (list (list Z)) :=
  match jobs with
  | [] => Ok []
  | (frame, chunks) :: t => f <- encode host c e ch frame chunks ;; rest <- enc_each host c e ch t ;; Ok (f :: rest)
  end.
Lemma enc_writes_keep host chunks : forall s s', enc_writes host s chunks = Ok s' ->
  en_code s' = en_code s /\ en_end s' = en_end s /\ en_chans s' = en_chans s.
Proof.
  induction chunks as [|x chunks IH]; intros s s' H; cbn [enc_writes] in H; [assert (s' = s) by congruence; subst; auto|].
  destruct (enc_write host s x) as [[m s1]| |] eqn:E; cbn [bind snd] in H; try discriminate H.
  destruct (IH _ _ H) as (-> & -> & ->). unfold enc_write in E. destruct (en_frame s); [|discriminate E]. cbv zeta in E.
  destruct (mapper_map _ _ _ _ _ _ _ _ _) as [[[[a b] d] f]| |]; cbn [bind] in E; try discriminate E.
  destruct (negb _) in E; [discriminate E|]. destruct (_ <? _) in E; [discriminate E|].
  assert (s1 = {| en_code := en_code s; en_end := en_end s; en_chans := en_chans s; en_frame := Some b; en_off := f |}) by congruence.
  subst s1. auto.
Qed.
(** Nothing of one frame leaks into the next: an encoder may be reused. *)
Theorem C42_encode_frames host c e ch jobs : enc_frames host (enc_new c e ch) jobs = enc_each host c e ch jobs.
Proof.
  induction jobs as [|[frame chunks] jobs IH]; cbn [enc_frames enc_each]; [reflexivity|]. unfold encode.
  destruct (enc_begin (enc_new c e ch) frame) as [s1| |] eqn:E1; cbn [bind]; try reflexivity.
  destruct (enc_writes host s1 chunks) as [s2| |] eqn:E2; cbn [bind]; try reflexivity.
  destruct (enc_writes_keep _ _ _ _ E2) as (A1 & A2 & A3). unfold enc_begin in E1. cbn [enc_new en_frame en_code en_end en_chans en_off] in E1.
  assert (B : en_code s1 = c /\ en_end s1 = e /\ en_chans s1 = ch) by (injection E1 as <-; auto). destruct B as (B1 & B2 & B3).
  unfold enc_end. destruct (en_frame s2); cbn [bind fst snd]; [|reflexivity].
  rewrite A1, A2, A3, B1, B2, B3, IH. reflexivity.
Qed.
Print Assumptions C42_encode_frames.
Example C42_encode_frames_ex :
  enc_frames Little (enc_new SInt16 Big 1) [([0; 0; 0; 0], [[0x3f000000]; [0xbf000000]]); ([0; 0], [[0x3f000000]])] = Ok [[64; 0; 192; 0]; [64; 0]].
Proof. vm_compute. reflexivity. Qed.

(** Decode frame after frame with the same decoder. Returns for each frame the results of the
    operations, and then position() and available(). *)
Fixpoint dec_use (host : pcm_endian) (s : decoder) (ops : list dec_op) : res (list (Z * list Z) * decoder) :=
  match ops with
  | [] => Ok ([], s)
  | Read n :: t =>
      r <- dec_read host s (repeat 0 (Z.to_nat (n * de_chans s * 4))) n ;;
      rest <- dec_use host (snd r) t ;; Ok (fst r :: fst rest, snd rest)
  | Skip n :: t => r <- dec_shift s n ;; rest <- dec_use host (snd r) t ;; Ok ((fst r, []) :: fst rest, snd rest)
  end.
Fixpoint dec_frames (host : pcm_endian) (s : decoder) (jobs : list (Z * list Z * list dec_op)) : res (list (list (Z * list Z) * (Z * Z))) :=
  match jobs with
  | [] => Ok []
  | (pos, frame, ops) :: t =>
      s <- dec_begin s pos frame ;; r <- dec_use host s ops ;; s <- dec_end (snd r) ;;
      rest <- dec_frames host s t ;; Ok ((fst r, (de_pos (snd r), de_avail (snd r))) :: rest)
  end.
Definition consumed (l : list (Z * list Z)) : Z := fold_right (fun x n => fst x + n) 0 l.

Lemma dec_use_at host ops : forall s c e ch frame pos0 p, dec_at s c e ch frame pos0 p -> 0 < ch -> Forall op_ok ops ->
  let T := sample_count c (Z.of_nat (length frame)) / ch in
  T < 2 ^ 32 ->
  exists l s', dec_use host s ops = Ok (l, s') /\ dec_run host s ops = Ok l /\ dec_at s' c e ch frame pos0 (p + consumed l).
Proof.
  induction ops as [|o ops IH]; intros s c e ch frame pos0 p D Hc Ho T HT.
  - exists [], s. cbn [consumed fold_right]. rewrite Z.add_0_r. auto.
  - inversion Ho as [|o' ops' Hn Ho']; subst. destruct o as [n|n]; cbn [op_ok] in Hn; cbn [dec_use dec_run].
    + destruct (dec_read_at host s c e ch frame pos0 p n (repeat 0 (Z.to_nat (n * de_chans s * 4))) D Hc Hn HT) as (s1 & E & D').
      { rewrite repeat_length, (da_ch _ _ _ _ _ _ _ D). reflexivity. }
      cbv zeta in E, D'. rewrite E. cbn [bind fst snd]. destruct (IH s1 c e ch frame pos0 _ D' Hc Ho' HT) as (l & s2 & E1 & E2 & D2).
      rewrite E1, E2. cbn [bind fst snd]. eexists _, s2. split; [reflexivity|]. split; [reflexivity|]. cbn [consumed fold_right fst].
      fold (consumed l). rewrite Z.add_assoc. exact D2.
    + destruct (dec_shift_at s c e ch frame pos0 p n D Hc Hn HT) as (s1 & E & D').
      cbv zeta in E, D'. rewrite E. cbn [bind fst snd]. destruct (IH s1 c e ch frame pos0 _ D' Hc Ho' HT) as (l & s2 & E1 & E2 & D2).
      rewrite E1, E2. cbn [bind fst snd]. eexists _, s2. split; [reflexivity|]. split; [reflexivity|]. cbn [consumed fold_right fst].
      fold (consumed l). rewrite Z.add_assoc. exact D2.
Qed.
Definition job_ok (c : pcm_code) (ch : Z) (j : Z * list Z * list dec_op) : Prop :=
  let '(pos, frame, ops) := j in
  0 <= pos < 2 ^ 32 /\ sample_count c (Z.of_nat (length frame)) / ch < 2 ^ 32 /\ Forall op_ok ops.
Lemma dec_begin_used s pos frame : de_frame s = None -> de_off s = 0 -> dec_begin s pos frame = dec_begin (dec_new (de_code s) (de_end s) (de_chans s)) pos frame.
Proof. intros H0 H1. unfold dec_begin. rewrite H0, H1. reflexivity. Qed.
Lemma run_pos host ops : forall s s1, de_code s1 = de_code s -> de_end s1 = de_end s -> de_chans s1 = de_chans s -> de_frame s1 = de_frame s -> de_off s1 = de_off s -> de_avail s1 = de_avail s ->
  dec_run host s1 ops = dec_run host s ops.
Proof.
  induction ops as [|o ops IH]; intros s s1 H1 H2 H3 H4 H5 H6; [reflexivity|]. destruct o as [n|n]; cbn [dec_run].
  - unfold dec_read. rewrite H1, H2, H3, H4, H5, H6. destruct (de_frame s); [|reflexivity]. cbv zeta.
    destruct (_ <? _)%nat; [reflexivity|]. destruct (mapper_map _ _ _ _ _ _ _ _ _) as [[[[a b] d] f]| |]; cbn [bind]; try reflexivity.
    destruct (negb _); [reflexivity|]. destruct (_ <? a / _); [reflexivity|]. cbn [bind fst snd]. erewrite IH; [reflexivity|..]; reflexivity.
  - unfold dec_shift. rewrite H1, H2, H3, H4, H5, H6. destruct (de_frame s); [|reflexivity]. cbv zeta. cbn [bind fst snd].
    erewrite IH; [reflexivity|..]; reflexivity.
Qed.

(** Each frame is decoded as by a new decoder, whatever was decoded before and however far; the
    position is that of the frame plus what was consumed, and the rest is available. *)
Theorem C42_decode_frames host c e ch jobs : 0 < ch -> Forall (job_ok c ch) jobs ->
  exists out, dec_frames host (dec_new c e ch) jobs = Ok out /\
    Forall2 (fun '(pos, frame, ops) '(l, (p, a)) =>
      decode host c e ch frame ops = Ok l /\ p = (pos + consumed l) mod 2 ^ 32 /\
      a = Z.of_nat (length frame) * 8 / c_pw c / ch - consumed l /\ 0 <= a) jobs out.
Proof.
  intros Hc. assert (G : forall s, de_code s = c -> de_end s = e -> de_chans s = ch -> de_frame s = None -> de_off s = 0 -> Forall (job_ok c ch) jobs ->
    exists out, dec_frames host s jobs = Ok out /\
    Forall2 (fun '(pos, frame, ops) '(l, (p, a)) =>
      decode host c e ch frame ops = Ok l /\ p = (pos + consumed l) mod 2 ^ 32 /\
      a = Z.of_nat (length frame) * 8 / c_pw c / ch - consumed l /\ 0 <= a) jobs out).
  { induction jobs as [|[[pos frame] ops] jobs IH]; intros s S1 S2 S3 S4 S5 HJ; cbn [dec_frames].
    - exists []. split; [reflexivity|constructor].
    - apply Forall_cons_iff in HJ. destruct HJ as [(P1 & P2 & P3) HJ']. rewrite dec_begin_used by assumption. rewrite S1, S2, S3.
      destruct (dec_begin_at c e ch frame pos Hc P1 P2) as (s1 & -> & D). cbn [bind].
      destruct (dec_use_at host ops s1 c e ch frame pos 0 D Hc P3 P2) as (l & s2 & E1 & E2 & D2). rewrite E1. cbn [bind fst snd].
      assert (ED : decode host c e ch frame ops = Ok l).
      { unfold decode. destruct (dec_begin_at c e ch frame 0 Hc ltac:(lia) P2) as (s3 & E3 & D3). rewrite E3. cbn [bind].
        rewrite <- E2. symmetry. apply run_pos.
        - rewrite (da_code _ _ _ _ _ _ _ D), (da_code _ _ _ _ _ _ _ D3). reflexivity.
        - rewrite (da_end _ _ _ _ _ _ _ D), (da_end _ _ _ _ _ _ _ D3). reflexivity.
        - rewrite (da_ch _ _ _ _ _ _ _ D), (da_ch _ _ _ _ _ _ _ D3). reflexivity.
        - rewrite (da_frame _ _ _ _ _ _ _ D), (da_frame _ _ _ _ _ _ _ D3). reflexivity.
        - rewrite (da_off _ _ _ _ _ _ _ D), (da_off _ _ _ _ _ _ _ D3). reflexivity.
        - rewrite (da_avail _ _ _ _ _ _ _ D), (da_avail _ _ _ _ _ _ _ D3). reflexivity. }
      unfold dec_end. rewrite (da_frame _ _ _ _ _ _ _ D2). cbn [bind].
      destruct (IH {| de_code := de_code s2; de_end := de_end s2; de_chans := de_chans s2; de_frame := None; de_off := 0; de_pos := de_pos s2; de_avail := 0 |}) as (out & -> & F); cbn; try assumption; try reflexivity.
      + apply (da_code _ _ _ _ _ _ _ D2).
      + apply (da_end _ _ _ _ _ _ _ D2).
      + apply (da_ch _ _ _ _ _ _ _ D2).
      + cbn [bind]. eexists. split; [reflexivity|]. constructor; [|exact F]. pose proof (da_p _ _ _ _ _ _ _ D2) as DP. cbv beta iota. splits.
        * exact ED.
        * rewrite (da_pos _ _ _ _ _ _ _ D2). rewrite Z.add_0_l. reflexivity.
        * rewrite (da_avail _ _ _ _ _ _ _ D2). rewrite Z.add_0_l. reflexivity.
        * rewrite (da_avail _ _ _ _ _ _ _ D2). lia. }
  intros HJ. apply (G (dec_new c e ch)); try reflexivity. exact HJ.
Qed.
Print Assumptions C42_decode_frames.
Example C42_decode_frames_ex :
  dec_frames Little (dec_new UInt16 Big 1) [(4294967295, [192; 0; 64; 0], [Read 1; Skip 5]); (7, [192; 0; 64; 0], [Read 1])]
  = Ok [([(1, [0;0;0;63]); (1, [])], (1, 0)); ([(1, [0;0;0;63])], (8, 1))].
Proof. vm_compute. reflexivity. Qed.
