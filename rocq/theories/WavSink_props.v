(** C73: WAV files that the library writes. *)
From Verif Require Import Base WavSink_model WavSink_spec WavSink_proof.

Definition file_of (c r g : Z) (fs : list (list Z)) : list Z := sk_file (sink_run (sink_open c r g) fs).
Definition samples (fs : list (list Z)) : Z := Z.of_nat (length (concat fs)).

Lemma small16 : forall x, 0 <= x < 2 ^ 16 -> u16 x = x.
Proof. intros. unfold u16, wrapu. apply Z.mod_small. lia. Qed.
Lemma small32 : forall x, 0 <= x < 2 ^ 32 -> u32 x = x.
Proof. intros. unfold u32, wrapu. apply Z.mod_small. lia. Qed.

Lemma size_mod : forall g n c, u32 (u32 (g + n) * c * 4) = ((g + n) * c * 4) mod 2 ^ 32.
Proof.
  intros. unfold u32, wrapu. rewrite <- !Z.mul_assoc. rewrite Zmult_mod_idemp_l. auto.
Qed.

(** After any frames the file is a WAV file with the right format that contains all
    samples of all frames in order. The size it declares is computed from a counter that
    starts at whatever was in memory, [g], and counts every channel of each sample. *)
Theorem C73_file : forall c r g fs, usual_format c r -> concat fs <> [] ->
  exists w, read_wav (file_of c r g fs) = Some w /\
    w_format w = 3 /\ w_chans w = c /\ w_rate w = r /\ w_bits w = 32 /\
    w_byte_rate w = r * c * 4 /\ w_align w = c * 4 /\
    w_data w = floats (concat fs) /\
    w_declared w = ((g + samples fs) * c * 4) mod 2 ^ 32 /\
    w_riff w = (36 + w_declared w) mod 2 ^ 32.
Proof.
  intros c r g fs (C & R & B) NE. unfold file_of.
  destruct (run_file c r g fs) as (A1 & A2 & A3 & A4 & [[A5 _]|[_ A5]]); [congruence|].
  set (s := sink_run (sink_open c r g) fs) in *.
  assert (W : well (sk_head s)).
  { unfold well. rewrite A1, A2, A3. repeat split; try apply u16_range; try apply u32_range; lia. }
  rewrite A5, read_header by auto. eexists. split; [reflexivity|].
  cbn [w_format w_chans w_rate w_bits w_byte_rate w_align w_data w_declared w_riff].
  rewrite A1, A2, A3, small16 by lia. rewrite (small32 r) by nia. change (32 / 8) with 4.
  rewrite small32 by nia. rewrite small16 by lia. rewrite floats_bytes.
  assert (D : data_size (sk_head s) = ((g + samples fs) * c * 4) mod 2 ^ 32).
  { unfold data_size. rewrite A1, A3, A4, small16 by lia. change (32 / 8) with 4. apply size_mod. }
  rewrite <- D. repeat split; auto.
Qed.
Print Assumptions C73_file.

(** If the counter started at zero, the sizes of a file with one channel are right, up to
    the limit of the format. *)
Theorem C73_mono : forall r fs w, usual_format 1 r -> concat fs <> [] -> 36 + samples fs * 4 < 2 ^ 32 ->
  read_wav (file_of 1 r 0 fs) = Some w -> honest w.
Proof.
  intros r fs w U NE L E. destruct (C73_file 1 r 0 fs U NE) as (w' & E' & _ & _ & _ & _ & _ & _ & D & S & RR).
  assert (w' = w) by congruence. subst w'. unfold honest. rewrite RR, S, D, floats_bytes, bytes_length.
  unfold samples in *. rewrite Z.mod_small by lia. rewrite Z.mod_small by lia. lia.
Qed.
Print Assumptions C73_mono.

(** With several channels they are not: the file declares as many times its size. *)
Theorem C73_channels_refuted : forall c r fs w, usual_format c r -> 2 <= c -> concat fs <> [] ->
  samples fs * c * 4 < 2 ^ 32 -> read_wav (file_of c r 0 fs) = Some w ->
  w_declared w = c * Z.of_nat (length (w_data w)) /\ ~ honest w.
Proof.
  intros c r fs w U C NE L E. destruct (C73_file c r 0 fs U NE) as (w' & E' & _ & _ & _ & _ & _ & _ & D & S & RR).
  assert (w' = w) by congruence. subst w'.
  assert (P : 0 < samples fs) by (unfold samples; destruct (concat fs); [congruence|cbn; lia]).
  unfold honest. rewrite RR, S, D, floats_bytes, bytes_length. unfold samples in *.
  rewrite Z.mod_small by nia. split; [lia|]. intros [Q _]. nia.
Qed.
Print Assumptions C73_channels_refuted.

(** The counter is not initialized. In memory of the heap arena (claim C71) it starts at
    0x7a7a7a7a, and even the size of a file with one channel is wrong. *)
Theorem C73_counter_refuted : forall r fs w, usual_format 1 r -> concat fs <> [] -> samples fs * 4 < 2 ^ 32 ->
  read_wav (file_of 1 r 0x7a7a7a7a fs) = Some w -> ~ honest w.
Proof.
  intros r fs w U NE L E. destruct (C73_file 1 r 0x7a7a7a7a fs U NE) as (w' & E' & _ & _ & _ & _ & _ & _ & D & S & RR).
  assert (w' = w) by congruence. subst w'. unfold honest. rewrite RR, S, D, floats_bytes, bytes_length.
  unfold samples in *. intros [Q _]. lia.
Qed.
Print Assumptions C73_counter_refuted.

(** A reader that stops at the end of the file plays everything, as long as the declared
    size did not wrap around. *)
Theorem C73_plays : forall c r g fs w, usual_format c r -> 0 <= g -> concat fs <> [] ->
  (g + samples fs) * c * 4 < 2 ^ 32 -> read_wav (file_of c r g fs) = Some w ->
  played w = floats (concat fs).
Proof.
  intros c r g fs w U G NE L E. destruct (C73_file c r g fs U NE) as (w' & E' & _ & _ & _ & _ & _ & _ & D & S & RR).
  assert (w' = w) by congruence. subst w'. unfold played. rewrite S, D. destruct U as (C & _).
  apply firstn_all2. rewrite floats_bytes, bytes_length. unfold samples in *.
  rewrite Z.mod_small by nia. nia.
Qed.
Print Assumptions C73_plays.

(** After that it does not: with two channels and the counter as the heap arena leaves
    it, a file of 92636550 samples (17.5 minutes at 44.1 kHz) declares no data at all,
    and longer ones too little. *)
Theorem C73_cut_refuted : forall r fs w, usual_format 2 r -> 92636550 <= samples fs < 185273100 ->
  read_wav (file_of 2 r 0x7a7a7a7a fs) = Some w ->
  w_declared w = 8 * samples fs - 741092400 /\ played w <> floats (concat fs) /\
  (samples fs = 92636550 -> played w = []).
Proof.
  intros r fs w U N E.
  assert (NE : concat fs <> []).
  { intros Q. unfold samples in N. rewrite Q in N. cbn in N. lia. }
  destruct (C73_file 2 r 0x7a7a7a7a fs U NE) as (w' & E' & _ & _ & _ & _ & _ & _ & D & S & RR).
  assert (w' = w) by congruence. subst w'.
  assert (Q : w_declared w = 8 * samples fs - 741092400) by (rewrite S; lia).
  split; auto. split.
  - intros P. assert (L : Z.of_nat (length (played w)) = 4 * samples fs).
    { rewrite P, floats_bytes, bytes_length. unfold samples. lia. }
    unfold played in L. rewrite firstn_length, Q in L. lia.
  - intros P. unfold played. rewrite Q, P. reflexivity.
Qed.
Print Assumptions C73_cut_refuted.

(** The same with a counter that starts at zero, after 2^29 samples. *)
Theorem C73_long_refuted : forall r fs w, usual_format 2 r -> 2 ^ 29 <= samples fs < 2 ^ 30 ->
  read_wav (file_of 2 r 0 fs) = Some w -> played w <> floats (concat fs).
Proof.
  intros r fs w U N E.
  assert (NE : concat fs <> []).
  { intros Q. unfold samples in N. rewrite Q in N. cbn in N. lia. }
  destruct (C73_file 2 r 0 fs U NE) as (w' & E' & _ & _ & _ & _ & _ & _ & D & S & RR).
  assert (w' = w) by congruence. subst w'.
  assert (Q : w_declared w = 8 * samples fs - 2 ^ 32) by (rewrite S; lia).
  intros P. assert (L : Z.of_nat (length (played w)) = 4 * samples fs).
  { rewrite P, floats_bytes, bytes_length. unfold samples. lia. }
  unfold played in L. rewrite firstn_length, Q in L. lia.
Qed.
Print Assumptions C73_long_refuted.

(** If the program ends inside of a write, at any point, then such a reader plays all
    frames whose write had returned, and the beginning of the one being written. *)
Theorem C73_crash : forall c r g fs f j, usual_format c r -> 0 <= g -> concat fs <> [] ->
  (g + samples (fs ++ [f])) * c * 4 < 2 ^ 32 ->
  exists w k, read_wav (sink_crash (sink_run (sink_open c r g) fs) f j) = Some w /\
    w_format w = 3 /\ w_chans w = c /\ w_rate w = r /\ w_bits w = 32 /\
    played w = floats (concat fs) ++ firstn k (floats f).
Proof.
  intros c r g fs f j U G NE L.
  assert (TOT : samples (fs ++ [f]) = samples fs + Z.of_nat (length f)).
  { unfold samples. rewrite concat_app, app_length. cbn [concat]. rewrite app_nil_r. lia. }
  assert (OLD : exists w k, read_wav (file_of c r g fs) = Some w /\
    w_format w = 3 /\ w_chans w = c /\ w_rate w = r /\ w_bits w = 32 /\
    played w = floats (concat fs) ++ firstn k (floats f)).
  { destruct (C73_file c r g fs U NE) as (w & E & F1 & F2 & F3 & F4 & _). exists w, O. repeat split; auto.
    cbn [firstn]. rewrite app_nil_r. apply (C73_plays c r g fs w U G NE); auto. destruct U as (C & _). nia. }
  destruct j as [j|]; [|exact OLD].
  unfold sink_crash. destruct (Z.ltb_spec 0 (Z.of_nat (length f))); [|exact OLD].
  clear OLD. destruct (run_file c r g fs) as (A1 & A2 & A3 & A4 & [[A5 _]|[_ A5]]); [congruence|].
  set (s := sink_run (sink_open c r g) fs) in *.
  set (h := header_update (sk_head s) (Z.of_nat (length f))).
  assert (W : well h).
  { unfold well, h. cbn [header_update hd_chans hd_rate hd_bits]. rewrite A1, A2, A3.
    repeat split; try apply u16_range; try apply u32_range; lia. }
  assert (FL : overwrite (sk_file s) (header_bytes h) = header_bytes h ++ sample_bytes (concat fs)).
  { unfold overwrite. rewrite header_length, A5. change 44%nat with (44 + 0)%nat.
    rewrite skipn_piece by apply header_length. auto. }
  rewrite FL, <- app_assoc, read_header by auto. eexists. exists j. split; [reflexivity|].
  destruct U as (C & R & B). cbn [w_format w_chans w_rate w_bits]. unfold h at 1 2 3. cbn [header_update hd_chans hd_rate hd_bits].
  rewrite A1, A2, A3, small16, small32 by nia. repeat split; auto.
  unfold played. cbn [w_declared w_data]. rewrite !floats_bytes. apply firstn_all2.
  rewrite app_length, firstn_length, !bytes_length.
  assert (D : data_size h = (g + samples (fs ++ [f])) * c * 4).
  { unfold data_size, h. cbn [header_update hd_chans hd_bits hd_count]. rewrite A1, A3, A4, small16 by lia.
    change (32 / 8) with 4. unfold u32 at 1 2 3 4, wrapu. rewrite <- Zplus_mod. fold (wrapu 32).
    rewrite <- !Z.mul_assoc, Zmult_mod_idemp_l, TOT.
    replace (g + total fs + Z.of_nat (length f)) with (g + (samples fs + Z.of_nat (length f))) by (unfold total, samples; lia).
    apply Z.mod_small. rewrite TOT in L. unfold samples in *. nia. }
  rewrite D, TOT. unfold samples. nia.
Qed.
Print Assumptions C73_crash.

(** A file into which no sample was written is not a WAV file. *)
Theorem C73_empty_refuted : forall c r g fs, concat fs = [] -> read_wav (file_of c r g fs) = None.
Proof.
  intros c r g fs E. unfold file_of. destruct (run_file c r g fs) as (_ & _ & _ & _ & [[_ A]|[A _]]); [|congruence].
  rewrite A. reflexivity.
Qed.
Print Assumptions C73_empty_refuted.

(** Two frames of one channel; then the same with two channels, and a crash inside of the
    second. *)
Example C73_demo : usual_format 1 44100 /\ usual_format 2 48000 /\
  concat [[0x3f800000; 1]; []; [2]] <> [] /\
  (exists w, read_wav (file_of 1 44100 0 [[0x3f800000; 1]; []; [2]]) = Some w /\ w_declared w = 12 /\ w_riff w = 48 /\
     w_data w = [0; 0; 128; 63; 1; 0; 0; 0; 2; 0; 0; 0]) /\
  (exists w, read_wav (file_of 2 48000 0 [[0x3f800000; 1]]) = Some w /\ w_declared w = 16 /\ length (w_data w) = 8%nat) /\
  (exists w, read_wav (sink_crash (sink_run (sink_open 2 48000 0) [[0x3f800000; 1]]) [5; 6] (Some 3%nat)) = Some w /\
     played w = [0; 0; 128; 63; 1; 0; 0; 0; 5; 0; 0]).
Proof.
  split; [unfold usual_format; lia|]. split; [unfold usual_format; lia|]. split; [discriminate|].
  split; [|split]; eexists; (split; [vm_compute; reflexivity|]); repeat split; reflexivity.
Qed.

(** There are recordings as long as that. *)
Example C73_demo_long : samples [repeat 0 (Z.to_nat 92636550)] = 92636550 /\ usual_format 2 44100.
Proof.
  split; [|unfold usual_format; lia]. unfold samples. cbn [concat]. rewrite app_nil_r, repeat_length, Z2Nat.id; [reflexivity|lia].
Qed.
