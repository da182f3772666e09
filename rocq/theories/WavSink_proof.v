From Verif Require Import Base WavSink_model WavSink_spec.

Lemma le_length : forall k x, length (le k x) = k.
Proof. induction k; intros; cbn; auto. Qed.

Lemma le_num : forall k x, 0 <= x < 256 ^ Z.of_nat k ->
  fold_right (fun y acc => y + 256 * acc) 0 (le k x) = x.
Proof.
  induction k as [|k IH]; intros x H; cbn [le fold_right].
  - cbn in H. lia.
  - rewrite IH; [lia|]. rewrite Nat2Z.inj_succ, Z.pow_succ_r in H by lia. 
    split; [apply Z.div_pos; lia|]. apply Z.div_lt_upper_bound; lia.
Qed.

Lemma le4 : forall x, le 4 x = [byte_of x 0; byte_of x 1; byte_of x 2; byte_of x 3].
Proof.
  intros. unfold byte_of. cbn [le]. change (256 ^ 0) with 1. change (256 ^ 1) with 256.
  change (256 ^ 2) with (256 * 256). change (256 ^ 3) with (256 * 256 * 256).
  rewrite Z.div_1_r, <- !Z.div_div by lia. reflexivity.
Qed.

Lemma floats_bytes : forall l, floats l = sample_bytes l.
Proof. intros. unfold floats, sample_bytes. induction l as [|x l IH]; auto. cbn [flat_map]. rewrite <- IH, <- le4. auto. Qed.

Lemma bytes_length : forall l, length (sample_bytes l) = (4 * length l)%nat.
Proof. induction l as [|x l IH]; auto. unfold sample_bytes in *. cbn [flat_map]. rewrite app_length, IH, le_length. cbn [length]. lia. Qed.

Lemma bytes_app : forall a b, sample_bytes (a ++ b) = sample_bytes a ++ sample_bytes b.
Proof. intros. unfold sample_bytes. apply flat_map_app. Qed.

Lemma header_length : forall h, length (header_bytes h) = 44%nat.
Proof. intros. unfold header_bytes. rewrite !app_length, !le_length. reflexivity. Qed.

(** Pieces of a sequence put together. *)
Lemma skipn_piece : forall (a b : list Z) k n, length a = k -> skipn (k + n) (a ++ b) = skipn n b.
Proof. intros a b k n <-. induction a; cbn; auto. Qed.
Lemma num_piece : forall (a b : list Z) k n m, length a = k -> num (a ++ b) (k + n) m = num b n m.
Proof. intros. unfold num. rewrite skipn_piece by auto. auto. Qed.
Lemma text_piece : forall (a b : list Z) k n, length a = k -> text (a ++ b) (k + n) = text b n.
Proof. intros. unfold text. rewrite skipn_piece by auto. auto. Qed.
Lemma num_le : forall k x b, 0 <= x < 256 ^ Z.of_nat k -> num (le k x ++ b) 0 k = x.
Proof.
  intros. unfold num. cbn [skipn]. rewrite firstn_app, le_length, Nat.sub_diag. cbn [firstn].
  rewrite app_nil_r, firstn_all2 by (rewrite le_length; lia). apply le_num. auto.
Qed.

Definition well (h : header) : Prop :=
  0 <= hd_chans h < 2 ^ 16 /\ 0 <= hd_rate h < 2 ^ 32 /\ 0 <= hd_bits h < 2 ^ 16.

Lemma u32_range : forall x, 0 <= u32 x < 2 ^ 32.
Proof. intros. unfold u32, wrapu. apply Z.mod_pos_bound. lia. Qed.
Lemma u16_range : forall x, 0 <= u16 x < 2 ^ 16.
Proof. intros. unfold u16, wrapu. apply Z.mod_pos_bound. lia. Qed.

Lemma well_new : forall c r b g, well (header_new c r b g).
Proof. intros. unfold well, header_new. cbn. repeat split; try apply u16_range; apply u32_range. Qed.

Ltac piece4 := rewrite (num_piece _ _ 4) by (rewrite ?le_length; reflexivity).
Lemma read_header : forall h data, well h -> read_wav (header_bytes h ++ data) =
  Some (mkWav (riff_size h) 3 (hd_chans h) (hd_rate h) (u32 (hd_rate h * hd_chans h * (hd_bits h / 8)))
              (u16 (hd_chans h * (hd_bits h / 8))) (hd_bits h) (data_size h) data).
Proof.
  intros h data (W1 & W2 & W3).
  assert (LEN : (44 <=? Z.of_nat (length (header_bytes h ++ data))) = true).
  { rewrite app_length, header_length. apply Z.leb_le. lia. }
  assert (SK : skipn 44 (header_bytes h ++ data) = data).
  { change 44%nat with (44 + 0)%nat. rewrite skipn_piece by apply header_length. auto. }
  assert (R1 : 0 <= riff_size h < 256 ^ Z.of_nat 4) by apply u32_range.
  assert (R2 : 0 <= data_size h < 256 ^ Z.of_nat 4) by apply u32_range.
  set (br := u32 (hd_rate h * hd_chans h * (hd_bits h / 8))).
  set (al := u16 (hd_chans h * (hd_bits h / 8))).
  assert (R3 : 0 <= br < 256 ^ Z.of_nat 4) by apply u32_range.
  assert (R4 : 0 <= al < 256 ^ Z.of_nat 2) by apply u16_range.
  unfold read_wav. rewrite LEN, SK. unfold header_bytes. fold br al. rewrite <- !app_assoc.
  set (rs := riff_size h) in *. set (ds := data_size h) in *. clearbody rs ds br al. clear LEN SK.
  set (t1 := [82; 73; 70; 70]). set (t2 := [87; 65; 86; 69]). set (t3 := [102; 109; 116; 32]). set (t4 := [100; 97; 116; 97]).
  assert (L : forall k x, length (le k x) = k) by apply le_length.
  assert (T0 : forall b, text (t1 ++ b) 0 = t1) by reflexivity.
  assert (T2 : forall b, text (t2 ++ b) 0 = t2) by reflexivity.
  assert (T3 : forall b, text (t3 ++ b) 0 = t3) by reflexivity.
  assert (T4 : forall b, text (t4 ++ b) 0 = t4) by reflexivity.
  rewrite T0.
  match goal with |- context [text ?b 8] => replace (text b 8) with t2 end.
  2:{ change 8%nat with (4 + (4 + 0))%nat. rewrite (text_piece t1) by auto. rewrite (text_piece (le 4 rs)) by auto. auto. }
  match goal with |- context [text ?b 12] => replace (text b 12) with t3 end.
  2:{ change 12%nat with (4 + (4 + (4 + 0)))%nat. rewrite (text_piece t1) by auto. rewrite (text_piece (le 4 rs)) by auto.
      rewrite (text_piece t2) by auto. auto. }
  match goal with |- context [text ?b 36] => replace (text b 36) with t4 end.
  2:{ change 36%nat with (4 + (4 + (4 + (4 + (4 + (2 + (2 + (4 + (4 + (2 + (2 + 0)))))))))))%nat.
      rewrite (text_piece t1) by auto. rewrite (text_piece (le 4 rs)) by auto. rewrite (text_piece t2) by auto.
      rewrite (text_piece t3) by auto. do 7 rewrite text_piece by auto. auto. }
  assert (N : forall b, b = t1 ++ le 4 rs ++ t2 ++ t3 ++ le 4 16 ++ le 2 3 ++ le 2 (hd_chans h) ++ le 4 (hd_rate h) ++
     le 4 br ++ le 2 al ++ le 2 (hd_bits h) ++ t4 ++ le 4 ds ++ data ->
     num b 4 4 = rs /\ num b 16 4 = 16 /\ num b 20 2 = 3 /\ num b 22 2 = hd_chans h /\ num b 24 4 = hd_rate h /\
     num b 28 4 = br /\ num b 32 2 = al /\ num b 34 2 = hd_bits h /\ num b 40 4 = ds).
  { intros b ->. repeat split.
    - etransitivity; [apply (num_piece t1 _ 4 0 4); auto|apply num_le; auto].
    - change 22%nat with (4 + (4 + (4 + (4 + (4 + (2 + 0))))))%nat. do 6 rewrite num_piece by auto. apply num_le. auto.
    - change 24%nat with (4 + (4 + (4 + (4 + (4 + (2 + (2 + 0)))))))%nat. do 7 rewrite num_piece by auto. apply num_le. auto.
    - change 28%nat with (4 + (4 + (4 + (4 + (4 + (2 + (2 + (4 + 0))))))))%nat. do 8 rewrite num_piece by auto. apply num_le. auto.
    - change 32%nat with (4 + (4 + (4 + (4 + (4 + (2 + (2 + (4 + (4 + 0)))))))))%nat. do 9 rewrite num_piece by auto. apply num_le. auto.
    - change 34%nat with (4 + (4 + (4 + (4 + (4 + (2 + (2 + (4 + (4 + (2 + 0))))))))))%nat. do 10 rewrite num_piece by auto. apply num_le. auto.
    - change 40%nat with (4 + (4 + (4 + (4 + (4 + (2 + (2 + (4 + (4 + (2 + (2 + (4 + 0))))))))))))%nat. do 12 rewrite num_piece by auto. apply num_le. auto. }
  destruct (N _ eq_refl) as (N1 & N2 & N3 & N4 & N5 & N6 & N7 & N8 & N9).
  rewrite N1, N2, N3, N4, N5, N6, N7, N8, N9.
  repeat match goal with |- context [list_eq_dec Z.eq_dec ?x ?x] => destruct (list_eq_dec Z.eq_dec x x); [|congruence] end.
  reflexivity.
Qed.

(** The file is a header and all samples, or there were none. *)
Definition total (fs : list (list Z)) : Z := Z.of_nat (length (concat fs)).

Lemma run_snoc : forall s fs f, sink_run s (fs ++ [f]) = sink_write (sink_run s fs) f.
Proof. intros. unfold sink_run. rewrite fold_left_app. auto. Qed.

Lemma run_file : forall c r g fs, let s := sink_run (sink_open c r g) fs in
  hd_chans (sk_head s) = u16 c /\ hd_rate (sk_head s) = u32 r /\ hd_bits (sk_head s) = 32 /\
  hd_count (sk_head s) = u32 (g + total fs) /\
  (concat fs = [] /\ sk_file s = [] \/
   concat fs <> [] /\ sk_file s = header_bytes (sk_head s) ++ sample_bytes (concat fs)).
Proof.
  intros c r g fs. induction fs as [|f fs IH] using rev_ind; cbv zeta in *.
  - cbn [sink_run fold_left sink_open sk_head sk_file header_new hd_chans hd_rate hd_bits hd_count concat].
    repeat split; auto. unfold total. cbn [concat length]. f_equal. lia.
  - rewrite run_snoc. set (s := sink_run (sink_open c r g) fs) in *. destruct IH as (A & B & C & D & E).
    assert (TOT : total (fs ++ [f]) = total fs + Z.of_nat (length f)).
    { unfold total. rewrite concat_app, app_length. cbn [concat]. rewrite app_nil_r. lia. }
    rewrite concat_app. cbn [concat]. rewrite app_nil_r. unfold sink_write.
    destruct (Z.ltb_spec 0 (Z.of_nat (length f))).
    + cbn [sk_head sk_file header_update hd_chans hd_rate hd_bits hd_count]. repeat split; auto.
      * rewrite D, TOT. unfold u32, wrapu. rewrite <- Zplus_mod. f_equal. lia.
      * right. split; [intros Q; apply app_eq_nil in Q; destruct Q as [_ ->]; cbn in H; lia|].
        unfold overwrite. rewrite header_length.
        destruct E as [[E1 E2]|[E1 E2]].
        -- rewrite E1, E2. cbn [app]. rewrite skipn_nil, app_nil_r. auto.
        -- rewrite E2. change 44%nat with (44 + 0)%nat. rewrite skipn_piece by apply header_length. cbn [skipn].
           rewrite bytes_app, app_assoc. auto.
    + assert (f = []) by (destruct f; auto; cbn in H; lia). subst f. rewrite app_nil_r.
      repeat split; auto. rewrite TOT. cbn [length Z.of_nat]. rewrite Z.add_0_r. auto.
Qed.
