(** Proofs about PCM coding. *)
From Coq Require Import Reals Lra.
From Flocq Require Import Core.Core IEEE754.BinarySingleNaN.
From Verif Require Import Base Base_lemmas Float32 Pcm_model Pcm_spec PcmFloat_proof.
Open Scope Z_scope.
Open Scope res_scope.

(** ** Containers *)
Definition is_big (e : pcm_endian) : bool := match e with Big => true | Little => false end.
Definition aligned (c : pcm_code) : Prop := c_pw c mod 8 = 0.
Definition image (c : pcm_code) (e : pcm_endian) (v : Z) : list Z :=
  container (is_big e) (c_po c) (v mod 2 ^ c_w c).

Lemma byte_of_0 v : byte_of v 0 = v mod 256.
Proof. unfold byte_of. change (2 ^ (8 * 0)) with 1. now rewrite Z.div_1_r. Qed.
Lemma byte_of_S v n : byte_of v (Z.of_nat (S n)) = byte_of (v / 256) (Z.of_nat n).
Proof.
  unfold byte_of. rewrite Z.div_div by (try apply Z.pow_pos_nonneg; lia).
  replace (2 ^ (8 * Z.of_nat (S n))) with (256 * 2 ^ (8 * Z.of_nat n)); [reflexivity|].
  replace (8 * Z.of_nat (S n)) with (8 + 8 * Z.of_nat n) by lia. rewrite Z.pow_add_r by lia. reflexivity.
Qed.
Lemma octets_bytes n v : octets n v = map (fun i => byte_of v (Z.of_nat i)) (seq 0 n).
Proof.
  revert v. induction n as [|n IH]; intros v; [reflexivity|]. cbn [octets seq map]. change (Z.of_nat 0) with 0. rewrite byte_of_0. f_equal.
  rewrite IH. rewrite <- seq_shift, map_map. apply map_ext. intros i. rewrite byte_of_S. reflexivity.
Qed.
Lemma octets_length n v : length (octets n v) = n.
Proof. rewrite octets_bytes, map_length, seq_length. reflexivity. Qed.
Lemma order_bytes e n v : map (fun i => byte_of v (Z.of_nat i)) (octet_order e n) = container (is_big e) n v.
Proof. destruct e; cbn [octet_order is_big container]; [rewrite map_rev|]; rewrite octets_bytes; reflexivity. Qed.
Lemma container_length b n v : length (container b n v) = n.
Proof. destruct b; cbn [container]; [rewrite rev_length|]; apply octets_length. Qed.
Lemma order_length e n : length (octet_order e n) = n.
Proof. destruct e; cbn [octet_order]; [rewrite rev_length|]; apply seq_length. Qed.

Lemma octets_mod n v m : (8 * Z.of_nat n <= m) -> octets n (v mod 2 ^ m) = octets n v.
Proof.
  revert v m. induction n as [|n IH]; intros v m H; [reflexivity|]. cbn [octets].
  assert (E : 2 ^ m = 256 * 2 ^ (m - 8)).
  { replace m with (8 + (m - 8)) at 1 by lia. rewrite Z.pow_add_r by lia. reflexivity. }
  assert (P : 0 < 2 ^ (m - 8)) by (apply Z.pow_pos_nonneg; lia).
  f_equal.
  - rewrite E. rewrite Z.rem_mul_r by lia. rewrite Z.mul_comm, Z.mod_add by lia. apply Z.mod_mod. lia.
  - rewrite <- (IH (v / 256) (m - 8)) by lia. f_equal. rewrite E. rewrite Z.rem_mul_r by lia.
    rewrite Z.mul_comm, Z.div_add by lia. rewrite (Z.div_small (v mod 256)) by (apply Z.mod_pos_bound; lia). reflexivity.
Qed.

(** Sum of octets. *)
Definition osum (v : Z) (ns : list nat) : Z := fold_right (fun n a => byte_of v (Z.of_nat n) * 2 ^ (8 * Z.of_nat n) + a) 0 ns.
Lemma osum_app v a b : osum v (a ++ b) = osum v a + osum v b.
Proof. induction a as [|n a IH]; cbn [app osum fold_right]; [reflexivity|]. fold (osum v (a ++ b)) (osum v a). rewrite IH. lia. Qed.
Lemma osum_seq v n : osum v (seq 0 n) = v mod 2 ^ (8 * Z.of_nat n).
Proof.
  induction n as [|n IH]; [cbn; now rewrite Z.mod_1_r|].
  rewrite seq_S, osum_app, IH. cbn [osum fold_right plus]. rewrite Z.add_0_r.
  replace (8 * Z.of_nat (S n)) with (8 * Z.of_nat n + 8) by lia. rewrite Z.pow_add_r by lia. change (2 ^ 8) with 256.
  assert (P : 0 < 2 ^ (8 * Z.of_nat n)) by (apply Z.pow_pos_nonneg; lia).
  rewrite Z.rem_mul_r by lia. unfold byte_of. rewrite (Z.mul_comm (_ mod 256)). reflexivity.
Qed.
Lemma osum_rev v l : osum v (rev l) = osum v l.
Proof.
  induction l as [|n l IH]; [reflexivity|]. cbn [rev]. rewrite osum_app, IH. cbn [osum fold_right]. fold (osum v l). lia.
Qed.
Lemma osum_order v e n : osum v (octet_order e n) = v mod 2 ^ (8 * Z.of_nat n).
Proof. destruct e; cbn [octet_order]; [rewrite osum_rev|]; apply osum_seq. Qed.

(** ** Aligned pack and unpack *)
Lemma upd_mid {A} (l : list A) i x : (i < length l)%nat -> upd l i x = firstn i l ++ [x] ++ skipn (i + 1) l.
Proof.
  intros H. destruct (nth_error l i) eqn:E; [|apply nth_error_None in E; lia].
  rewrite (upd_split l i x a E). rewrite Nat.add_1_r. reflexivity.
Qed.
Lemma shr8 i : 0 <= i -> Z.to_nat (Z.shiftr (8 * i) 3) = Z.to_nat i.
Proof. intros. rewrite Z.shiftr_div_pow2 by lia. change (2 ^ 3) with 8. rewrite Z.mul_comm, Z.div_mul by lia. reflexivity. Qed.

Lemma pack_octets_al c ns : aligned c -> forall buf i v, (i + length ns <= length buf)%nat ->
  pack_octets c ns buf (8 * Z.of_nat i) v =
  Ok (firstn i buf ++ map (fun n => byte_of v (Z.of_nat n)) ns ++ skipn (i + length ns) buf,
      8 * Z.of_nat (i + length ns)).
Proof.
  intros Al. induction ns as [|n ns IH]; intros buf i v Hl; cbn [pack_octets length map] in *.
  - rewrite Nat.add_0_r. cbn [app]. rewrite firstn_skipn. reflexivity.
  - rewrite Al. cbn [Z.eqb]. unfold aligned_write, wr. rewrite shr8 by lia. rewrite Nat2Z.id.
    destruct (Nat.ltb_spec i (length buf)); [|lia]. cbn [bind fst snd].
    replace (8 * Z.of_nat i + 8) with (8 * Z.of_nat (S i)) by lia. rewrite IH by (rewrite length_upd; lia).
    f_equal. f_equal; [|lia]. rewrite upd_mid by lia.
    replace (firstn (S i) (firstn i buf ++ [byte_of v (Z.of_nat n)] ++ skipn (i + 1) buf)) with (firstn i buf ++ [byte_of v (Z.of_nat n)]).
    2:{ rewrite app_assoc, firstn_app. rewrite app_length, firstn_length_le by lia. cbn [length].
        replace (S i - (i + 1))%nat with O by lia. rewrite firstn_O, app_nil_r. rewrite (firstn_all2 (firstn i buf ++ _)); [reflexivity|].
        rewrite app_length, firstn_length_le by lia. cbn [length]. lia. }
    replace (skipn (S i + length ns) (firstn i buf ++ [byte_of v (Z.of_nat n)] ++ skipn (i + 1) buf)) with (skipn (i + S (length ns)) buf).
    2:{ rewrite app_assoc, skipn_app. rewrite (skipn_all2 (firstn i buf ++ _)) by (rewrite app_length, firstn_length_le by lia; cbn [length]; lia).
        rewrite app_length, firstn_length_le by lia. cbn [length app]. rewrite skipn_skipn. f_equal. lia. }
    rewrite <- app_assoc. reflexivity.
Qed.

Lemma land_mask v n : 0 <= n -> Z.land v (2 ^ n - 1) = v mod 2 ^ n.
Proof. intros. rewrite <- Z.land_ones by lia. rewrite Z.ones_equiv. reflexivity. Qed.

Lemma po_al c : aligned c -> 8 * Z.of_nat (c_po c) = c_pw c.
Proof. unfold aligned, c_po. destruct c; cbn; intros; try discriminate; reflexivity. Qed.
Lemma w_le_pw c : c_w c <= c_pw c.
Proof. destruct c; cbn; lia. Qed.

Lemma pack_al c e buf i v : aligned c -> (i + c_po c <= length buf)%nat ->
  pack c e buf (8 * Z.of_nat i) v =
  Ok (firstn i buf ++ image c e v ++ skipn (i + c_po c) buf, 8 * Z.of_nat (i + c_po c)).
Proof.
  intros Al Hl. unfold pack. rewrite pack_octets_al by (try exact Al; rewrite order_length; lia).
  rewrite order_length, order_bytes. f_equal. f_equal. f_equal. f_equal. unfold image.
  pose proof (po_al c Al) as P. pose proof (w_le_pw c). pose proof (w_range c).
  destruct (Z.ltb_spec (c_w c) (c_pw c)).
  - rewrite land_mask by lia. reflexivity.
  - replace (c_w c) with (8 * Z.of_nat (c_po c)) by lia.
    destruct e; cbn [is_big container]; rewrite octets_mod by lia; reflexivity.
Qed.

Lemma unpack_octets_al c ns v : aligned c -> forall buf i acc,
  firstn (length ns) (skipn i buf) = map (fun n => byte_of v (Z.of_nat n)) ns ->
  unpack_octets c ns buf (8 * Z.of_nat i) acc = Ok (acc + osum v ns, 8 * Z.of_nat (i + length ns)).
Proof.
  intros Al. induction ns as [|n ns IH]; intros buf i acc H; cbn [unpack_octets].
  - cbn [osum fold_right length]. rewrite Nat.add_0_r, Z.add_0_r. reflexivity.
  - rewrite Al. cbn [Z.eqb]. unfold aligned_read, rd. rewrite shr8 by lia. rewrite Nat2Z.id.
    cbn [length map] in H. destruct (skipn i buf) as [|b t] eqn:E; [discriminate|]. cbn [firstn] in H.
    assert (nth_error buf i = Some b) as ->.
    { replace i with (i + 0)%nat by lia. rewrite <- nth_error_skipn, E. reflexivity. }
    cbn [bind fst snd]. injection H as Hb Ht. subst b.
    replace (8 * Z.of_nat i + 8) with (8 * Z.of_nat (S i)) by lia. rewrite IH.
    + cbn [osum fold_right length]. fold (osum v ns). f_equal. f_equal; lia.
    + replace (skipn (S i) buf) with t; [exact Ht|]. replace (S i) with (1 + i)%nat by lia. rewrite <- skipn_skipn, E. reflexivity.
Qed.

(** The value a container stands for. *)
Definition canon (c : pcm_code) (v : Z) : Z :=
  if c_int c && c_sig c then wraps (c_w c) v else v mod 2 ^ c_w c.

Lemma testbit_top v n : 0 < n -> 0 <= v < 2 ^ n -> Z.testbit v (n - 1) = (2 ^ (n - 1) <=? v).
Proof.
  intros Hn Hv.
  assert (E : 2 ^ n = 2 * 2 ^ (n - 1)) by (apply pow2_split; lia).
  assert (P : 0 < 2 ^ (n - 1)) by (apply Z.pow_pos_nonneg; lia).
  destruct (Z.leb_spec (2 ^ (n - 1)) v).
  - apply Z.testbit_true; [lia|]. replace (v / 2 ^ (n - 1)) with 1; [reflexivity|].
    apply Z.div_unique with (v - 2 ^ (n - 1)); lia.
  - apply Z.testbit_false; [lia|]. rewrite Z.div_small by lia. reflexivity.
Qed.

Lemma unpack_al c e buf i v : aligned c -> 
  firstn (c_po c) (skipn i buf) = image c e v ->
  unpack c e buf (8 * Z.of_nat i) = Ok (canon c v, 8 * Z.of_nat (i + c_po c)).
Proof.
  intros Al H. unfold unpack, image in *.
  rewrite unpack_octets_al with (v := v mod 2 ^ c_w c); [|exact Al|rewrite order_length, order_bytes; exact H].
  rewrite osum_order, order_length. cbn [bind fst snd]. rewrite Z.add_0_l. f_equal. f_equal.
  rewrite (po_al c Al). pose proof (w_le_pw c) as W1. pose proof (w_range c) as W2.
  assert (P : 0 < 2 ^ c_w c) by (apply Z.pow_pos_nonneg; lia).
  pose proof (Z.mod_pos_bound v (2 ^ c_w c) P) as R. set (u := v mod 2 ^ c_w c) in *.
  assert (2 ^ c_w c <= 2 ^ c_pw c) by (apply Z.pow_le_mono_r; lia).
  rewrite (Z.mod_small u) by lia.
  replace (if c_w c <? c_pw c then Z.land u (2 ^ c_w c - 1) else u) with u.
  2:{ destruct (c_w c <? c_pw c); [|reflexivity]. rewrite land_mask by lia. rewrite Z.mod_small by lia. reflexivity. }
  unfold canon. destruct (c_int c && c_sig c) eqn:S.
  - apply andb_prop in S. destruct S as [S1 S2]. rewrite S2. cbn [andb].
    assert (Es : wraps (c_w c) v = if u <? 2 ^ (c_w c - 1) then u else u - 2 ^ c_w c) by reflexivity.
    rewrite Es. rewrite testbit_top by lia. pose proof (pow2_split (c_w c) ltac:(lia)) as E2.
    destruct (Z.ltb_spec (c_w c) (c_uw c)) as [L|L]; cbn [andb].
    + assert (E3 : 2 ^ c_uw c = 2 ^ (c_uw c - c_w c) * 2 ^ c_w c) by (rewrite <- Z.pow_add_r by lia; f_equal; lia).
      assert (P3 : 2 <= 2 ^ (c_uw c - c_w c)) by (change 2 with (2 ^ 1) at 1; apply Z.pow_le_mono_r; lia).
      assert (E4 : 2 ^ c_uw c = 2 * 2 ^ (c_uw c - 1)) by (apply pow2_split; lia).
      destruct (Z.leb_spec (2 ^ (c_w c - 1)) u).
      * destruct (Z.ltb_spec u (2 ^ (c_w c - 1))); [lia|].
        rewrite Z.lor_comm. replace (2 ^ c_uw c - 2 ^ c_w c) with (Z.shiftl (2 ^ (c_uw c - c_w c) - 1) (c_w c)).
        2:{ rewrite Z.shiftl_mul_pow2 by lia. lia. }
        rewrite lor_shiftl_add by lia.
        unfold wraps. rewrite Z.mod_small by nia. destruct (Z.ltb_spec ((2 ^ (c_uw c - c_w c) - 1) * 2 ^ c_w c + u) (2 ^ (c_uw c - 1))); nia.
      * destruct (Z.ltb_spec u (2 ^ (c_w c - 1))); [|lia]. apply wraps_small; [lia|]. nia.
    + assert (c_uw c = c_w c) as ->. { destruct c; cbn in L |- *; lia. }
      unfold wraps. rewrite Z.mod_small by lia. reflexivity.
  - assert (N : (c_sig c && (c_w c <? c_uw c))%bool = false) by (destruct c; try discriminate S; reflexivity).
    rewrite N. cbn [andb]. reflexivity.
Qed.

(** ** Sequences of samples *)
Fixpoint cpack (ci co : pcm_code) (eo : pcm_endian) (vs : list Z) (out : list Z) (off : Z) : res (list Z * Z) :=
  match vs with
  | [] => Ok (out, off)
  | v :: t => z <- convert ci co v ;; p <- pack co eo out off z ;; cpack ci co eo t (fst p) (snd p)
  end.
Lemma cpack_app ci co eo a : forall b out off,
  cpack ci co eo (a ++ b) out off = (r <- cpack ci co eo a out off ;; cpack ci co eo b (fst r) (snd r)).
Proof.
  induction a as [|v a IH]; intros b out off; cbn [app cpack]; [reflexivity|].
  destruct (convert ci co v) as [z| |]; cbn [bind]; try reflexivity.
  destruct (pack co eo out off z) as [p| |]; cbn [bind]; try reflexivity. apply IH.
Qed.

Lemma image_length c e v : length (image c e v) = c_po c.
Proof. apply container_length. Qed.
Lemma flat_image_length c e vs : length (flat_map (image c e) vs) = (length vs * c_po c)%nat.
Proof. induction vs as [|v t IH]; [reflexivity|]. cbn [flat_map length]. rewrite app_length, image_length, IH. lia. Qed.

Lemma map_loop_al ci ei co eo inp vs : aligned ci -> forall i out ooff,
  firstn (length vs * c_po ci) (skipn i inp) = flat_map (image ci ei) vs ->
  map_loop ci ei co eo (length vs) inp (8 * Z.of_nat i) out ooff =
  (r <- cpack ci co eo (map (canon ci) vs) out ooff ;; Ok (fst r, 8 * Z.of_nat (i + length vs * c_po ci), snd r)).
Proof.
  intros Al. induction vs as [|v vs IH]; intros i out ooff H; cbn [length map_loop map cpack].
  - cbn [bind fst snd]. do 4 f_equal. lia.
  - cbn [flat_map length] in H.
    assert (L : (c_po ci <= length (firstn (S (length vs) * c_po ci) (skipn i inp)))%nat).
    { rewrite H, app_length, image_length. lia. }
    rewrite (unpack_al ci ei inp i v Al).
    2:{ apply (f_equal (firstn (c_po ci))) in H. rewrite firstn_firstn in H.
        replace (Nat.min (c_po ci) (S (length vs) * c_po ci)) with (c_po ci) in H by lia.
        rewrite H, firstn_app, image_length, Nat.sub_diag, firstn_O, app_nil_r.
        apply firstn_all2. rewrite image_length. lia. }
    cbn [bind fst snd]. destruct (convert ci co (canon ci v)) as [z| |]; cbn [bind]; try reflexivity.
    destruct (pack co eo out ooff z) as [p| |]; cbn [bind]; try reflexivity. rewrite IH.
    + destruct (cpack ci co eo (map (canon ci) vs) (fst p) (snd p)); cbn [bind]; try reflexivity. do 4 f_equal. lia.
    + rewrite Nat.add_comm, <- skipn_skipn. rewrite <- (firstn_skipn (c_po ci) (skipn i inp)) in H.
      replace (S (length vs) * c_po ci)%nat with (c_po ci + length vs * c_po ci)%nat in H by lia.
      assert (L2 : length (firstn (c_po ci) (skipn i inp)) = c_po ci).
      { rewrite firstn_length in *. lia. }
      rewrite <- L2 in H at 1. rewrite firstn_app_2 in H.
      apply (f_equal (skipn (c_po ci))) in H.
      rewrite !skipn_app in H. rewrite L2, image_length, Nat.sub_diag in H. cbn [skipn] in H.
      rewrite (skipn_all2 (firstn _ _)) in H by (rewrite L2; lia). rewrite (skipn_all2 (image _ _ _)) in H by (rewrite image_length; lia). exact H.
Qed.

Lemma cpack_al ci co eo vs zs : aligned co -> Forall2 (fun v z => convert ci co v = Ok z) vs zs ->
  forall j out, (j + length vs * c_po co <= length out)%nat ->
  cpack ci co eo vs out (8 * Z.of_nat j) =
  Ok (firstn j out ++ flat_map (image co eo) zs ++ skipn (j + length vs * c_po co) out, 8 * Z.of_nat (j + length vs * c_po co)).
Proof.
  intros Al F. induction F as [|v z vs zs Hc F IH]; intros j out Hl; cbn [length] in Hl; cbn [cpack flat_map length].
  - cbn [Nat.mul app]. rewrite Nat.add_0_r, firstn_skipn. reflexivity.
  - rewrite Hc. cbn [bind]. rewrite pack_al by (try exact Al; lia). cbn [bind fst snd].
    assert (L0 : length (firstn j out ++ image co eo z) = (j + c_po co)%nat).
    { rewrite app_length, firstn_length_le, image_length by lia. lia. }
    rewrite IH.
    2:{ rewrite app_assoc, app_length, L0, skipn_length. lia. }
    f_equal. f_equal; [|lia]. rewrite (app_assoc (firstn j out) (image co eo z)).
    rewrite firstn_app, L0, Nat.sub_diag, firstn_O, app_nil_r. rewrite (firstn_all2 (firstn j out ++ image co eo z)) by lia.
    rewrite <- !app_assoc. do 3 f_equal. rewrite app_assoc, skipn_app. rewrite skipn_all2 by lia. cbn [app]. rewrite L0, skipn_skipn. f_equal. lia.
Qed.

(** ** No access outside the buffers, all formats *)
Lemma octet_bits_range c n : c_pw c mod 8 <> 0 -> 1 <= octet_bits c n <= 8.
Proof. unfold octet_bits. destruct (_ =? _)%nat; destruct c; cbn; intros; lia. Qed.

Lemma wr_ok {A} (l : list A) i x : (i < length l)%nat -> wr l i x = Ok (upd l i x).
Proof. intros. unfold wr. destruct (Nat.ltb_spec i (length l)); [reflexivity|lia]. Qed.

Lemma land7 off : Z.land off 7 = off mod 8.
Proof. change 7 with (Z.ones 3). rewrite Z.land_ones by lia. reflexivity. Qed.
Lemma shr3 off : Z.shiftr off 3 = off / 8.
Proof. rewrite Z.shiftr_div_pow2 by lia. reflexivity. Qed.

Lemma unaligned_write_ok buf off len arg : 0 <= off -> 1 <= len <= 8 -> off + len <= 8 * Z.of_nat (length buf) ->
  exists b, unaligned_write buf off len arg = Ok (b, off + len) /\ length b = length buf.
Proof.
  intros H0 Hl Hb. unfold unaligned_write. rewrite shr3, land7.
  set (i := Z.to_nat (off / 8)). assert (Hi : (i < length buf)%nat) by (subst i; lia).
  assert (exists b0, (if off mod 8 =? 0 then wr buf i 0 else Ok buf) = Ok b0 /\ length b0 = length buf) as (b0 & -> & L0).
  { destruct (off mod 8 =? 0); [rewrite wr_ok by lia|]; eexists; split; try reflexivity. apply length_upd. }
  cbn [bind]. destruct (rd_ok b0 i) as (x & ->); [lia|]. cbn [bind]. rewrite wr_ok by lia. cbn [bind].
  destruct (Z.ltb_spec 8 (off mod 8 + len)).
  - rewrite wr_ok by (rewrite length_upd; subst i; lia). cbn [bind]. eexists. split; [reflexivity|]. rewrite !length_upd. exact L0.
  - cbn [bind]. eexists. split; [reflexivity|]. rewrite !length_upd. exact L0.
Qed.
Lemma unaligned_read_ok buf off len : 0 <= off -> 1 <= len <= 8 -> off + len <= 8 * Z.of_nat (length buf) ->
  exists v, unaligned_read buf off len = Ok (v, off + len).
Proof.
  intros H0 Hl Hb. unfold unaligned_read. rewrite shr3, land7.
  set (i := Z.to_nat (off / 8)). destruct (rd_ok buf i) as (x & ->); [subst i; lia|]. cbn [bind].
  destruct (Z.ltb_spec 8 (off mod 8 + len)).
  - destruct (rd_ok buf (S i)) as (y & ->); [subst i; lia|]. cbn [bind]. eexists. reflexivity.
  - cbn [bind]. eexists. reflexivity.
Qed.
Lemma aligned_write_ok buf off arg : 0 <= off -> off + 8 <= 8 * Z.of_nat (length buf) ->
  exists b, aligned_write buf off arg = Ok (b, off + 8) /\ length b = length buf.
Proof.
  intros. unfold aligned_write. rewrite shr3, wr_ok by lia. cbn [bind]. eexists. split; [reflexivity|]. apply length_upd.
Qed.
Lemma aligned_read_ok buf off : 0 <= off -> off + 8 <= 8 * Z.of_nat (length buf) ->
  exists v, aligned_read buf off = Ok (v, off + 8).
Proof.
  intros. unfold aligned_read. rewrite shr3. destruct (rd_ok buf (Z.to_nat (off / 8))) as (y & ->); [lia|]. eexists. reflexivity.
Qed.

Definition obits (c : pcm_code) (ns : list nat) : Z :=
  fold_right (fun n a => (if c_pw c mod 8 =? 0 then 8 else octet_bits c n) + a) 0 ns.
Lemma obits_nonneg c ns : 0 <= obits c ns.
Proof.
  induction ns as [|n ns IH]; cbn [obits fold_right]; [lia|]. fold (obits c ns).
  destruct (Z.eqb_spec (c_pw c mod 8) 0); [lia|]. pose proof (octet_bits_range c n n0). lia.
Qed.
Lemma pack_octets_ok c ns v : forall buf off, 0 <= off -> off + obits c ns <= 8 * Z.of_nat (length buf) ->
  exists b, pack_octets c ns buf off v = Ok (b, off + obits c ns) /\ length b = length buf.
Proof.
  induction ns as [|n ns IH]; intros buf off H0 Hb; cbn [pack_octets].
  - exists buf. split; [f_equal; f_equal; cbn; lia|reflexivity].
  - cbn [obits fold_right] in *. fold (obits c ns) in *. pose proof (obits_nonneg c ns).
    destruct (Z.eqb_spec (c_pw c mod 8) 0) as [E|E].
    + destruct (aligned_write_ok buf off (byte_of v (Z.of_nat n))) as (b & -> & L); [lia|lia|]. cbn [bind fst snd].
      destruct (IH b (off + 8)) as (b' & -> & L'); [lia|rewrite L; lia|]. exists b'. split; [f_equal; f_equal; lia|congruence].
    + pose proof (octet_bits_range c n E).
      destruct (unaligned_write_ok buf off (octet_bits c n) (byte_of v (Z.of_nat n))) as (b & -> & L); [lia|lia|lia|]. cbn [bind fst snd].
      destruct (IH b (off + octet_bits c n)) as (b' & -> & L'); [lia|rewrite L; lia|]. exists b'. split; [f_equal; f_equal; lia|congruence].
Qed.
Lemma unpack_octets_ok c ns : forall buf off acc, 0 <= off -> off + obits c ns <= 8 * Z.of_nat (length buf) ->
  exists v, unpack_octets c ns buf off acc = Ok (v, off + obits c ns).
Proof.
  induction ns as [|n ns IH]; intros buf off acc H0 Hb; cbn [unpack_octets].
  - exists acc. f_equal; f_equal; cbn; lia.
  - cbn [obits fold_right] in *. fold (obits c ns) in *. pose proof (obits_nonneg c ns).
    destruct (Z.eqb_spec (c_pw c mod 8) 0) as [E|E].
    + destruct (aligned_read_ok buf off) as (b & ->); [lia|lia|]. cbn [bind fst snd].
      destruct (IH buf (off + 8) (acc + b * 2 ^ (8 * Z.of_nat n))) as (b' & ->); [lia|lia|]. exists b'. f_equal; f_equal; lia.
    + pose proof (octet_bits_range c n E).
      destruct (unaligned_read_ok buf off (octet_bits c n)) as (b & ->); [lia|lia|lia|]. cbn [bind fst snd].
      destruct (IH buf (off + octet_bits c n) (acc + b * 2 ^ (8 * Z.of_nat n))) as (b' & ->); [lia|lia|]. exists b'. f_equal; f_equal; lia.
Qed.
Lemma obits_order c e : obits c (octet_order e (c_po c)) = c_pw c.
Proof. destruct c, e; vm_compute; reflexivity. Qed.

Lemma pack_ok c e buf off v : 0 <= off -> off + c_pw c <= 8 * Z.of_nat (length buf) ->
  exists b, pack c e buf off v = Ok (b, off + c_pw c) /\ length b = length buf.
Proof. intros. unfold pack. rewrite <- (obits_order c e). apply pack_octets_ok; [lia|rewrite obits_order; lia]. Qed.
Lemma unpack_ok c e buf off : 0 <= off -> off + c_pw c <= 8 * Z.of_nat (length buf) ->
  exists v, unpack c e buf off = Ok (v, off + c_pw c).
Proof.
  intros. unfold unpack. destruct (unpack_octets_ok c (octet_order e (c_po c)) buf off 0) as (v & ->); [lia|rewrite obits_order; lia|].
  cbn [bind fst snd]. rewrite obits_order. eexists. reflexivity.
Qed.
Lemma pw_pos c : 8 <= c_pw c.
Proof. destruct c; cbn; lia. Qed.

Lemma cpack_ok ci co eo vs : (forall v, In v vs -> exists z, convert ci co v = Ok z) -> forall out off,
  0 <= off -> off + Z.of_nat (length vs) * c_pw co <= 8 * Z.of_nat (length out) ->
  exists b, cpack ci co eo vs out off = Ok (b, off + Z.of_nat (length vs) * c_pw co) /\ length b = length out.
Proof.
  induction vs as [|v vs IH]; intros Hc out off H0 Hb; cbn [cpack].
  - exists out. split; [f_equal; f_equal; cbn; lia|reflexivity].
  - destruct (Hc v (or_introl eq_refl)) as (z & ->). cbn [bind]. cbn [length] in *. pose proof (pw_pos co).
    destruct (pack_ok co eo out off z) as (b & -> & L); [lia|nia|]. cbn [bind fst snd].
    destruct (IH (fun v0 h => Hc v0 (or_intror h)) b (off + c_pw co)) as (b' & -> & L'); [lia|rewrite L; nia|].
    exists b'. split; [f_equal; f_equal; nia|congruence].
Qed.

(** If conversions may fail, the result if any still has the right shape. *)
Lemma cpack_shape ci co eo vs : forall out off r,
  0 <= off -> off + Z.of_nat (length vs) * c_pw co <= 8 * Z.of_nat (length out) ->
  cpack ci co eo vs out off = Ok r -> snd r = off + Z.of_nat (length vs) * c_pw co /\ length (fst r) = length out.
Proof.
  induction vs as [|v vs IH]; intros out off r H0 Hb; cbn [cpack].
  - intros H. assert (r = (out, off)) by congruence. subst r. cbn [fst snd length]. split; [lia|reflexivity].
  - destruct (convert ci co v) as [z| |]; cbn [bind]; try discriminate. cbn [length] in *. pose proof (pw_pos co).
    destruct (pack_ok co eo out off z) as (b & -> & L); [lia|nia|]. cbn [bind fst snd]. intros HH.
    apply IH in HH; [|lia|rewrite L; nia]. destruct HH as [H1 H2]. split; [rewrite H1; nia|congruence].
Qed.
