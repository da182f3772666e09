From Coq Require Import Reals Lra.
From Verif Require Import Base Base_lemmas Pcm_model Pcm_spec Pcm_proof TimeConv_model TimeConv_spec TimeConv_props.
From Verif Require Import ChanIo_model ChanIo_spec ChanIo_proof PcmIo_model.
Open Scope Z_scope.
Open Scope res_scope.

Lemma pw_pos' c : 0 < c_pw c. Proof. destruct c; reflexivity. Qed.
Lemma po_pos c : aligned c -> (0 < c_po c)%nat.
Proof. intros A. pose proof (po_al c A). pose proof (pw_pos' c). lia. Qed.
Lemma byte_al c n : aligned c -> 0 <= n -> byte_count c n = n * Z.of_nat (c_po c).
Proof. intros A N. unfold byte_count. rewrite <- (po_al c A). lia. Qed.
Lemma sample_al c n : aligned c -> sample_count c n = n / Z.of_nat (c_po c).
Proof.
  intros A. unfold sample_count. rewrite <- (po_al c A). pose proof (po_pos c A).
  replace (n * 8) with (8 * n) by lia. apply Z.div_mul_cancel_l; lia.
Qed.

Section P.
Variable cv : conv.
Notation ic := (cv_ic cv). Notation ie := (cv_ie cv). Notation oc := (cv_oc cv). Notation oe := (cv_oe cv).
Hypothesis (AI : aligned ic) (AO : aligned oc).

Definition goes (v z : Z) : Prop := convert ic oc (canon ic v) = Ok z.
Notation im_i := (flat_map (image ic ie)). Notation im_o := (flat_map (image oc oe)).

Lemma goes_map vs zs : Forall2 goes vs zs -> Forall2 (fun v z => convert ic oc v = Ok z) (map (canon ic) vs) zs.
Proof. induction 1; cbn [map]; constructor; auto. Qed.
Lemma goes_len vs zs : Forall2 goes vs zs -> length vs = length zs.
Proof. induction 1; cbn [length]; auto. Qed.

Lemma map_at vs zs i j inp out : Forall2 goes vs zs -> firstn (length vs * c_po ic) (skipn i inp) = im_i vs ->
  (i + length vs * c_po ic <= length inp)%nat -> (j + length vs * c_po oc <= length out)%nat ->
  mapper_map ic ie oc oe inp (8 * Z.of_nat i) out (8 * Z.of_nat j) (Z.of_nat (length vs)) =
  Ok (Z.of_nat (length vs), firstn j out ++ im_o zs ++ skipn (j + length vs * c_po oc) out,
      8 * Z.of_nat (i + length vs * c_po ic), 8 * Z.of_nat (j + length vs * c_po oc)).
Proof.
  intros G E LI LO. unfold mapper_map. destruct (Z.ltb_spec (Z.of_nat (length inp) * 8) (8 * Z.of_nat i)); [lia|].
  destruct (Z.ltb_spec (Z.of_nat (length out) * 8) (8 * Z.of_nat j)); [lia|].
  assert (Q : forall c (A : aligned c) a b, (a + length vs * c_po c <= b)%nat -> Z.of_nat (length vs) <= (Z.of_nat b * 8 - 8 * Z.of_nat a) / c_pw c).
  { intros c A a b L. pose proof (po_pos c A). rewrite <- (po_al c A). apply Z.div_le_lower_bound; nia. }
  rewrite (Z.min_l _ _ (Q ic AI i (length inp) LI)). rewrite (Z.min_l _ _ (Q oc AO j (length out) LO)). rewrite Nat2Z.id.
  rewrite (map_loop_al ic ie oc oe inp vs AI i out _ E).
  pose proof (cpack_al ic oc oe (map (canon ic) vs) zs AO (goes_map _ _ G) j out) as C. rewrite map_length in C. rewrite C by auto.
  cbn [bind fst snd]. reflexivity.
Qed.

Variable c : nat.
Hypothesis (CH : cv_ch cv = Z.of_nat c) (CP : (0 < c)%nat).
Notation pi := (c * c_po ic)%nat. Notation po := (c * c_po oc)%nat.

Lemma out_bits n : bit_count oc (Z.of_nat n * cv_ch cv) = 8 * Z.of_nat (n * po).
Proof. unfold bit_count. rewrite CH, <- (po_al oc AO). lia. Qed.
Lemma in_bits n : bit_count ic (Z.of_nat n * cv_ch cv) = 8 * Z.of_nat (n * pi).
Proof. unfold bit_count. rewrite CH, <- (po_al ic AI). lia. Qed.

Lemma im_i_len vs n : length vs = (n * c)%nat -> length (im_i vs) = (n * pi)%nat.
Proof. intros E. rewrite flat_image_length, E. lia. Qed.
Lemma im_o_len vs n : length vs = (n * c)%nat -> length (im_o vs) = (n * po)%nat.
Proof. intros E. rewrite flat_image_length, E. lia. Qed.

Lemma goes_split k vs zs : Forall2 goes vs zs -> Forall2 goes (firstn k vs) (firstn k zs) /\ Forall2 goes (skipn k vs) (skipn k zs).
Proof.
  intros G. revert k. induction G as [|v z vs zs H G IH]; intros [|k]; cbn [firstn skipn]; split; auto; try constructor; auto; apply IH.
Qed.
Lemma first_skip {A} (l : list A) a b : firstn a l ++ firstn b (skipn a l) = firstn (a + b) l.
Proof.
  revert a. induction l as [|x l IH]; intros [|a]; cbn [firstn skipn app Nat.add]; auto; [destruct b; reflexivity|]. now rewrite IH.
Qed.

(** One batch of the reader. *)
Lemma pread_batch k vs zs out ooff bs more fl t rest : length vs = (k * c)%nat -> Forall2 goes vs zs ->
  (ooff + k * po <= length out)%nat -> bs = im_i vs ++ more ->
  bsrc_read (Z.to_nat (byte_count ic (Z.of_nat k * cv_ch cv))) (mkBSrc bs (Some (fl, t) :: rest)) = (Some (im_i vs, fl, t), mkBSrc more rest) /\
  mapper_map ic ie oc oe (im_i vs) 0 out (8 * Z.of_nat ooff) (Z.of_nat k * cv_ch cv) =
    Ok (Z.of_nat (k * c), firstn ooff out ++ im_o zs ++ skipn (ooff + k * po) out, 8 * Z.of_nat (k * pi), 8 * Z.of_nat (ooff + k * po)).
Proof.
  intros L G LO ->. split.
  - unfold bsrc_read. cbn [bs_reads bs_bytes]. rewrite CH, byte_al by (auto; lia).
    assert (E : Z.to_nat (Z.of_nat k * Z.of_nat c * Z.of_nat (c_po ic)) = length (im_i vs)) by (rewrite (im_i_len vs k L); lia).
    rewrite E, app_length, (proj2 (Nat.leb_le _ _)) by lia.
    rewrite firstn_app, firstn_all, Nat.sub_diag, firstn_O, app_nil_r, skipn_app, skipn_all, Nat.sub_diag. reflexivity.
  - pose proof (map_at vs zs 0 ooff (im_i vs) out G) as H. cbn [skipn] in H. rewrite flat_image_length in H. rewrite <- flat_image_length with (c := ic) (e := ie) in H at 1.
    rewrite firstn_all in H. specialize (H eq_refl ltac:(lia) ltac:(rewrite L; lia)).
    rewrite L in H. replace (k * c * c_po oc)%nat with (k * po)%nat in H by lia. replace (0 + k * c * c_po ic)%nat with (k * pi)%nat in H by lia.
    rewrite CH, <- Nat2Z.inj_mul. exact H.
Qed.

Lemma pread_loop_ok rs : forall fuel m n off vs zs out more rest flags ts,
  Forall2 goes vs zs -> length vs = ((n - off) * c)%nat -> (off <= n)%nat -> (n * po <= length out)%nat ->
  parts (n - off) m (length rs) -> Forall fine rs -> (length rs < fuel)%nat ->
  pread_loop fuel cv (Z.of_nat m) (Z.of_nat n) (Z.of_nat off) (8 * Z.of_nat (off * po)) out (mkBSrc (im_i vs ++ more) (map Some rs ++ rest)) flags ts =
  Ok (Some (Some (firstn (off * po) out ++ im_o zs ++ skipn (n * po) out, lors flags rs,
     match rs with (_, t) :: _ => if (off =? 0)%nat then t else ts | [] => ts end), mkBSrc more rest)).
Proof.
  induction rs as [|[fl t] rs IH]; intros fuel m n off vs zs out more rest flags ts G LV ON LO P R L.
  - destruct fuel as [|fuel]; [cbn [length] in L; lia|]. cbn [pread_loop]. rewrite out_bits.
    assert (off = n) by (destruct P as [P _]; cbn [length] in P; lia). subst off. rewrite Z.ltb_irrefl.
    rewrite Nat.sub_diag in LV. destruct vs; [|cbn [length] in LV; lia]. inversion G; subst. cbn [flat_map app map]. rewrite firstn_skipn. reflexivity.
  - destruct fuel as [|fuel]; [lia|]. cbn [length] in L.
    assert (N : (0 < n - off)%nat) by exact (parts_pos _ _ _ P).
    destruct (parts_step _ _ _ N P) as (j & EJ & MP & PJ). cbn [length] in EJ. assert (j = length rs) by lia. subst j. clear EJ.
    set (k := Nat.min (n - off) m) in *.
    cbn [pread_loop]. rewrite out_bits. pose proof (po_pos oc AO) as PO.
    rewrite (proj2 (Z.ltb_lt _ _)) by nia.
    replace (Z.min (Z.of_nat n - Z.of_nat off) (Z.of_nat m)) with (Z.of_nat k) by (unfold k; lia).
    destruct (goes_split (k * c) vs zs G) as [G1 G2].
    assert (L1 : length (firstn (k * c) vs) = (k * c)%nat) by (rewrite firstn_length; nia).
    destruct (pread_batch k (firstn (k * c) vs) (firstn (k * c) zs) out (off * po) (im_i vs ++ more) (im_i (skipn (k * c) vs) ++ more) fl t (map Some rs ++ rest) L1 G1) as [B1 B2].
    { nia. } { rewrite app_assoc, <- flat_map_app, firstn_skipn. reflexivity. }
    cbn [map app]. rewrite B1, B2. cbn [bind fst snd].
    set (out' := firstn (off * po) out ++ im_o (firstn (k * c) zs) ++ skipn (off * po + k * po) out).
    assert (LZ : length (im_o (firstn (k * c) zs)) = (k * po)%nat).
    { apply im_o_len. rewrite <- (goes_len _ _ G1). exact L1. }
    assert (LF : length (firstn (off * po) out) = (off * po)%nat) by (rewrite firstn_length; nia).
    assert (T : (if Z.of_nat off =? 0 then set_capture_timestamp t else Ok ts) = Ok (if (off =? 0)%nat then t else ts)).
    { destruct off as [|off]; [|reflexivity]. apply set_ts_ok. apply (Forall_inv R). }
    rewrite T. cbn [bind].
    replace (Z.of_nat off + Z.of_nat k) with (Z.of_nat (off + k)) by lia.
    replace (off * po + k * po)%nat with ((off + k) * po)%nat by lia.
    rewrite (IH fuel m n (off + k)%nat (skipn (k * c) vs) (skipn (k * c) zs) out' more rest); auto.
    + assert (LA : length (firstn (off * po) out ++ im_o (firstn (k * c) zs)) = ((off + k) * po)%nat) by (rewrite app_length, LF, LZ; lia).
      assert (X1 : firstn ((off + k) * po) out' = firstn (off * po) out ++ im_o (firstn (k * c) zs)).
      { unfold out'. rewrite app_assoc, firstn_app, LA, Nat.sub_diag, firstn_O, app_nil_r. apply firstn_all2. lia. }
      assert (X2 : skipn (n * po) out' = skipn (n * po) out).
      { unfold out'. rewrite app_assoc, skipn_app, LA. rewrite skipn_all2 by (rewrite LA; nia). cbn [app].
        rewrite skipn_skipn. f_equal. nia. }
      rewrite X1, X2.
      rewrite <- !app_assoc. rewrite (app_assoc (im_o (firstn (k * c) zs)) (im_o (skipn (k * c) zs))), <- flat_map_app, firstn_skipn.
      cbn [lors fold_left fst]. change (fold_left _ rs ?x) with (lors x rs).
      replace ((off + k =? 0)%nat) with false by (symmetry; apply Nat.eqb_neq; lia). destruct rs as [|[]]; reflexivity.
    + rewrite skipn_length, LV. nia.
    + lia.
    + unfold out'. rewrite !app_length, skipn_length, LF, LZ. nia.
    + replace (n - (off + k))%nat with (n - off - k)%nat by lia. exact PJ.
    + exact (Forall_inv_tail R).
    + lia.
Qed.

Lemma pread_loop_fails rs : forall fuel m n off vs zs out more rest flags ts,
  Forall2 goes vs zs -> length vs = (length rs * m * c)%nat -> (0 < m)%nat -> (off + length rs * m < n)%nat -> (n * po <= length out)%nat ->
  Forall fine rs -> (length rs < fuel)%nat ->
  pread_loop fuel cv (Z.of_nat m) (Z.of_nat n) (Z.of_nat off) (8 * Z.of_nat (off * po)) out (mkBSrc (im_i vs ++ more) (map Some rs ++ None :: rest)) flags ts =
  Ok (Some (None, mkBSrc more rest)).
Proof.
  induction rs as [|[fl t] rs IH]; intros fuel m n off vs zs out more rest flags ts G LV MP ON LO R L;
    (destruct fuel as [|fuel]; [cbn [length] in L; lia|]); cbn [length] in *; pose proof (po_pos oc AO) as PO;
    cbn [pread_loop]; rewrite out_bits; (assert (OL : (off < n)%nat) by nia);
    (assert (OM : (off * po < n * po)%nat) by (apply Nat.mul_lt_mono_pos_r; nia)); rewrite (proj2 (Z.ltb_lt _ _)) by lia.
  - destruct vs; [|cbn [length] in LV; lia]. reflexivity.
  - replace (Z.min (Z.of_nat n - Z.of_nat off) (Z.of_nat m)) with (Z.of_nat m) by nia.
    destruct (goes_split (m * c) vs zs G) as [G1 G2].
    assert (L1 : length (firstn (m * c) vs) = (m * c)%nat) by (rewrite firstn_length; nia).
    destruct (pread_batch m (firstn (m * c) vs) (firstn (m * c) zs) out (off * po) (im_i vs ++ more) (im_i (skipn (m * c) vs) ++ more) fl t (map Some rs ++ None :: rest) L1 G1) as [B1 B2].
    { nia. } { rewrite app_assoc, <- flat_map_app, firstn_skipn. reflexivity. }
    cbn [map app]. rewrite B1, B2. cbn [bind fst snd].
    assert (T : (if Z.of_nat off =? 0 then set_capture_timestamp t else Ok ts) = Ok (if (off =? 0)%nat then t else ts)).
    { destruct off as [|off]; [|reflexivity]. apply set_ts_ok. apply (Forall_inv R). }
    rewrite T. cbn [bind].
    replace (Z.of_nat off + Z.of_nat m) with (Z.of_nat (off + m)) by lia.
    replace (off * po + m * po)%nat with ((off + m) * po)%nat by lia.
    apply (IH fuel m n (off + m)%nat (skipn (m * c) vs) (skipn (m * c) zs)); auto.
    + rewrite skipn_length, LV. nia.
    + nia.
    + rewrite !app_length, skipn_length, firstn_length, (im_o_len _ m); [nia|]. rewrite <- (goes_len _ _ G1). exact L1.
    + exact (Forall_inv_tail R).
    + lia.
Qed.

Definition bout_ok (sp : spec) (m n : nat) (fl ts0 : Z) (k : nat) (g : bframe) : Prop :=
  bf_flags g = fl /\ bf_dur g = Z.of_nat (Nat.min m (n - k * m)) /\ Z.of_nat (length (bf_bytes g)) = bf_dur g * Z.of_nat po /\
  (ts0 = 0 -> bf_ts g = 0) /\
  (0 < ts0 -> (Rabs (IZR (bf_ts g) - (IZR ts0 + exact_ns (Z.of_nat (k * m)) (s_rate sp))) <=
               exact_ns (Z.of_nat (k * m)) (s_rate sp) / 4194304 + INR k / 2)%R).

Lemma pwrite_loop_ok sp m fl inp : usual sp -> (0 < m)%nat -> forall p fuel off n vs zs buf ts, Forall2 goes vs zs -> length vs = (n * c)%nat ->
  firstn (n * pi) (skipn (off * pi) inp) = im_i vs -> ((off + n) * pi <= length inp)%nat -> (m * po <= length buf)%nat ->
  parts n m p -> Z.of_nat n < 2 ^ 32 -> 0 <= ts -> (IZR ts + 2 * exact_ns (Z.of_nat n) (s_rate sp) + INR p < IZR (2 ^ 62))%R -> (p < fuel)%nat ->
  exists outs, pwrite_loop fuel cv sp (Z.of_nat m) (Z.of_nat (off + n)) (Z.of_nat off) (8 * Z.of_nat (off * pi)) inp buf fl ts = Ok (Some outs) /\
    concat (map bf_bytes outs) = im_o zs /\ length outs = p /\
    (forall k g, nth_error outs k = Some g -> bout_ok sp m n fl ts k g).
Proof.
  intros U MP. assert (RP : 0 < s_rate sp) by (unfold usual, valid in U; lia).
  pose proof (po_pos oc AO) as PO. pose proof (po_pos ic AI) as PI.
  induction p as [|p IH]; intros fuel off n vs zs buf ts G LV FI LI LB P N T B L.
  - destruct fuel as [|fuel]; [lia|]. assert (n = 0)%nat by (destruct P; lia). subst n.
    destruct vs; [|cbn [length] in LV; lia]. inversion G; subst. exists []. split; [|split; [reflexivity|split; [reflexivity|intros [|k] g X; inversion X]]].
    cbn [pwrite_loop]. rewrite in_bits, Nat.add_0_r, Z.ltb_irrefl. reflexivity.
  - destruct fuel as [|fuel]; [lia|].
    assert (N0 : (0 < n)%nat) by exact (parts_pos _ _ _ P).
    destruct (parts_step _ _ _ N0 P) as (j & EJ & _ & PJ). assert (j = p) by lia. subst j. clear EJ.
    set (k := Nat.min n m) in *. assert (KN : (0 < k <= n /\ k <= m)%nat) by lia.
    destruct (goes_split (k * c) vs zs G) as [G1 G2].
    assert (L1 : length (firstn (k * c) vs) = (k * c)%nat) by (rewrite firstn_length; nia).
    assert (SP : exact_ns (Z.of_nat n) (s_rate sp) = (exact_ns (Z.of_nat k) (s_rate sp) + exact_ns (Z.of_nat (n - k)) (s_rate sp))%R).
    { rewrite <- ns_add by auto. f_equal. lia. }
    assert (PN : forall m, (0 <= exact_ns (Z.of_nat m) (s_rate sp))%R).
    { intros x. unfold exact_ns, Rdiv. apply Rmult_le_pos; [apply Rmult_le_pos; [apply (IZR_le 0); lia|lra]|]. left. apply Rinv_0_lt_compat. apply (IZR_lt 0). lia. }
    assert (T0 : (0 <= IZR ts)%R) by (apply (IZR_le 0); lia). pose proof (pos_INR p) as PP. rewrite S_INR in B.
    pose proof (PN (n - k)%nat) as PR. pose proof (PN k) as PK.
    destruct (ns_ok sp (Z.of_nat k) U) as (d & ED & D0 & DC & _); [lia|lra|].
    apply rabs_inv in DC.
    set (ts' := if ts =? 0 then 0 else ts + d).
    assert (T' : 0 <= ts') by (unfold ts'; destruct (ts =? 0); lia).
    assert (B' : (IZR ts' <= IZR ts + 2 * exact_ns (Z.of_nat k) (s_rate sp) + 1)%R).
    { unfold ts'. destruct (Z.eqb_spec ts 0); [lra|]. rewrite plus_IZR. lra. }
    assert (LZ : length (im_o (firstn (k * c) zs)) = (k * po)%nat).
    { apply im_o_len. rewrite <- (goes_len _ _ G1). exact L1. }
    assert (FI1 : firstn (k * pi) (skipn (off * pi) inp) = im_i (firstn (k * c) vs)).
    { apply (f_equal (firstn (k * pi))) in FI. rewrite firstn_firstn in FI. rewrite Nat.min_l in FI by nia. rewrite FI.
      rewrite <- (firstn_skipn (k * c) vs) at 1. rewrite flat_map_app, firstn_app, (im_i_len _ k L1), Nat.sub_diag, firstn_O, app_nil_r.
      apply firstn_all2. rewrite (im_i_len _ k L1). lia. }
    assert (FI2 : firstn ((n - k) * pi) (skipn ((off + k) * pi) inp) = im_i (skipn (k * c) vs)).
    { apply (f_equal (skipn (k * pi))) in FI. rewrite <- (firstn_skipn (k * c) vs) in FI. rewrite flat_map_app, skipn_app, (im_i_len _ k L1), Nat.sub_diag in FI.
      rewrite (skipn_all2 (im_i (firstn (k * c) vs))) in FI by (rewrite (im_i_len _ k L1); lia). cbn [app skipn] in FI. rewrite <- FI.
      rewrite skipn_firstn_comm, skipn_skipn. f_equal; [nia|]. f_equal. lia. }
    destruct (IH fuel (off + k)%nat (n - k)%nat (skipn (k * c) vs) (skipn (k * c) zs) (im_o (firstn (k * c) zs) ++ skipn (k * po) buf) ts' G2) as (outs & W & C2 & P2 & O2);
      try assumption; try lia.
    { rewrite skipn_length, LV. nia. } { nia. } { rewrite app_length, skipn_length, LZ. nia. } { lra. }
    exists (mkB (im_o (firstn (k * c) zs)) fl (Z.of_nat k) ts :: outs). split; [|split; [|split; [cbn [length]; lia|]]].
    + cbn [pwrite_loop]. rewrite in_bits. rewrite (proj2 (Z.ltb_lt _ _)) by nia.
      replace (Z.min (Z.of_nat (off + n) - Z.of_nat off) (Z.of_nat m)) with (Z.of_nat k) by (unfold k; lia).
      rewrite CH, byte_al by (auto; lia).
      replace (Z.to_nat (Z.of_nat k * Z.of_nat c * Z.of_nat (c_po oc))) with (k * po)%nat by nia.
      pose proof (map_at (firstn (k * c) vs) (firstn (k * c) zs) (off * pi) 0 inp (firstn (k * po) buf) G1) as H.
      rewrite L1 in H. replace (k * c * c_po ic)%nat with (k * pi)%nat in H by lia. replace (k * c * c_po oc)%nat with (k * po)%nat in H by lia.
      assert (LP : length (firstn (k * po) buf) = (k * po)%nat) by (rewrite firstn_length; nia). rewrite LP in H.
      specialize (H FI1 ltac:(nia) ltac:(lia)). rewrite firstn_O in H. cbn [Nat.add app] in H. rewrite (skipn_all2 (firstn (k * po) buf)) in H by lia.
      rewrite app_nil_r in H. change (8 * Z.of_nat 0) with 0 in H. rewrite (Nat2Z.inj_mul k c) in H. rewrite H. cbn [bind fst snd].
      rewrite set_dur_ok by lia. cbn [bind]. rewrite set_ts_ok by auto. cbn [bind].
      assert (TT : (if ts =? 0 then Ok 0 else d <- samples_per_chan_2_ns sp (Z.of_nat k) ;; if ts + d <? 2 ^ 63 then Ok (ts + d) else UB) = Ok ts').
      { unfold ts'. destruct (ts =? 0) eqn:E0; [reflexivity|]. rewrite ED. cbn [bind].
        assert (X : ts + d < 2 ^ 62). { apply lt_IZR. rewrite plus_IZR. lra. }
        rewrite (proj2 (Z.ltb_lt _ _)) by lia. reflexivity. }
      rewrite TT. cbn [bind]. replace (Z.of_nat off + Z.of_nat k) with (Z.of_nat (off + k)) by lia.
      replace (off * pi + k * pi)%nat with ((off + k) * pi)%nat by lia. replace (off + n)%nat with (off + k + (n - k))%nat by lia.
      rewrite W. reflexivity.
    + cbn [map concat bf_bytes]. rewrite C2, <- flat_map_app, firstn_skipn. reflexivity.
    + intros [|i] g X.
      * cbn [nth_error] in X. injection X as <-. unfold bout_ok. cbn [bf_flags bf_dur bf_bytes bf_ts Nat.mul].
        split; auto. split; [unfold k; lia|]. split; [rewrite LZ; nia|]. split; auto. intros _. cbn [INR]. change (Z.of_nat 0) with 0.
        unfold exact_ns. replace (IZR 0 * 1000000000 / IZR (s_rate sp))%R with 0%R by (field; apply IZR_neq; lia).
        replace (IZR ts - (IZR ts + 0))%R with 0%R by ring. rewrite Rabs_R0. lra.
      * cbn [nth_error] in X. specialize (O2 i g X). destruct O2 as (O1 & O2 & O3 & O4 & O5).
        assert (I : (i < p)%nat) by (rewrite <- P2; apply nth_error_Some; congruence).
        assert (K : k = m).
        { unfold k. apply Nat.min_r. destruct P as [_ P]. destruct (Nat.le_gt_cases m n) as [Q|Q]; auto. specialize (P 1%nat ltac:(lia)). lia. }
        unfold bout_ok. split; auto. split; [rewrite O2; f_equal; cbn [Nat.mul]; lia|]. split; auto. split.
        -- intros Z0. apply O4. unfold ts'. now rewrite Z0.
        -- intros Z0. assert (E' : ts' = ts + d) by (unfold ts'; now rewrite (proj2 (Z.eqb_neq ts 0)) by lia).
           specialize (O5 ltac:(lia)). rewrite E', plus_IZR in O5. cbn [Nat.mul]. rewrite Nat2Z.inj_add, ns_add by auto. rewrite K in *.
           rewrite S_INR. apply rabs_inv in O5. apply Rabs_le. lra.
Qed.
End P.
