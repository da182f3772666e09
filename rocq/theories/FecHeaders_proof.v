From Verif Require Import Base Base_lemmas FecHeaders_model.

(** Widths of the fields on the wire. *)
Definition sbn_fits (k : pid_kind) (v : Z) : Prop :=
  match k with RS8M => 0 <= v < 2 ^ 24 | _ => 0 <= v < 2 ^ 16 end.
Definition esi_fits (k : pid_kind) (v : Z) : Prop :=
  match k with RS8M => 0 <= v < 2 ^ 8 | _ => 0 <= v < 2 ^ 16 end.

Lemma six (h : list Z) : length h = 6%nat -> exists a b c d e f, h = [a; b; c; d; e; f].
Proof. intros H. do 6 (destruct h as [|? h]; [discriminate|]). destruct h; [|discriminate]. repeat eexists. Qed.
Lemma eight (h : list Z) : length h = 8%nat -> exists a b c d e f g i, h = [a; b; c; d; e; f; g; i].
Proof. intros H. do 8 (destruct h as [|? h]; [discriminate|]). destruct h; [|discriminate]. repeat eexists. Qed.

Lemma u16_id v : 0 <= v < 65536 -> u16 v = v.
Proof. intros. unfold u16. apply wrapu_small. change (2 ^ 16) with 65536. lia. Qed.
Lemma u8_id v : 0 <= v < 256 -> u8 v = v.
Proof. intros. unfold u8. apply wrapu_small. change (2 ^ 8) with 256. lia. Qed.
Lemma u32_id v : 0 <= v < 4294967296 -> u32 v = v.
Proof. intros. unfold u32. apply wrapu_small. change (2 ^ 32) with 4294967296. lia. Qed.

Lemma rs8m_sbn v : 0 <= v < 16777216 ->
  Z.lor (Z.lor (Z.shiftl (u8 (Z.land (Z.shiftr v 16) 255)) 16) (Z.shiftl (u8 (Z.land (Z.shiftr v 8) 255)) 8))
        (u8 (Z.land v 255)) = v.
Proof.
  intros H. rewrite !land_255, !shiftr_div by lia. change (2 ^ 16) with 65536. change (2 ^ 8) with 256.
  rewrite !u8_id by (apply Z.mod_pos_bound; lia).
  set (a := (v / 65536) mod 256). set (b := (v / 256) mod 256). set (c := v mod 256).
  assert (0 <= a < 256) by (apply Z.mod_pos_bound; lia).
  assert (0 <= b < 256) by (apply Z.mod_pos_bound; lia).
  assert (0 <= c < 256) by (apply Z.mod_pos_bound; lia).
  replace (Z.shiftl a 16) with (Z.shiftl (Z.shiftl a 8) 8) by (rewrite Z.shiftl_shiftl by lia; reflexivity).
  rewrite <- Z.shiftl_lor, !lor_shiftl_add by (change (2 ^ 8) with 256; lia).
  change (2 ^ 8) with 256. subst a b c.
  replace (v / 65536) with (v / 256 / 256) by (rewrite Z.div_div by lia; reflexivity).
  set (q := v / 256). lia.
Qed.

Lemma shiftr_zero v n : 0 <= n -> 0 <= v < 2 ^ n -> Z.shiftr v n = 0.
Proof. intros. rewrite shiftr_div by lia. apply Z.div_small; auto. Qed.

Lemma pid_len k (h : list Z) : length h = pid_size k ->
  (exists a b c d e f, h = [a; b; c; d; e; f] /\ k <> LdpcRepair) \/
  (exists a b c d e f g i, h = [a; b; c; d; e; f; g; i] /\ k = LdpcRepair).
Proof.
  intros H. destruct k; cbn in H.
  - left. destruct (six h H) as (a & b & c & d & e & f & ->). repeat eexists. discriminate.
  - right. destruct (eight h H) as (a & b & c & d & e & f & g & i & ->). repeat eexists.
  - left. destruct (six h H) as (a & b & c & d & e & f & ->). repeat eexists. discriminate.
Qed.

Lemma set_sbn_spec k h v : length h = pid_size k -> sbn_fits k v ->
  exists h', pid_set_sbn k h v = Ok h' /\ length h' = pid_size k /\ pid_sbn k h' = v /\
    pid_esi k h' = pid_esi k h /\ pid_k k h' = pid_k k h /\ pid_n k h' = pid_n k h.
Proof.
  intros HL HF. destruct k; cbn [sbn_fits] in HF;
    change (2 ^ 16) with 65536 in *; change (2 ^ 24) with 16777216 in *.
  - destruct (six h HL) as (a & b & c & d & e & f & ->). cbn [pid_set_sbn]. rewrite u16_id by lia.
    eexists. split; [reflexivity|]. unfold pid_sbn, pid_esi, pid_k, pid_n, get16_at, put16_at. cbn [nth upd length pid_size].
    rewrite be16_put16 by lia. auto 10.
  - destruct (eight h HL) as (a & b & c & d & e & f & g & i & ->). cbn [pid_set_sbn]. rewrite u16_id by lia.
    eexists. split; [reflexivity|]. unfold pid_sbn, pid_esi, pid_k, pid_n, get16_at, put16_at. cbn [nth upd length pid_size].
    rewrite be16_put16 by lia. auto 10.
  - destruct (six h HL) as (a & b & c & d & e & f & ->). unfold pid_set_sbn. rewrite u32_id by lia. cbv zeta.
    rewrite shiftr_zero by (change (2 ^ 24) with 16777216; lia). cbn [Z.eqb].
    eexists. split; [reflexivity|]. unfold pid_sbn, pid_esi, pid_k, pid_n, get16_at. cbn [nth upd length pid_size].
    rewrite rs8m_sbn by lia. auto 10.
Qed.

Lemma set_esi_spec k h v : length h = pid_size k -> esi_fits k v ->
  exists h', pid_set_esi k h v = Ok h' /\ length h' = pid_size k /\ pid_esi k h' = v /\
    pid_sbn k h' = pid_sbn k h /\ pid_k k h' = pid_k k h /\ pid_n k h' = pid_n k h.
Proof.
  intros HL HF. destruct k; cbn [esi_fits] in HF;
    change (2 ^ 16) with 65536 in *; change (2 ^ 8) with 256 in *; unfold pid_set_esi; rewrite u16_id by lia; cbv zeta.
  - destruct (six h HL) as (a & b & c & d & e & f & ->).
    eexists. split; [reflexivity|]. unfold pid_sbn, pid_esi, pid_k, pid_n, get16_at, put16_at. cbn [nth upd length pid_size].
    rewrite be16_put16 by lia. auto 10.
  - destruct (eight h HL) as (a & b & c & d & e & f & g & i & ->).
    eexists. split; [reflexivity|]. unfold pid_sbn, pid_esi, pid_k, pid_n, get16_at, put16_at. cbn [nth upd length pid_size].
    rewrite be16_put16 by lia. auto 10.
  - destruct (six h HL) as (a & b & c & d & e & f & ->).
    rewrite shiftr_zero by (change (2 ^ 8) with 256; lia). cbn [Z.eqb]. rewrite u8_id by lia.
    eexists. split; [reflexivity|]. unfold pid_sbn, pid_esi, pid_k, pid_n, get16_at. cbn [nth upd length pid_size]. auto 10.
Qed.

Lemma set_k_spec k h v : length h = pid_size k -> 0 <= v < 2 ^ 16 ->
  let h' := pid_set_k k h v in
  length h' = pid_size k /\ pid_k k h' = v /\
  pid_sbn k h' = pid_sbn k h /\ pid_esi k h' = pid_esi k h /\ pid_n k h' = pid_n k h.
Proof.
  intros HL HF. change (2 ^ 16) with 65536 in *. unfold pid_set_k. rewrite u16_id by lia. cbv zeta.
  destruct (pid_len k h HL) as [(a & b & c & d & e & f & -> & N)|(a & b & c & d & e & f & g & i & -> & ->)].
  - destruct k; [|congruence|]; unfold pid_sbn, pid_esi, pid_k, pid_n, get16_at, put16_at; cbn [nth upd length pid_size];
    rewrite be16_put16 by lia; auto 10.
  - unfold pid_sbn, pid_esi, pid_k, pid_n, get16_at, put16_at; cbn [nth upd length pid_size];
    rewrite be16_put16 by lia; auto 10.
Qed.

Lemma set_n_spec k h v : length h = pid_size k -> 0 <= v < 2 ^ 16 ->
  let h' := pid_set_n k h v in
  length h' = pid_size k /\ pid_n k h' = (match k with LdpcSource => 0 | LdpcRepair => v | RS8M => 255 end) /\
  pid_sbn k h' = pid_sbn k h /\ pid_esi k h' = pid_esi k h /\ pid_k k h' = pid_k k h.
Proof.
  intros HL HF. change (2 ^ 16) with 65536 in *. unfold pid_set_n. cbv zeta.
  destruct (pid_len k h HL) as [(a & b & c & d & e & f & -> & N)|(a & b & c & d & e & f & g & i & -> & ->)].
  - destruct k; [|congruence|]; auto 10.
  - rewrite u16_id by lia. unfold pid_sbn, pid_esi, pid_k, pid_n, get16_at, put16_at; cbn [nth upd length pid_size];
    rewrite be16_put16 by lia; auto 10.
Qed.

Lemma upd_bytes h i x : bytes_ok h -> byte_ok x -> bytes_ok (upd h i x).
Proof.
  unfold bytes_ok. revert i. induction h as [|a h IH]; intros [|i] H Hx; cbn; auto; inversion H; subst; constructor; auto.
Qed.

Lemma put16_bytes h i v : bytes_ok h -> bytes_ok (put16_at h i v).
Proof. intros. unfold put16_at. repeat apply upd_bytes; auto; apply byte_of_range. Qed.

Lemma u8_byte v : byte_ok (u8 v).
Proof. unfold byte_ok, u8. apply (wrapu_range 8 v). lia. Qed.

Lemma set_sbn_bytes k h v h' : bytes_ok h -> pid_set_sbn k h v = Ok h' -> bytes_ok h'.
Proof.
  intros H E. destruct k.
  - assert (h' = put16_at h 0 (u16 v)) as -> by (cbn [pid_set_sbn] in E; congruence). apply put16_bytes; auto.
  - assert (h' = put16_at h 0 (u16 v)) as -> by (cbn [pid_set_sbn] in E; congruence). apply put16_bytes; auto.
  - unfold pid_set_sbn in E. cbv zeta in E. destruct (Z.shiftr (u32 v) 24 =? 0); [|discriminate].
    apply (f_equal (fun r => match r with Ok x => x | _ => [] end)) in E. cbv beta iota in E. rewrite <- E.
    repeat apply upd_bytes; auto; apply u8_byte.
Qed.
Lemma set_esi_bytes k h v h' : bytes_ok h -> pid_set_esi k h v = Ok h' -> bytes_ok h'.
Proof.
  intros H E. unfold pid_set_esi in E. cbv zeta in E. destruct k.
  - assert (h' = put16_at h 2 (u16 v)) as -> by congruence. apply put16_bytes; auto.
  - assert (h' = put16_at h 2 (u16 v)) as -> by congruence. apply put16_bytes; auto.
  - destruct (Z.shiftr (u16 v) 8 =? 0); [|discriminate].
    apply (f_equal (fun r => match r with Ok x => x | _ => [] end)) in E. cbv beta iota in E. rewrite <- E.
    apply upd_bytes; auto; apply u8_byte.
Qed.
