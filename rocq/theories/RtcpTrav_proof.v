From Coq Require Import Lia.
From Verif Require Import Base Base_lemmas RtcpTrav_model.
Open Scope res_scope.
Local Open Scope nat_scope.

(** Reads inside the buffer succeed. *)
Lemma rd_byte l i : bytes_ok l -> i < length l -> exists a, rd l i = Ok a /\ byte_ok a.
Proof.
  intros B H. destruct (rd_ok l i H) as [a E]. exists a. split; [exact E|]. unfold rd in E. destruct (nth_error l i) as [x|] eqn:N; [|discriminate].
  injection E as <-. unfold bytes_ok in B. rewrite Forall_forall in B. apply B. eapply nth_error_In; exact N.
Qed.
Lemma idx_byte l i : bytes_ok l -> i < length l -> exists a, idx l i = Ok a /\ rd l i = Ok a /\ byte_ok a.
Proof.
  intros B H. destruct (rd_byte l i B H) as (a & E & O). exists a. unfold idx. destruct (Nat.ltb_spec (length l) i); [lia|]. auto.
Qed.
Lemma r16_in l i : bytes_ok l -> i + 2 <= length l -> exists v, r16 l i = Ok v /\ (0 <= v < 65536)%Z.
Proof.
  intros B H. destruct (rd_byte l i B) as (a & Ea & Oa); [lia|]. destruct (rd_byte l (i + 1) B) as (b & Eb & Ob); [lia|].
  exists (be16 a b). unfold r16. rewrite Ea. cbn [bind]. rewrite Eb. cbn [bind]. split; [reflexivity|]. unfold be16, byte_ok in *. lia.
Qed.
Lemma r32_in l i : i + 4 <= length l -> exists v, r32 l i = Ok v.
Proof.
  intros H. destruct (rd_ok l i) as (a & Ea); [lia|]. destruct (rd_ok l (i + 1)) as (b & Eb); [lia|].
  destruct (rd_ok l (i + 2)) as (c & Ec); [lia|]. destruct (rd_ok l (i + 3)) as (d & Ed); [lia|].
  exists (be32 a b c d). unfold r32. rewrite Ea. cbn [bind]. rewrite Eb. cbn [bind]. rewrite Ec. cbn [bind]. rewrite Ed. reflexivity.
Qed.
Lemma r64_in l i : i + 8 <= length l -> exists v, r64 l i = Ok v.
Proof.
  intros H. destruct (r32_in l i) as (a & Ea); [lia|]. destruct (r32_in l (i + 4)) as (b & Eb); [lia|].
  eexists. unfold r64. rewrite Ea. cbn [bind]. rewrite Eb. reflexivity.
Qed.
Lemma rmid_in l i : i + 4 <= length l -> exists v, rmid l i = Ok v.
Proof. intros H. destruct (r32_in l i) as (a & Ea); [lia|]. eexists. unfold rmid. rewrite Ea. reflexivity. Qed.
Lemma sub_in l a b : a <= b -> b <= length l -> sub l a b = Ok (firstn (b - a) (skipn a l)).
Proof. intros H1 H2. unfold sub. destruct (Nat.ltb_spec b a); [lia|]. destruct (Nat.ltb_spec (length l) b); [lia|]. reflexivity. Qed.
Lemma sub_len l a b r : sub l a b = Ok r -> length r = b - a /\ a <= b <= length l /\ r = firstn (b - a) (skipn a l).
Proof.
  unfold sub. destruct (Nat.ltb_spec b a); [discriminate|]. destruct (Nat.ltb_spec (length l) b); [discriminate|]. intros E. injection E as <-.
  split; [rewrite firstn_length, skipn_length; lia|]. split; [lia|reflexivity].
Qed.
Lemma firstn_bytes n l : bytes_ok l -> bytes_ok (firstn n l).
Proof. intros B. unfold bytes_ok in *. apply Forall_forall. intros x H. rewrite Forall_forall in B. apply B. rewrite <- (firstn_skipn n l). apply in_or_app. left. exact H. Qed.
Lemma skipn_bytes n l : bytes_ok l -> bytes_ok (skipn n l).
Proof. intros B. unfold bytes_ok in *. apply Forall_forall. intros x H. rewrite Forall_forall in B. apply B. rewrite <- (firstn_skipn n l). apply in_or_app. right. exact H. Qed.
Lemma sub_bytes l a b r : bytes_ok l -> sub l a b = Ok r -> bytes_ok r.
Proof. intros B H. destruct (sub_len _ _ _ _ H) as (_ & _ & ->). apply firstn_bytes, skipn_bytes, B. Qed.

Lemma len_bytes_ge w : (0 <= w)%Z -> 4 <= len_bytes w.
Proof. unfold len_bytes. lia. Qed.

Ltac rdr := match goal with
  | |- context [rd ?l ?i] => let a := fresh "x" in let E := fresh "Ex" in destruct (rd_ok l i) as (a & E); [lia|rewrite E; cbn [bind]]
  | |- context [r32 ?l ?i] => let a := fresh "x" in let E := fresh "Ex" in destruct (r32_in l i) as (a & E); [lia|rewrite E; cbn [bind]]
  | |- context [r64 ?l ?i] => let a := fresh "x" in let E := fresh "Ex" in destruct (r64_in l i) as (a & E); [lia|rewrite E; cbn [bind]]
  | |- context [rmid ?l ?i] => let a := fresh "x" in let E := fresh "Ex" in destruct (rmid_in l i) as (a & E); [lia|rewrite E; cbn [bind]]
  end.

Ltac okt H := match type of H with ?f ?a = ?f true => let X := fresh in assert (X : a = true) by congruence; clear H; rename X into H end.

(** *** Blocks *)
Lemma read_rblock_ok l p : p + 24 <= length l -> is_ok (read_rblock l p).
Proof. intros H. unfold read_rblock. repeat rdr. eexists. reflexivity. Qed.
Lemma read_dblock_ok l p : p + 12 <= length l -> is_ok (read_dblock l p).
Proof. intros H. unfold read_dblock. repeat rdr. eexists. reflexivity. Qed.
Lemma read_blocks_ok {A} (rdb : nat -> res A) size p num : (forall i, i < num -> is_ok (rdb (p + size * i))) ->
  forall n i, i + n <= num -> is_ok (read_blocks rdb size p num i n).
Proof.
  intros H. induction n as [|n IH]; intros i L; cbn [read_blocks]; [eexists; reflexivity|].
  destruct (Nat.leb_spec num i); [lia|]. destruct (H i) as [b ->]; [lia|]. cbn [bind]. destruct (IH (i + 1)) as [bs ->]; [lia|]. eexists. reflexivity.
Qed.
Lemma read_sr_ok l : check_sr l = Ok true -> is_ok (read_sr l).
Proof.
  unfold check_sr. intros H. destruct (rd l 0) as [b| |] eqn:E; cbn [bind] in H; try discriminate. okt H. apply Nat.leb_le in H.
  unfold read_sr. rewrite E. cbn [bind]. repeat rdr. destruct (read_blocks_ok (read_rblock l) 24 28 (counter b)) with (n := counter b) (i := 0) as [bs ->].
  - intros i Hi. apply read_rblock_ok. lia.
  - lia.
  - eexists. reflexivity.
Qed.
Lemma read_rr_ok l : check_rr l = Ok true -> is_ok (read_rr l).
Proof.
  unfold check_rr. intros H. destruct (rd l 0) as [b| |] eqn:E; cbn [bind] in H; try discriminate. okt H. apply Nat.leb_le in H.
  unfold read_rr. rewrite E. cbn [bind]. repeat rdr. destruct (read_blocks_ok (read_rblock l) 24 8 (counter b)) with (n := counter b) (i := 0) as [bs ->].
  - intros i Hi. apply read_rblock_ok. lia.
  - lia.
  - eexists. reflexivity.
Qed.

(** *** SDES *)
Lemma sdes_parse_ok l : bytes_ok l -> exists r, sdes_parse l = Ok r /\ (forall l' n, r = Some (l', n) -> bytes_ok l' /\ 4 <= length l').
Proof.
  intros B. unfold sdes_parse. destruct (Nat.ltb_spec (length l) 4); [eexists; split; [reflexivity|discriminate]|].
  destruct (rd_byte l 0 B) as (b0 & E0 & O0); [lia|]. rewrite E0. cbn [bind]. destruct (rd_byte l 1 B) as (ty & E1 & _); [lia|]. rewrite E1. cbn [bind].
  destruct (r16_in l 2 B) as (lw & E2 & O2); [lia|]. rewrite E2. cbn [bind]. pose proof (len_bytes_ge lw (proj1 O2)) as G.
  destruct (negb (ty =? RTCP_SDES)%Z); [eexists; split; [reflexivity|discriminate]|]. cbv zeta.
  destruct (Nat.ltb_spec (length l) (len_bytes lw)); [eexists; split; [reflexivity|discriminate]|].
  destruct (31 <? counter b0); [eexists; split; [reflexivity|discriminate]|].
  destruct (has_padding b0).
  - destruct (idx_byte l (len_bytes lw - 1) B) as (pad & E3 & _ & O3); [lia|]. rewrite E3. cbn [bind].
    destruct (Nat.ltb_spec (Z.to_nat pad) 1); cbn [orb]; [eexists; split; [reflexivity|discriminate]|].
    destruct (Nat.ltb_spec (len_bytes lw - 4) (Z.to_nat pad)); [eexists; split; [reflexivity|discriminate]|].
    rewrite (sub_in l 0) by lia. cbn [bind]. eexists. split; [reflexivity|]. intros l' n X. injection X as <- _.
    split; [first [apply firstn_bytes, skipn_bytes, B | apply firstn_bytes, B]|]. rewrite firstn_length, ?skipn_length. lia.
  - eexists. split; [reflexivity|]. intros l' n X. injection X as <- _. split; [exact B|lia].
Qed.
Lemma land3 x : Z.land x 0x03 = (x mod 4)%Z.
Proof. change 3%Z with (Z.ones 2). apply Z.land_ones. lia. Qed.
Lemma skip_pad_ok l pos : pos < length l -> exists p, skip_pad 4 l pos = Ok p /\ pos < p <= length l.
Proof.
  intros H. cbn [skip_pad]. rewrite !land3.
  destruct (Nat.ltb_spec (pos + 1) (length l)); cbn [andb]; [|eexists; split; [reflexivity|lia]].
  destruct (Z.eqb_spec (Z.of_nat (pos + 1) mod 4) 0)%Z; cbn [negb]; [eexists; split; [reflexivity|lia]|].
  destruct (Nat.ltb_spec (pos + 1 + 1) (length l)); cbn [andb]; [|eexists; split; [reflexivity|lia]].
  destruct (Z.eqb_spec (Z.of_nat (pos + 1 + 1) mod 4) 0)%Z; cbn [negb]; [eexists; split; [reflexivity|lia]|].
  destruct (Nat.ltb_spec (pos + 1 + 1 + 1) (length l)); cbn [andb]; [|eexists; split; [reflexivity|lia]].
  destruct (Z.eqb_spec (Z.of_nat (pos + 1 + 1 + 1) mod 4) 0)%Z; cbn [negb]; [eexists; split; [reflexivity|lia]|].
  destruct (Nat.ltb_spec (pos + 1 + 1 + 1 + 1) (length l)); cbn [andb]; [|eexists; split; [reflexivity|lia]].
  destruct (Z.eqb_spec (Z.of_nat (pos + 1 + 1 + 1 + 1) mod 4) 0)%Z; cbn [negb]; [eexists; split; [reflexivity|lia]|]. lia.
Qed.

Definition s_good (l : list Z) (it : siter) : Prop :=
  match s_st it with
  | SBegin => s_pos it = 0
  | SChunk => s_pos it + 4 <= length l
  | SItem => 2 <= s_ilen it /\ s_pos it + s_ilen it <= length l
  | SEnd => True
  end.
Definition s_moved (l : list Z) (pos : nat) (it : siter) : Prop := s_good l it /\ s_st it <> SBegin /\ (s_st it <> SEnd -> pos <= s_pos it).
Lemma s_chunk_ok l chunks pos chunk ilen err el : pos <= length l -> exists it, s_chunk_or_end l chunks pos chunk ilen err el = Ok it /\ s_moved l pos it.
Proof.
  intros H. unfold s_chunk_or_end. destruct (chunk =? chunks); [eexists; split; [reflexivity|split; [exact I|split; [discriminate|cbn; congruence]]]|].
  destruct (Nat.ltb_spec (length l) (pos + 4)); [eexists; split; [reflexivity|split; [exact I|split; [discriminate|cbn; congruence]]]|].
  unfold idx. destruct (Nat.ltb_spec (length l) pos); [lia|]. repeat rdr. eexists. split; [reflexivity|]. split; [cbn; lia|split; [discriminate|cbn; lia]].
Qed.
Lemma s_item_ok l chunks pos chunk ilen err el : bytes_ok l -> pos <= length l -> exists it, s_item l chunks pos chunk ilen err el = Ok it /\ s_moved l pos it.
Proof.
  intros B H. unfold s_item. destruct (Nat.eqb_spec pos (length l)); [apply s_chunk_ok; exact H|].
  destruct (idx_byte l pos B) as (b & E & Erd & O); [lia|]. rewrite E. cbn [bind]. destruct (b =? 0)%Z.
  - destruct (skip_pad_ok l pos) as (p & -> & Hp); [lia|]. cbn [bind]. destruct (s_chunk_ok l chunks p (chunk + 1) ilen err el) as (it & -> & M); [lia|].
    exists it. split; [reflexivity|]. destruct M as (M1 & M2 & M3). split; [exact M1|]. split; [exact M2|]. intros X. specialize (M3 X). lia.
  - destruct (Nat.ltb_spec (length l) (pos + 2)); [eexists; split; [reflexivity|split; [exact I|split; [discriminate|cbn; congruence]]]|].
    destruct (rd_byte l (pos + 1) B) as (tl & E1 & O1); [lia|]. rewrite E1. cbn [bind].
    destruct (Nat.ltb_spec (length l) (pos + (2 + Z.to_nat tl))); [eexists; split; [reflexivity|split; [exact I|split; [discriminate|cbn; congruence]]]|].
    unfold parse_item. rewrite E. cbn [bind]. rewrite E1. cbn [bind]. cbv zeta. rewrite sub_in by lia. cbn [bind].
    eexists. split; [reflexivity|]. split; [cbn; lia|]. split; [discriminate|cbn; lia].
Qed.
Lemma s_next_ok l chunks it : bytes_ok l -> 4 <= length l -> s_good l it ->
  exists it', s_next l chunks it = Ok it' /\ s_good l it' /\ s_st it' <> SBegin /\ (s_st it' <> SEnd -> s_pos it < s_pos it').
Proof.
  intros B L G. destruct it as [st pos chunk ilen err el]. unfold s_good in G. cbn in G. destruct st; cbn [s_next].
  - subst pos. destruct (Nat.ltb_spec (length l) (0 + 4)); [lia|]. destruct (s_chunk_ok l chunks (0 + 4) chunk ilen err el) as (it & E & M1 & M2 & M3); [lia|].
    exists it. split; [exact E|]. split; [exact M1|]. split; [exact M2|]. intros X. specialize (M3 X). cbn. lia.
  - destruct (s_item_ok l chunks (pos + 4) chunk ilen err el B) as (it & E & M1 & M2 & M3); [lia|].
    exists it. split; [exact E|]. split; [exact M1|]. split; [exact M2|]. intros X. specialize (M3 X). cbn. lia.
  - destruct (s_item_ok l chunks (pos + ilen) chunk ilen err el B) as (it & E & M1 & M2 & M3); [lia|].
    exists it. split; [exact E|]. split; [exact M1|]. split; [exact M2|]. intros X. specialize (M3 X). cbn. lia.
  - eexists. split; [reflexivity|]. cbn. split; [exact I|]. split; [discriminate|congruence].
Qed.
Lemma s_walk_ok l chunks fuel : forall it, bytes_ok l -> 4 <= length l -> s_good l it -> s_pos it <= length l -> length l < fuel + s_pos it ->
  exists r, s_walk fuel l chunks it = Ok r /\ length (fst r) + s_pos it <= length l.
Proof.
  induction fuel as [|f IH]; intros it B L G P F; [lia|]. cbn [s_walk]. destruct (s_next_ok l chunks it B L G) as (it' & -> & G' & NB & M). cbn [bind].
  assert (P' : s_st it' <> SEnd -> s_pos it' <= length l).
  { unfold s_good in G'. destruct (s_st it'); [congruence|lia|lia|congruence]. }
  destruct (s_st it') eqn:St; try congruence.
  - specialize (M ltac:(discriminate)). specialize (P' ltac:(discriminate)). destruct (IH it' B L G' P' ltac:(lia)) as (r & -> & Lr). cbn [bind]. eexists. split; [reflexivity|]. cbn. lia.
  - specialize (M ltac:(discriminate)). specialize (P' ltac:(discriminate)). destruct (IH it' B L G' P' ltac:(lia)) as (r & -> & Lr). cbn [bind]. eexists. split; [reflexivity|]. cbn. lia.
  - eexists. split; [reflexivity|]. cbn. exact P.
Qed.
Lemma read_sdes_ok l : bytes_ok l -> is_ok (read_sdes l).
Proof.
  intros B. unfold read_sdes. destruct (sdes_parse_ok l B) as (r & -> & H). cbn [bind]. destruct r as [[l' n]|]; [|eexists; reflexivity].
  destruct (H l' n eq_refl) as [B' L']. destruct (s_walk_ok l' n (S (length l' + n)) s_begin B' L' eq_refl) as (r & -> & _); [cbn; lia|cbn; lia|]. eexists. reflexivity.
Qed.

(** *** BYE *)
Lemma bye_parse_ok l : bytes_ok l -> exists r, bye_parse l = Ok r /\ (forall l' n, r = Some (l', n) -> bytes_ok l' /\ 4 <= length l').
Proof.
  intros B. unfold bye_parse. destruct (Nat.ltb_spec (length l) 4); [eexists; split; [reflexivity|discriminate]|].
  destruct (rd_byte l 0 B) as (b0 & E0 & O0); [lia|]. rewrite E0. cbn [bind]. destruct (rd_byte l 1 B) as (ty & E1 & _); [lia|]. rewrite E1. cbn [bind].
  destruct (r16_in l 2 B) as (lw & E2 & O2); [lia|]. rewrite E2. cbn [bind]. pose proof (len_bytes_ge lw (proj1 O2)) as G.
  destruct (negb (ty =? RTCP_BYE)%Z); [eexists; split; [reflexivity|discriminate]|]. cbv zeta.
  destruct (Nat.ltb_spec (length l) (len_bytes lw)); [eexists; split; [reflexivity|discriminate]|].
  destruct (31 <? counter b0); [eexists; split; [reflexivity|discriminate]|].
  destruct (has_padding b0).
  - destruct (idx_byte l (len_bytes lw - 1) B) as (pad & E3 & _ & O3); [lia|]. rewrite E3. cbn [bind].
    destruct (Nat.ltb_spec (Z.to_nat pad) 1); cbn [orb]; [eexists; split; [reflexivity|discriminate]|].
    destruct (Nat.ltb_spec (len_bytes lw - 4) (Z.to_nat pad)); [eexists; split; [reflexivity|discriminate]|].
    rewrite (sub_in l 0) by lia. cbn [bind]. eexists. split; [reflexivity|]. intros l' n X. injection X as <- _.
    split; [first [apply firstn_bytes, skipn_bytes, B | apply firstn_bytes, B]|]. rewrite firstn_length, ?skipn_length. lia.
  - eexists. split; [reflexivity|]. intros l' n X. injection X as <- _. split; [exact B|lia].
Qed.
Definition b_good (l : list Z) (count : nat) (it : biter) : Prop :=
  match b_st it with
  | BBegin => b_pos it = 0 /\ b_ssrc it = 0
  | BSsrc => b_pos it + 4 <= length l /\ b_ssrc it < count
  | _ => True
  end.
Definition b_left (count : nat) (it : biter) : nat :=
  match b_st it with BBegin => count + 2 | BSsrc => count - b_ssrc it + 1 | BReason => 1 | BEnd => 0 end.
Lemma b_element_ok l count pos cur err el : bytes_ok l -> pos <= length l -> cur <= count ->
  exists it, b_element l count pos cur err el = Ok it /\ b_good l count it /\ b_st it <> BBegin /\ b_left count it <= count - cur + 1.
Proof.
  intros B H C. unfold b_element. destruct (Nat.eqb_spec cur count).
  - destruct (Nat.ltb_spec pos (length l)); [|eexists; split; [reflexivity|split; [exact I|split; [discriminate|cbn; lia]]]].
    destruct (Nat.ltb_spec (length l) (pos + 1)); [lia|]. destruct (idx_byte l pos B) as (tl & E & _ & O); [lia|]. rewrite E. cbn [bind].
    destruct (Nat.ltb_spec (length l) (pos + 1 + Z.to_nat tl)); [eexists; split; [reflexivity|split; [exact I|split; [discriminate|cbn; lia]]]|].
    unfold parse_reason. rewrite E. cbn [bind]. cbv zeta. rewrite sub_in by lia. cbn [bind]. eexists. split; [reflexivity|]. split; [exact I|]. split; [discriminate|cbn; lia].
  - destruct (Nat.ltb_spec (length l) (pos + 4)); [eexists; split; [reflexivity|split; [exact I|split; [discriminate|cbn; lia]]]|].
    unfold idx. destruct (Nat.ltb_spec (length l) pos); [lia|]. repeat rdr. eexists. split; [reflexivity|]. split; [cbn; lia|]. split; [discriminate|cbn; lia].
Qed.
Lemma b_next_ok l count it : bytes_ok l -> 4 <= length l -> b_good l count it -> b_st it <> BEnd ->
  exists it', b_next l count it = Ok it' /\ b_good l count it' /\ b_st it' <> BBegin /\ b_left count it' < b_left count it.
Proof.
  intros B L G N. destruct it as [st pos cur err el]. unfold b_good in G. cbn in G, N. destruct st; cbn [b_next]; [| | |congruence].
  - destruct G as [-> ->]. destruct (Nat.ltb_spec (length l) (0 + 4)); [lia|]. destruct (b_element_ok l count (0 + 4) 0 err el B) as (it & E & M1 & M2 & M3); [lia|lia|].
    exists it. repeat split; try assumption. cbn. lia.
  - destruct (b_element_ok l count (pos + 4) (cur + 1) err el B) as (it & E & M1 & M2 & M3); [lia|lia|].
    exists it. repeat split; try assumption. cbn. lia.
  - eexists. split; [reflexivity|]. split; [exact I|]. split; [discriminate|cbn; lia].
Qed.
Lemma b_walk_ok l count fuel : forall it, bytes_ok l -> 4 <= length l -> b_good l count it -> b_st it <> BEnd -> b_left count it <= fuel ->
  is_ok (b_walk fuel l count it).
Proof.
  induction fuel as [|f IH]; intros it B L G N F; [unfold b_left in F; destruct (b_st it); try lia; congruence|].
  cbn [b_walk]. destruct (b_next_ok l count it B L G N) as (it' & -> & G' & NB & M). cbn [bind].
  destruct (b_st it') eqn:St; try congruence; [| |eexists; reflexivity].
  - destruct (IH it' B L G') as [r ->]; [congruence|lia|]. eexists. reflexivity.
  - destruct (IH it' B L G') as [r ->]; [congruence|lia|]. eexists. reflexivity.
Qed.
Lemma read_bye_ok l : bytes_ok l -> is_ok (read_bye l).
Proof.
  intros B. unfold read_bye. destruct (bye_parse_ok l B) as (r & -> & H). cbn [bind]. destruct r as [[l' n]|]; [|eexists; reflexivity].
  destruct (H l' n eq_refl) as [B' L']. destruct (b_walk_ok l' n (n + 3) b_begin B' L') as (r & ->); [split; reflexivity|discriminate|cbn; lia|]. eexists. reflexivity.
Qed.

(** *** XR *)
Definition x_good (l : list Z) (it : xiter) : Prop :=
  match x_st it with
  | XBegin => x_pos it = 0
  | XAt ty => 4 <= x_len it /\ x_pos it + x_len it <= length l /\ xr_check ty (x_len it) = Some true /\ exists w, r16 l (x_pos it + 2) = Ok w /\ x_len it = len_bytes w
  | XEnd => True
  end.
Lemma x_loop_ok l fuel : forall pos len err, bytes_ok l -> pos <= length l -> length l < fuel + pos ->
  exists it, x_loop fuel l pos len err = Ok it /\ x_good l it /\ x_st it <> XBegin /\ (x_st it <> XEnd -> pos <= x_pos it).
Proof.
  induction fuel as [|f IH]; intros pos len err B H F; [lia|]. cbn [x_loop].
  destruct (Nat.eqb_spec pos (length l)); [eexists; split; [reflexivity|split; [exact I|split; [discriminate|cbn; congruence]]]|].
  destruct (Nat.ltb_spec (length l) (pos + 4)); [eexists; split; [reflexivity|split; [exact I|split; [discriminate|cbn; congruence]]]|].
  destruct (idx_byte l pos B) as (ty & E & _ & O); [lia|]. rewrite E. cbn [bind]. destruct (r16_in l (pos + 2) B) as (lw & E2 & O2); [lia|]. rewrite E2. cbn [bind].
  pose proof (len_bytes_ge lw (proj1 O2)) as G. cbv zeta.
  destruct (Nat.ltb_spec (length l) (pos + len_bytes lw)); [eexists; split; [reflexivity|split; [exact I|split; [discriminate|cbn; congruence]]]|].
  destruct (xr_check ty (len_bytes lw)) as [[|]|] eqn:C.
  - eexists. split; [reflexivity|]. cbn. split; [repeat split; try lia; [exact C|exists lw; split; [exact E2|reflexivity]]|]. split; [discriminate|lia].
  - destruct (IH (pos + len_bytes lw) (len_bytes lw) true B) as (it & Ei & G1 & G2 & G3); [lia|lia|]. exists it. repeat split; try assumption. intros X. specialize (G3 X). lia.
  - destruct (IH (pos + len_bytes lw) (len_bytes lw) err B) as (it & Ei & G1 & G2 & G3); [lia|lia|]. exists it. repeat split; try assumption. intros X. specialize (G3 X). lia.
Qed.
Lemma x_next_ok l it : bytes_ok l -> 8 <= length l -> x_good l it ->
  exists it', x_next l it = Ok it' /\ x_good l it' /\ x_st it' <> XBegin /\ (x_st it' <> XEnd -> x_pos it < x_pos it').
Proof.
  intros B L G. destruct it as [st pos len err]. unfold x_good in G. cbn in G. destruct st; cbn [x_next].
  - subst pos. destruct (Nat.ltb_spec (length l) (0 + 8)); [lia|]. destruct (x_loop_ok l (S (length l)) (0 + 8) len err B) as (it & E & G1 & G2 & G3); [lia|lia|].
    exists it. split; [exact E|]. split; [exact G1|]. split; [exact G2|]. intros X. specialize (G3 X). cbn in *. lia.
  - destruct (x_loop_ok l (S (length l)) (pos + len) len err B) as (it & E & G1 & G2 & G3); [lia|lia|].
    exists it. split; [exact E|]. split; [exact G1|]. split; [exact G2|]. intros X. specialize (G3 X). cbn in *. lia.
  - eexists. split; [reflexivity|]. cbn. split; [exact I|]. split; [discriminate|congruence].
Qed.
Lemma x_pos_le l it : x_good l it -> x_st it <> XBegin -> x_st it <> XEnd -> x_pos it <= length l.
Proof. unfold x_good. destruct (x_st it); try congruence. lia. Qed.
Lemma x_count_ok l fuel : forall it, bytes_ok l -> 8 <= length l -> x_good l it -> x_pos it <= length l -> length l < fuel + x_pos it -> is_ok (x_count fuel l it).
Proof.
  induction fuel as [|f IH]; intros it B L G P F; [lia|]. cbn [x_count]. destruct (x_next_ok l it B L G) as (it' & -> & G' & NB & M). cbn [bind].
  pose proof (x_pos_le l it' G' NB) as P'. destruct (x_st it') eqn:St; [congruence| |eexists; reflexivity].
  specialize (M ltac:(discriminate)). specialize (P' ltac:(discriminate)). destruct (IH it' B L G' P') as [r ->]; [lia|]. eexists. reflexivity.
Qed.
Lemma read_xblock_ok l it ty : bytes_ok l -> x_good l it -> x_st it = XAt ty -> is_ok (read_xblock l (x_pos it) ty).
Proof.
  intros B G St. unfold x_good in G. rewrite St in G. destruct G as (G1 & G2 & C & w & Ew & Lw). unfold xr_check in C. unfold read_xblock.
  destruct (ty =? XR_RRTR)%Z; [okt C; apply Nat.leb_le in C; repeat rdr; eexists; reflexivity|].
  destruct (ty =? XR_DLRR)%Z.
  { rewrite Ew. cbn [bind]. cbv zeta. rewrite <- Lw. okt C. apply Nat.leb_le in C.
    destruct (read_blocks_ok (read_dblock l) 12 (x_pos it + 4) (num_subblocks (x_len it))) with (n := num_subblocks (x_len it)) (i := 0) as [bs ->].
    - intros i Hi. apply read_dblock_ok. lia.
    - lia.
    - eexists. reflexivity. }
  destruct (ty =? XR_MEAS)%Z.
  { okt C. apply Nat.leb_le in C. rdr. destruct (r16_in l (x_pos it + 10) B) as (v & -> & _); [lia|]. cbn [bind]. repeat rdr. eexists. reflexivity. }
  destruct (ty =? XR_DELAY)%Z; [okt C; apply Nat.leb_le in C; repeat rdr; eexists; reflexivity|].
  destruct (ty =? XR_QUEUE)%Z; [|discriminate]. okt C. apply Nat.eqb_eq in C. repeat rdr. eexists. reflexivity.
Qed.
Lemma x_walk_ok l fuel : forall it, bytes_ok l -> 8 <= length l -> x_good l it -> x_pos it <= length l -> length l < fuel + x_pos it -> is_ok (x_walk fuel l it).
Proof.
  induction fuel as [|f IH]; intros it B L G P F; [lia|]. cbn [x_walk]. destruct (x_next_ok l it B L G) as (it' & -> & G' & NB & M). cbn [bind].
  pose proof (x_pos_le l it' G' NB) as P'. destruct (x_st it') eqn:St; [congruence| |eexists; reflexivity].
  specialize (M ltac:(discriminate)). specialize (P' ltac:(discriminate)). destruct (read_xblock_ok l it' ty B G' St) as [v ->]. cbn [bind].
  destruct (IH it' B L G' P') as [r ->]; [lia|]. eexists. reflexivity.
Qed.
(** A length field of 0 puts the number of padding bytes in the length field itself, where it is 0
    and refused; so the unsigned subtraction at xr_traverser.cpp:42 does no harm. *)
Lemma read_xr_ok l : bytes_ok l -> is_ok (read_xr l).
Proof.
  intros B. unfold read_xr, xr_parse. destruct (Nat.ltb_spec (length l) 8); [eexists; reflexivity|].
  destruct (rd_byte l 0 B) as (b0 & E0 & O0); [lia|]. rewrite E0. cbn [bind]. destruct (rd_byte l 1 B) as (ty & E1 & _); [lia|]. rewrite E1. cbn [bind].
  destruct (r16_in l 2 B) as (lw & Ew & Ow); [lia|]. rewrite Ew. cbn [bind]. destruct (negb (ty =? RTCP_XR)%Z); [eexists; reflexivity|]. cbv zeta.
  pose proof (len_bytes_ge lw (proj1 Ow)) as G. set (n := len_bytes lw) in *.
  destruct (Nat.ltb_spec (length l) n); [eexists; reflexivity|].
  assert (X : forall l', bytes_ok l' -> 8 <= length l' -> is_ok (n <- x_count (S (length l')) l' x_begin ;; Ok (Some (l', n)) : res (option (list Z * nat))) /\
     is_ok (r <- (n <- x_count (S (length l')) l' x_begin ;; Ok (Some (l', n))) ;; match r with None => Ok (VXR None) | Some (l', n) =>
       ssrc <- r32 l' 4 ;; p <- x_walk (S (length l')) l' x_begin ;; Ok (VXR (Some (ssrc, fst p, snd p))) end)).
  { intros l' B' L'. destruct (x_count_ok l' (S (length l')) x_begin B' L' eq_refl) as [m ->]; [cbn; lia|cbn; lia|]. cbn [bind]. split; [eexists; reflexivity|].
    rdr. destruct (x_walk_ok l' (S (length l')) x_begin B' L' eq_refl) as [r ->]; [cbn; lia|cbn; lia|]. eexists. reflexivity. }
  destruct (has_padding b0).
  - destruct (idx_byte l (n - 1) B) as (pad & E3 & Erd & O3); [lia|]. rewrite E3. cbn [bind].
    destruct (Nat.ltb_spec (Z.to_nat pad) 1) as [P0|P0]; cbn [orb bind]; [eexists; reflexivity|].
    destruct (Nat.leb_spec 8 n) as [N8|N8].
    + cbn [andb]. destruct (Nat.ltb_spec (n - 8) (Z.to_nat pad)); cbn [bind]; [eexists; reflexivity|].
      destruct (Nat.ltb_spec n (Z.to_nat pad)); [lia|]. rewrite (sub_in l 0) by lia. cbn [bind]. apply X.
      * first [apply firstn_bytes, skipn_bytes, B | apply firstn_bytes, B].
      * rewrite firstn_length, ?skipn_length. lia.
    + exfalso. assert (lw = 0)%Z by (unfold n, len_bytes in N8; lia). subst lw. replace n with 4 in Erd by (unfold n, len_bytes; reflexivity). cbn in Erd.
      destruct (rd_byte l 2 B) as (c & E2 & O2); [lia|]. unfold r16 in Ew. rewrite E2 in Ew. cbn [bind] in Ew. cbn [Nat.add] in Ew. rewrite Erd in Ew. cbn [bind] in Ew.
      assert (be16 c pad = 0)%Z by congruence. unfold be16, byte_ok in *. lia.
  - cbn [bind]. apply X; assumption.
Qed.

(** *** Compound *)
Lemma rd_sub l a b r i : sub l a b = Ok r -> i < b - a -> rd r i = rd l (a + i).
Proof.
  intros H Hi. destruct (sub_len _ _ _ _ H) as (_ & _ & ->). unfold rd. rewrite nth_error_firstn. destruct (Nat.ltb_spec i (b - a)); [|lia]. rewrite nth_error_skipn. reflexivity.
Qed.
Lemma r16_sub l a b r i : sub l a b = Ok r -> i + 2 <= b - a -> r16 r i = r16 l (a + i).
Proof. intros H Hi. unfold r16. rewrite (rd_sub _ _ _ _ _ H), (rd_sub _ _ _ _ _ H) by lia. rewrite Nat.add_assoc. reflexivity. Qed.

Definition slice_good (k : tkind) (sl : list Z) : Prop :=
  bytes_ok sl /\
  match k with
  | TSR => check_sr sl = Ok true
  | TRR => check_rr sl = Ok true
  | _ => True
  end.
Lemma read_packet_ok k sl : slice_good k sl -> is_ok (read_packet k sl).
Proof.
  intros [B G]. destruct k; cbn [read_packet].
  - apply read_sr_ok, G.
  - apply read_rr_ok, G.
  - apply read_sdes_ok, B.
  - apply read_bye_ok, B.
  - apply read_xr_ok, B.
Qed.
Definition t_good (buf : list Z) (it : titer) : Prop :=
  match t_st it with
  | TBegin => t_pos it = 0
  | TAt k => 4 <= t_len it /\ t_pos it + t_len it <= length buf /\ slice_good k (t_slice it)
  | TEnd => True
  end.
Lemma remove_padding_ok buf pos len sl b0 : bytes_ok buf -> sub buf pos (pos + len) = Ok sl -> 4 <= len ->
  exists r, remove_padding buf sl b0 len = Ok r /\ (forall sl', r = Some sl' -> bytes_ok sl' /\ 4 <= length sl').
Proof.
  intros B H L. destruct (sub_len _ _ _ _ H) as (Ls & Hs & _). pose proof (sub_bytes _ _ _ _ B H) as Bs. unfold remove_padding. destruct (has_padding b0).
  - destruct (idx_byte sl (len - 1) Bs) as (pad & E & _ & O); [lia|]. rewrite E. cbn [bind].
    destruct (Nat.ltb_spec (Z.to_nat pad) 1); cbn [orb]; [eexists; split; [reflexivity|discriminate]|].
    destruct (Nat.ltb_spec (len - 4) (Z.to_nat pad)); [eexists; split; [reflexivity|discriminate]|].
    rewrite sub_in by lia. cbn [bind]. eexists. split; [reflexivity|]. intros sl' X. injection X as <-.
    split; [first [apply firstn_bytes, skipn_bytes, B | apply firstn_bytes, B]|]. rewrite firstn_length, ?skipn_length. lia.
  - eexists. split; [reflexivity|]. intros sl' X. injection X as <-. split; [exact Bs|lia].
Qed.
Lemma t_loop_ok buf fuel : forall pos len sl err, bytes_ok buf -> pos <= length buf -> length buf < fuel + pos ->
  exists it, t_loop fuel buf pos len sl err = Ok it /\ t_good buf it /\ t_st it <> TBegin /\ (t_st it <> TEnd -> pos <= t_pos it).
Proof.
  induction fuel as [|f IH]; intros pos len sl err B H F; [lia|]. cbn [t_loop].
  assert (EndOk : forall p l s e, exists it, Ok (mkT TEnd p l s e) = Ok it /\ t_good buf it /\ t_st it <> TBegin /\ (t_st it <> TEnd -> pos <= t_pos it)).
  { intros. eexists. split; [reflexivity|]. split; [exact I|]. split; [discriminate|]. cbn. congruence. }
  destruct (Nat.eqb_spec pos (length buf)) as [Pe|Pe]; [apply EndOk|]. destruct (Nat.ltb_spec (length buf) (pos + 4)); [apply EndOk|].
  destruct (idx_byte buf pos B) as (b0 & E & Erd & O); [lia|]. rewrite E. cbn [bind]. destruct (rd_byte buf (pos + 1) B) as (ty & E1 & O1); [lia|]. rewrite E1. cbn [bind].
  destruct (r16_in buf (pos + 2) B) as (lw & E2 & O2); [lia|]. rewrite E2. cbn [bind]. pose proof (len_bytes_ge lw (proj1 O2)) as G. cbv zeta.
  set (n := len_bytes lw) in *. destruct (negb (version b0 =? 2)%Z); [apply EndOk|]. destruct (Nat.ltb_spec (length buf) (pos + n)); [apply EndOk|].
  assert (SB : exists s, sub buf pos (pos + n) = Ok s) by (rewrite sub_in by lia; eexists; reflexivity). destruct SB as (s & Es). rewrite Es. cbn [bind].
  destruct (sub_len _ _ _ _ Es) as (Ls & _ & _). pose proof (sub_bytes _ _ _ _ B Es) as Bs.
  assert (Loop : forall s' e, exists it, t_loop f buf (pos + n) n s' e = Ok it /\ t_good buf it /\ t_st it <> TBegin /\ (t_st it <> TEnd -> pos <= t_pos it)).
  { intros s' e. destruct (IH (pos + n) n s' e B) as (it & Ei & G1 & G2 & G3); [lia|lia|]. exists it. repeat split; try assumption. intros X. specialize (G3 X). lia. }
  assert (At : forall k s', slice_good k s' -> exists it, Ok (mkT (TAt k) pos n s' err) = Ok it /\ t_good buf it /\ t_st it <> TBegin /\ (t_st it <> TEnd -> pos <= t_pos it)).
  { intros k s' Gk. eexists. split; [reflexivity|]. split; [cbn; split; [lia|split; [lia|exact Gk]]|]. split; [discriminate|cbn; lia]. }
  destruct ((ty =? RTCP_SR)%Z || (ty =? RTCP_RR)%Z).
  - destruct (remove_padding_ok buf pos n s b0 B Es G) as (r & -> & Hr). cbn [bind]. destruct r as [sl'|]; [|apply Loop]. destruct (Hr sl' eq_refl) as [B' L'].
    destruct (rd_byte sl' 0 B') as (c0 & C0 & _); [lia|].
    destruct (ty =? RTCP_SR)%Z.
    + destruct (check_sr sl') as [ok| |] eqn:Ck; [|unfold check_sr in Ck; rewrite C0 in Ck; discriminate|unfold check_sr in Ck; rewrite C0 in Ck; discriminate].
      cbn [bind]. destruct ok; [apply At; split; assumption|apply Loop].
    + destruct (check_rr sl') as [ok| |] eqn:Ck; [|unfold check_rr in Ck; rewrite C0 in Ck; discriminate|unfold check_rr in Ck; rewrite C0 in Ck; discriminate].
      cbn [bind]. destruct ok; [apply At; split; assumption|apply Loop].
  - destruct (ty =? RTCP_SDES)%Z; [apply At; split; [exact Bs|exact I]|]. destruct (ty =? RTCP_BYE)%Z; [apply At; split; [exact Bs|exact I]|].
    destruct (ty =? RTCP_XR)%Z; [|apply Loop]. apply At. split; [exact Bs|exact I].
Qed.
Lemma t_next_ok buf it : bytes_ok buf -> t_good buf it ->
  exists it', t_next buf it = Ok it' /\ t_good buf it' /\ t_st it' <> TBegin /\ (t_st it' <> TEnd -> t_pos it + (match t_st it with TAt _ => 4 | _ => 0 end) <= t_pos it').
Proof.
  intros B G. destruct it as [st pos len sl err]. unfold t_good in G. cbn in G. destruct st; cbn [t_next].
  - subst pos. destruct (t_loop_ok buf (S (length buf)) 0 len sl err B) as (it & E & G1 & G2 & G3); [lia|lia|]. exists it. split; [exact E|]. split; [exact G1|]. split; [exact G2|]. intros X. specialize (G3 X). cbn in *. lia.
  - destruct (t_loop_ok buf (S (length buf)) (pos + len) len sl err B) as (it & E & G1 & G2 & G3); [lia|lia|]. exists it. split; [exact E|]. split; [exact G1|]. split; [exact G2|]. intros X. specialize (G3 X). cbn in *. lia.
  - eexists. split; [reflexivity|]. cbn. split; [exact I|]. split; [discriminate|congruence].
Qed.
Definition t_used (it : titer) : nat := match t_st it with TAt _ => t_pos it + 4 | _ => t_pos it end.
Lemma t_walk_ok buf fuel : forall it, bytes_ok buf -> t_good buf it -> t_st it <> TEnd -> length buf < fuel + t_used it ->
  exists r, t_walk fuel buf it = Ok r /\ 4 * length (fst r) + t_used it <= length buf.
Proof.
  induction fuel as [|f IH]; intros it B G N F.
  - unfold t_used, t_good in *. destruct (t_st it); [lia|lia|congruence].
  - cbn [t_walk]. destruct (t_next_ok buf it B G) as (it' & -> & G' & NB & M). cbn [bind]. destruct (t_st it') eqn:St; [congruence| |].
    + specialize (M ltac:(discriminate)). pose proof G' as G2. unfold t_good in G2. rewrite St in G2. destruct G2 as (L1 & L2 & GS).
      destruct (read_packet_ok k (t_slice it') GS) as [v ->]. cbn [bind].
      assert (U : t_used it' = t_pos it' + 4) by (unfold t_used; rewrite St; reflexivity).
      assert (U0 : t_used it <= t_pos it') by (unfold t_used; destruct (t_st it); lia).
      destruct (IH it' B G') as (r & -> & Lr); [congruence|lia|]. cbn [bind]. eexists. split; [reflexivity|]. cbn. lia.
    + eexists. split; [reflexivity|]. cbn. unfold t_used, t_good in *. destruct (t_st it); [lia|lia|congruence].
Qed.
Lemma walk_ok buf : bytes_ok buf -> exists r, walk buf = Ok r /\ (forall vs e, r = Some (vs, e) -> 4 * length vs <= length buf).
Proof.
  intros B. unfold walk. destruct (Nat.ltb_spec (length buf) 4); [eexists; split; [reflexivity|discriminate]|].
  destruct (t_walk_ok buf (S (length buf)) t_begin B eq_refl) as (r & -> & L); [discriminate|cbn; lia|]. cbn [bind]. eexists. split; [reflexivity|].
  intros vs e X. injection X as ->. cbn in L. lia.
Qed.
