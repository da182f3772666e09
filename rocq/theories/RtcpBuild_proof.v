From Coq Require Import Lia.
From Verif Require Import Base Base_lemmas Ntp_model RtcpTrav_model RtcpBuild_model RtcpBuild_spec.
Open Scope res_scope.
Local Open Scope nat_scope.

(** *** Encoded packets *)
Definition hd4 (a b : Z) (n : nat) : list Z := [a; b; byte_of (Z.of_nat n / 4) 1; byte_of (Z.of_nat n / 4) 0]%Z.
Definition pkt (a b : Z) (body : list Z) : list Z := hd4 a b (length body) ++ body.
Definition enc_xin (x : xin) : list Z :=
  match x with
  | IRrtr n => pkt XR_RRTR 0 (put_ntp64 n)
  | IDlrr l => pkt XR_DLRR 0 (concat (map enc_din l))
  | IMeas m => pkt XR_MEAS 0 (skipn 4 (enc_meas m))
  | IDelay d => pkt XR_DELAY (set_flag (yi_flag d)) (skipn 4 (enc_delay d))
  | IQueue q => pkt XR_QUEUE (set_flag (qi_flag q)) (skipn 4 (enc_queue q))
  end.
Definition enc_item (i : Z * list Z) : list Z := [u8 (fst i); u8 (Z.of_nat (length (snd i)))] ++ snd i.
Definition enc_items (l : list (Z * list Z)) : list Z := concat (map enc_item l).
Definition zeros (n : nat) : list Z := repeat 0%Z n.
(** number of zero bytes after [n] bytes of items *)
Definition gap (n : nat) : nat := 4 - n mod 4.
Definition enc_chunk (c : Z * list (Z * list Z)) : list Z := put32 (fst c) ++ enc_items (snd c) ++ zeros (gap (length (enc_items (snd c)))).
Definition enc_reason (t : list Z) : list Z := [u8 (Z.of_nat (length t))] ++ t ++ zeros (padding_len (1 + length t) 0).
Definition body_of (p : pk) : list Z :=
  match p with
  | PSr s rs => skipn 4 (enc_sr s) ++ concat (map enc_rin rs)
  | PRr s rs => put32 s ++ concat (map enc_rin rs)
  | PSdes cs => concat (map enc_chunk cs)
  | PBye ss r => concat (map put32 ss) ++ match r with Some t => enc_reason t | None => [] end
  | PXr s bs => put32 s ++ concat (map enc_xin bs)
  end.
Definition cnt_of (p : pk) : nat :=
  match p with PSr _ rs | PRr _ rs => length rs | PSdes cs => length cs | PBye ss _ => length ss | PXr _ _ => 0 end.
Definition ty_of (p : pk) : Z :=
  match p with PSr _ _ => RTCP_SR | PRr _ _ => RTCP_RR | PSdes _ => RTCP_SDES | PBye _ _ => RTCP_BYE | PXr _ _ => RTCP_XR end.
Definition enc_pk (p : pk) : list Z := pkt (128 + Z.of_nat (cnt_of p)) (ty_of p) (body_of p).

(** *** Writing into the buffer *)
Lemma wr_mid {A} (pre : list A) x r v : wr (pre ++ x :: r) (length pre) v = Ok (pre ++ v :: r).
Proof.
  unfold wr. rewrite app_length. cbn [length]. destruct (Nat.ltb_spec (length pre) (length pre + S (length r))); [|lia].
  rewrite upd_app_r by lia. rewrite Nat.sub_diag. reflexivity.
Qed.
Lemma wr_mid_k {A} (pre q : list A) x r v : wr (pre ++ q ++ x :: r) (length pre + length q) v = Ok (pre ++ q ++ v :: r).
Proof. rewrite !app_assoc. replace (length pre + length q) with (length (pre ++ q)) by (rewrite app_length; lia). rewrite wr_mid. reflexivity. Qed.
Lemma rd_mid0 {A} (pre : list A) x r : rd (pre ++ x :: r) (length pre) = Ok x.
Proof. unfold rd. rewrite nth_error_app2, Nat.sub_diag by lia. reflexivity. Qed.
Lemma rd_mid_k {A} (pre q : list A) x r : rd (pre ++ q ++ x :: r) (length pre + length q) = Ok x.
Proof. rewrite app_assoc. replace (length pre + length q) with (length (pre ++ q)) by (rewrite app_length; lia). apply rd_mid0. Qed.
Lemma set_len_mid pre a b x y r n : 4 <= n -> (Z.of_nat n <= 65535)%Z -> n mod 4 = 0 ->
  set_len (pre ++ [a; b; x; y] ++ r) (length pre) n = Ok (pre ++ hd4 a b (n - 4) ++ r).
Proof.
  intros H1 H2 H3. unfold set_len, rtcp_len. destruct (Nat.ltb_spec n 4); [lia|]. destruct (Z.ltb_spec 65535 (Z.of_nat n)); [lia|].
  rewrite H3. cbn [orb negb Nat.eqb bind].
  assert (E : (Z.of_nat (n - 4) / 4 = Z.of_nat n / 4 - 1)%Z) by (rewrite Nat2Z.inj_sub by lia; lia).
  unfold hd4. rewrite E. set (w := (Z.of_nat n / 4 - 1)%Z).
  change ([a; b; x; y] ++ r) with ([a; b] ++ x :: (y :: r)). change 2 with (length [a; b]) at 1. rewrite wr_mid_k. cbn [bind].
  change ([a; b] ++ byte_of w 1 :: y :: r) with ([a; b; byte_of w 1] ++ y :: r). change 3 with (length [a; b; byte_of w 1]) at 1. rewrite wr_mid_k. reflexivity.
Qed.
Lemma cnt_byte c : c < 31 -> counter (128 + Z.of_nat c) = c /\
  Z.lor (Z.land (128 + Z.of_nat c) (u8 (Z.lnot 0x1F))) (u8 (Z.land (Z.of_nat (c + 1)) 0x1F)) = (128 + Z.of_nat (c + 1))%Z.
Proof. intros H. do 31 (destruct c as [|c]; [split; vm_compute; reflexivity|]). lia. Qed.
Lemma inc_counter_mid pre c r : c < 31 -> inc_counter (pre ++ (128 + Z.of_nat c)%Z :: r) (length pre) = Ok (pre ++ (128 + Z.of_nat (c + 1))%Z :: r).
Proof.
  intros H. destruct (cnt_byte c H) as [E1 E2]. unfold inc_counter. rewrite rd_mid0. cbn [bind]. rewrite E1. cbv zeta. destruct (Nat.ltb_spec 31 (c + 1)); [lia|].
  rewrite E2. apply wr_mid.
Qed.
Lemma pad_byte c : c <= 31 -> Z.lor (Z.land (128 + Z.of_nat c) (u8 (Z.lnot (Z.shiftl 1 5)))) (u8 (Z.shiftl 1 5)) = (160 + Z.of_nat c)%Z.
Proof. intros H. do 32 (destruct c as [|c]; [vm_compute; reflexivity|]). lia. Qed.
Lemma set_padding_mid pre c r : c <= 31 -> set_padding (pre ++ (128 + Z.of_nat c)%Z :: r) (length pre) = Ok (pre ++ (160 + Z.of_nat c)%Z :: r).
Proof. intros H. unfold set_padding. rewrite rd_mid0. cbn [bind]. rewrite pad_byte by exact H. apply wr_mid. Qed.
Lemma padding_len1 n : padding_len n 1 = gap n.
Proof.
  unfold padding_len, gap. cbv zeta. replace (Z.land (Z.of_nat (n + 1)) 3) with (Z.of_nat (n + 1) mod 4)%Z by (change 3%Z with (Z.ones 2); rewrite Z.land_ones by lia; reflexivity).
  assert (Z.of_nat (n mod 4) = Z.of_nat n mod 4)%Z by (rewrite Nat2Z.inj_mod; reflexivity).
  destruct (Z.eqb_spec (Z.of_nat (n + 1) mod 4) 0)%Z; lia.
Qed.
Lemma padding_len0 n : n + padding_len n 0 = up4 n.
Proof.
  unfold padding_len, up4. cbv zeta. replace (Z.land (Z.of_nat (n + 0)) 3) with (Z.of_nat n mod 4)%Z by (rewrite Nat.add_0_r; change 3%Z with (Z.ones 2); rewrite Z.land_ones by lia; reflexivity).
  destruct (Z.eqb_spec (Z.of_nat n mod 4) 0)%Z; lia.
Qed.

(** *** Sizes *)
Lemma len_put32 x : length (put32 x) = 4. Proof. reflexivity. Qed.
Lemma len_rin r : length (enc_rin r) = 24. Proof. reflexivity. Qed.
Lemma len_din r : length (enc_din r) = 12. Proof. reflexivity. Qed.
Lemma len_pkt a b l : length (pkt a b l) = 4 + length l. Proof. reflexivity. Qed.
Lemma len_cat {A} (f : A -> list Z) n l : (forall x, length (f x) = n) -> length (concat (map f l)) = n * length l.
Proof. intros H. induction l as [|x l IH]; cbn [map concat length]; [lia|]. rewrite app_length, H, IH. lia. Qed.
Lemma len_tot {A} (f : A -> list Z) g l : (forall x, length (f x) = g x) -> length (concat (map f l)) = total (map g l).
Proof. intros H. induction l as [|x l IH]; cbn [map concat total fold_right length]; [reflexivity|]. rewrite app_length, H, IH. reflexivity. Qed.
Lemma len_xin x : length (enc_xin x) = size_xin x.
Proof. destruct x; try reflexivity. cbn [enc_xin size_xin]. rewrite len_pkt, (len_cat _ 12) by apply len_din. reflexivity. Qed.
Lemma len_items l : length (enc_items l) = total (map (fun i => 2 + length (snd i)) l).
Proof. apply len_tot. intros x. reflexivity. Qed.
Lemma len_chunk c : length (enc_chunk c) = size_chunk c.
Proof.
  unfold enc_chunk, size_chunk. rewrite !app_length, len_put32, <- len_items. unfold zeros. rewrite repeat_length. unfold gap, up4.
  set (n := length (enc_items (snd c))). assert (Z.of_nat (n mod 4) = Z.of_nat n mod 4)%Z by (rewrite Nat2Z.inj_mod; reflexivity). lia.
Qed.
Lemma len_reason t : length (enc_reason t) = up4 (1 + length t).
Proof. unfold enc_reason. rewrite !app_length. unfold zeros. rewrite repeat_length, <- padding_len0. cbn [length]. lia. Qed.
Lemma len_pk p : length (enc_pk p) = size p.
Proof.
  unfold enc_pk. rewrite len_pkt. destruct p; cbn [body_of size].
  - rewrite app_length, (len_cat _ 24) by apply len_rin. reflexivity.
  - rewrite app_length, (len_cat _ 24) by apply len_rin. reflexivity.
  - rewrite (len_tot _ size_chunk) by apply len_chunk. reflexivity.
  - rewrite app_length, (len_cat _ 4) by apply len_put32. destruct reason; [rewrite len_reason|]; cbn [length]; lia.
  - rewrite app_length, (len_tot _ size_xin) by apply len_xin. cbn [length]. reflexivity.
Qed.
Lemma up4_mod n : up4 n mod 4 = 0.
Proof.
  unfold up4. apply Nat2Z.inj. rewrite Nat2Z.inj_mod. rewrite Z2Nat.id by lia. cbn. rewrite Z.mod_mul; lia.
Qed.
Lemma mod4_add a b : a mod 4 = 0 -> b mod 4 = 0 -> (a + b) mod 4 = 0.
Proof. intros H1 H2. rewrite Nat.add_mod, H1, H2 by lia. reflexivity. Qed.
Lemma mod4_mul a b : a mod 4 = 0 -> (a * b) mod 4 = 0.
Proof. intros H. rewrite Nat.mul_mod, H by lia. reflexivity. Qed.
Lemma total_mod l : Forall (fun n => n mod 4 = 0) l -> total l mod 4 = 0.
Proof. induction 1; cbn [total fold_right]; [reflexivity|]. apply mod4_add; assumption. Qed.
Lemma xin_mod x : size_xin x mod 4 = 0.
Proof. destruct x; try reflexivity. cbn [size_xin]. apply mod4_add; [reflexivity|apply mod4_mul; reflexivity]. Qed.
Lemma size_mod p : size p mod 4 = 0.
Proof.
  destruct p; cbn [size].
  - apply mod4_add; [reflexivity|apply mod4_mul; reflexivity].
  - apply mod4_add; [reflexivity|apply mod4_mul; reflexivity].
  - apply mod4_add; [reflexivity|]. apply total_mod, Forall_map, Forall_forall. intros x _. apply up4_mod.
  - apply mod4_add; [apply mod4_add; [reflexivity|apply mod4_mul; reflexivity]|]. destruct reason; [apply up4_mod|reflexivity].
  - apply mod4_add; [reflexivity|]. apply total_mod, Forall_map, Forall_forall. intros x _. apply xin_mod.
Qed.

(** *** States *)
Definition common (cfg : wcfg) (cap : nat) (st : wst) (f1 f2 : bool) (b : bld) : Prop :=
  w_st b = st /\ w_cfg b = cfg /\ w_cap b = cap /\ (w_sr b || w_rr b) = f1 /\ w_cname b = f2.
Definition good cfg cap st f1 f2 (pre : list Z) (c : nat) (ty : Z) (body : list Z) (b : bld) : Prop :=
  common cfg cap st f1 f2 b /\
  ((w_trunc b = true /\ cap < length pre + 4 + length body) \/
   (w_trunc b = false /\ (exists x y, w_buf b = pre ++ [128 + Z.of_nat c; ty; x; y]%Z ++ body) /\ w_rsz b = length pre /\ w_start b = length pre /\
    w_hdr b = Some (length pre) /\ length pre + 4 + length body <= cap)).
Definition top cfg cap f1 f2 (pre last : list Z) (b : bld) : Prop :=
  common cfg cap WTop f1 f2 b /\
  ((w_trunc b = true /\ cap < length pre + length last) \/
   (w_trunc b = false /\ w_buf b = pre ++ last /\ w_rsz b = length pre + length last /\
    w_hdr b = (match last with [] => None | _ => Some (length pre) end) /\ length pre + length last <= cap)).

Ltac pj := cbn [w_st w_buf w_rsz w_start w_hdr w_xhdr w_sr w_rr w_cname w_trunc w_cap w_cfg st_upd buf_upd xhdr_upd cname_upd srrr_upd trunc_upd fst snd] in *.
Lemma run_app b x y : w_run b (x ++ y) = (b' <- w_run b x ;; w_run b' y).
Proof. revert b. induction x as [|o x IH]; intros b; cbn [w_run app bind]; [reflexivity|]. destruct (w_step b o); cbn [bind]; [apply IH|reflexivity|reflexivity]. Qed.
Lemma is_st_ok b s l : w_st b = s -> In s l -> is_st b l = true.
Proof. intros H I. unfold is_st. apply existsb_exists. exists s. split; [exact I|]. rewrite H. destruct s; reflexivity. Qed.

(** begin_packet *)
Lemma begin_ok cfg cap f1 f2 f1' st pre last b sr rr a ty0 body : top cfg cap f1 f2 pre last b -> sr || rr = f1' -> a = 128%Z ->
  good cfg cap st f1' f2 (pre ++ last) 0 ty0 body (begin_packet (srrr_upd (st_upd b st) sr rr) ([a; ty0; 0; 0]%Z ++ body)).
Proof.
  intros [(C1 & C2 & C3 & C4 & C5) H] HF ->. unfold good, common, begin_packet. destruct b as [bst buf rsz start hdr xhdr s r cn tr cp cf]. pj; subst.
  destruct H as [[-> L]|(-> & -> & -> & _ & L)].
  - split; [repeat split|]. left. rewrite app_length. pj. split; [reflexivity|cbn [length]; lia].
  - cbn [app length]. destruct (Nat.ltb_spec (cap - (length pre + length last)) (S (S (S (S (length body)))))).
    + pj. split; [repeat split|]. left. rewrite app_length. split; [reflexivity|lia].
    + pj. split; [repeat split|]. right. rewrite app_length. split; [reflexivity|]. split; [|split; [reflexivity|split; [reflexivity|split; [reflexivity|lia]]]].
      exists 0%Z, 0%Z. rewrite firstn_all2 by (rewrite app_length; lia). reflexivity.
Qed.
(** add_block *)
Lemma block_ok cfg cap st st' f1 f2 f2' pre c ty body b p : good cfg cap st f1 f2 pre c ty body b ->
  good cfg cap st' f1 f2' pre c ty (body ++ p) (fst (add_block (cname_upd (st_upd b st') f2') p)) /\
  (snd (add_block (cname_upd (st_upd b st') f2') p) = false -> w_trunc (fst (add_block (cname_upd (st_upd b st') f2') p)) = true) /\
  (snd (add_block (cname_upd (st_upd b st') f2') p) = true -> w_trunc (fst (add_block (cname_upd (st_upd b st') f2') p)) = false).
Proof.
  intros [(C1 & C2 & C3 & C4 & C5) H]. unfold good, common, add_block. destruct b as [bst buf rsz start hdr xhdr s r cn tr cp cf]. pj; subst.
  destruct H as [[-> L]|(-> & (x & y & ->) & -> & -> & -> & L)].
  - pj. split; [|split; [reflexivity|discriminate]]. split; [repeat split|]. left. rewrite app_length. pj. split; [reflexivity|cbn [length]; lia].
  - rewrite app_length. cbn [app length]. destruct (Nat.ltb_spec (cap - (length pre + S (S (S (S (length body)))))) (length p)).
    + pj. split; [|split; [reflexivity|discriminate]]. split; [repeat split|]. left. rewrite app_length. split; [reflexivity|lia].
    + pj. split; [|split; [discriminate|reflexivity]]. split; [repeat split|]. right. split; [reflexivity|]. split; [|split; [reflexivity|split; [reflexivity|split; [reflexivity|rewrite app_length; lia]]]].
      exists x, y. rewrite <- !app_assoc. reflexivity.
Qed.
Lemma same_cname b st : cname_upd (st_upd b st) (w_cname b) = st_upd b st. Proof. destruct b; reflexivity. Qed.
Lemma same_st b : st_upd b (w_st b) = b. Proof. destruct b; reflexivity. Qed.
Lemma good_cname cfg cap st f1 f2 pre c ty body b : good cfg cap st f1 f2 pre c ty body b -> w_cname b = f2.
Proof. intros [(_ & _ & _ & _ & H) _]. exact H. Qed.
Lemma good_st cfg cap st f1 f2 pre c ty body b : good cfg cap st f1 f2 pre c ty body b -> w_st b = st.
Proof. intros [(H & _) _]. exact H. Qed.

Lemma counted_ok cfg cap st st' f1 f2 f2' pre c ty body b p : good cfg cap st f1 f2 pre c ty body b -> c < 31 ->
  exists b', add_counted (cname_upd (st_upd b st') f2') p = Ok b' /\ good cfg cap st' f1 f2' pre (c + 1) ty (body ++ p) b'.
Proof.
  intros G Hc. destruct (block_ok cfg cap st st' f1 f2 f2' pre c ty body b p G) as (G' & T1 & T2). unfold add_counted.
  destruct (add_block (cname_upd (st_upd b st') f2') p) as [b1 ok]. cbn [fst snd] in *. destruct ok; cbn [negb].
  - specialize (T2 eq_refl). destruct G' as [C [[T _]|(T & (x & y & E) & R & Sta & H & L)]]; [congruence|]. rewrite H, E. cbn [app].
    rewrite inc_counter_mid by exact Hc. cbn [bind]. eexists. split; [reflexivity|]. destruct b1 as [bst buf rsz start hdr xhdr s r cn tr cp cf]. pj.
    split; [exact C|]. right. pj. split; [exact T|]. split; [exists x, y; reflexivity|]. split; [exact R|]. split; [exact Sta|]. split; [exact H|exact L].
  - specialize (T1 eq_refl). exists b1. split; [reflexivity|]. destruct G' as [C [[T L]|(T & _)]]; [|congruence]. split; [exact C|]. left. split; [exact T|exact L].
Qed.
Lemma report_ok cfg cap st st' f1 f2 pre c ty body b r : good cfg cap st f1 f2 pre c ty body b -> c < 31 ->
  length body mod 4 = 0 -> (Z.of_nat (length body) + 28 <= 65535)%Z ->
  exists b', add_report (st_upd b st') r = Ok b' /\ good cfg cap st' f1 f2 pre (c + 1) ty (body ++ enc_rin r) b'.
Proof.
  intros G Hc M Z1. rewrite <- (same_cname b st'), (good_cname _ _ _ _ _ _ _ _ _ _ G).
  destruct (block_ok cfg cap st st' f1 f2 f2 pre c ty body b (enc_rin r) G) as (G' & T1 & T2). unfold add_report.
  destruct (add_block (cname_upd (st_upd b st') f2) (enc_rin r)) as [b1 ok]. cbn [fst snd] in *. destruct ok; cbn [negb].
  - specialize (T2 eq_refl). destruct G' as [C [[T _]|(T & (x & y & E) & R & Sta & H & L)]]; [congruence|]. rewrite H. unfold cur_size. rewrite Sta, E.
    assert (N : length (pre ++ [(128 + Z.of_nat c)%Z; ty; x; y] ++ body ++ enc_rin r) - length pre = length body + 28) by (rewrite !app_length, len_rin; cbn; lia).
    rewrite N. rewrite set_len_mid; [|lia|lia|apply mod4_add; [exact M|reflexivity]]. cbn [bind]. unfold hd4. cbn [app].
    rewrite inc_counter_mid by exact Hc. cbn [bind]. eexists. split; [reflexivity|]. destruct b1 as [bst buf rsz start hdr xhdr s r0 cn tr cp cf]. pj.
    split; [exact C|]. right. pj. split; [exact T|]. split; [eexists; eexists; reflexivity|]. split; [exact R|]. split; [exact Sta|]. split; [exact H|exact L].
  - specialize (T1 eq_refl). exists b1. split; [reflexivity|]. destruct G' as [C [[T L]|(T & _)]]; [|congruence]. split; [exact C|]. left. split; [exact T|exact L].
Qed.
Lemma xblock_ok cfg cap f1 f2 pre c ty body b xt xf r : good cfg cap WXrHead f1 f2 pre c ty body b ->
  length r mod 4 = 0 -> (Z.of_nat (length r) + 4 <= 65535)%Z ->
  exists b', add_xblock b ([xt; xf; 0; 0]%Z ++ r) = Ok b' /\ good cfg cap WXrHead f1 f2 pre c ty (body ++ pkt xt xf r) b'.
Proof.
  intros G M Z1. pose proof (good_st _ _ _ _ _ _ _ _ _ _ G) as St. pose proof (good_cname _ _ _ _ _ _ _ _ _ _ G) as Cn.
  assert (Eb : cname_upd (st_upd b WXrHead) f2 = b) by (rewrite <- St, <- Cn; destruct b; reflexivity).
  destruct (block_ok cfg cap WXrHead WXrHead f1 f2 f2 pre c ty body b ([xt; xf; 0; 0]%Z ++ r) G) as (G' & T1 & T2). rewrite Eb in *. unfold add_xblock.
  destruct (add_block b ([xt; xf; 0; 0]%Z ++ r)) as [b1 ok] eqn:AB. cbn [fst snd] in *. destruct ok; cbn [negb].
  - specialize (T2 eq_refl). destruct G' as [C [[T _]|(T & (x & y & E) & R & Sta & H & L)]]; [congruence|].
    assert (N : w_buf b1 = w_buf b ++ [xt; xf; 0; 0]%Z ++ r).
    { unfold add_block in AB. destruct (w_trunc b); [discriminate|]. destruct (w_cap b - length (w_buf b) <? length ([xt; xf; 0%Z; 0%Z] ++ r)); [discriminate|]. injection AB as <-. reflexivity. }
    assert (N2 : w_buf b = pre ++ [(128 + Z.of_nat c)%Z; ty; x; y] ++ body).
    { rewrite N in E. rewrite !app_assoc in E. apply app_inv_tail in E. apply app_inv_tail in E. rewrite E, <- !app_assoc. reflexivity. }
    rewrite N, set_len_mid; [|cbn; lia|cbn; lia|cbn [app length]; change (S (S (S (S (length r))))) with (4 + length r); apply mod4_add; [reflexivity|exact M]].
    cbn [bind]. eexists. split; [reflexivity|]. destruct b1 as [bst buf rsz start hdr xhdr s r0 cn tr cp cf]. pj.
    split; [exact C|]. right. pj. split; [exact T|]. split.
    + exists x, y. rewrite N2. unfold pkt. replace (length ([xt; xf; 0%Z; 0%Z] ++ r) - 4) with (length r) by (cbn [length app]; lia). rewrite <- !app_assoc. reflexivity.
    + split; [exact R|]. split; [exact Sta|]. split; [exact H|]. rewrite app_length in *. cbn in *. exact L.
  - specialize (T1 eq_refl). exists b1. split; [reflexivity|]. destruct G' as [C [[T L]|(T & _)]]; [|congruence]. split; [exact C|]. left. split; [exact T|].
    rewrite app_length in *. cbn in *. exact L.
Qed.
Lemma end_ok cfg cap st f1 f2 pre c ty body b : good cfg cap st f1 f2 pre c ty body b -> length body mod 4 = 0 -> (Z.of_nat (length body) + 4 <= 65535)%Z ->
  exists b', end_packet (st_upd b WTop) = Ok b' /\ top cfg cap f1 f2 pre (pkt (128 + Z.of_nat c) ty body) b'.
Proof.
  intros [(C1 & C2 & C3 & C4 & C5) H] M Z1. unfold end_packet, cur_size, top, common. destruct b as [bst buf rsz start hdr xhdr s r cn tr cp cf]. pj; subst.
  destruct H as [[-> L]|(-> & (x & y & ->) & -> & -> & -> & L)].
  - eexists. split; [reflexivity|]. pj. split; [repeat split|]. left. rewrite len_pkt. split; [reflexivity|lia].
  - assert (N : length (pre ++ [(128 + Z.of_nat c)%Z; ty; x; y] ++ body) - length pre = 4 + length body) by (rewrite !app_length; cbn; lia).
    rewrite N. destruct (Nat.ltb_spec (4 + length body) 4); [lia|]. rewrite (mod4_add 4 (length body)) by (reflexivity || exact M). cbn [Nat.eqb negb orb].
    rewrite set_len_mid; [|lia|lia|apply mod4_add; [reflexivity|exact M]]. cbn [bind]. eexists. split; [reflexivity|]. pj.
    split; [repeat split|]. right. split; [reflexivity|]. split; [unfold pkt; replace (4 + length body - 4) with (length body) by lia; reflexivity|]. rewrite len_pkt. split; [lia|]. split; [reflexivity|lia].
Qed.

(** *** Sequences of calls *)
Lemma run1 b o : w_run b [o] = w_step b o.
Proof. cbn [w_run]. destruct (w_step b o); reflexivity. Qed.
Ltac stp H := rewrite (is_st_ok _ _ _ H) by (cbn; tauto).

Lemma sr_reports cfg cap f1 f2 pre ty : forall rs st c body b, (st = WSrHead \/ st = WSrReport) -> good cfg cap st f1 f2 pre c ty body b ->
  c + length rs <= 31 -> length body mod 4 = 0 -> (Z.of_nat (length body + 24 * length rs) + 4 <= 65535)%Z ->
  exists st' b', (st' = WSrHead \/ st' = WSrReport) /\ w_run b (map OSrReport rs) = Ok b' /\ good cfg cap st' f1 f2 pre (c + length rs) ty (body ++ concat (map enc_rin rs)) b'.
Proof.
  induction rs as [|r rs IH]; intros st c body b St G Hc M Z1; cbn [map w_run concat length].
  - exists st, b. split; [exact St|]. split; [reflexivity|]. rewrite Nat.add_0_r, app_nil_r. exact G.
  - cbn [length] in *. cbn [w_step]. rewrite (is_st_ok b st) by (first [exact (good_st _ _ _ _ _ _ _ _ _ _ G)|destruct St as [-> | ->]; cbn; tauto]). cbn [negb].
    destruct (report_ok cfg cap st WSrReport f1 f2 pre c ty body b r G) as (b1 & -> & G1); [lia|exact M|lia|]. cbn [bind].
    destruct (IH WSrReport (c + 1) (body ++ enc_rin r) b1) as (st' & b' & S' & R' & G').
    + right; reflexivity.
    + exact G1.
    + lia.
    + rewrite app_length. apply mod4_add; [exact M|reflexivity].
    + rewrite app_length, len_rin. lia.
    + exists st', b'. split; [exact S'|]. split; [exact R'|]. rewrite <- app_assoc in G'. replace (c + S (length rs)) with (c + 1 + length rs) by lia. exact G'.
Qed.
Lemma rr_reports cfg cap f1 f2 pre ty : forall rs st c body b, (st = WRrHead \/ st = WRrReport) -> good cfg cap st f1 f2 pre c ty body b ->
  c + length rs <= 31 -> length body mod 4 = 0 -> (Z.of_nat (length body + 24 * length rs) + 4 <= 65535)%Z ->
  exists st' b', (st' = WRrHead \/ st' = WRrReport) /\ w_run b (map ORrReport rs) = Ok b' /\ good cfg cap st' f1 f2 pre (c + length rs) ty (body ++ concat (map enc_rin rs)) b'.
Proof.
  induction rs as [|r rs IH]; intros st c body b St G Hc M Z1; cbn [map w_run concat length].
  - exists st, b. split; [exact St|]. split; [reflexivity|]. rewrite Nat.add_0_r, app_nil_r. exact G.
  - cbn [length] in *. cbn [w_step]. rewrite (is_st_ok b st) by (first [exact (good_st _ _ _ _ _ _ _ _ _ _ G)|destruct St as [-> | ->]; cbn; tauto]). cbn [negb].
    destruct (report_ok cfg cap st WRrReport f1 f2 pre c ty body b r G) as (b1 & -> & G1); [lia|exact M|lia|]. cbn [bind].
    destruct (IH WRrReport (c + 1) (body ++ enc_rin r) b1) as (st' & b' & S' & R' & G').
    + right; reflexivity.
    + exact G1.
    + lia.
    + rewrite app_length. apply mod4_add; [exact M|reflexivity].
    + rewrite app_length, len_rin. lia.
    + exists st', b'. split; [exact S'|]. split; [exact R'|]. rewrite <- app_assoc in G'. replace (c + S (length rs)) with (c + 1 + length rs) by lia. exact G'.
Qed.
Lemma bye_ssrcs cfg cap f1 f2 pre ty : forall ss st c body b, (st = WByeHead \/ st = WByeSsrc) -> good cfg cap st f1 f2 pre c ty body b -> c + length ss <= 31 ->
  exists st' b', st' = (match ss with [] => st | _ => WByeSsrc end) /\ w_run b (map OByeSsrc ss) = Ok b' /\ good cfg cap st' f1 f2 pre (c + length ss) ty (body ++ concat (map put32 ss)) b'.
Proof.
  induction ss as [|s ss IH]; intros st c body b St G Hc; cbn [map w_run concat length].
  - exists st, b. split; [reflexivity|]. split; [reflexivity|]. rewrite Nat.add_0_r, app_nil_r. exact G.
  - cbn [length] in *. cbn [w_step]. rewrite (is_st_ok b st) by (first [exact (good_st _ _ _ _ _ _ _ _ _ _ G)|destruct St as [-> | ->]; cbn; tauto]). cbn [negb].
    rewrite <- (same_cname b WByeSsrc), (good_cname _ _ _ _ _ _ _ _ _ _ G).
    destruct (counted_ok cfg cap st WByeSsrc f1 f2 f2 pre c ty body b (put32 s) G) as (b1 & -> & G1); [lia|]. cbn [bind].
    destruct (IH WByeSsrc (c + 1) (body ++ put32 s) b1) as (st' & b' & S' & R' & G'); [right; reflexivity|exact G1|lia|].
    exists st', b'. split; [destruct ss; exact S'|]. split; [exact R'|]. rewrite <- app_assoc in G'. replace (c + S (length ss)) with (c + 1 + length ss) by lia. exact G'.
Qed.
Definition has_cname (l : list (Z * list Z)) : bool := existsb (fun i => fst i =? 1)%Z l.
Lemma sdes_items cfg cap f1 pre c ty : forall items f2 body b, good cfg cap WSdesChunk f1 f2 pre c ty body b -> Forall item_ok items ->
  (f2 = true -> has_cname items = false) -> (f2 = false -> has_cname items = true -> exists n, filter (fun i => fst i =? 1)%Z items = [(1, n)]%Z /\ n <> []) ->
  exists b', w_run b (map (fun i => OItem (fst i) (snd i)) items) = Ok b' /\ good cfg cap WSdesChunk f1 (f2 || has_cname items) pre c ty (body ++ enc_items items) b'.
Proof.
  induction items as [|[t x] items IH]; intros f2 body b G F H1 H2; cbn [map w_run fst snd].
  - exists b. split; [reflexivity|]. cbn. rewrite app_nil_r, Bool.orb_false_r. exact G.
  - inversion F as [|? ? [It [L Ft]] F']; subst. cbn [fst snd] in *. cbn [w_step]. rewrite (is_st_ok b WSdesChunk) by (first [exact (good_st _ _ _ _ _ _ _ _ _ _ G)|cbn; tauto]).
    cbn [negb orb]. destruct (Nat.ltb_spec 255 (length x)); [lia|]. rewrite (good_cname _ _ _ _ _ _ _ _ _ _ G). cbn [has_cname existsb fst] in *.
    pose proof (good_st _ _ _ _ _ _ _ _ _ _ G) as St. pose proof (good_cname _ _ _ _ _ _ _ _ _ _ G) as Cn.
    unfold enc_items. cbn [map concat]. unfold enc_item at 1. cbn [fst snd].
    destruct (Z.eqb_spec t 1) as [->|N]; cbn [andb orb] in *.
    + destruct f2; [specialize (H1 eq_refl); discriminate|]. destruct (H2 eq_refl eq_refl) as (n & Fn & Nn). cbn [filter fst] in Fn.
      change ((1 =? 1)%Z) with true in Fn. cbn iota in Fn. assert (x = n) by congruence. subst n. assert (Fn' : filter (fun i => (fst i =? 1)%Z) items = []) by congruence.
      destruct (Nat.eqb_spec (length x) 0) as [X0|X0]; [destruct x; [congruence|discriminate]|]. cbn [orb].
      replace (cname_upd b true) with (cname_upd (st_upd b WSdesChunk) true) by (rewrite <- St; destruct b; reflexivity).
      destruct (block_ok cfg cap WSdesChunk WSdesChunk f1 false true pre c ty body b ([u8 1; u8 (Z.of_nat (length x))] ++ x) G) as (G1 & _ & _). cbn [bind].
      assert (NC : has_cname items = false).
      { unfold has_cname. destruct (existsb (fun i => (fst i =? 1)%Z) items) eqn:Ex; [|reflexivity]. apply existsb_exists in Ex. destruct Ex as (i & Ii & Ei).
        assert (In i (filter (fun i => (fst i =? 1)%Z) items)) by (apply filter_In; split; assumption). rewrite Fn' in H0. destruct H0. }
      destruct (IH true _ _ G1 F') as (b' & -> & G'); [intros _; exact NC|discriminate|]. exists b'. split; [reflexivity|]. rewrite <- app_assoc in G'. exact G'.
    + replace b with (cname_upd (st_upd b WSdesChunk) f2) by (rewrite <- St, <- Cn; destruct b; reflexivity).
      destruct (block_ok cfg cap WSdesChunk WSdesChunk f1 f2 f2 pre c ty body b ([u8 t; u8 (Z.of_nat (length x))] ++ x) G) as (G1 & _ & _). cbn [bind].
      destruct (IH f2 _ _ G1 F') as (b' & Rn & G'); [exact H1| |].
      { intros Ef Eh. destruct (H2 Ef Eh) as (n & Fn & Nn). cbn [filter fst] in Fn. destruct (Z.eqb_spec t 1); [contradiction|]. exists n. split; assumption. }
      exists b'. split; [exact Rn|]. rewrite <- app_assoc in G'. exact G'.
Qed.
Lemma chunk_run cfg cap f1 f2 pre c ty body b ch : good cfg cap WSdesHead f1 f2 pre c ty body b -> chunk_ok ch -> c < 31 -> length body mod 4 = 0 ->
  exists b', w_run b (calls_chunk ch) = Ok b' /\ good cfg cap WSdesHead f1 true pre (c + 1) ty (body ++ enc_chunk ch) b'.
Proof.
  intros G (Us & Fi & n & Fn & Nn) Hc M. unfold calls_chunk. cbn [app w_run w_step]. rewrite (is_st_ok b WSdesHead) by (first [exact (good_st _ _ _ _ _ _ _ _ _ _ G)|cbn; tauto]). cbn [negb].
  destruct (counted_ok cfg cap WSdesHead WSdesChunk f1 f2 false pre c ty body b (put32 (fst ch)) G Hc) as (b1 & -> & G1). cbn [bind]. rewrite run_app.
  destruct (sdes_items cfg cap f1 pre (c + 1) ty (snd ch) false _ b1 G1 Fi) as (b2 & -> & G2); [discriminate|intros _ _; exists n; split; assumption|]. cbn [bind].
  assert (HC : has_cname (snd ch) = true).
  { unfold has_cname. apply existsb_exists. exists (1%Z, n). split; [|reflexivity]. assert (X : In (1%Z, n) (filter (fun i => (fst i =? 1)%Z) (snd ch))) by (rewrite Fn; left; reflexivity). apply filter_In in X. apply X. }
  rewrite HC in G2. cbn [orb] in G2. rewrite run1. cbn [w_step]. rewrite (is_st_ok b2 WSdesChunk) by (first [exact (good_st _ _ _ _ _ _ _ _ _ _ G2)|cbn; tauto]).
  rewrite (good_cname _ _ _ _ _ _ _ _ _ _ G2). cbn [negb orb].
  rewrite <- (same_cname b2 WSdesHead), (good_cname _ _ _ _ _ _ _ _ _ _ G2). set (pd := repeat 0%Z _).
  destruct (block_ok cfg cap WSdesChunk WSdesHead f1 true true pre (c + 1) ty _ b2 pd G2) as (G3 & _ & _). eexists. split; [reflexivity|].
  unfold enc_chunk. destruct G3 as [C3 G3]. split; [exact C3|]. destruct (G2) as [_ [[T2 L2]|(T2 & (x & y & E2) & R2 & S2 & H2 & L2)]].
  - left. destruct G3 as [[T3 L3]|(T3 & _)]; [|unfold add_block in T3; cbn in T3; rewrite T2 in T3; cbn in T3; congruence]. split; [exact T3|]. rewrite !app_length in *. cbn in *. lia.
  - assert (Ep : pd = zeros (gap (length (enc_items (snd ch))))).
    { unfold pd, cur_size. rewrite S2, E2. rewrite padding_len1. unfold zeros. f_equal. unfold gap. f_equal. rewrite !app_length. cbn [length put32].
      set (k := length (enc_items (snd ch))). match goal with |- ?X mod 4 = _ => replace X with ((8 + length body) + k) by lia end.
      rewrite Nat.add_mod by lia. rewrite (mod4_add 8 (length body)) by (reflexivity || exact M). rewrite Nat.add_0_l. apply Nat.mod_mod. lia. }
    rewrite <- !app_assoc in G3. rewrite <- Ep. exact G3.
Qed.
Lemma chunks_run cfg cap f1 pre ty : forall cs f2 c body b, good cfg cap WSdesHead f1 f2 pre c ty body b -> Forall chunk_ok cs -> c + length cs <= 31 -> length body mod 4 = 0 ->
  exists b', w_run b (concat (map calls_chunk cs)) = Ok b' /\ good cfg cap WSdesHead f1 (match cs with [] => f2 | _ => true end) pre (c + length cs) ty (body ++ concat (map enc_chunk cs)) b'.
Proof.
  induction cs as [|ch cs IH]; intros f2 c body b G F Hc M; cbn [map concat length].
  - exists b. split; [reflexivity|]. rewrite Nat.add_0_r, app_nil_r. exact G.
  - inversion F; subst. cbn [length] in Hc. rewrite run_app. destruct (chunk_run cfg cap f1 f2 pre c ty body b ch G) as (b1 & -> & G1); [assumption|lia|exact M|]. cbn [bind].
    destruct (IH true (c + 1) (body ++ enc_chunk ch) b1 G1) as (b' & -> & G'); [assumption|lia|rewrite app_length, len_chunk; apply mod4_add; [exact M|apply up4_mod]|].
    exists b'. split; [reflexivity|]. rewrite <- app_assoc in G'. replace (c + S (length cs)) with (c + 1 + length cs) by lia. destruct cs; exact G'.
Qed.
(** the DLRR block needs the offset of its header *)
Definition goodx cfg cap st f1 f2 pre c ty body n b := good cfg cap st f1 f2 pre c ty body b /\ (w_trunc b = false -> w_xhdr b = n).
Lemma dlrr_reports cfg cap f1 f2 pre c ty n : forall l st body b, (st = WDlrrHead \/ st = WDlrrReport) -> goodx cfg cap st f1 f2 pre c ty body n b ->
  exists st' b', (st' = WDlrrHead \/ st' = WDlrrReport) /\ w_run b (map ODlrrReport l) = Ok b' /\ goodx cfg cap st' f1 f2 pre c ty (body ++ concat (map enc_din l)) n b'.
Proof.
  induction l as [|d l IH]; intros st body b St [G X]; cbn [map w_run concat].
  - exists st, b. split; [exact St|]. split; [reflexivity|]. rewrite app_nil_r. split; assumption.
  - cbn [w_step]. rewrite (is_st_ok b st) by (first [exact (good_st _ _ _ _ _ _ _ _ _ _ G)|destruct St as [-> | ->]; cbn; tauto]). cbn [negb bind].
    rewrite <- (same_cname b WDlrrReport), (good_cname _ _ _ _ _ _ _ _ _ _ G).
    destruct (block_ok cfg cap st WDlrrReport f1 f2 f2 pre c ty body b (enc_din d) G) as (G1 & T1 & T2). set (b1 := fst _) in *.
    destruct (IH WDlrrReport (body ++ enc_din d) b1) as (st' & b' & S' & R' & G'); [right; reflexivity|split; [exact G1|]|].
    + intros T. unfold b1 in T |- *. clear - T X. destruct b as [bst buf rsz start hdr xhdr s r cn tr cp cf]. unfold add_block in T |- *. pj. destruct tr; [discriminate T|].
      destruct (cp - length buf <? length (enc_din d)); [discriminate T|]. apply X. reflexivity.
    + exists st', b'. split; [exact S'|]. split; [exact R'|]. rewrite <- app_assoc in G'. exact G'.
Qed.
Lemma xin_run cfg cap f1 f2 pre c ty body b x : good cfg cap WXrHead f1 f2 pre c ty body b -> (Z.of_nat (size_xin x) <= 65535)%Z ->
  exists b', w_run b (calls_xin x) = Ok b' /\ good cfg cap WXrHead f1 f2 pre c ty (body ++ enc_xin x) b'.
Proof.
  intros G Z1. pose proof (good_st _ _ _ _ _ _ _ _ _ _ G) as St. destruct x; cbn [calls_xin size_xin enc_xin] in *.
  1,3,4,5: rewrite run1; cbn [w_step]; rewrite (is_st_ok b WXrHead) by (first [exact St|cbn; tauto]); cbn [negb];
    apply (xblock_ok cfg cap f1 f2 pre c ty body b _ _ _ G); [reflexivity|cbn; lia].
  cbn [app w_run w_step]. rewrite (is_st_ok b WXrHead) by (first [exact St|cbn; tauto]). cbn [negb]. cbv zeta.
  rewrite <- (same_cname b WDlrrHead), (good_cname _ _ _ _ _ _ _ _ _ _ G).
  destruct (block_ok cfg cap WXrHead WDlrrHead f1 f2 f2 pre c ty body b (xhead XR_DLRR 0) G) as (G1 & T1 & T2).
  destruct (add_block (cname_upd (st_upd b WDlrrHead) f2) (xhead XR_DLRR 0)) as [b1 ok] eqn:AB. cbn [fst snd bind] in *.
  set (n := length pre + 4 + length body).
  assert (Lb : w_trunc b = false -> length (w_buf b) = n).
  { intros T. destruct G as [_ [[T' _]|(_ & (x & y & E) & _)]]; [congruence|]. rewrite E, !app_length. cbn. unfold n. lia. }
  assert (GX : goodx cfg cap WDlrrHead f1 f2 pre c ty (body ++ xhead XR_DLRR 0) n (if ok then xhdr_upd b1 (length (w_buf b)) else b1)).
  { destruct ok.
    - split; [|intros _; cbn; apply Lb; unfold add_block in AB; cbn in AB; destruct (w_trunc b); [discriminate|reflexivity]].
      destruct b1 as [bst buf rsz start hdr xhdr s r0 cn tr cp cf]. cbn in *. exact G1.
    - split; [exact G1|]. intros T. rewrite (T1 eq_refl) in T. discriminate. }
  rewrite run_app. destruct (dlrr_reports cfg cap f1 f2 pre c ty n l WDlrrHead _ _ (or_introl eq_refl) GX) as (st2 & b2 & S2 & -> & [G2 X2]). cbn [bind].
  rewrite run1. cbn [w_step]. rewrite (is_st_ok b2 st2) by (first [exact (good_st _ _ _ _ _ _ _ _ _ _ G2)|destruct S2 as [-> | ->]; cbn; tauto]). cbn [negb].
  destruct G2 as [C2 [[T L]|(T & (x & y & E) & R & Sta & H & L)]]; rewrite T.
  - eexists. split; [reflexivity|]. destruct C2 as (D1 & D2 & D3 & D4 & D5). split; [repeat split; try assumption|]. left. split; [exact T|].
    rewrite !app_length in *. cbn in *. lia.
  - rewrite (X2 T), E. replace (pre ++ [(128 + Z.of_nat c)%Z; ty; x; y] ++ (body ++ xhead XR_DLRR 0) ++ concat (map enc_din l)) with
      ((pre ++ [(128 + Z.of_nat c)%Z; ty; x; y] ++ body) ++ [XR_DLRR; 0; 0; 0]%Z ++ concat (map enc_din l)) by (rewrite <- !app_assoc; reflexivity).
    replace n with (length (pre ++ [(128 + Z.of_nat c)%Z; ty; x; y] ++ body)) by (rewrite !app_length; unfold n; cbn; lia).
    assert (Ld : length (concat (map enc_din l)) = 12 * length l) by (apply len_cat; apply len_din).
    replace (length ((pre ++ [(128 + Z.of_nat c)%Z; ty; x; y] ++ body) ++ [XR_DLRR; 0%Z; 0%Z; 0%Z] ++ concat (map enc_din l)) - length (pre ++ [(128 + Z.of_nat c)%Z; ty; x; y] ++ body))
      with (4 + 12 * length l) by (rewrite (app_length (pre ++ _)), (app_length [XR_DLRR; 0%Z; 0%Z; 0%Z]), Ld; cbn [length]; lia).
    rewrite set_len_mid; [|lia|lia|apply mod4_add; [reflexivity|apply mod4_mul; reflexivity]]. cbn [bind]. eexists. split; [reflexivity|].
    destruct C2 as (D1 & D2 & D3 & D4 & D5). split; [repeat split; try assumption|]. right. pj. split; [exact T|]. split.
    + exists x, y. unfold pkt. rewrite Ld. replace (4 + 12 * length l - 4) with (12 * length l) by lia. rewrite <- !app_assoc. reflexivity.
    + split; [exact R|]. split; [exact Sta|]. split; [exact H|]. rewrite !app_length, len_pkt in *. cbn [length hd4 pkt xhead app] in *. rewrite Ld in *. lia.
Qed.
Lemma total_cons x l : total (x :: l) = x + total l. Proof. reflexivity. Qed.
Lemma xins_run cfg cap f1 f2 pre c ty : forall bs body b, good cfg cap WXrHead f1 f2 pre c ty body b -> (Z.of_nat (total (map size_xin bs)) <= 65535)%Z ->
  exists b', w_run b (concat (map calls_xin bs)) = Ok b' /\ good cfg cap WXrHead f1 f2 pre c ty (body ++ concat (map enc_xin bs)) b'.
Proof.
  induction bs as [|x bs IH]; intros body b G Z1; cbn [map concat].
  - exists b. split; [reflexivity|]. rewrite app_nil_r. exact G.
  - cbn [map] in Z1. rewrite total_cons in Z1. rewrite run_app. destruct (xin_run cfg cap f1 f2 pre c ty body b x G) as (b1 & -> & G1); [lia|]. cbn [bind].
    destruct (IH _ b1 G1) as (b' & -> & G'); [lia|]. exists b'. split; [reflexivity|]. rewrite <- app_assoc in G'. exact G'.
Qed.

(** *** Packets *)
Definition may (cfg : wcfg) (p : pk) (f1 : bool) : Prop :=
  match p with
  | PSr _ _ | PRr _ _ => c_srrr cfg = true
  | PSdes _ => c_sdes cfg = true /\ (negb (c_srrr cfg) || f1) = true
  | PBye _ _ => (negb (c_srrr cfg) || f1) = true
  | PXr _ _ => c_xr cfg = true /\ (negb (c_srrr cfg) || f1) = true
  end.
Definition cname_after (p : pk) (f2 : bool) : bool := match p with PSdes (_ :: _) => true | _ => f2 end.
Lemma orb3 a s r f : s || r = f -> a || s || r = a || f. Proof. intros <-. destruct a, s, r; reflexivity. Qed.
Lemma pk_run cfg cap f1 f2 pre last b p : top cfg cap f1 f2 pre last b -> pk_ok p -> may cfg p f1 -> (Z.of_nat (size p) <= 65535)%Z ->
  exists b', w_run b (calls_pk p) = Ok b' /\ top cfg cap (f1 || is_report p) (cname_after p f2) (pre ++ last) (enc_pk p) b'.
Proof.
  intros T O My Z1. pose proof (len_pk p) as Lp. pose proof (size_mod p) as Mp. unfold enc_pk in Lp. rewrite len_pkt in Lp.
  assert (Mb : length (body_of p) mod 4 = 0).
  { rewrite <- Lp in Mp. rewrite <- (Nat.mod_add (length (body_of p)) 1 4) by lia. replace (length (body_of p) + 1 * 4) with (4 + length (body_of p)) by lia. exact Mp. }
  assert (Zb : (Z.of_nat (length (body_of p)) + 4 <= 65535)%Z) by lia.
  assert (St : w_st b = WTop /\ w_cfg b = cfg /\ w_sr b || w_rr b = f1) by (destruct T as [(A1 & A2 & A3 & A4 & A5) _]; tauto). destruct St as (St & Cf & F1).
  destruct p as [s rs|s rs|cs|ss r|s bs]; cbn [calls_pk is_report cname_after pk_ok may] in *.
  - cbn [app w_run w_step]. rewrite (is_st_ok b WTop) by (first [exact St|cbn; tauto]). rewrite Cf, My. cbn [negb orb bind].
    pose proof (begin_ok cfg cap f1 f2 (f1 || true) WSrHead pre last b true (w_rr b) 128 RTCP_SR (skipn 4 (enc_sr s)) T) as G. rewrite Bool.orb_true_r in *. specialize (G eq_refl eq_refl).
    change ([128%Z; RTCP_SR; 0%Z; 0%Z] ++ skipn 4 (enc_sr s)) with (enc_sr s) in G. destruct O as (_ & Fr & Lr).
    assert (Lb : length (body_of (PSr s rs)) = 24 + 24 * length rs) by (cbn [body_of]; rewrite app_length, (len_cat _ 24) by apply len_rin; reflexivity).
    rewrite run_app. destruct (sr_reports cfg cap true f2 (pre ++ last) RTCP_SR rs WSrHead 0 _ _ (or_introl eq_refl) G) as (st' & b1 & S1 & -> & G1); [lia|reflexivity|change (length (skipn 4 (enc_sr s))) with 24; lia|].
    cbn [bind]. rewrite run1. cbn [w_step]. rewrite (is_st_ok b1 st') by (first [exact (good_st _ _ _ _ _ _ _ _ _ _ G1)|destruct S1 as [-> | ->]; cbn; tauto]). cbn [negb].
    destruct (end_ok _ _ _ _ _ _ _ _ _ _ G1 Mb Zb) as (b' & -> & T'). exists b'. split; [reflexivity|exact T'].
  - cbn [app w_run w_step]. rewrite (is_st_ok b WTop) by (first [exact St|cbn; tauto]). rewrite Cf, My. cbn [negb orb bind].
    pose proof (begin_ok cfg cap f1 f2 (f1 || true) WRrHead pre last b (w_sr b) true 128 RTCP_RR (put32 s) T) as G. rewrite !Bool.orb_true_r in *. specialize (G eq_refl eq_refl).
    change ([128%Z; RTCP_RR; 0%Z; 0%Z] ++ put32 s) with (enc_rr s) in G. destruct O as (_ & Fr & Lr).
    assert (Lb : length (body_of (PRr s rs)) = 4 + 24 * length rs) by (cbn [body_of]; rewrite app_length, (len_cat _ 24) by apply len_rin; reflexivity).
    rewrite run_app. destruct (rr_reports cfg cap true f2 (pre ++ last) RTCP_RR rs WRrHead 0 _ _ (or_introl eq_refl) G) as (st' & b1 & S1 & -> & G1); [lia|reflexivity|rewrite len_put32; lia|].
    cbn [bind]. rewrite run1. cbn [w_step]. rewrite (is_st_ok b1 st') by (first [exact (good_st _ _ _ _ _ _ _ _ _ _ G1)|destruct S1 as [-> | ->]; cbn; tauto]). cbn [negb].
    destruct (end_ok _ _ _ _ _ _ _ _ _ _ G1 Mb Zb) as (b' & -> & T'). exists b'. split; [reflexivity|exact T'].
  - cbn [app w_run w_step]. rewrite (is_st_ok b WTop) by (first [exact St|cbn; tauto]). unfold first_ok. rewrite Cf, (orb3 _ _ _ _ F1). destruct My as [-> ->]. cbn [negb orb bind].
    pose proof (begin_ok cfg cap f1 f2 f1 WSdesHead pre last b (w_sr b) (w_rr b) 128 RTCP_SDES [] T F1 eq_refl) as G. destruct O as (Fc & Lc).
    replace (srrr_upd (st_upd b WSdesHead) (w_sr b) (w_rr b)) with (st_upd b WSdesHead) in G by (destruct b; reflexivity).
    rewrite run_app. destruct (chunks_run cfg cap f1 (pre ++ last) RTCP_SDES cs f2 0 [] _ G Fc) as (b1 & R1 & G1); [lia|reflexivity|]. unfold head. cbn [app] in R1 |- *. rewrite R1. cbn [bind].
    rewrite run1. cbn [w_step]. rewrite (is_st_ok b1 WSdesHead) by (first [exact (good_st _ _ _ _ _ _ _ _ _ _ G1)|cbn; tauto]). cbn [negb].
    destruct (end_ok _ _ _ _ _ _ _ _ _ _ G1 Mb Zb) as (b' & -> & T'). exists b'. split; [reflexivity|]. rewrite Bool.orb_false_r. destruct cs; exact T'.
  - cbn [app w_run w_step]. rewrite (is_st_ok b WTop) by (first [exact St|cbn; tauto]). unfold first_ok. rewrite Cf, (orb3 _ _ _ _ F1), My. cbn [negb orb bind].
    pose proof (begin_ok cfg cap f1 f2 f1 WByeHead pre last b (w_sr b) (w_rr b) 128 RTCP_BYE [] T F1 eq_refl) as G. destruct O as (Fs & Ls & Or).
    replace (srrr_upd (st_upd b WByeHead) (w_sr b) (w_rr b)) with (st_upd b WByeHead) in G by (destruct b; reflexivity).
    rewrite run_app. destruct (bye_ssrcs cfg cap f1 f2 (pre ++ last) RTCP_BYE ss WByeHead 0 [] _ (or_introl eq_refl) G) as (st' & b1 & S1 & R1 & G1); [lia|]. unfold head. cbn [app] in R1 |- *. rewrite R1. cbn [bind].
    assert (Es : st' = WByeSsrc) by (destruct ss; [cbn in Ls; lia|exact S1]). rewrite Es in G1. clear Es.
    assert (Rs : exists st2 b2, (st2 = WByeSsrc \/ st2 = WByeReason) /\ w_run b1 (match r with Some t => [OByeReason t] | None => [] end) = Ok b2 /\
       good cfg cap st2 f1 f2 (pre ++ last) (length ss) RTCP_BYE (body_of (PBye ss r)) b2).
    { destruct r as [t|]; cbn [body_of].
      - rewrite run1. cbn [w_step]. rewrite (is_st_ok b1 WByeSsrc) by (first [exact (good_st _ _ _ _ _ _ _ _ _ _ G1)|cbn; tauto]). cbn [negb orb]. destruct Or as [Lt _].
        destruct (Nat.ltb_spec 255 (length t)); [lia|]. exists WByeReason. rewrite <- (same_cname b1 WByeReason), (good_cname _ _ _ _ _ _ _ _ _ _ G1). eexists. split; [right; reflexivity|]. split; [reflexivity|].
        apply (block_ok cfg cap WByeSsrc WByeReason f1 f2 f2 (pre ++ last) (length ss) RTCP_BYE (concat (map put32 ss)) b1 (enc_reason t) G1).
      - exists WByeSsrc, b1. split; [left; reflexivity|]. split; [reflexivity|]. rewrite app_nil_r. exact G1. }
    destruct Rs as (st2 & b2 & S2 & R2 & G2). rewrite run_app, R2. cbn [bind]. rewrite run1. cbn [w_step].
    rewrite (is_st_ok b2 st2) by (first [exact (good_st _ _ _ _ _ _ _ _ _ _ G2)|destruct S2 as [-> | ->]; cbn; tauto]). cbn [negb].
    destruct (end_ok _ _ _ _ _ _ _ _ _ _ G2 Mb Zb) as (b' & -> & T'). exists b'. split; [reflexivity|]. rewrite Bool.orb_false_r. exact T'.
  - cbn [app w_run w_step]. rewrite (is_st_ok b WTop) by (first [exact St|cbn; tauto]). unfold first_ok. rewrite Cf, (orb3 _ _ _ _ F1). destruct My as [-> ->]. cbn [negb orb bind].
    pose proof (begin_ok cfg cap f1 f2 f1 WXrHead pre last b (w_sr b) (w_rr b) 128 RTCP_XR (put32 s) T F1 eq_refl) as G.
    replace (srrr_upd (st_upd b WXrHead) (w_sr b) (w_rr b)) with (st_upd b WXrHead) in G by (destruct b; reflexivity).
    rewrite run_app. destruct (xins_run cfg cap f1 f2 (pre ++ last) 0 RTCP_XR bs _ _ G) as (b1 & R1 & G1); [cbn [size] in Z1; lia|]. unfold enc_xr, head. rewrite R1. cbn [bind].
    rewrite run1. cbn [w_step]. rewrite (is_st_ok b1 WXrHead) by (first [exact (good_st _ _ _ _ _ _ _ _ _ _ G1)|cbn; tauto]). cbn [negb].
    destruct (end_ok _ _ _ _ _ _ _ _ _ _ G1 Mb Zb) as (b' & -> & T'). exists b'. split; [reflexivity|]. rewrite Bool.orb_false_r. exact T'.
Qed.
