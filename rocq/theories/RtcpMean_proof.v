From Coq Require Import Lia.
From Verif Require Import Base Base_lemmas RtcpTrav_model RtcpTrav_spec RtcpTrav_proof RtcpCompound_proof RtcpMean_spec.
From Verif Require RtcpBuild_model RtcpBuild_spec RtcpRead_proof.
Open Scope res_scope.
Local Open Scope nat_scope.

(** *** Bytes from a position on *)
Definition tail (l : list Z) (p : nat) (bs : list Z) : Prop := exists q, l = q ++ bs /\ length q = p.
Lemma tail_len l p bs : tail l p bs -> length l = p + length bs.
Proof. intros (q & -> & <-). apply app_length. Qed.
Lemma tail_app l p a bs : tail l p (a ++ bs) -> tail l (p + length a) bs.
Proof. intros (q & -> & <-). exists (q ++ a). rewrite app_length, <- app_assoc. auto. Qed.
Lemma tail_cons l p x bs : tail l p (x :: bs) -> tail l (p + 1) bs. Proof. apply (tail_app l p [x] bs). Qed.
Lemma tail_rd l p x bs : tail l p (x :: bs) -> rd l p = Ok x.
Proof. intros (q & -> & <-). unfold rd. rewrite nth_error_app2, Nat.sub_diag by lia. reflexivity. Qed.
Lemma tail_idx l p x bs : tail l p (x :: bs) -> idx l p = Ok x.
Proof. intros T. unfold idx. pose proof (tail_len _ _ _ T). destruct (Nat.ltb_spec (length l) p); [lia|]. apply (tail_rd _ _ _ _ T). Qed.
Lemma tail_rdk l p bs i : tail l p bs -> rd l (p + i) = rd bs i.
Proof. intros (q & -> & <-). unfold rd. rewrite nth_error_app2 by lia. replace (length q + i - length q) with i by lia. reflexivity. Qed.
Lemma tail_skip l p bs n : tail l p bs -> tail l (Nat.min (length l) (p + n)) (skipn n bs).
Proof.
  intros T. pose proof (tail_len _ _ _ T) as L. destruct (Nat.le_gt_cases n (length bs)) as [H|H].
  - replace (Nat.min (length l) (p + n)) with (p + length (firstn n bs)) by (rewrite firstn_length; lia). apply tail_app. rewrite firstn_skipn. exact T.
  - rewrite skipn_all2 by lia. replace (Nat.min (length l) (p + n)) with (p + length bs) by lia. apply tail_app. rewrite app_nil_r. exact T.
Qed.
Lemma tail_r32 l p a b c d bs : tail l p (a :: b :: c :: d :: bs) -> r32 l p = Ok (num [a; b; c; d]).
Proof.
  intros T. unfold r32. rewrite <- (Nat.add_0_r p) at 1. rewrite !(tail_rdk _ _ _ _ T). reflexivity.
Qed.
Lemma tail_sub l p a bs : tail l p (a ++ bs) -> sub l p (p + length a) = Ok a.
Proof. intros (q & -> & <-). apply sub_mid. Qed.
Lemma four (bs : list Z) : 4 <= length bs -> exists a b c d r, bs = a :: b :: c :: d :: r.
Proof. destruct bs as [|a [|b [|c [|d r]]]]; cbn; intros H; try lia. exists a, b, c, d, r. reflexivity. Qed.

(** *** Source descriptions *)
Definition s_after (l : list Z) (n f : nat) (r : res siter) : res (list sview * bool) :=
  it <- r ;; match s_st it with SEnd => Ok ([], s_err it) | _ => p <- s_walk f l n it ;; Ok (s_el it :: fst p, snd p) end.
Lemma s_walk_S l n f it : s_walk (S f) l n it = s_after l n f (s_next l n it). Proof. reflexivity. Qed.
Lemma mod4_S p : (p + 1) mod 4 = if p mod 4 =? 3 then 0 else p mod 4 + 1.
Proof.
  pose proof (Nat.mod_upper_bound p 4 ltac:(lia)). rewrite <- (Nat.add_mod_idemp_l p 1 4) by lia. remember (p mod 4) as r. destruct r as [|[|[|[|r]]]]; try reflexivity. lia.
Qed.
Lemma skip_pad_min l : forall fuel p, p < length l -> 4 - p mod 4 <= fuel -> skip_pad fuel l p = Ok (Nat.min (length l) (p + (4 - p mod 4))).
Proof.
  induction fuel as [|f IH]; intros p H F; pose proof (Nat.mod_upper_bound p 4 ltac:(lia)); [lia|]. cbn [skip_pad]. cbv zeta. rewrite land3.
  assert (E : (Z.of_nat (p + 1) mod 4 = Z.of_nat ((p + 1) mod 4))%Z) by (change 4%Z with (Z.of_nat 4); rewrite <- Nat2Z.inj_mod; reflexivity). rewrite E, mod4_S.
  destruct (Nat.eqb_spec (p mod 4) 3) as [R|R].
  - cbn [Z.of_nat Z.eqb]. rewrite Bool.andb_false_r. f_equal. rewrite R. lia.
  - destruct (Z.eqb_spec (Z.of_nat (p mod 4 + 1)) 0); [lia|]. cbn [negb]. rewrite Bool.andb_true_r. destruct (Nat.ltb_spec (p + 1) (length l)).
    + assert (M : (p + 1) mod 4 = p mod 4 + 1) by (rewrite mod4_S; destruct (Nat.eqb_spec (p mod 4) 3); [contradiction|reflexivity]).
      rewrite IH by (try rewrite M; lia). rewrite M. f_equal. lia.
    + f_equal. lia.
Qed.
Definition clA (l : list Z) (N m : nat) : Prop := forall pos chunk ilen el fuel bs, tail l pos bs -> length bs <= m -> chunk <= N -> (pos mod 4 = 0 \/ bs = []) -> length bs <= fuel ->
  exists vs e, s_after l N fuel (s_chunk_or_end l N pos chunk ilen false el) = Ok (vs, e) /\ chunks (N - chunk) bs vs e.
Definition clB (l : list Z) (N m : nat) : Prop := forall pos chunk ilen el fuel bs k, tail l pos bs -> length bs <= m -> chunk < N -> k mod 4 = pos mod 4 -> length bs <= fuel ->
  exists vs e, s_after l N fuel (s_item l N pos chunk ilen false el) = Ok (vs, e) /\ items (N - chunk - 1) k bs vs e.
Lemma stepA l N m : (forall m', m' < m -> clB l N m') -> clA l N m.
Proof.
  intros H pos chunk ilen el fuel bs T L C P F. pose proof (tail_len _ _ _ T) as Ll. unfold s_chunk_or_end. destruct (Nat.eqb_spec chunk N) as [E|E].
  - exists [], false. split; [reflexivity|]. rewrite E, Nat.sub_diag. constructor.
  - replace (N - chunk) with (S (N - chunk - 1)) by lia. destruct (Nat.ltb_spec (length l) (pos + 4)) as [Q|Q].
    + exists [], true. split; [reflexivity|]. constructor. lia.
    + destruct (four bs ltac:(lia)) as (a & b & c & d & r & ->). cbn [length] in *. rewrite (tail_idx _ _ _ _ T), (tail_r32 _ _ _ _ _ _ _ T). cbn [bind]. cbn [s_after bind s_st].
      destruct fuel as [|f]; [lia|]. rewrite s_walk_S. cbn [s_next]. pose proof (tail_app _ _ [a; b; c; d] r T) as T'. cbn [length] in T'.
      assert (P' : pos mod 4 = 0) by (destruct P as [P|P]; [exact P|discriminate]).
      destruct (H (length r) ltac:(lia) (pos + 4) chunk ilen (SChunkV (num [a; b; c; d])) f r 4 T' ltac:(lia) ltac:(lia)) as (vs & e & W & I).
      { rewrite <- (Nat.add_mod_idemp_l pos 4 4), P' by lia. reflexivity. }
      { lia. }
      rewrite W. cbn [bind fst snd s_el]. eexists _, _. split; [reflexivity|]. constructor. exact I.
Qed.
Lemma stepB l N m : bytes_ok l -> (forall m', m' < m -> clB l N m') -> clA l N m -> clB l N m.
Proof.
  intros By H A pos chunk ilen el fuel bs k T L C K F. pose proof (tail_len _ _ _ T) as Ll. unfold s_item. destruct bs as [|t bs].
  - cbn [length] in Ll. destruct (Nat.eqb_spec pos (length l)) as [E0|E0]; [|lia]. destruct (A pos (chunk + 1) ilen el fuel [] T ltac:(lia) ltac:(lia) (or_intror eq_refl) F) as (vs & e & W & I).
    exists vs, e. split; [exact W|]. constructor. replace (N - chunk - 1) with (N - (chunk + 1)) by lia. exact I.
  - cbn [length] in *. destruct (Nat.eqb_spec pos (length l)) as [E0|E0]; [lia|]. rewrite (tail_idx _ _ _ _ T). cbn [bind]. destruct (Z.eqb_spec t 0) as [->|Nt].
    + rewrite skip_pad_min by (try lia; pose proof (Nat.mod_upper_bound pos 4); lia). cbn [bind]. set (M := pos mod 4) in *.
      assert (M < 4) by (apply Nat.mod_upper_bound; lia).
      assert (T' : tail l (Nat.min (length l) (pos + (4 - M))) (skipn (3 - M) bs)).
      { replace (pos + (4 - M)) with (pos + 1 + (3 - M)) by lia. apply tail_skip. apply tail_cons in T. exact T. }
      destruct (A _ (chunk + 1) ilen el fuel _ T') as (vs & e & W & I).
      * rewrite skipn_length. lia.
      * lia.
      * destruct (Nat.le_gt_cases (length bs) (3 - M)) as [Q|Q]; [right; apply skipn_all2; lia|left].
        replace (Nat.min (length l) (pos + (4 - M))) with (pos + (4 - M)) by lia. pose proof (Nat.div_mod pos 4 ltac:(lia)) as D. fold M in D.
        replace (pos + (4 - M)) with ((pos / 4 + 1) * 4) by lia. apply Nat.mod_mul. lia.
      * rewrite skipn_length. lia.
      * exists vs, e. split; [exact W|]. constructor. rewrite K. fold M. replace (N - chunk - 1) with (N - (chunk + 1)) by lia. exact I.
    + destruct bs as [|x bs].
      * cbn [length] in *. destruct (Nat.ltb_spec (length l) (pos + 2)); [|lia]. exists [], true. split; [reflexivity|]. constructor. exact Nt.
      * cbn [length] in *. destruct (Nat.ltb_spec (length l) (pos + 2)); [lia|]. pose proof (tail_cons _ _ _ _ T) as T1. rewrite (tail_rd _ _ _ _ T1). cbn [bind]. cbv zeta.
        assert (Bx : byte_ok x). { destruct T1 as (q & -> & _). apply Forall_app in By. destruct By as [_ By]. apply Forall_inv in By. exact By. }
        unfold byte_ok in Bx. destruct (Nat.ltb_spec (length l) (pos + (2 + Z.to_nat x))) as [Q|Q].
        -- exists [], true. split; [reflexivity|]. constructor; [exact Nt|]. lia.
        -- unfold parse_item. rewrite (tail_idx _ _ _ _ T). cbn [bind]. rewrite (tail_rd _ _ _ _ T1). cbn [bind]. cbv zeta.
           replace (Nat.min (Nat.min (Z.to_nat x) (length l - (pos + 2))) 255) with (Z.to_nat x) by lia.
           pose proof (tail_cons _ _ _ _ T1) as T2. replace (pos + 1 + 1) with (pos + 2) in T2 by lia.
           set (text := firstn (Z.to_nat x) bs) in *. set (r := skipn (Z.to_nat x) bs) in *. assert (Eb : bs = text ++ r) by (symmetry; apply firstn_skipn).
           assert (Lt : length text = Z.to_nat x) by (unfold text; rewrite firstn_length; lia). assert (Ex : x = Z.of_nat (length text)) by lia.
           clearbody text r. subst bs. rewrite <- Lt. rewrite (tail_sub _ _ _ _ T2). cbn [bind]. cbn [s_after bind s_st]. destruct fuel as [|f]; [lia|]. rewrite s_walk_S. cbn [s_next].
           pose proof (tail_app _ _ _ _ T2) as T3. rewrite app_length in *.
           destruct (H (length r) ltac:(lia) (pos + (2 + length text)) chunk (2 + length text) (SItemV t text) f r (k + 2 + length text)) as (vs & e & W & I).
           ++ replace (pos + (2 + length text)) with (pos + 2 + length text) by lia. exact T3.
           ++ lia.
           ++ lia.
           ++ rewrite <- Nat.add_assoc. rewrite <- (Nat.add_mod_idemp_l k), K, Nat.add_mod_idemp_l by lia. reflexivity.
           ++ lia.
           ++ rewrite W. cbn [bind fst snd s_el]. eexists _, _. split; [reflexivity|]. rewrite Ex. constructor; [exact Nt|exact I].
Qed.
Lemma clBoth l N : bytes_ok l -> forall m, clA l N m /\ clB l N m.
Proof.
  intros B. assert (H : forall m, clB l N m).
  { induction m as [m IH] using lt_wf_ind. apply stepB; [exact B|exact IH|]. apply stepA. exact IH. }
  intros m. split; [|apply H]. apply stepA. intros m' _. apply H.
Qed.
Lemma sdes_mean a b c d bs n : bytes_ok (a :: b :: c :: d :: bs) ->
  exists vs e, s_walk (S (length (a :: b :: c :: d :: bs) + n)) (a :: b :: c :: d :: bs) n s_begin = Ok (vs, e) /\ chunks n bs vs e.
Proof.
  intros B. rewrite s_walk_S. unfold s_begin. cbn [s_next]. set (l := a :: b :: c :: d :: bs) in *. assert (Ll : length l = 4 + length bs) by reflexivity. destruct (Nat.ltb_spec (length l) (0 + 4)); [lia|].
  destruct (clBoth l n B (length bs)) as [A _]. destruct (A (0 + 4) 0 0 (SChunkV 0) (length l + n) bs) as (vs & e & W & I); try lia; [exists [a; b; c; d]; split; reflexivity|].
  exists vs, e. split; [exact W|]. rewrite Nat.sub_0_r in I. exact I.
Qed.

(** *** Goodbyes *)
Definition b_after (l : list Z) (n f : nat) (r : res biter) : res (list bview * bool) :=
  it <- r ;; match b_st it with BEnd => Ok ([], b_err it) | _ => p <- b_walk f l n it ;; Ok (b_el it :: fst p, snd p) end.
Lemma b_walk_S l n f it : b_walk (S f) l n it = b_after l n f (b_next l n it). Proof. reflexivity. Qed.
Lemma bye_elem l N : bytes_ok l -> forall d pos cur el fuel bs, tail l pos bs -> cur + d = N -> d + 1 <= fuel ->
  exists vs e, b_after l N fuel (b_element l N pos cur false el) = Ok (vs, e) /\ leaving d bs vs e.
Proof.
  intros By. induction d as [|d IH]; intros pos cur el fuel bs T C F; pose proof (tail_len _ _ _ T) as Ll; unfold b_element.
  - destruct (Nat.eqb_spec cur N) as [E|E]; [|lia]. destruct bs as [|x bs]; cbn [length] in Ll.
    + destruct (Nat.ltb_spec pos (length l)); [lia|]. exists [], false. split; [reflexivity|constructor].
    + destruct (Nat.ltb_spec pos (length l)); [|lia]. destruct (Nat.ltb_spec (length l) (pos + 1)); [lia|]. rewrite (tail_idx _ _ _ _ T). cbn [bind].
      assert (Bx : byte_ok x). { destruct T as (q & -> & _). apply Forall_app in By. destruct By as [_ By]. apply Forall_inv in By. exact By. }
      unfold byte_ok in Bx. destruct (Nat.ltb_spec (length l) (pos + 1 + Z.to_nat x)).
      * exists [], true. split; [reflexivity|]. constructor. lia.
      * unfold parse_reason. rewrite (tail_idx _ _ _ _ T). cbn [bind]. cbv zeta. replace (Nat.min (Nat.min (Z.to_nat x) (length l - (pos + 1))) 255) with (Z.to_nat x) by lia.
        pose proof (tail_cons _ _ _ _ T) as T2. set (text := firstn (Z.to_nat x) bs) in *. set (r := skipn (Z.to_nat x) bs) in *. assert (Eb : bs = text ++ r) by (symmetry; apply firstn_skipn).
        assert (Lt : length text = Z.to_nat x) by (unfold text; rewrite firstn_length; lia). assert (Ex : x = Z.of_nat (length text)) by lia.
        clearbody text r. subst bs. rewrite <- Lt. rewrite (tail_sub _ _ _ _ T2). cbn [bind b_after b_st]. destruct fuel as [|f]; [lia|]. rewrite b_walk_S. cbn [b_next b_after bind b_st b_err fst snd b_el].
        eexists _, _. split; [reflexivity|]. rewrite Ex. constructor.
  - destruct (Nat.eqb_spec cur N) as [E|E]; [lia|]. destruct (Nat.ltb_spec (length l) (pos + 4)) as [Q|Q].
    + exists [], true. split; [reflexivity|]. constructor. lia.
    + destruct (four bs ltac:(lia)) as (a & b & c & e & r & ->). rewrite (tail_idx _ _ _ _ T), (tail_r32 _ _ _ _ _ _ _ T). cbn [bind b_after b_st].
      destruct fuel as [|f]; [lia|]. rewrite b_walk_S. cbn [b_next]. pose proof (tail_app _ _ [a; b; c; e] r T) as T'. cbn [length] in T'.
      destruct (IH (pos + 4) (cur + 1) (BSsrcV (num [a; b; c; e])) f r T' ltac:(lia) ltac:(lia)) as (vs & er & W & I). rewrite W. cbn [bind fst snd b_el]. eexists _, _. split; [reflexivity|]. constructor. exact I.
Qed.
Lemma bye_mean a b c d bs n : bytes_ok (a :: b :: c :: d :: bs) ->
  exists vs e, b_walk (n + 3) (a :: b :: c :: d :: bs) n b_begin = Ok (vs, e) /\ leaving n bs vs e.
Proof.
  intros B. replace (n + 3) with (S (n + 2)) by lia. rewrite b_walk_S. unfold b_begin. cbn [b_next]. set (l := a :: b :: c :: d :: bs) in *. assert (Ll : length l = 4 + length bs) by reflexivity. destruct (Nat.ltb_spec (length l) (0 + 4)); [lia|].
  apply (bye_elem l n B n (0 + 4) 0); [exists [a; b; c; d]; split; reflexivity|lia|lia].
Qed.

(** *** Extended reports *)
Definition x_after (l : list Z) (f : nat) (r : res xiter) : res (list xview * bool) :=
  it <- r ;; match x_st it with XAt ty => v <- read_xblock l (x_pos it) ty ;; p <- x_walk f l it ;; Ok (v :: fst p, snd p) | _ => Ok ([], x_err it) end.
Lemma x_walk_S l f it : x_walk (S f) l it = x_after l f (x_next l it). Proof. reflexivity. Qed.
Lemma num_app l : forall m a, fold_left (fun a b => a * 256 + b)%Z (l ++ m) a = fold_left (fun a b => a * 256 + b)%Z m (fold_left (fun a b => a * 256 + b)%Z l a).
Proof. intros m a. apply fold_left_app. Qed.
Lemma take (n i : nat) (b : list Z) : i + n <= length b -> exists q a r, b = q ++ a ++ r /\ length q = i /\ length a = n /\ firstn n (skipn i b) = a.
Proof.
  intros H. exists (firstn i b), (firstn n (skipn i b)), (skipn n (skipn i b)). split; [|split; [|split; [|reflexivity]]].
  - rewrite firstn_skipn, firstn_skipn. reflexivity.
  - rewrite firstn_length. lia.
  - rewrite firstn_length, skipn_length. lia.
Qed.
Lemma fld_r32 l p b r i : tail l p (b ++ r) -> i + 4 <= length b -> r32 l (p + i) = Ok (fld b i 4).
Proof.
  intros T H. unfold fld. destruct (take 4 i b H) as (q & a & s & -> & Lq & La & ->). destruct a as [|a0 [|a1 [|a2 [|a3 [|]]]]]; try discriminate La.
  rewrite <- Lq. apply (tail_r32 l _ a0 a1 a2 a3 (s ++ r)). rewrite <- !app_assoc in T. apply tail_app in T. exact T.
Qed.
Lemma fld_r16 l p b r i : tail l p (b ++ r) -> i + 2 <= length b -> r16 l (p + i) = Ok (fld b i 2).
Proof.
  intros T H. unfold fld. destruct (take 2 i b H) as (q & a & s & -> & Lq & La & ->). destruct a as [|a0 [|a1 [|]]]; try discriminate La.
  rewrite <- Lq. rewrite <- !app_assoc in T. apply tail_app in T. unfold r16. rewrite <- (Nat.add_0_r (p + length q)) at 1. rewrite !(tail_rdk _ _ _ _ T). reflexivity.
Qed.
Lemma num_lt l : bytes_ok l -> (0 <= num l < 256 ^ Z.of_nat (length l))%Z.
Proof.
  unfold num. induction l as [|x l IH] using rev_ind; intros B; [cbn; lia|]. apply Forall_app in B. destruct B as [B1 B2]. apply Forall_inv in B2. unfold byte_ok in B2.
  rewrite num_app. cbn [fold_left]. rewrite app_length, Nat.add_1_r, Nat2Z.inj_succ, Z.pow_succ_r by lia. specialize (IH B1). lia.
Qed.
Lemma fld_lt b i n : bytes_ok b -> i + n <= length b -> (0 <= fld b i n < 256 ^ Z.of_nat n)%Z.
Proof.
  intros B H. unfold fld. destruct (take n i b H) as (q & a & s & -> & Lq & La & ->). apply Forall_app in B. destruct B as [_ B]. apply Forall_app in B. destruct B as [B _]. rewrite <- La. apply num_lt. exact B.
Qed.
Lemma skip_pre (q : list Z) k x : skipn (length q + k) (q ++ x) = skipn k x.
Proof. induction q as [|y q IH]; [reflexivity|exact IH]. Qed.
Lemma fld_r64 l p b r i : bytes_ok l -> tail l p (b ++ r) -> i + 8 <= length b -> r64 l (p + i) = Ok (fld b i 8).
Proof.
  intros B T H. unfold r64. rewrite (fld_r32 _ _ _ _ _ T) by lia. replace (p + i + 4) with (p + (i + 4)) by lia. rewrite (fld_r32 _ _ _ _ _ T) by lia. cbn [bind].
  assert (Bb : bytes_ok b). { destruct T as (q & -> & _). apply Forall_app in B. destruct B as [_ B]. apply Forall_app in B. apply B. }
  pose proof (fld_lt b (i + 4) 4 Bb ltac:(lia)) as R. change (256 ^ Z.of_nat 4)%Z with (2 ^ 32)%Z in R. rewrite lor_shiftl_add by lia. f_equal. unfold fld.
  destruct (take 8 i b H) as (q & a & s & -> & Lq & La & Ea). rewrite Ea. destruct a as [|a0 [|a1 [|a2 [|a3 [|a4 [|a5 [|a6 [|a7 [|]]]]]]]]]; try discriminate La.
  rewrite <- Lq. rewrite (skip_pre q 4). rewrite <- (Nat.add_0_r (length q)). rewrite (skip_pre q 0).
  unfold num. cbn. lia.
Qed.
Lemma fld_rmid l p b r i : tail l p (b ++ r) -> i + 4 <= length b -> rmid l (p + i) = Ok (fld b i 4 * 2 ^ 16)%Z.
Proof. intros T H. unfold rmid. rewrite (fld_r32 _ _ _ _ _ T H). cbn [bind]. rewrite Z.shiftl_mul_pow2 by lia. reflexivity. Qed.
Lemma sub_read l : forall n p0 num0 i b r, tail l (p0 + 12 * i) (b ++ r) -> 12 * n <= length b -> i + n <= num0 ->
  read_blocks (read_dblock l) 12 p0 num0 i n = Ok (sub_reports n b).
Proof.
  induction n as [|n IH]; intros p0 num0 i b r T L C; cbn [read_blocks sub_reports]; [reflexivity|]. destruct (Nat.leb_spec num0 i); [lia|].
  assert (E : read_dblock l (p0 + 12 * i) = Ok (sub_report b)).
  { unfold read_dblock. rewrite <- (Nat.add_0_r (p0 + 12 * i)) at 1. rewrite (fld_r32 _ _ _ _ _ T), !(fld_rmid _ _ _ _ _ T) by lia. reflexivity. }
  rewrite E. cbn [bind].
  rewrite (IH p0 num0 (i + 1) (skipn 12 b) r); [reflexivity| |rewrite skipn_length; lia|lia].
  replace (p0 + 12 * (i + 1)) with (p0 + 12 * i + length (firstn 12 b)) by (rewrite firstn_length; lia). apply tail_app. rewrite app_assoc, firstn_skipn. exact T.
Qed.
Lemma flag_div fl : byte_ok fl -> metric_flag fl = (fl / 64)%Z.
Proof. intros B. unfold metric_flag. rewrite shiftr_div by lia. change 0x03%Z with (Z.ones 2). rewrite Z.land_ones by lia. change (2 ^ 6)%Z with 64%Z. unfold byte_ok in B. change (2 ^ 2)%Z with 4%Z. rewrite Z.mod_small by lia. reflexivity. Qed.
Lemma view_read l p ty fl h w b r v : bytes_ok l -> tail l p (ty :: fl :: h :: w :: b ++ r) -> Z.of_nat (length b) = (4 * num [h; w])%Z ->
  block_view ty fl b = Some (Some v) -> read_xblock l p ty = Ok v.
Proof.
  intros B T L V. assert (Bb : byte_ok fl) by (destruct T as (q & -> & _); apply Forall_app in B; destruct B as [_ B]; apply Forall_inv_tail, Forall_inv in B; exact B).
  pose proof (tail_app _ _ [ty; fl; h; w] _ T) as T4. cbn [length] in T4. assert (E1 : rd l (p + 1) = Ok fl) by (rewrite (tail_rdk _ _ _ 1 T); reflexivity).
  assert (E2 : r16 l (p + 2) = Ok (num [h; w])). { unfold r16. replace (p + 2 + 1) with (p + 3) by lia. rewrite (tail_rdk _ _ _ 2 T), (tail_rdk _ _ _ 3 T). reflexivity. }
  unfold block_view in V. unfold read_xblock, XR_RRTR, XR_DLRR, XR_MEAS, XR_DELAY.
  assert (P4 : forall k, p + 4 + k = p + (4 + k)) by (intros; lia).
  pose proof (fun i H => fld_r32 _ _ _ _ i T4 H) as F32. pose proof (fun i H => fld_rmid _ _ _ _ i T4 H) as Fm. pose proof (fun i H => fld_r64 _ _ _ _ i B T4 H) as F64. pose proof (fun i H => fld_r16 _ _ _ _ i T4 H) as F16.
  assert (W : forall i k, i = 4 + k -> p + i = p + 4 + k) by (intros; lia).
  destruct (Z.eqb_spec ty 4).
  { destruct (Nat.leb_spec 8 (length b)); [|discriminate V]. assert (v = XRrtr (fld b 0 8)) by congruence. subst v. rewrite (W 4 0 eq_refl), F64 by lia. reflexivity. }
  destruct (Z.eqb_spec ty 5).
  { assert (v = XDlrr (sub_reports (length b / 12) b)) by congruence. subst v. rewrite E2. cbn [bind]. cbv zeta.
    assert (En : num_subblocks (len_bytes (num [h; w])) = length b / 12) by (unfold num_subblocks, len_bytes; f_equal; lia). rewrite En.
    rewrite (sub_read l (length b / 12) (p + 4) (length b / 12) 0 b r); [reflexivity|rewrite Nat.mul_0_r, Nat.add_0_r; exact T4| |lia]. apply Nat.mul_div_le. lia. }
  destruct (Z.eqb_spec ty 14).
  { destruct (Nat.leb_spec 28 (length b)); [|discriminate V]. match type of V with Some (Some ?x) = _ => assert (v = x) by congruence; subst v end.
    rewrite (W 4 0 eq_refl), (W 10 6 eq_refl), (W 12 8 eq_refl), (W 16 12 eq_refl), (W 20 16 eq_refl), (W 24 20 eq_refl). rewrite !F32, F16, Fm, F64 by lia. reflexivity. }
  destruct (Z.eqb_spec ty 16).
  { destruct (Nat.leb_spec 24 (length b)); [|discriminate V]. match type of V with Some (Some ?x) = _ => assert (v = x) by congruence; subst v end.
    rewrite E1. cbn [bind]. rewrite (W 4 0 eq_refl), (W 8 4 eq_refl), (W 12 8 eq_refl), (W 16 12 eq_refl), (W 20 16 eq_refl). rewrite !F32, !Fm, F64 by lia. cbn [bind]. rewrite flag_div by exact Bb. reflexivity. }
  destruct (Z.eqb_spec ty 220); [|discriminate V].
  { destruct (Nat.eqb_spec (length b) 12); [|discriminate V]. match type of V with Some (Some ?x) = _ => assert (v = x) by congruence; subst v end.
    rewrite E1. cbn [bind]. rewrite (W 4 0 eq_refl), (W 8 4 eq_refl), (W 12 8 eq_refl). rewrite !F32, !Fm by lia. cbn [bind]. rewrite flag_div by exact Bb. reflexivity. }
Qed.
Lemma view_check ty fl b n : n = 4 + length b -> xr_check ty n = match block_view ty fl b with None => None | Some o => Some (match o with Some _ => true | None => false end) end.
Proof.
  intros ->. unfold xr_check, block_view, XR_RRTR, XR_DLRR, XR_MEAS, XR_DELAY, XR_QUEUE, num_subblocks.
  assert (Le : forall k, (4 + k <=? 4 + length b) = (k <=? length b)) by (intros; reflexivity).
  destruct (Z.eqb_spec ty 4); [change 12 with (4 + 8); rewrite Le; destruct (8 <=? length b); reflexivity|].
  destruct (Z.eqb_spec ty 5). { f_equal. apply Nat.leb_le. replace (4 + length b - 4) with (length b) by lia. pose proof (Nat.mul_div_le (length b) 12 ltac:(lia)). lia. }
  destruct (Z.eqb_spec ty 14); [change 32 with (4 + 28); rewrite Le; destruct (28 <=? length b); reflexivity|].
  destruct (Z.eqb_spec ty 16); [change 28 with (4 + 24); rewrite Le; destruct (24 <=? length b); reflexivity|].
  destruct (Z.eqb_spec ty 220); [|reflexivity]. change (4 + length b =? 16) with (length b =? 12). destruct (length b =? 12); reflexivity.
Qed.
(** one step of the inner loop, err being either value *)
Lemma xr_walk l : bytes_ok l -> forall m pos len err fuel gas bs, tail l pos bs -> length bs <= m -> length bs < gas -> length bs <= fuel ->
  exists vs e, x_after l fuel (x_loop gas l pos len err) = Ok (vs, e || err) /\ blocks bs vs e.
Proof.
  intros By. induction m as [m IH] using lt_wf_ind. intros pos len err fuel gas bs T Lm G F. pose proof (tail_len _ _ _ T) as Ll. destruct gas as [|g]; [lia|]. cbn [x_loop].
  destruct (Nat.eqb_spec pos (length l)) as [E|E].
  { destruct bs; [|cbn in Ll; lia]. exists [], false. split; [reflexivity|constructor]. }
  assert (Nb : bs <> []) by (intros ->; cbn in Ll; lia).
  destruct (Nat.ltb_spec (length l) (pos + 4)) as [Q|Q].
  { exists [], true. split; [reflexivity|]. constructor; [exact Nb|lia]. }
  destruct (four bs ltac:(lia)) as (ty & fl & h & w & rest & ->). cbn [length] in *. rewrite (tail_idx _ _ _ _ T). cbn [bind].
  assert (E2 : r16 l (pos + 2) = Ok (num [h; w])). { unfold r16. replace (pos + 2 + 1) with (pos + 3) by lia. rewrite (tail_rdk _ _ _ 2 T), (tail_rdk _ _ _ 3 T). reflexivity. }
  rewrite E2. cbn [bind]. cbv zeta.
  assert (R : (0 <= num [h; w])%Z). { destruct T as (q & -> & _). apply Forall_app in By. destruct By as [_ By]. pose proof (num_lt [h; w]) as N. cbn [length] in N. destruct N; [|assumption]. do 2 apply Forall_inv_tail in By. pose proof (Forall_inv By). apply Forall_inv_tail, Forall_inv in By. repeat constructor; assumption || apply By || apply H. }
  assert (El : len_bytes (num [h; w]) = 4 + Z.to_nat (4 * num [h; w])) by (unfold len_bytes; lia). assert (Nz : Z.of_nat (Z.to_nat (4 * num [h; w])) = (4 * num [h; w])%Z) by (apply Z2Nat.id; lia). set (n := Z.to_nat (4 * num [h; w])) in *. clearbody n. rewrite El.
  destruct (Nat.ltb_spec (length l) (pos + (4 + n))) as [Q2|Q2].
  { exists [], true. split; [reflexivity|]. apply X_long. lia. }
  set (b := firstn n rest) in *. set (r := skipn n rest) in *. assert (Er : rest = b ++ r) by (symmetry; apply firstn_skipn).
  assert (Lb : length b = n) by (unfold b; rewrite firstn_length; lia). assert (Ln : Z.of_nat (length b) = (4 * num [h; w])%Z) by lia. clearbody b r. subst rest. rewrite app_length in *.
  assert (T' : tail l (pos + (4 + n)) r). { pose proof (tail_app _ _ ([ty; fl; h; w] ++ b) r T) as X. rewrite app_length in X. cbn [length] in X. rewrite Lb in X. exact X. }
  rewrite (view_check ty fl b) by lia. destruct (block_view ty fl b) as [[v|]|] eqn:V.
  - cbn [x_after bind x_st x_pos]. rewrite (view_read _ _ _ _ _ _ _ _ _ By T Ln V). cbn [bind]. destruct fuel as [|f]; [lia|]. rewrite x_walk_S. cbn [x_next].
    destruct (IH (length r) ltac:(lia) (pos + (4 + n)) (4 + n) err f (S (length l)) r T' ltac:(lia) ltac:(lia) ltac:(lia)) as (vs & e & W & I).
    rewrite W. cbn [bind fst snd]. exists (v :: vs), e. split; [reflexivity|]. eapply X_block; eassumption.
  - destruct (IH (length r) ltac:(lia) (pos + (4 + n)) (4 + n) true fuel g r T' ltac:(lia) ltac:(lia) ltac:(lia)) as (vs & e & W & I).
    exists vs, true. split; [rewrite W; rewrite Bool.orb_true_r; reflexivity|]. eapply X_size; eassumption.
  - destruct (IH (length r) ltac:(lia) (pos + (4 + n)) (4 + n) err fuel g r T' ltac:(lia) ltac:(lia) ltac:(lia)) as (vs & e & W & I).
    exists vs, e. split; [exact W|]. eapply X_unknown; eassumption.
Qed.
Lemma xr_mean a b c d pl : bytes_ok (a :: b :: c :: d :: pl) -> 4 <= length pl ->
  exists vs e, x_walk (S (length (a :: b :: c :: d :: pl))) (a :: b :: c :: d :: pl) x_begin = Ok (vs, e) /\ blocks (skipn 4 pl) vs e.
Proof.
  intros B H. rewrite x_walk_S. unfold x_begin. cbn [x_next]. set (l := a :: b :: c :: d :: pl) in *. assert (Ll : length l = 4 + length pl) by reflexivity. destruct (Nat.ltb_spec (length l) (0 + 8)); [lia|].
  assert (T : tail l (0 + 8) (skipn 4 pl)). { exists ([a; b; c; d] ++ firstn 4 pl). split; [rewrite <- app_assoc, firstn_skipn; reflexivity|]. rewrite app_length, firstn_length. cbn [length]. lia. }
  destruct (xr_walk l B (length (skipn 4 pl)) (0 + 8) 0 false (length l) (S (length l)) _ T ltac:(lia)) as (vs & e & W & I); try (rewrite skipn_length; lia).
  exists vs, e. split; [|exact I]. rewrite W, Bool.orb_false_r. reflexivity.
Qed.

(** *** Reports *)
Lemma num_split a b : num (a ++ b) = (num a * 256 ^ Z.of_nat (length b) + num b)%Z.
Proof.
  unfold num. induction b as [|x b IH] using rev_ind; [rewrite app_nil_r; cbn; lia|]. rewrite app_assoc, num_app, IH, num_app. cbn [fold_left].
  rewrite app_length, Nat.add_1_r, Nat2Z.inj_succ, Z.pow_succ_r by lia. lia.
Qed.
Lemma fld_split b i n k : i + n + k <= length b -> fld b i (n + k) = (fld b i n * 256 ^ Z.of_nat k + fld b (i + n) k)%Z.
Proof.
  intros H. unfold fld. set (c := skipn i b). assert (Lc : length c = length b - i) by apply skipn_length. 
  replace (skipn (i + n) b) with (skipn n c) by (unfold c; rewrite skipn_skipn; f_equal; lia). rewrite <- (firstn_skipn n c) at 1.
  rewrite firstn_app. rewrite firstn_length. replace (n + k - Nat.min n (length c)) with k by lia. rewrite firstn_firstn. replace (Nat.min (n + k) n) with n by lia.
  rewrite num_split. rewrite firstn_length, skipn_length. replace (Nat.min k (length c - n)) with k by lia. reflexivity.
Qed.
Lemma losses_parts f m : (0 <= f < 256)%Z -> (0 <= m < 2 ^ 24)%Z ->
  losses_fract (f * 2 ^ 24 + m) = f /\ losses_cum (f * 2 ^ 24 + m) = (if m <? 2 ^ 23 then m else m - 2 ^ 24)%Z.
Proof.
  intros Hf Hm. set (c := (if m <? 2 ^ 23 then m else m - 2 ^ 24)%Z). assert (Rc : (- 2 ^ 23 <= c <= 2 ^ 23 - 1)%Z) by (unfold c; destruct (Z.ltb_spec m (2 ^ 23)); lia).
  assert (Cl : RtcpBuild_model.clamp_cum c = c). { unfold RtcpBuild_model.clamp_cum. destruct (Z.ltb_spec 0x7FFFFF c); [lia|]. destruct (Z.ltb_spec c (-0x7FFFFF - 1)); [lia|reflexivity]. }
  assert (Cm : (c mod 2 ^ 24 = m)%Z). { unfold c. destruct (Z.ltb_spec m (2 ^ 23)); [apply Z.mod_small; exact Hm|]. replace (m - 2 ^ 24)%Z with (m + (-1) * 2 ^ 24)%Z by lia. rewrite Z.mod_add by lia. apply Z.mod_small. exact Hm. }
  assert (U : RtcpBuild_spec.is_u 8 f) by exact Hf. pose proof (RtcpRead_proof.losses_val f c U) as E. rewrite Cl, Cm in E. rewrite <- E.
  split; [apply RtcpRead_proof.losses_fract_rt; exact U|]. rewrite RtcpRead_proof.losses_cum_rt by exact U. lia.
Qed.
Lemma report_read l p b r : bytes_ok l -> tail l p (b ++ r) -> 24 <= length b -> read_rblock l p = Ok (report b).
Proof.
  intros B T H. assert (Bb : bytes_ok b). { destruct T as (q & -> & _). apply Forall_app in B. destruct B as [_ B]. apply Forall_app in B. apply B. }
  unfold read_rblock. rewrite <- (Nat.add_0_r p) at 1. rewrite !(fld_r32 _ _ _ _ _ T), !(fld_rmid _ _ _ _ _ T) by lia. cbn [bind].
  assert (E : (fld b 4 4 = fld b 4 1 * 2 ^ 24 + fld b 5 3)%Z). { change 4 with (1 + 3) at 2. rewrite fld_split by lia. reflexivity. }
  pose proof (fld_lt b 4 1 Bb ltac:(lia)) as R1. pose proof (fld_lt b 5 3 Bb ltac:(lia)) as R2. change (256 ^ Z.of_nat 1)%Z with 256%Z in R1. change (256 ^ Z.of_nat 3)%Z with (2 ^ 24)%Z in R2.
  destruct (losses_parts _ _ R1 R2) as [E1 E2]. rewrite E, E1, E2. reflexivity.
Qed.
Lemma reports_read l : bytes_ok l -> forall n p0 num0 i b, tail l (p0 + 24 * i) b -> 24 * n <= length b -> i + n <= num0 ->
  read_blocks (read_rblock l) 24 p0 num0 i n = Ok (reports n b).
Proof.
  intros B. induction n as [|n IH]; intros p0 num0 i b T L C; cbn [read_blocks reports]; [reflexivity|]. destruct (Nat.leb_spec num0 i); [lia|].
  rewrite (report_read l (p0 + 24 * i) b []) by (try rewrite app_nil_r; try assumption; lia). cbn [bind]. rewrite (IH p0 num0 (i + 1) (skipn 24 b)); [reflexivity| |rewrite skipn_length; lia|lia].
  replace (p0 + 24 * (i + 1)) with (p0 + 24 * i + length (firstn 24 b)) by (rewrite firstn_length; lia). apply tail_app. rewrite firstn_skipn. exact T.
Qed.

(** *** One packet *)
Lemma counter_count b0 : counter b0 = count b0.
Proof. unfold counter, count. rewrite shiftr_div by lia. change 0x1F%Z with (Z.ones 5). rewrite Z.land_ones by lia. change (2 ^ 0)%Z with 1%Z. rewrite Z.div_1_r. reflexivity. Qed.
Lemma count_lt b0 : count b0 <= 31. Proof. unfold count. lia. Qed.
Lemma pad_facts b0 ty h w body m : (length body = 0 -> w = 0%Z) -> let p := b0 :: ty :: h :: w :: body in
  (has_padding b0 = false /\ payload b0 body m = Some body) \/
  (has_padding b0 = true /\ exists pad, idx p (length p - 1) = Ok pad /\
     (((Z.to_nat pad < 1 \/ length body - m < Z.to_nat pad) /\ payload b0 body m = None) \/
      (1 <= Z.to_nat pad <= length body - m /\ sub p 0 (length p - Z.to_nat pad) = Ok (b0 :: ty :: h :: w :: firstn (length body - Z.to_nat pad) body) /\
       payload b0 body m = Some (firstn (length body - Z.to_nat pad) body)))).
Proof.
  intros W p. rewrite padding_div. unfold payload. destruct (Z.eqb_spec ((b0 / 32) mod 2) 0) as [E|E]; [left; split; reflexivity|]. right. cbn [negb]. split; [reflexivity|].
  exists (last body 0%Z). split.
  - unfold idx. destruct (Nat.ltb_spec (length p) (length p - 1)); [lia|]. unfold p. destruct body as [|x body] using rev_ind.
    + rewrite (W eq_refl). reflexivity.
    + rewrite last_last. cbn [length]. rewrite app_length. cbn [length]. replace (S (S (S (S (length body + 1)))) - 1) with (4 + length body) by lia.
      apply (tail_rd _ _ x []). exists ([b0; ty; h; w] ++ body). split; [rewrite <- app_assoc; reflexivity|]. rewrite app_length. reflexivity.
  - set (n := Z.to_nat (last body 0%Z)). destruct (Nat.leb_spec 1 n) as [L1|L1]; [|left; split; [lia|reflexivity]]. destruct (Nat.leb_spec n (length body - m)) as [L2|L2]; [|left; split; [lia|reflexivity]].
    right. split; [lia|]. split; [|reflexivity]. unfold sub. destruct (Nat.ltb_spec (length p - n) 0); [lia|]. destruct (Nat.ltb_spec (length p) (length p - n)); [lia|].
    cbn [skipn]. rewrite Nat.sub_0_r. unfold p. cbn [length]. replace (S (S (S (S (length body)))) - n) with (S (S (S (S (length body - n))))) by lia. reflexivity.
Qed.
Lemma firstn_ok n b0 ty h w (body : list Z) : bytes_ok (b0 :: ty :: h :: w :: body) -> bytes_ok (b0 :: ty :: h :: w :: firstn n body).
Proof. intros B. unfold bytes_ok in *. change (b0 :: ty :: h :: w :: body) with ([b0; ty; h; w] ++ body) in B. apply Forall_app in B. destruct B as [B1 B2]. change (b0 :: ty :: h :: w :: firstn n body) with ([b0; ty; h; w] ++ firstn n body). apply Forall_app. split; [exact B1|]. apply firstn_bytes, B2. Qed.
Lemma sr_mean b0 ty h w pl : bytes_ok (b0 :: ty :: h :: w :: pl) -> 24 + 24 * count b0 <= length pl ->
  read_sr (b0 :: ty :: h :: w :: pl) = Ok (VSR (fld pl 0 4) (fld pl 4 8) (fld pl 12 4) (fld pl 16 4) (fld pl 20 4) (reports (count b0) (skipn 24 pl))).
Proof.
  intros B L. set (l := b0 :: ty :: h :: w :: pl) in *. assert (T : tail l 4 (pl ++ [])) by (rewrite app_nil_r; exists [b0; ty; h; w]; split; reflexivity). unfold read_sr.
  replace (rd l 0) with (Ok b0) by reflexivity. cbn [bind]. rewrite counter_count. 
  assert (E0 : r32 l 4 = Ok (fld pl 0 4)) by (apply (fld_r32 l 4 pl [] 0 T); lia). assert (E1 : r64 l 8 = Ok (fld pl 4 8)) by (apply (fld_r64 l 4 pl [] 4 B T); lia).
  assert (E2 : r32 l 16 = Ok (fld pl 12 4)) by (apply (fld_r32 l 4 pl [] 12 T); lia). assert (E3 : r32 l 20 = Ok (fld pl 16 4)) by (apply (fld_r32 l 4 pl [] 16 T); lia).
  assert (E4 : r32 l 24 = Ok (fld pl 20 4)) by (apply (fld_r32 l 4 pl [] 20 T); lia). rewrite E0, E1, E2, E3, E4. cbn [bind]. rewrite (reports_read l B (count b0) 28 (count b0) 0 (skipn 24 pl)); [reflexivity| |rewrite skipn_length; lia|lia].
  cbn [Nat.mul Nat.add]. exists ([b0; ty; h; w] ++ firstn 24 pl). split; [rewrite <- app_assoc, firstn_skipn; reflexivity|]. rewrite app_length, firstn_length. cbn [length]. lia.
Qed.
Lemma rr_mean b0 ty h w pl : bytes_ok (b0 :: ty :: h :: w :: pl) -> 4 + 24 * count b0 <= length pl ->
  read_rr (b0 :: ty :: h :: w :: pl) = Ok (VRR (fld pl 0 4) (reports (count b0) (skipn 4 pl))).
Proof.
  intros B L. set (l := b0 :: ty :: h :: w :: pl) in *. assert (T : tail l 4 (pl ++ [])) by (rewrite app_nil_r; exists [b0; ty; h; w]; split; reflexivity). unfold read_rr.
  replace (rd l 0) with (Ok b0) by reflexivity. cbn [bind]. rewrite counter_count. 
  assert (E0 : r32 l 4 = Ok (fld pl 0 4)) by (apply (fld_r32 l 4 pl [] 0 T); lia). rewrite E0. cbn [bind]. rewrite (reports_read l B (count b0) 8 (count b0) 0 (skipn 4 pl)); [reflexivity| |rewrite skipn_length; lia|lia].
  cbn [Nat.mul Nat.add]. exists ([b0; ty; h; w] ++ firstn 4 pl). split; [rewrite <- app_assoc, firstn_skipn; reflexivity|]. rewrite app_length, firstn_length. cbn [length]. lia.
Qed.
Lemma x_count_any l : bytes_ok l -> 8 <= length l -> exists n, x_count (S (length l)) l x_begin = Ok n.
Proof.
  intros B H. destruct (x_count (S (length l)) l x_begin) as [n| |] eqn:E; [exists n; reflexivity| |]; exfalso;
  (destruct (x_count_ok l (S (length l)) x_begin B H) as [n X]; [unfold x_good, x_begin; cbn; auto|cbn; lia|cbn; lia|congruence]).
Qed.
Lemma one_mean b0 ty h w body : let p := b0 :: ty :: h :: w :: body in bytes_ok p -> Z.of_nat (length p) = (4 * (256 * h + w + 1))%Z ->
  exists ov e, one p 0 (length p) b0 ty = Ok (ov, e) /\ means b0 ty body (add ov []) e.
Proof.
  intros p B L. assert (Ew : length body = 0 -> w = 0%Z).
  { intros E. unfold p in L. cbn [length] in L. rewrite E in L. unfold p in B. do 2 apply Forall_inv_tail in B. pose proof (Forall_inv B) as Bh. apply Forall_inv_tail, Forall_inv in B. unfold byte_ok in *. lia. }
  assert (Lp : length p = 4 + length body) by reflexivity. unfold one. cbn [Nat.add].
  assert (Sp : sub p 0 (length p) = Ok p). { unfold sub. destruct (Nat.ltb_spec (length p) 0); [lia|]. rewrite Nat.ltb_irrefl. cbn [skipn]. rewrite Nat.sub_0_r, firstn_all. reflexivity. }
  rewrite Sp. cbn [bind]. assert (R0 : rd p 0 = Ok b0) by reflexivity. assert (R1 : rd p 1 = Ok ty) by reflexivity. assert (R2 : r16 p 2 = Ok (be16 h w)) by reflexivity.
  assert (Eb : len_bytes (be16 h w) = length p) by (unfold len_bytes, be16; lia).
  assert (Bh : bytes_ok p) by exact B.
  unfold RTCP_SR, RTCP_RR, RTCP_SDES, RTCP_BYE, RTCP_XR.
  destruct (Z.eqb_spec ty 200) as [E200|E200]; [|destruct (Z.eqb_spec ty 201) as [E201|E201]]; cbn [orb].
  1,2: unfold remove_padding.
  - pose proof (pad_facts b0 ty h w body 0 Ew) as PF; cbv zeta in PF; fold p in PF; destruct PF as [[-> Pl]|(-> & pad & I & [[Q Pl]|(Q & Sb & Pl)])]; cbn [bind].
    + unfold check_sr. rewrite R0. cbn [bind]. rewrite counter_count. destruct (Nat.leb_spec (28 + count b0 * 24) (length p)) as [H|H]; cbn [read_packet].
      * unfold p. rewrite sr_mean by (assumption || lia). cbn [bind]. eexists _, _. split; [reflexivity|]. apply (M_sr b0 ty body body); [exact E200|exact Pl|lia].
      * eexists _, _. split; [reflexivity|]. apply (M_sr_short b0 ty body body); [exact E200|exact Pl|lia].
    + rewrite I. cbn [bind]. replace ((Z.to_nat pad <? 1) || (length p - 4 <? Z.to_nat pad)) with true.
      2:{ symmetry. apply Bool.orb_true_iff. destruct Q; [left|right]; apply Nat.ltb_lt; lia. }
      cbn [bind]. eexists _, _. split; [reflexivity|]. apply M_badpad; auto.
    + rewrite I. cbn [bind]. replace ((Z.to_nat pad <? 1) || (length p - 4 <? Z.to_nat pad)) with false.
      2:{ symmetry. apply Bool.orb_false_iff. split; apply Nat.ltb_ge; lia. }
      rewrite Sb. cbn [bind]. set (pl := firstn (length body - Z.to_nat pad) body) in *. pose proof (firstn_ok (length body - Z.to_nat pad) _ _ _ _ _ B) as Bp. fold pl in Bp. clearbody pl.
      unfold check_sr. replace (rd (b0 :: ty :: h :: w :: pl) 0) with (Ok b0) by reflexivity. cbn [bind]. rewrite counter_count. cbn [length]. destruct (Nat.leb_spec (28 + count b0 * 24) (S (S (S (S (length pl)))))) as [H|H]; cbn [read_packet].
      * rewrite sr_mean by (assumption || lia). cbn [bind]. eexists _, _. split; [reflexivity|]. apply (M_sr b0 ty body pl); [exact E200|exact Pl|lia].
      * eexists _, _. split; [reflexivity|]. apply (M_sr_short b0 ty body pl); [exact E200|exact Pl|lia].
  - pose proof (pad_facts b0 ty h w body 0 Ew) as PF; cbv zeta in PF; fold p in PF; destruct PF as [[-> Pl]|(-> & pad & I & [[Q Pl]|(Q & Sb & Pl)])]; cbn [bind].
    + unfold check_rr. rewrite R0. cbn [bind]. rewrite counter_count. destruct (Nat.leb_spec (8 + count b0 * 24) (length p)) as [H|H]; cbn [read_packet].
      * unfold p. rewrite rr_mean by (assumption || lia). cbn [bind]. eexists _, _. split; [reflexivity|]. apply (M_rr b0 ty body body); [exact E201|exact Pl|lia].
      * eexists _, _. split; [reflexivity|]. apply (M_rr_short b0 ty body body); [exact E201|exact Pl|lia].
    + rewrite I. cbn [bind]. replace ((Z.to_nat pad <? 1) || (length p - 4 <? Z.to_nat pad)) with true.
      2:{ symmetry. apply Bool.orb_true_iff. destruct Q; [left|right]; apply Nat.ltb_lt; lia. }
      cbn [bind]. eexists _, _. split; [reflexivity|]. apply M_badpad; auto.
    + rewrite I. cbn [bind]. replace ((Z.to_nat pad <? 1) || (length p - 4 <? Z.to_nat pad)) with false.
      2:{ symmetry. apply Bool.orb_false_iff. split; apply Nat.ltb_ge; lia. }
      rewrite Sb. cbn [bind]. set (pl := firstn (length body - Z.to_nat pad) body) in *. pose proof (firstn_ok (length body - Z.to_nat pad) _ _ _ _ _ B) as Bp. fold pl in Bp. clearbody pl.
      unfold check_rr. replace (rd (b0 :: ty :: h :: w :: pl) 0) with (Ok b0) by reflexivity. cbn [bind]. rewrite counter_count. cbn [length]. destruct (Nat.leb_spec (8 + count b0 * 24) (S (S (S (S (length pl)))))) as [H|H]; cbn [read_packet].
      * rewrite rr_mean by (assumption || lia). cbn [bind]. eexists _, _. split; [reflexivity|]. apply (M_rr b0 ty body pl); [exact E201|exact Pl|lia].
      * eexists _, _. split; [reflexivity|]. apply (M_rr_short b0 ty body pl); [exact E201|exact Pl|lia].
  - pose proof (count_lt b0) as C31. destruct (Z.eqb_spec ty 202) as [E|E]; [|destruct (Z.eqb_spec ty 203) as [E3|E3]; [|destruct (Z.eqb_spec ty 207) as [E7|E7]]]; cbn [read_packet].
    + unfold read_sdes, sdes_parse. destruct (Nat.ltb_spec (length p) 4); [lia|]. rewrite R0, R1, R2. cbn [bind]. unfold RTCP_SDES. replace (negb (ty =? 202)%Z) with false by (rewrite E; reflexivity). rewrite Eb, Nat.ltb_irrefl, counter_count.
      destruct (Nat.ltb_spec 31 (count b0)); [lia|]. pose proof (pad_facts b0 ty h w body 0 Ew) as PF; cbv zeta in PF; fold p in PF; destruct PF as [[-> Pl]|(-> & pad & I & [[Q Pl]|(Q & Sb & Pl)])]; cbn [bind].
      * destruct (sdes_mean b0 ty h w body (count b0) B) as (vs & e & W & M). fold p in W. rewrite W. cbn [bind fst snd]. eexists _, _. split; [reflexivity|]. apply (M_sdes b0 ty body body); assumption.
      * rewrite I. cbn [bind]. replace ((Z.to_nat pad <? 1) || (length p - 4 <? Z.to_nat pad)) with true.
        2:{ symmetry. apply Bool.orb_true_iff. destruct Q; [left|right]; apply Nat.ltb_lt; lia. }
        cbn [bind]. eexists _, _. split; [reflexivity|]. apply M_sdes_bad; auto.
      * rewrite I. cbn [bind]. replace ((Z.to_nat pad <? 1) || (length p - 4 <? Z.to_nat pad)) with false.
        2:{ symmetry. apply Bool.orb_false_iff. split; apply Nat.ltb_ge; lia. }
        rewrite Sb. cbn [bind]. set (pl := firstn (length body - Z.to_nat pad) body) in *. pose proof (firstn_ok (length body - Z.to_nat pad) _ _ _ _ _ B) as Bp. fold pl in Bp. clearbody pl.
        destruct (sdes_mean b0 ty h w pl (count b0) Bp) as (vs & e & W & M). rewrite W. cbn [bind fst snd]. eexists _, _. split; [reflexivity|]. apply (M_sdes b0 ty body pl); assumption.
    + unfold read_bye, bye_parse. destruct (Nat.ltb_spec (length p) 4); [lia|]. rewrite R0, R1, R2. cbn [bind]. unfold RTCP_BYE. replace (negb (ty =? 203)%Z) with false by (rewrite E3; reflexivity). rewrite Eb, Nat.ltb_irrefl, counter_count.
      destruct (Nat.ltb_spec 31 (count b0)); [lia|]. pose proof (pad_facts b0 ty h w body 0 Ew) as PF; cbv zeta in PF; fold p in PF; destruct PF as [[-> Pl]|(-> & pad & I & [[Q Pl]|(Q & Sb & Pl)])]; cbn [bind].
      * destruct (bye_mean b0 ty h w body (count b0) B) as (vs & e & W & M). fold p in W. rewrite W. cbn [bind fst snd]. eexists _, _. split; [reflexivity|]. apply (M_bye b0 ty body body); assumption.
      * rewrite I. cbn [bind]. replace ((Z.to_nat pad <? 1) || (length p - 4 <? Z.to_nat pad)) with true.
        2:{ symmetry. apply Bool.orb_true_iff. destruct Q; [left|right]; apply Nat.ltb_lt; lia. }
        cbn [bind]. eexists _, _. split; [reflexivity|]. apply M_bye_bad; auto.
      * rewrite I. cbn [bind]. replace ((Z.to_nat pad <? 1) || (length p - 4 <? Z.to_nat pad)) with false.
        2:{ symmetry. apply Bool.orb_false_iff. split; apply Nat.ltb_ge; lia. }
        rewrite Sb. cbn [bind]. set (pl := firstn (length body - Z.to_nat pad) body) in *. pose proof (firstn_ok (length body - Z.to_nat pad) _ _ _ _ _ B) as Bp. fold pl in Bp. clearbody pl.
        destruct (bye_mean b0 ty h w pl (count b0) Bp) as (vs & e & W & M). rewrite W. cbn [bind fst snd]. eexists _, _. split; [reflexivity|]. apply (M_bye b0 ty body pl); assumption.
    + unfold read_xr, xr_parse. destruct (Nat.ltb_spec (length p) 8) as [H8|H8].
      { cbn [bind]. eexists _, _. split; [reflexivity|]. apply M_xr_bad; [exact E7|left; lia]. }
      rewrite R0, R1, R2. cbn [bind]. unfold RTCP_XR. replace (negb (ty =? 207)%Z) with false by (rewrite E7; reflexivity). rewrite Eb, Nat.ltb_irrefl.
      pose proof (pad_facts b0 ty h w body 4 Ew) as PF; cbv zeta in PF; fold p in PF; destruct PF as [[-> Pl]|(-> & pad & I & [[Q Pl]|(Q & Sb & Pl)])]; cbn [bind].
      * destruct (x_count_any p B ltac:(lia)) as [n Ec]. rewrite Ec. cbn [bind]. assert (E0 : r32 p 4 = Ok (fld body 0 4)) by (apply (fld_r32 p 4 body [] 0); [rewrite app_nil_r; exists [b0; ty; h; w]; split; reflexivity|lia]). rewrite E0. cbn [bind].
        destruct (xr_mean b0 ty h w body B ltac:(lia)) as (vs & e & W & M). fold p in W. rewrite W. cbn [bind fst snd]. eexists _, _. split; [reflexivity|]. apply (M_xr b0 ty body body); try assumption; lia.
      * rewrite I. cbn [bind]. replace ((Z.to_nat pad <? 1) || ((8 <=? length p) && (length p - 8 <? Z.to_nat pad))) with true.
        2:{ symmetry. apply Bool.orb_true_iff. destruct Q; [left; apply Nat.ltb_lt; lia|right]. apply Bool.andb_true_iff. split; [apply Nat.leb_le|apply Nat.ltb_lt]; lia. }
        cbn [bind]. eexists _, _. split; [reflexivity|]. apply M_xr_bad; auto.
      * rewrite I. cbn [bind]. replace ((Z.to_nat pad <? 1) || ((8 <=? length p) && (length p - 8 <? Z.to_nat pad))) with false.
        2:{ symmetry. apply Bool.orb_false_iff. split; [apply Nat.ltb_ge; lia|]. apply Bool.andb_false_iff. right. apply Nat.ltb_ge. lia. }
        destruct (Nat.ltb_spec (length p) (Z.to_nat pad)); [lia|]. rewrite Sb. cbn [bind]. assert (Lpl : length (firstn (length body - Z.to_nat pad) body) = length body - Z.to_nat pad) by (rewrite firstn_length; lia).
        set (pl := firstn (length body - Z.to_nat pad) body) in *. pose proof (firstn_ok (length body - Z.to_nat pad) _ _ _ _ _ B) as Bp. fold pl in Bp. clearbody pl.
        destruct (x_count_any _ Bp ltac:(cbn [length]; lia)) as [n Ec]. rewrite Ec. cbn [bind]. assert (E0 : r32 (b0 :: ty :: h :: w :: pl) 4 = Ok (fld pl 0 4)) by (apply (fld_r32 (b0 :: ty :: h :: w :: pl) 4 pl [] 0); [rewrite app_nil_r; exists [b0; ty; h; w]; split; reflexivity|lia]). rewrite E0. cbn [bind].
        destruct (xr_mean b0 ty h w pl Bp ltac:(lia)) as (vs & e & W & M). rewrite W. cbn [bind fst snd]. eexists _, _. split; [reflexivity|]. apply (M_xr b0 ty body pl); try assumption; lia.
    + eexists _, _. split; [reflexivity|]. apply M_other. cbn. intros [X|[X|[X|[X|[X|[]]]]]]; lia.
Qed.

(** *** The meaning is unique *)
Scheme chunks_mut := Induction for chunks Sort Prop with items_mut := Induction for items Sort Prop.
Lemma split_len {A} (a b a' b' : list A) : a ++ b = a' ++ b' -> length a = length a' -> a = a' /\ b = b'.
Proof. revert a'. induction a as [|x a IH]; intros [|y a'] E L; try discriminate L; [split; [reflexivity|exact E]|]. cbn in *. injection E as -> E. injection L as L. destruct (IH _ E L) as [-> ->]. auto. Qed.
Lemma chunks_det n bs vs e : chunks n bs vs e -> forall vs' e', chunks n bs vs' e' -> vs' = vs /\ e' = e.
Proof.
  intros H. induction H using chunks_mut with (P := fun n bs vs e (_ : chunks n bs vs e) => forall vs' e', chunks n bs vs' e' -> vs' = vs /\ e' = e)
    (P0 := fun n k bs vs e (_ : items n k bs vs e) => forall vs' e', items n k bs vs' e' -> vs' = vs /\ e' = e); intros vs' e' H'; inversion H'; subst; auto; try (cbn [length] in *; lia); try contradiction.
  - match goal with IH : forall vs e, items _ _ _ vs e -> _, X : items _ _ _ _ _ |- _ => destruct (IH _ _ X) as [-> ->] end. auto.
  - rewrite app_length in *. lia.
  - rewrite app_length in *. lia.
  - assert (L : length text0 = length text) by lia. match goal with E : text0 ++ _ = text ++ _ |- _ => destruct (split_len _ _ _ _ E L) as [-> ->] end.
    match goal with IH : forall vs e, items _ _ _ vs e -> _, X : items _ _ _ ?v ?r |- (_ :: ?v = _) /\ _ => destruct (IH _ _ X) as [-> ->] end. auto.
Qed.
Lemma leaving_det n bs vs e : leaving n bs vs e -> forall vs' e', leaving n bs vs' e' -> vs' = vs /\ e' = e.
Proof.
  induction 1; intros vs' e' H'; inversion H'; subst; auto; try (cbn [length] in *; lia); try (rewrite app_length in *; lia).
  - assert (L : length text0 = length text) by lia. match goal with E : text0 ++ _ = text ++ _ |- _ => destruct (split_len _ _ _ _ E L) as [-> ->] end. auto.
  - match goal with IH : forall vs e, leaving _ _ vs e -> _, X : leaving _ _ ?v _ |- (_ :: ?v = _) /\ _ => destruct (IH _ _ X) as [-> ->] end. auto.
Qed.
Lemma blocks_det bs vs e : blocks bs vs e -> forall vs' e', blocks bs vs' e' -> vs' = vs /\ e' = e.
Proof.
  induction 1; intros vs' e' H'; inversion H'; subst; auto; try contradiction; try (cbn [length] in *; lia); try (rewrite app_length in *; lia).
  all: match goal with E : ?a ++ _ = ?b ++ _, L1 : Z.of_nat (length ?a) = _, L2 : Z.of_nat (length ?b) = _ |- _ => assert (L : length a = length b) by lia; destruct (split_len _ _ _ _ E L) as [-> ->] end; try congruence.
  all: match goal with IH : forall vs e, blocks ?r vs e -> _, X : blocks ?r ?v _ |- _ => destruct (IH _ _ X) as [-> ->] end; auto.
  all: match goal with A : block_view ?t ?f ?b = Some (Some ?x), B : block_view ?t ?f ?b = Some (Some ?y) |- _ => assert (x = y) by congruence; subst end; auto.
Qed.
Lemma means_det b0 ty body vs e : means b0 ty body vs e -> forall vs' e', means b0 ty body vs' e' -> vs' = vs /\ e' = e.
Proof.
  assert (K : forall t, In t [200; 201; 202; 203; 207]%Z -> ~ ~ In t [200; 201; 202; 203; 207]%Z) by tauto.
  intros H vs' e' H'. inversion H; subst; inversion H'; subst; auto; try congruence; try lia; try (exfalso; cbn in *; tauto || lia).
  all: try match goal with A : payload ?b ?c ?m = Some ?x, B : payload ?b ?c ?m = Some ?y |- _ => assert (x = y) by congruence; subst end; auto; try lia.
  all: try (exfalso; match goal with A : ~ In _ _ |- _ => apply A; cbn; tauto end).
  all: try (exfalso; match goal with A : _ \/ _ |- _ => destruct A; [lia|congruence] end).
  - match goal with A : chunks _ _ _ _, B : chunks _ _ _ _ |- _ => destruct (chunks_det _ _ _ _ A _ _ B) as [E1 E2] end. subst. auto.
  - match goal with A : leaving _ _ _ _, B : leaving _ _ _ _ |- _ => destruct (leaving_det _ _ _ _ A _ _ B) as [E1 E2] end. subst. auto.
  - match goal with A : blocks _ _ _, B : blocks _ _ _ |- _ => destruct (blocks_det _ _ _ A _ _ B) as [E1 E2] end. subst. auto.
Qed.
