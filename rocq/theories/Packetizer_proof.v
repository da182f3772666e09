From Verif Require Import Base Base_lemmas Packetizer_model Packetizer_spec.

Lemma cut_fuel : forall {A} n, (0 < n)%nat -> forall f g (l : list A), (length l <= f)%nat -> (length l <= g)%nat -> cut f n l = cut g n l.
Proof.
  intros A n N. induction f as [|f IH]; intros g l F G.
  - destruct l; [destruct g; reflexivity|cbn in F; lia].
  - destruct l as [|x l]; [destruct g; reflexivity|]. destruct g as [|g]; [cbn in G; lia|]. cbn [cut]. f_equal. cbn in F, G.
    apply IH; rewrite skipn_length; cbn [length]; lia.
Qed.
Lemma cut_app : forall {A} n, (0 < n)%nat -> forall q (l1 l2 : list A), length l1 = (q * n)%nat ->
  cut (length (l1 ++ l2)) n (l1 ++ l2) = cut (length l1) n l1 ++ cut (length l2) n l2.
Proof.
  intros A n N. induction q as [|q IH]; intros l1 l2 L.
  - destruct l1; [|cbn in L; lia]. reflexivity.
  - assert (E1 : length l1 = (n + q * n)%nat) by (cbn in L; lia).
    destruct l1 as [|x l1]; [cbn in E1; lia|].
    assert (U : forall f (y : A) r, cut (S f) n (y :: r) = firstn n (y :: r) :: cut f n (skipn n (y :: r))) by reflexivity.
    cbn [app length]. rewrite !U. cbn [app]. change (x :: l1 ++ l2) with ((x :: l1) ++ l2).
    rewrite firstn_app, skipn_app. replace (n - length (x :: l1))%nat with 0%nat by lia. cbn [firstn skipn]. rewrite app_nil_r. f_equal.
    specialize (IH (skipn n (x :: l1)) l2). rewrite skipn_length in IH. specialize (IH ltac:(lia)).
    rewrite (cut_fuel n N (length l1) (length (x :: l1) - n)%nat (skipn n (x :: l1))) by (rewrite ?skipn_length; cbn [length] in *; lia).
    rewrite <- IH. apply cut_fuel; auto; rewrite ?app_length, ?skipn_length; cbn [length] in *; rewrite ?app_length; lia.
Qed.
Lemma cut_one : forall {A} n (l : list A), l <> [] -> (length l <= n)%nat -> cut (length l) n l = [l].
Proof.
  intros A n l NE L. destruct l as [|x l]; [congruence|]. cbn [length cut]. rewrite firstn_all2 by auto. rewrite skipn_all2 by auto.
  destruct (length l); reflexivity.
Qed.

Section Env.
Variable e : pz_env.
Hypothesis EO : env_ok e.
Notation spp := (pz_spp e).
Notation nch := (pz_nch e).
Notation c := (per_packet e).

Definition rest (cur : list lsample) : list lsample := skipn (full_part e cur) cur.

Lemma nch_pos : (0 < nch)%nat. Proof. apply EO. Qed.
Lemma spp_pos : (0 < spp)%nat. Proof. apply EO. Qed.
Lemma c_pos : (0 < c)%nat. Proof. unfold per_packet. pose proof nch_pos. pose proof spp_pos. nia. Qed.

Lemma full_part_eq : forall cur t, length cur = (t * nch)%nat -> full_part e cur = (t / spp * c)%nat.
Proof.
  intros cur t H. unfold full_part. rewrite H. unfold per_packet. f_equal.
  pose proof nch_pos. apply Nat.div_mul_cancel_r; [pose proof spp_pos; lia|lia].
Qed.
Lemma rest_len : forall cur t, length cur = (t * nch)%nat -> length (rest cur) = (t mod spp * nch)%nat.
Proof.
  intros cur t H. unfold rest. rewrite skipn_length, (full_part_eq cur t H), H. unfold per_packet.
  pose proof (Nat.div_mod t spp ltac:(pose proof spp_pos; lia)) as D. rewrite D at 1. nia.
Qed.
Lemma full_le : forall cur, (full_part e cur <= length cur)%nat.
Proof. intros. unfold full_part. pose proof c_pos. pose proof (Nat.mul_div_le (length cur) (per_packet e) ltac:(lia)). lia. Qed.
Lemma split_cur : forall cur, cur = firstn (full_part e cur) cur ++ rest cur.
Proof. intros. unfold rest. now rewrite firstn_skipn. Qed.
Lemma len_full : forall cur, length (firstn (full_part e cur) cur) = (length cur / per_packet e * c)%nat.
Proof. intros. rewrite firstn_length, Nat.min_l by apply full_le. reflexivity. Qed.

Lemma rest_lt : forall cur, (length (rest cur) < c)%nat.
Proof.
  intros. unfold rest. rewrite skipn_length. unfold full_part. pose proof c_pos as P.
  pose proof (Nat.div_mod (length cur) c ltac:(lia)) as D. pose proof (Nat.mod_upper_bound (length cur) c ltac:(lia)). lia.
Qed.

Lemma all_split : forall cur, all_packets e cur = full_packets e cur ++ match rest cur with [] => [] | _ => [packet_of e (rest cur)] end.
Proof.
  intros. unfold full_packets, all_packets. rewrite (split_cur cur) at 1 2.
  rewrite (cut_app (per_packet e) c_pos _ _ _ (len_full cur)), map_app. f_equal.
  destruct (rest cur) as [|x r] eqn:E; [reflexivity|]. rewrite cut_one; [reflexivity|discriminate|]. rewrite <- E. pose proof (rest_lt cur). lia.
Qed.

(** Appending to the stream. *)
Lemma app_small : forall cur x, (length (rest cur ++ x) < c)%nat -> full_packets e (cur ++ x) = full_packets e cur /\ rest (cur ++ x) = rest cur ++ x.
Proof.
  intros cur x H. assert (F : full_part e (cur ++ x) = full_part e cur).
  { unfold full_part. f_equal. rewrite app_length. pose proof (f_equal (@length _) (split_cur cur)) as L. rewrite app_length, len_full in L.
    rewrite app_length in H. symmetry. pose proof c_pos.
    apply Nat.div_unique with (r := (length (rest cur) + length x)%nat); [lia|]. lia. }
  split.
  - unfold full_packets. rewrite F. f_equal. rewrite firstn_app. replace (full_part e cur - length cur)%nat with 0%nat by (pose proof (full_le cur); lia).
    cbn [firstn]. apply app_nil_r.
  - unfold rest at 1. rewrite F, skipn_app. replace (full_part e cur - length cur)%nat with 0%nat by (pose proof (full_le cur); lia). reflexivity.
Qed.
Lemma app_full : forall cur x, length (rest cur ++ x) = c -> full_packets e (cur ++ x) = full_packets e cur ++ [packet_of e (rest cur ++ x)] /\ rest (cur ++ x) = [].
Proof.
  intros cur x H. pose proof c_pos as P. assert (F : full_part e (cur ++ x) = length (cur ++ x)).
  { unfold full_part. pose proof (f_equal (@length _) (split_cur cur)) as L. rewrite app_length, len_full in L.
    rewrite app_length in *.
    replace (length cur + length x)%nat with ((length cur / c + 1) * c)%nat by nia. rewrite Nat.div_mul by lia. reflexivity. }
  split.
  - unfold full_packets. rewrite F, firstn_all. unfold all_packets. rewrite (split_cur cur) at 1 2. rewrite <- !app_assoc.
    rewrite (cut_app (per_packet e) c_pos _ _ _ (len_full cur)), map_app. f_equal.
    rewrite cut_one; [reflexivity| |lia]. intros X. rewrite X in H. cbn in H. lia.
  - unfold rest. rewrite F. apply skipn_all.
Qed.

(** State [s] stands for the packets [done] followed by the stream [cur]. *)
Record rep (s : pz) (done : list pz_pkt) (cur : list lsample) : Prop := {
  r_out : pz_out s = done ++ full_packets e cur;
  r_open : pz_open s = match rest cur with [] => None | l => Some (map fst l) end;
  r_pos : (pz_pos s * nch = length (rest cur))%nat;
  r_cts : match rest cur with [] => True | p :: _ => pz_pcts s = snd p end;
  r_cnt : pz_pcount s = Z.of_nat (length (pz_out s));
  r_pay : pz_paycount s = fold_right (fun p n => pz_bytes e (pk_dur p) + n) 0 (pz_out s) }.

Lemma rep_new : rep pz_new [] [].
Proof.
  assert (R : rest [] = []) by (unfold rest; apply skipn_nil).
  constructor; rewrite ?R; cbn; auto. unfold full_packets. rewrite firstn_nil. reflexivity.
Qed.

Lemma pay_snoc : forall l p, fold_right (fun q n => pz_bytes e (pk_dur q) + n) 0 (l ++ [p]) = fold_right (fun q n => pz_bytes e (pk_dur q) + n) 0 l + pz_bytes e (pk_dur p).
Proof. induction l as [|a l IH]; intros p; cbn; [lia|]. rewrite IH. lia. Qed.

Lemma end_spec : forall s smp pos pcts cts tries out a b l, pos = (length l / nch)%nat -> (pos <= spp)%nat -> l <> [] -> smp = map fst l -> pcts = match l with [] => 0 | p :: _ => snd p end ->
  s = mkPz (Some smp) pos pcts cts tries out a b ->
  pz_end e s smp = Ok (mkPz None 0 0 cts tries (out ++ [packet_of e l]) (a + 1) (b + pz_bytes e pos)).
Proof.
  intros s smp pos pcts cts tries out a b l P L NE S C ->. unfold pz_end. cbn [pz_pos pz_cts pz_tries pz_out pz_pcount pz_paycount pz_pcts].
  assert (M : pz_bytes e pos <= pz_psize e) by (apply (eo_bytes e EO); auto).
  replace (pz_psize e <? pz_bytes e pos) with false by lia.
  assert (X : mkPzPkt smp pcts pos (pz_psize e - pz_bytes e pos) = packet_of e l) by (unfold packet_of; rewrite S, C, P; reflexivity).
  rewrite <- X.
  destruct (Nat.ltb_spec pos (pz_spp e)).
  - destruct (Z.eqb_spec (pz_bytes e pos) (pz_psize e)) as [E|E]; cbn [bind].
    + rewrite E, Z.sub_diag. reflexivity.
    + rewrite (eo_pad e EO) by lia. reflexivity.
  - cbn [bind]. replace pos with (pz_spp e) by lia. unfold pz_psize. rewrite Z.sub_diag. reflexivity.
Qed.

Lemma put_spec : forall s done cur (x : list lsample) buf n k smp t,
  (s = mkPz (Some smp) (pz_pos s) (pz_pcts s) (pz_cts s) (pz_tries s) (pz_out s) (pz_pcount s) (pz_paycount s)) ->
  smp = map fst (rest cur) -> (pz_pos s * nch = length (rest cur))%nat -> pz_out s = done ++ full_packets e cur ->
  length cur = (t * nch)%nat ->
  pz_pcount s = Z.of_nat (length (pz_out s)) -> pz_paycount s = fold_right (fun p n => pz_bytes e (pk_dur p) + n) 0 (pz_out s) ->
  (match rest cur with [] => (match x with [] => 0 | p :: _ => snd p end) | p :: _ => snd p end) = pz_pcts s ->
  k = Nat.min n (spp - pz_pos s) -> (0 < n)%nat ->
  length x = (k * nch)%nat -> map fst x = firstn (k * nch) buf ->
  exists s', pz_put e s smp buf n = Ok (s', skipn (k * nch) buf, (n - k)%nat) /\ rep s' done (cur ++ x) /\
    pz_cts s' = (if pz_cts s =? 0 then pz_cts s else pz_cts s + pz_ns e k) /\ pz_tries s' = pz_tries s /\
    (pz_open s' = None <-> (pz_pos s + k = spp)%nat).
Proof.
  intros s done cur x buf n k smp t Es S P O T CN CP C K N LX MX.
  pose proof nch_pos as NP. pose proof spp_pos as SP.
  assert (PL : (pz_pos s < spp)%nat) by (pose proof (rest_lt cur) as R; rewrite <- P in R; unfold per_packet in R; nia).
  assert (KP : (0 < k)%nat) by lia. assert (KL : (pz_pos s + k <= spp)%nat) by lia.
  assert (LR : length (rest cur ++ x) = ((pz_pos s + k) * nch)%nat) by (rewrite app_length, LX, <- P; ring).
  assert (NE : rest cur ++ x <> []) by (intros X; rewrite X in LR; cbn in LR; nia).
  assert (SX : smp ++ firstn (k * nch) buf = map fst (rest cur ++ x)) by (rewrite map_app, S, MX; reflexivity).
  assert (CX : pz_pcts s = match rest cur ++ x with [] => 0 | p :: _ => snd p end) by (rewrite <- C; destruct (rest cur); reflexivity).
  unfold pz_put. rewrite <- K.
  set (cts' := if pz_cts s =? 0 then pz_cts s else pz_cts s + pz_ns e k).
  destruct (Nat.eqb_spec (pz_pos s + k) spp) as [E|E].
  - rewrite (end_spec _ _ (pz_pos s + k)%nat (pz_pcts s) cts' (pz_tries s) (pz_out s) (pz_pcount s) (pz_paycount s) (rest cur ++ x));
      [|rewrite LR, Nat.div_mul by lia; reflexivity|lia|exact NE|exact SX|exact CX|reflexivity].
    cbn [bind]. eexists. split; [reflexivity|].
    assert (LC : length (rest cur ++ x) = c) by (rewrite LR, E; reflexivity).
    destruct (app_full cur x LC) as [F R].
    split; [constructor; rewrite ?R; cbn [pz_out pz_open pz_pos pz_pcount pz_paycount]; auto|].
    + rewrite F, O, app_assoc. reflexivity.
    + rewrite app_length. cbn [length]. lia.
    + rewrite pay_snoc, <- CP. cbn [packet_of pk_dur]. rewrite LR, Nat.div_mul by lia. reflexivity.
    + cbn. tauto.
  - cbn [bind]. eexists. split; [reflexivity|].
    assert (LC : (length (rest cur ++ x) < c)%nat) by (rewrite LR; unfold per_packet; nia).
    destruct (app_small cur x LC) as [F R].
    split; [constructor; rewrite ?R; cbn [pz_out pz_open pz_pos pz_pcts pz_pcount pz_paycount]; auto|].
    + now rewrite F.
    + rewrite SX. destruct (rest cur ++ x); [congruence|reflexivity].
    + destruct (rest cur ++ x); [exact I|exact CX].
    + cbn. split; auto. split; auto. split; [discriminate|]. intros; lia.
Qed.

(** Labels. *)
Lemma label_len : forall t l cts, length (label e t l cts) = length l.
Proof. intros. unfold label. rewrite map_length, combine_length, seq_length. lia. Qed.
Lemma label_fst : forall t l cts, map fst (label e t l cts) = l.
Proof.
  intros. unfold label. rewrite map_map. cbn [fst]. generalize 0%nat. induction l as [|x l IH]; intros n; [reflexivity|]. cbn. f_equal. apply IH.
Qed.
Lemma label_nth : forall t l cts i p, nth_error (label e t l cts) i = Some p -> snd p = stamp e cts ((spp - t mod spp) mod spp) (i / nch).
Proof.
  intros t l cts i p H. unfold label in H. rewrite nth_error_map in H.
  destruct (nth_error (combine (seq 0 (length l)) l) i) as [[a b]|] eqn:E; [|discriminate]. injection H as <-. cbn [snd fst].
  assert (A : nth_error (seq 0 (length l)) i = Some a).
  { clear -E. revert E. generalize (seq 0 (length l)) as u. intros u. revert l i. induction u as [|y u IH]; intros [|z l] [|i] E; cbn in *; try discriminate; [injection E; congruence|eauto]. }
  assert (i < length l)%nat by (rewrite <- (seq_length (length l) 0); apply nth_error_Some; congruence).
  rewrite (nth_error_nth' _ 0%nat) in A by (rewrite seq_length; auto). rewrite seq_nth in A by auto. injection A as <-. reflexivity.
Qed.

Lemma hd_skip : forall {A} (l : list A) i d, match skipn i l with [] => d | p :: _ => p end = match nth_error l i with Some p => p | None => d end.
Proof. induction l as [|x l IH]; intros [|i] d; cbn; auto. Qed.

Lemma stamp_pos : forall cts r k, 0 < cts -> 0 < stamp e cts r k.
Proof.
  intros cts r k H. unfold stamp. replace (cts =? 0) with false by lia. pose proof (eo_ns e EO r). pose proof (eo_ns e EO (pz_spp e)).
  assert (A : 0 <= Z.of_nat ((k - r) / pz_spp e) * pz_ns e (pz_spp e)) by (apply Z.mul_nonneg_nonneg; [apply Nat2Z.is_nonneg|auto]). revert A. generalize (Z.of_nat ((k - r) / pz_spp e) * pz_ns e (pz_spp e)) as m. intros. destruct (r =? 0)%nat; lia.
Qed.

Definition all_alloc : Prop := forall i, pz_alloc e i = true.

Lemma firstn_more : forall {A} (l : list A) a b, firstn a l ++ firstn b (skipn a l) = firstn (a + b) l.
Proof. intros A l a. revert l. induction a as [|a IH]; intros l b; [reflexivity|]. destruct l as [|y l]; [cbn; now rewrite firstn_nil|]. cbn. f_equal. apply IH. Qed.

(** One frame: loop invariant. *)
Lemma loop_spec : forall fuel s done cur0 t samples cts j buf n,
  length cur0 = (t * nch)%nat -> (length samples mod nch = 0)%nat -> 0 <= cts ->
  let L := label e t samples cts in let r := ((spp - t mod spp) mod spp)%nat in
  rep s done (cur0 ++ firstn (j * nch) L) -> (j * nch <= length samples)%nat ->
  (pz_open s = None -> pz_cts s = stamp e cts r j /\ (exists q, j = r + q * spp)%nat) ->
  (pz_open s <> None -> (j = 0%nat /\ pz_cts s = cts) \/ n = 0%nat) ->
  buf = skipn (j * nch) samples -> n = (length samples / nch - j)%nat -> (n <= fuel)%nat ->
  exists s' k, pz_loop e fuel s buf n = Ok s' /\ (k * nch <= length samples)%nat /\ (j <= k)%nat /\
    rep s' done (cur0 ++ firstn (k * nch) L) /\ (all_alloc -> (k * nch = length samples)%nat).
Proof.
  intros fuel. induction fuel as [|fuel IH]; intros s done cur0 t samples cts j buf n T SM CT L r R J ON OS B Nn F.
  - assert (n = 0%nat) by lia. subst n. rewrite H. cbn [pz_loop Nat.eqb]. exists s, j. split; auto. split; auto. split; auto. split; auto. intros _.
    pose proof nch_pos. pose proof (Nat.div_mod (length samples) nch ltac:(lia)). nia.
  - pose proof nch_pos as NP. pose proof spp_pos as SP.
    pose proof (Nat.div_mod (length samples) nch ltac:(lia)) as DM. rewrite SM, Nat.add_0_r in DM.
    cbn [pz_loop]. destruct (Nat.eqb_spec n 0) as [E|E].
    { exists s, j. split; auto. split; auto. split; auto. split; auto. intros _. nia. }
    set (cur := cur0 ++ firstn (j * nch) L) in *.
    assert (LL : length L = length samples) by apply label_len.
    assert (LC : length cur = ((t + j) * nch)%nat) by (unfold cur; rewrite app_length, firstn_length, LL, Nat.min_l; lia).
    assert (STEP : forall s1 smp k, s1 = mkPz (Some smp) (pz_pos s1) (pz_pcts s1) (pz_cts s1) (pz_tries s1) (pz_out s1) (pz_pcount s1) (pz_paycount s1) ->
      smp = map fst (rest cur) -> (pz_pos s1 * nch = length (rest cur))%nat -> pz_out s1 = pz_out s ->
      pz_pcount s1 = pz_pcount s -> pz_paycount s1 = pz_paycount s -> pz_cts s1 = pz_cts s ->
      (match rest cur with [] => stamp e cts r j | p :: _ => snd p end) = pz_pcts s1 ->
      k = Nat.min n (spp - pz_pos s1) ->
      exists s', pz_put e s1 smp buf n = Ok (s', skipn (k * nch) buf, (n - k)%nat) /\
        exists s2 k2, pz_loop e fuel s' (skipn (k * nch) buf) (n - k) = Ok s2 /\ (k2 * nch <= length samples)%nat /\ (j <= k2)%nat /\
          rep s2 done (cur0 ++ firstn (k2 * nch) L) /\ (all_alloc -> (k2 * nch = length samples)%nat)).
    { intros s1 smp k Es S P O C1 C2 C3 Cc K.
      set (x := firstn (k * nch) (skipn (j * nch) L)).
      assert (LX : length x = (k * nch)%nat) by (unfold x; rewrite firstn_length, skipn_length, LL; nia).
      assert (MX : map fst x = firstn (k * nch) buf) by (unfold x; rewrite B, <- firstn_map, <- skipn_map; f_equal; unfold L; now rewrite label_fst).
      assert (PL : (pz_pos s1 < spp)%nat) by (pose proof (rest_lt cur) as Rl; rewrite <- P in Rl; unfold per_packet in Rl; nia).
      assert (PM : pz_pos s1 = ((t + j) mod spp)%nat).
      { pose proof (rest_len cur (t + j) LC) as RL. rewrite <- P in RL. nia. }
      assert (Cx : match rest cur with [] => match x with [] => 0 | p :: _ => snd p end | p :: _ => snd p end = pz_pcts s1).
      { rewrite <- Cc. destruct (rest cur) eqn:ER; auto. unfold x.
        destruct (nth_error L (j * nch)) as [p|] eqn:Ep; [|apply nth_error_None in Ep; rewrite LL in Ep; nia].
        pose proof (hd_skip L (j * nch) p) as HS. rewrite Ep in HS. destruct (skipn (j * nch) L) as [|y l'] eqn:Esk.
        - apply (f_equal (@length _)) in Esk. rewrite skipn_length, LL in Esk. cbn in Esk. nia.
        - subst y. assert (0 < k)%nat by lia. destruct (k * nch)%nat eqn:Ek; [nia|]. cbn [firstn].
          rewrite (label_nth t samples cts _ p Ep). rewrite Nat.div_mul by lia. reflexivity. }
      destruct (put_spec s1 done cur x buf n k smp (t + j)) as (s' & PE & RP & CT' & TR & OP); auto; try lia; try congruence.
      { rewrite O. apply R. } { rewrite C1, O. apply R. } { rewrite C2, O. apply R. }
      exists s'. split; auto.
      assert (AX : (cur ++ x) = cur0 ++ firstn ((j + k) * nch) L).
      { unfold cur, x. rewrite <- app_assoc. f_equal. rewrite Nat.mul_add_distr_r. apply firstn_more. }
      rewrite AX in RP.
      destruct (IH s' done cur0 t samples cts (j + k)%nat (skipn (k * nch) buf) (n - k)%nat) as (s2 & k2 & A1 & A2 & A3 & A4 & A5); auto; try nia.
      - intros ON'. apply OP in ON'. rewrite CT', C3.
        destruct (pz_open s) as [smp0|] eqn:Eo.
        + destruct (OS ltac:(discriminate)) as [[J0 Cs]|]; [|lia]. subst j. rewrite Nat.add_0_r in PM.
          assert (rest cur <> []) by (pose proof (r_open _ _ _ R) as RO; rewrite Eo in RO; fold cur in RO; intros X; rewrite X in RO; discriminate).
          assert (0 < pz_pos s1)%nat by (destruct (rest cur); [congruence|cbn [length] in P; lia]).
          assert (Er : r = k). { unfold r. rewrite <- PM. rewrite Nat.mod_small by lia. lia. }
          cbn [Nat.add]. split; [|exists 0%nat; fold r; lia]. rewrite Cs. fold r. unfold stamp. rewrite Er, Nat.sub_diag, Nat.div_0_l by lia.
          destruct (Z.eqb_spec cts 0); [auto|]. replace (k =? 0)%nat with false by (symmetry; apply Nat.eqb_neq; lia). lia.
        + destruct (ON eq_refl) as [Cs [q Q]]. fold r in Q, Cs.
          assert (rest cur = []) by (pose proof (r_open _ _ _ R) as RO; rewrite Eo in RO; fold cur in RO; destruct (rest cur); [auto|discriminate]).
          assert (P0 : pz_pos s1 = 0%nat) by (rewrite H in P; cbn in P; nia).
          assert (k = spp) by lia. fold r. split; [|exists (q + 1)%nat; lia].
          rewrite Cs. destruct (Z.eqb_spec cts 0) as [->|CN].
          { unfold stamp. cbn. reflexivity. }
          pose proof (stamp_pos cts r j ltac:(lia)). replace (stamp e cts r j =? 0) with false by lia.
          unfold stamp. replace (cts =? 0) with false by lia.
          replace ((j + k - r) / pz_spp e)%nat with ((j - r) / pz_spp e + 1)%nat; [rewrite H0; lia|].
          replace (j - r)%nat with (q * spp)%nat by lia. replace (j + k - r)%nat with ((q + 1) * spp)%nat by lia. rewrite !Nat.div_mul by lia. reflexivity.
      - intros NO. right. assert (pz_pos s1 + k <> spp)%nat by (intros X; apply NO, OP, X). lia.
      - rewrite B, skipn_skipn. f_equal. lia.
      - exists s2, k2. split; auto. split; auto. split; [lia|]. auto. }
    destruct (pz_open s) as [smp|] eqn:Eo.
    + pose proof (r_open _ _ _ R) as RO. rewrite Eo in RO.
      assert (RN : rest cur <> []) by (intros X; rewrite X in RO; discriminate).
      destruct (STEP s smp (Nat.min n (spp - pz_pos s))) as (s' & PE & s2 & k2 & LE & G); auto.
      * destruct s; cbn in *; congruence.
      * destruct (rest cur) eqn:X; [congruence|]. congruence.
      * apply R.
      * pose proof (r_cts _ _ _ R) as RC. destruct (rest cur); [congruence|auto].
      * rewrite PE. cbn [bind]. rewrite LE. eexists _, _. split; [reflexivity|exact G].
    + destruct (pz_alloc e (pz_tries s)) eqn:A.
      * pose proof (r_open _ _ _ R) as RO. rewrite Eo in RO.
        assert (RN : rest cur = []) by (destruct (rest cur); [auto|discriminate]).
        destruct (ON eq_refl) as [Cs _].
        destruct (STEP (mkPz (Some []) 0 (pz_cts s) (pz_cts s) (S (pz_tries s)) (pz_out s) (pz_pcount s) (pz_paycount s)) [] (Nat.min n (spp - 0))) as (s' & PE & s2 & k2 & LE & G); auto.
        -- now rewrite RN.
        -- rewrite RN. reflexivity.
        -- rewrite RN. cbn [pz_pcts]. fold r in Cs. auto.
        -- rewrite PE. cbn [bind]. rewrite LE. eexists _, _. split; [reflexivity|exact G].
      * eexists _, j. split; [reflexivity|]. split; auto. split; auto. split.
        -- destruct R as [r1 r2 r3 r4 r5 r6]. constructor; cbn [pz_out pz_open pz_pos pz_pcts pz_pcount pz_paycount]; auto. fold cur. rewrite <- r2. auto.
        -- intros X. rewrite X in A. discriminate.
Qed.

Lemma write_spec : forall s done cur t samples cts, rep s done cur -> length cur = (t * nch)%nat ->
  (length samples mod nch = 0)%nat -> 0 <= cts ->
  exists s' k, pz_write e s samples cts = Ok s' /\ (k * nch <= length samples)%nat /\
    rep s' done (cur ++ label e t (firstn (k * nch) samples) cts) /\ (all_alloc -> (k * nch = length samples)%nat).
Proof.
  intros s done cur t samples cts R T SM CT. pose proof nch_pos as NP. pose proof spp_pos as SP. unfold pz_write. rewrite SM. cbn [Nat.eqb negb].
  set (s0 := mkPz _ _ _ _ _ _ _ _).
  destruct (loop_spec (length samples / nch) s0 done cur t samples cts 0 samples (length samples / nch)) as (s' & k & A & B & _ & C & D); auto; try lia.
  - cbn [Nat.mul firstn]. rewrite app_nil_r. destruct R. constructor; auto.
  - intros O. cbn in O. pose proof (r_open _ _ _ R) as RO. rewrite O in RO.
    assert (RN : rest cur = []) by (destruct (rest cur); [auto|discriminate]).
    pose proof (rest_len cur t T) as RL. rewrite RN in RL. cbn in RL.
    assert (t mod spp = 0)%nat by nia. rewrite H, Nat.sub_0_r, Nat.mod_same by lia. split; [|exists 0%nat; lia].
    unfold s0, stamp. cbn [pz_cts]. destruct (Z.eqb_spec cts 0); auto. cbn [Nat.eqb Nat.sub]. rewrite Nat.div_0_l by lia. cbn [Z.of_nat]. lia.
  - exists s', k. split; [exact A|]. split; auto. split; auto.
    replace (label e t (firstn (k * nch) samples) cts) with (firstn (k * nch) (label e t samples cts)); auto.
    unfold label. rewrite firstn_map. f_equal. rewrite firstn_length, Nat.min_l by auto.
    replace (seq 0 (k * nch)) with (firstn (k * nch) (seq 0 (length samples))); [apply combine_firstn|].
    replace (length samples) with (k * nch + (length samples - k * nch))%nat by lia. rewrite seq_app, firstn_app, seq_length, Nat.sub_diag.
    cbn [firstn]. rewrite app_nil_r. apply firstn_all2. rewrite seq_length. lia.
Qed.

Lemma flush_spec : forall s done cur t, rep s done cur -> length cur = (t * nch)%nat ->
  exists s', pz_flush e s = Ok s' /\ rep s' (done ++ all_packets e cur) [].
Proof.
  intros s done cur t R T. pose proof nch_pos as NP. pose proof spp_pos as SP.
  assert (R0 : rest [] = []) by (unfold rest; apply skipn_nil).
  assert (F0 : full_packets e [] = []) by (unfold full_packets; now rewrite firstn_nil).
  unfold pz_flush. rewrite (r_open _ _ _ R). rewrite all_split.
  destruct (rest cur) as [|p l] eqn:E.
  - exists s. split; auto. rewrite app_nil_r. pose proof (r_pos _ _ _ R) as RP. pose proof (r_open _ _ _ R) as RO. rewrite E in RP, RO. constructor; rewrite ?R0, ?F0, ?app_nil_r; try apply R; auto.
  - assert (PL : (pz_pos s < spp)%nat) by (pose proof (rest_lt cur) as Rl; rewrite <- (r_pos _ _ _ R) in Rl; unfold per_packet in Rl; nia).
    pose proof (r_cts _ _ _ R) as RC. rewrite E in RC. pose proof (r_pos _ _ _ R) as RP. rewrite E in RP. pose proof (r_open _ _ _ R) as RO. rewrite E in RO.
    rewrite (end_spec s (map fst (p :: l)) (pz_pos s) (pz_pcts s) (pz_cts s) (pz_tries s) (pz_out s) (pz_pcount s) (pz_paycount s) (p :: l)); auto; try discriminate.
    + eexists. split; [reflexivity|]. constructor; rewrite ?R0, ?F0; cbn [pz_out pz_open pz_pos pz_pcount pz_paycount]; auto.
      * rewrite app_nil_r, (r_out _ _ _ R). now rewrite app_assoc.
      * rewrite app_length, (r_cnt _ _ _ R). cbn [length]. lia.
      * rewrite pay_snoc, (r_pay _ _ _ R). cbn [packet_of pk_dur]. rewrite <- RP, Nat.div_mul by lia. reflexivity.
    + rewrite <- RP, Nat.div_mul by lia. reflexivity.
    + lia.
    + destruct s; cbn in *; congruence.
Qed.

Lemma run_spec : forall ops s done cur t, rep s done cur -> length cur = (t * nch)%nat -> Forall (op_ok e) ops ->
  exists s' ops', pz_run e s ops = Ok s' /\ Forall2 (shorter e) ops' ops /\ (all_alloc -> ops' = ops) /\
    pz_out s' = done ++ expected e cur ops' /\
    pz_pcount s' = Z.of_nat (length (pz_out s')) /\ pz_paycount s' = fold_right (fun p n => pz_bytes e (pk_dur p) + n) 0 (pz_out s').
Proof.
  induction ops as [|op ops IH]; intros s done cur t R T F; cbn [pz_run].
  - exists s, []. split; auto. split; auto. split; auto. split; [apply R|]. split; apply R.
  - inversion F as [|? ? F1 F2]; subst. destruct op as [l cts|].
    + destruct F1 as [SM CT]. destruct (write_spec s done cur t l cts R T SM CT) as (s1 & k & W & K & R1 & A). rewrite W. cbn [bind].
      assert (NP := nch_pos).
      assert (LK : length (firstn (k * nch) l) = (k * nch)%nat) by (rewrite firstn_length; lia).
      destruct (IH s1 done _ (t + k)%nat R1) as (s' & ops' & E1 & E2 & E3 & E4 & E5); auto.
      { rewrite app_length, label_len, T, LK. lia. }
      exists s', (PWrite (firstn (k * nch) l) cts :: ops'). split; auto. split; [constructor; auto; cbn; split; auto; split; [exists (skipn (k * nch) l); now rewrite firstn_skipn|rewrite LK; apply Nat.mod_mul; lia]|].
      split; [intros X; rewrite (E3 X), (A X), firstn_all; reflexivity|]. split; auto.
      cbn [expected]. rewrite T, Nat.div_mul by lia. auto.
    + destruct (flush_spec s done cur t R T) as (s1 & W & R1). rewrite W. cbn [bind].
      destruct (IH s1 _ [] 0%nat R1) as (s' & ops' & E1 & E2 & E3 & E4 & E5); auto.
      exists s', (PFlush :: ops'). split; auto. split; [constructor; auto; exact I|]. split; [intros X; now rewrite (E3 X)|]. split; auto.
      cbn [expected]. rewrite app_assoc. auto.
Qed.

End Env.
