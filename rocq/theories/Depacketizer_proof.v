From Verif Require Import Base Base_lemmas Seqnum_model RtpFilter_proof Depacketizer_model Depacketizer_spec.
Open Scope res_scope.

Lemma diff_is a b d : -2147483648 <= d < 2147483648 -> (d - (a - b)) mod 4294967296 = 0 -> ts_diff a b = d.
Proof.
  intros R M. unfold ts_diff, stream_timestamp_diff. pose proof (s32_range (u32 (a - b))).
  pose proof (s32_mod (u32 (a - b))). pose proof (u32_mod (a - b)). lia.
Qed.
Lemma lt_is a b d : -2147483648 <= d < 2147483648 -> (d - (a - b)) mod 4294967296 = 0 -> ts_lt a b = (d <? 0).
Proof. intros R M. unfold ts_lt, stream_timestamp_lt. change (stream_timestamp_diff a b) with (ts_diff a b). now rewrite (diff_is a b d). Qed.

Lemma u32d x : u32 x = x mod 4294967296.
Proof. reflexivity. Qed.
Lemma u64_small' x : 0 <= x < 2 ^ 63 -> u64 x = x.
Proof. intros H. unfold u64, wrapu. apply Z.mod_small. lia. Qed.

(** Facts about placing a packet. *)
Lemma place_end t p : -2147483648 <= t - pl_end (place t p) < 2147483648.
Proof.
  unfold place, pl_end. cbn [pl_pos pl_smp]. cbv zeta.
  pose proof (s32_range (t - (dp_ts p + Z.of_nat (length (dp_smp p))))). lia.
Qed.
Lemma place_mod t p : (pl_pos (place t p) - dp_ts p) mod 4294967296 = 0.
Proof.
  unfold place. cbn [pl_pos]. cbv zeta. pose proof (s32_mod (t - (dp_ts p + Z.of_nat (length (dp_smp p))))). lia.
Qed.
Lemma place_smp t p : pl_smp (place t p) = dp_smp p. Proof. reflexivity. Qed.

Definition busy (s : dz) : nat := match dz_pkt s with Some _ => 1%nat | None => 0%nat end.

Definition R (s : dz) (y : player) : Prop :=
  dz_q s = py_q y /\ Forall pkt_ok (dz_q s) /\
  match py_t y with
  | None => dz_first s = true /\ dz_pkt s = None /\ py_cur y = None
  | Some t =>
      dz_first s = false /\ dz_ts s = u32 t /\
      match dz_pkt s with
      | None => finished t (py_cur y) = true
      | Some (pos, smp) =>
          exists x, py_cur y = Some x /\ pl_pos x - t < 2147483648 /\ t <= pl_end x /\ 0 < Z.of_nat (length (pl_smp x)) < 2147483648 /\
            ((t < pl_pos x /\ pos = u32 (pl_pos x) /\ smp = pl_smp x) \/
             (pl_pos x <= t /\ pos = u32 t /\ smp = skipn (Z.to_nat (t - pl_pos x)) (pl_smp x)))
      end
  end.

(** * Playing several samples *)
Lemma play_gap k : forall t x q tk la, pl_pos x < pl_end x -> t + Z.of_nat k <= pl_pos x ->
  play k (mkPlayer (Some t) (Some x) q tk la) = (repeat None k, mkPlayer (Some (t + Z.of_nat k)) (Some x) q tk la).
Proof.
  induction k as [|k IH]; intros t x q tk la He Hp.
  - cbn. rewrite Z.add_0_r. reflexivity.
  - cbn [play]. unfold play1. cbn [py_t py_cur finished].
    replace (pl_end x <=? t) with false by lia. cbn [py_t py_cur py_q py_taken py_late sample_at].
    replace (t <? pl_pos x) with true by lia. rewrite IH by lia. cbn [repeat].
    replace (t + 1 + Z.of_nat k) with (t + Z.of_nat (S k)) by lia. reflexivity.
Qed.
Lemma skipn_nth {A} (l : list A) n x : nth_error l n = Some x -> skipn n l = x :: skipn (S n) l.
Proof. revert n. induction l; intros [|n] H; cbn in *; try discriminate; [congruence|]. now apply IHl. Qed.
Lemma play_dec k : forall t x q tk la, pl_pos x <= t -> t + Z.of_nat k <= pl_end x ->
  play k (mkPlayer (Some t) (Some x) q tk la) =
    (map Some (firstn k (skipn (Z.to_nat (t - pl_pos x)) (pl_smp x))), mkPlayer (Some (t + Z.of_nat k)) (Some x) q tk la).
Proof.
  induction k as [|k IH]; intros t x q tk la He Hp.
  - cbn. rewrite Z.add_0_r. reflexivity.
  - cbn [play]. unfold play1. cbn [py_t py_cur finished].
    replace (pl_end x <=? t) with false by lia. cbn [py_t py_cur py_q py_taken py_late sample_at].
    replace (t <? pl_pos x) with false by lia. rewrite IH by lia.
    destruct (nth_error (pl_smp x) (Z.to_nat (t - pl_pos x))) as [v|] eqn:E.
    2:{ apply nth_error_None in E. unfold pl_end in *. lia. }
    rewrite (skipn_nth _ _ _ E). cbn [firstn map].
    replace (Z.to_nat (t + 1 - pl_pos x)) with (S (Z.to_nat (t - pl_pos x))) by lia.
    replace (t + 1 + Z.of_nat k) with (t + Z.of_nat (S k)) by lia. reflexivity.
Qed.
Lemma play_silent k : forall t tk la,
  play k (mkPlayer (Some t) None [] tk la) = (repeat None k, mkPlayer (Some (t + Z.of_nat k)) None [] tk la).
Proof.
  induction k as [|k IH]; intros t tk la.
  - cbn. rewrite Z.add_0_r. reflexivity.
  - cbn [play]. unfold play1. cbn [py_t py_cur finished py_q take py_taken py_late sample_at].
    rewrite IH. cbn [repeat]. replace (t + 1 + Z.of_nat k) with (t + Z.of_nat (S k)) by lia. reflexivity.
Qed.
Lemma play_idle k : forall c tk la, play k (mkPlayer None c [] tk la) = (repeat None k, mkPlayer None c [] tk la).
Proof. induction k as [|k IH]; intros; cbn; [reflexivity|]. rewrite IH. reflexivity. Qed.

Lemma take_done q : forall t tk la, finished t (py_cur (take t q tk la)) = false \/ (py_cur (take t q tk la) = None /\ py_q (take t q tk la) = []).
Proof.
  induction q as [|p q IH]; intros t tk la; cbn [take]; [right; auto|]. cbv zeta.
  destruct (Z.leb_spec (pl_end (place t p)) t); [apply IH|]. left. cbn. lia.
Qed.
Lemma take_t q : forall t tk la, py_t (take t q tk la) = Some t.
Proof. induction q as [|p q IH]; intros; cbn [take]; [reflexivity|]. cbv zeta. destruct (_ <=? _); [apply IH|reflexivity]. Qed.

(** Fetching first changes nothing. *)
Lemma play_take k t c q tk la : finished t c = true -> play (S k) (mkPlayer (Some t) c q tk la) = play (S k) (take t q tk la).
Proof.
  intros F. cbn [play]. unfold play1. cbn [py_t py_cur py_q py_taken py_late]. rewrite F.
  rewrite take_t. destruct (take_done q t tk la) as [D|[D E]].
  - rewrite D. reflexivity.
  - rewrite D, E. cbn [finished take py_cur py_q py_taken py_late sample_at]. reflexivity.
Qed.
Lemma play_first k c p q tk la : play (S k) (mkPlayer None c (p :: q) tk la) = play (S k) (mkPlayer (Some (dp_ts p)) c (p :: q) tk la).
Proof. cbn [play]. unfold play1. cbn [py_t py_cur py_q py_taken py_late]. destruct (finished (dp_ts p) c); reflexivity. Qed.

(** * Fetching *)
Lemma fetch_take q : forall t tk la d, Forall pkt_ok q ->
  let z := take t q tk la in
  exists pk, dz_fetch false (u32 t) q d = (pk, py_q z, (d + (py_late z - la))%nat) /\ (la <= py_late z)%nat /\ (length (py_q z) <= length q)%nat /\ Forall pkt_ok (py_q z) /\
    match pk with
    | None => py_cur z = None /\ py_q z = []
    | Some (pos, smp) => (length (py_q z) < length q)%nat /\ exists x, py_cur z = Some x /\ smp = pl_smp x /\ pos = u32 (pl_pos x) /\
        pl_end x - t <= 2147483648 /\ t < pl_end x /\ 0 < Z.of_nat (length smp) < 2147483648
    end.
Proof.
  induction q as [|p q IH]; intros t tk la d F; cbv zeta; cbn [take dz_fetch].
  - exists None. cbn. replace (d + (la - la))%nat with d by lia. repeat split; auto.
  - cbv zeta. pose proof (Forall_inv F) as [P1 P2]. apply Forall_inv_tail in F.
    pose proof (place_end t p) as PE. pose proof (place_mod t p) as PM.
    set (x := place t p) in *.
    assert (El : pl_end x = pl_pos x + Z.of_nat (length (dp_smp p))) by reflexivity.
    rewrite (lt_is (u32 t) (u32 (dp_ts p + Z.of_nat (length (dp_smp p)))) (t - pl_end x)).
    2:{ lia. } 2:{ rewrite !u32d. lia. }
    destruct (Z.leb_spec (pl_end x) t).
    + replace (t - pl_end x <? 0) with false by lia.
      destruct (IH t (x :: tk) (S la) (S d) F) as (pk & E & L & L2 & L3 & M). exists pk. rewrite E.
      split; [f_equal; lia|]. split; [lia|]. split; [cbn [length]; lia|]. split; [exact L3|].
      destruct pk as [[pos smp]|]; [|exact M]. destruct M as [M1 M2]. split; [cbn [length]; lia|exact M2].
    + replace (t - pl_end x <? 0) with true by lia. cbn [py_q py_late py_cur].
      exists (Some (dp_ts p, dp_smp p)). split; [f_equal; lia|]. split; [lia|]. split; [cbn [length]; lia|]. split; [exact F|].
      split; [cbn [length]; lia|]. exists x. split; [reflexivity|]. split; [reflexivity|]. split.
      { rewrite u32d. change (2 ^ 32) with 4294967296 in P1. lia. }
      change (2 ^ 31) with 2147483648 in P2. lia.
Qed.

Lemma minq a b : Z.min a b =? a = (a <=? b). Proof. lia. Qed.

(** update_packet_: succeeds, and leaves a packet that is not finished. *)
Definition R' (s : dz) (y : player) : Prop := R s y /\ (dz_pkt s = None -> dz_q s = []).
Lemma update_ok s y k : R s y ->
  exists s' d y', dz_update s = Ok (s', d) /\ R' s' y' /\ play (S k) y = play (S k) y' /\
    py_late y' = (py_late y + d)%nat /\ (2 * length (dz_q s') + busy s' <= 2 * length (dz_q s) + busy s)%nat.
Proof.
  intros (Q & F & H). destruct y as [t c q tk la]. cbn [py_q py_t py_cur py_late] in *. subst q.
  unfold dz_update. destruct (dz_pkt s) as [pk|] eqn:Ep.
  - exists s, 0%nat, (mkPlayer t c (dz_q s) tk la). split; [reflexivity|]. split; [|cbn; repeat split; lia].
    split; [|congruence]. split; [reflexivity|]. split; [exact F|]. cbn [py_t py_cur]. rewrite Ep. destruct t; [exact H|]. exact H.
  - destruct t as [t|].
    + destruct H as (H1 & H2 & H3). rewrite H1, H2.
      destruct (fetch_take (dz_q s) t tk la 0 F) as (pk & E & L & L2 & L3 & M). rewrite E.
      set (z := take t (dz_q s) tk la) in *.
      assert (Zt : py_t z = Some t) by apply take_t.
      assert (PT : play (S k) (mkPlayer (Some t) c (dz_q s) tk la) = play (S k) z) by now apply play_take.
      destruct pk as [[pos smp]|].
      * destruct M as (M0 & x & M1 & M2 & M3 & M4 & M5 & M6).
        assert (El : pl_end x = pl_pos x + Z.of_nat (length smp)) by (subst smp; reflexivity).
        rewrite (lt_is pos (u32 t) (pl_pos x - t)). 2:{ lia. } 2:{ rewrite M3, !u32d. lia. }
        rewrite (diff_is (u32 t) pos (t - pl_pos x)). 2:{ lia. } 2:{ rewrite M3, !u32d. lia. }
        destruct (Z.ltb_spec (pl_pos x - t) 0).
        -- rewrite u64_small' by lia. rewrite minq. replace (t - pl_pos x <=? _) with true by lia.
           eexists _, _, z. split; [reflexivity|]. split.
           { split; [|cbn; congruence]. split; [reflexivity|]. split; [exact L3|]. rewrite Zt. cbn [dz_first dz_ts dz_pkt].
             split; [reflexivity|]. split; [reflexivity|]. exists x. split; [exact M1|]. split; [lia|]. split; [lia|].
             split; [rewrite <- M2; lia|]. right. split; [lia|]. split; [rewrite M3, !u32d; lia|]. now rewrite M2. }
           split; [exact PT|]. split; [cbn; lia|]. unfold busy. rewrite Ep. cbn. lia.
        -- eexists _, _, z. split; [reflexivity|]. split.
           { split; [|cbn; congruence]. split; [reflexivity|]. split; [exact L3|]. rewrite Zt. cbn [dz_first dz_ts dz_pkt].
             split; [reflexivity|]. split; [reflexivity|]. exists x. split; [exact M1|]. split; [lia|]. split; [lia|].
             split; [rewrite <- M2; lia|]. destruct (Z.eq_dec t (pl_pos x)) as [e|e].
             - right. split; [lia|]. split; [rewrite M3, e; reflexivity|]. rewrite M2, e, Z.sub_diag. reflexivity.
             - left. split; [lia|]. split; [exact M3|]. exact M2. }
           split; [exact PT|]. split; [cbn; lia|]. unfold busy. rewrite Ep. cbn. lia.
      * destruct M as [M1 M2]. eexists _, _, z. split; [reflexivity|]. split.
        { split; [|cbn; auto]. split; [reflexivity|]. split; [exact L3|]. rewrite Zt. cbn [dz_first dz_ts dz_pkt].
          split; [reflexivity|]. split; [reflexivity|]. rewrite M1. reflexivity. }
        split; [exact PT|]. split; [cbn; lia|]. unfold busy. rewrite Ep. cbn. lia.
    + destruct H as (H1 & _ & H3). subst c. rewrite H1. destruct (dz_q s) as [|p q] eqn:Eq; cbn [dz_fetch].
      * eexists _, _, (mkPlayer None None [] tk la). split; [reflexivity|]. split.
        { split; [|cbn; auto]. split; [reflexivity|]. split; [constructor|]. cbn. auto. }
        split; [reflexivity|]. split; [cbn; lia|]. unfold busy. cbn. lia.
      * pose proof (Forall_inv F) as [P1 P2]. apply Forall_inv_tail in F.
        change (2 ^ 32) with 4294967296 in P1. change (2 ^ 31) with 2147483648 in P2.
        rewrite (lt_is (dp_ts p) (dp_ts p) 0). 2:{ lia. } 2:{ rewrite Z.sub_diag. reflexivity. } cbn [Z.ltb Z.compare].
        assert (Px : place (dp_ts p) p = mkPlaced (dp_ts p) (dp_smp p)).
        { unfold place. cbv zeta. f_equal. pose proof (s32_range (dp_ts p - (dp_ts p + Z.of_nat (length (dp_smp p))))).
          pose proof (s32_mod (dp_ts p - (dp_ts p + Z.of_nat (length (dp_smp p))))). lia. }
        eexists _, _, (mkPlayer (Some (dp_ts p)) (Some (mkPlaced (dp_ts p) (dp_smp p))) q (mkPlaced (dp_ts p) (dp_smp p) :: tk) la).
        split; [reflexivity|]. split.
        { split; [|cbn; congruence]. split; [reflexivity|]. split; [exact F|]. cbn [py_t dz_first dz_ts dz_pkt].
          split; [reflexivity|]. split; [rewrite u32d; lia|]. eexists. split; [reflexivity|]. unfold pl_end. cbn [pl_pos pl_smp].
          split; [lia|]. split; [lia|]. split; [lia|]. right. split; [lia|]. split; [rewrite u32d; lia|]. now rewrite Z.sub_diag. }
        split.
        { rewrite play_first. rewrite play_take by reflexivity. cbn [take]. cbv zeta. rewrite Px. unfold pl_end. cbn [pl_pos pl_smp].
          replace (_ <=? _) with false by lia. reflexivity. }
        split; [cbn; lia|]. unfold busy. cbn. lia.
Qed.

(** * One call of read_samples_ *)
Definition sounds (l : list (option Z)) : nat := length (filter is_sound l).
Lemma sounds_none k : sounds (repeat None k) = 0%nat. Proof. induction k; cbn; auto. Qed.
Lemma sounds_some l : sounds (map Some l) = length l. Proof. unfold sounds. induction l; cbn; auto. Qed.
Lemma sounds_app a b : sounds (a ++ b) = (sounds a + sounds b)%nat. Proof. unfold sounds. rewrite filter_app, app_length. reflexivity. Qed.
Lemma render_some l : map render (map Some l) = l. Proof. induction l; cbn; congruence. Qed.
Lemma render_none k : map render (repeat None k) = repeat 0 k. Proof. induction k; cbn; congruence. Qed.

Lemma play_add a b : forall y, play (a + b) y = (fst (play a y) ++ fst (play b (snd (play a y))), snd (play b (snd (play a y)))).
Proof.
  induction a as [|a IH]; intros y; [cbn; now destruct (play b y)|]. cbn [Nat.add play]. destruct (play1 y) as [x y1].
  rewrite IH. destruct (play a y1) as [l y2]. cbn. destruct (play b y2). reflexivity.
Qed.

(** Decoding from a started packet. *)
Lemma decode_ok s t x q tk la n i : 
  R s (mkPlayer (Some t) (Some x) q tk la) -> pl_pos x <= t -> t <= pl_end x ->
  forall smp, smp = skipn (Z.to_nat (t - pl_pos x)) (pl_smp x) -> 0 < Z.of_nat (length (pl_smp x)) < 2147483648 ->
  let k := Nat.min n (length smp) in
  exists s', dz_decode s (u32 t) smp n i =
      (s', (n - k)%nat, mkDinfo (di_out i ++ map render (map Some (firstn k smp))) (di_dec i + k) (di_drop i)) /\
    R s' (mkPlayer (Some (t + Z.of_nat k)) (Some x) q tk la) /\ dz_q s' = dz_q s /\ ((k < n)%nat -> dz_pkt s' = None) /\
    play k (mkPlayer (Some t) (Some x) q tk la) = (map Some (firstn k smp), mkPlayer (Some (t + Z.of_nat k)) (Some x) q tk la).
Proof.
  intros (Q & F & H) Hp He smp Es Hl. cbv zeta. set (k := Nat.min n (length smp)). cbn [py_q py_t py_cur] in *. destruct H as (H1 & H2 & _).
  assert (Ls : Z.of_nat (length smp) = pl_end x - t).
  { subst smp. rewrite skipn_length. unfold pl_end in *. lia. }
  unfold dz_decode. fold k. rewrite render_some. eexists. split; [reflexivity|]. split; [|split; [reflexivity|split]].
  - split; [exact Q|]. split; [exact F|]. cbn [py_t py_cur dz_first dz_ts dz_pkt]. split; [exact H1|]. rewrite H2.
    split; [rewrite !u32d; lia|]. destruct (Nat.ltb_spec k n).
    + cbn [finished]. lia.
    + exists x. split; [reflexivity|]. split; [lia|]. split; [lia|]. split; [exact Hl|]. right. split; [lia|].
      split; [rewrite !u32d; lia|]. rewrite Es, skipn_skipn. f_equal. lia.
  - cbn [dz_pkt]. intros. destruct (Nat.ltb_spec k n); [reflexivity|lia].
  - rewrite play_dec by lia. rewrite Es. reflexivity.
Qed.

Lemma samples_ok s y n i : R s y -> (0 < n)%nat ->
  exists s' n' i' l y', dz_samples s n i = Ok (s', n', i') /\ R s' y' /\
    play n y = (l ++ fst (play n' y'), snd (play n' y')) /\
    di_out i' = di_out i ++ map render l /\ di_dec i' = (di_dec i + sounds l)%nat /\
    (di_drop i' + py_late y = di_drop i + py_late y')%nat /\ (n' + length l = n)%nat /\
    (n' + 2 * length (dz_q s') + busy s' < n + 2 * length (dz_q s) + busy s)%nat.
Proof.
  intros HR Hn. destruct n as [|n0]; [lia|]. destruct (update_ok s y n0 HR) as (s1 & d & y1 & E & [R1 Rq] & EP & La & Ms).
  unfold dz_samples. rewrite E. cbn [bind]. rewrite EP. clear EP E HR. remember (S n0) as n. clear n0 Heqn.
  destruct y1 as [t1 c1 q1 tk1 la1]. cbn [py_late] in La. pose proof R1 as (Q & F & H). cbn [py_q py_t py_cur] in Q, H.
  destruct (dz_pkt s1) as [[pos smp]|] eqn:Ep.
  2:{ (* no packet *)
    specialize (Rq eq_refl). unfold dz_miss.
    destruct t1 as [t|].
    - destruct H as (H1 & H2 & H3).
      eexists _, 0%nat, _, (repeat None n), (mkPlayer (Some (t + Z.of_nat n)) None [] tk1 la1). split; [reflexivity|].
      split. { split; [cbn; congruence|]. split; [cbn; now rewrite Rq|]. cbn [py_t dz_first dz_ts dz_pkt]. split; [exact H1|].
        rewrite H2, Ep. split; [rewrite !u32d; lia|]. reflexivity. }
      split. { destruct n as [|n0]; [lia|]. rewrite play_take by exact H3. rewrite <- Q, Rq. cbn [take]. rewrite play_silent. cbn [play fst snd].
        now rewrite app_nil_r. }
      cbn [di_out di_dec di_drop py_late]. rewrite render_none, sounds_none, repeat_length. unfold busy in *. cbn [dz_pkt dz_q]. rewrite Ep in *. repeat split; lia.
    - destruct H as (H1 & H2 & H3). subst c1.
      eexists _, 0%nat, _, (repeat None n), (mkPlayer None None [] tk1 la1). split; [reflexivity|].
      split. { split; [cbn; congruence|]. split; [cbn; now rewrite Rq|]. cbn. auto. }
      split. { rewrite <- Q, Rq. rewrite play_idle. cbn [play fst snd]. now rewrite app_nil_r. }
      cbn [di_out di_dec di_drop py_late]. rewrite render_none, sounds_none, repeat_length. unfold busy in *. cbn [dz_pkt dz_q]. rewrite Ep in *. repeat split; lia. }
  destruct t1 as [t|]; [|destruct H as (_ & H & _); congruence].
  destruct H as (H1 & H2 & x & H3 & H4 & H5 & H6 & H7). subst c1. rewrite H2.
  destruct H7 as [(G1 & G2 & G3)|(G1 & G2 & G3)].
  - (* gap *)
    replace (u32 t =? pos) with false. 2:{ symmetry. apply Z.eqb_neq. rewrite G2, !u32d. lia. }
    rewrite (lt_is (u32 t) pos (t - pl_pos x)). 2:{ lia. } 2:{ rewrite G2, !u32d. lia. }
    replace (t - pl_pos x <? 0) with true by lia.
    rewrite (diff_is pos (u32 t) (pl_pos x - t)). 2:{ lia. } 2:{ rewrite G2, !u32d. lia. }
    rewrite u64_small' by lia. set (k := Z.to_nat (Z.min (pl_pos x - t) (Z.of_nat n))).
    unfold dz_miss. cbn [di_out di_dec di_drop].
    assert (Rg : R (mkDz (dz_q s1) (dz_pkt s1) (u32 (dz_ts s1 + Z.of_nat k)) (dz_first s1)) (mkPlayer (Some (t + Z.of_nat k)) (Some x) q1 tk1 la1)).
    { split; [exact Q|]. split; [exact F|]. cbn [py_t py_cur dz_first dz_ts dz_pkt]. split; [exact H1|]. split; [rewrite H2, !u32d; lia|].
      rewrite Ep. exists x. split; [reflexivity|]. split; [lia|]. unfold pl_end in *. split; [lia|]. split; [exact H6|].
      destruct (Z.eq_dec (t + Z.of_nat k) (pl_pos x)) as [e|e].
      - right. split; [lia|]. split; [rewrite e; exact G2|]. rewrite e, Z.sub_diag. exact G3.
      - left. split; [lia|]. split; [exact G2|exact G3]. }
    assert (Pg : play k (mkPlayer (Some t) (Some x) q1 tk1 la1) = (repeat None k, mkPlayer (Some (t + Z.of_nat k)) (Some x) q1 tk1 la1)).
    { apply play_gap; unfold pl_end in *; lia. }
    destruct (Nat.ltb_spec k n).
    + assert (ek : t + Z.of_nat k = pl_pos x) by lia.
      assert (Gp : pos = u32 (t + Z.of_nat k)) by now rewrite ek.
      destruct (decode_ok _ _ _ _ _ _ (n - k)%nat (mkDinfo (di_out i ++ repeat 0 k) (di_dec i) (di_drop i + d)) Rg) with (smp := smp) as (s' & D1 & D2 & D3 & D4 & D5).
      { lia. } { unfold pl_end in *; lia. } { rewrite ek, Z.sub_diag. exact G3. } { exact H6. }
      rewrite Gp. rewrite D1. set (k2 := Nat.min (n - k) (length smp)) in *.
      eexists _, _, _, (repeat None k ++ map Some (firstn k2 smp)), _. split; [reflexivity|]. split; [exact D2|]. split.
      { replace n with (k + (k2 + (n - k - k2)))%nat at 1 by lia. rewrite play_add, Pg. cbn [fst snd]. rewrite play_add, D5. cbn [fst snd]. now rewrite app_assoc. }
      cbn [di_out di_dec di_drop py_late]. rewrite map_app, render_none, sounds_app, sounds_none, sounds_some, app_length, repeat_length, map_length, firstn_length, app_assoc.
      unfold k2 in *. cbn [dz_q] in D3. rewrite D3. repeat split; try lia. unfold busy in *. rewrite Ep in Ms.
      destruct (Nat.lt_ge_cases (Nat.min (n - k) (length smp)) (n - k)%nat) as [l|g]; [rewrite (D4 l); lia|]. destruct (dz_pkt s'); lia.
    + assert (ek : k = n) by lia. rewrite ek in *.
      eexists _, 0%nat, _, (repeat None n), _. split; [reflexivity|]. split; [exact Rg|]. split.
      { rewrite Pg. cbn [play fst snd]. now rewrite app_nil_r. }
      cbn [di_out di_dec di_drop py_late]. rewrite render_none, sounds_none, repeat_length. unfold busy in *. cbn [dz_pkt dz_q]. rewrite Ep in *. repeat split; lia.
  - (* playing *)
    rewrite G2, Z.eqb_refl.
    destruct (decode_ok _ _ _ _ _ _ n (mkDinfo (di_out i) (di_dec i) (di_drop i + d)) R1) with (smp := smp) as (s' & D1 & D2 & D3 & D4 & D5); auto.
    rewrite D1. set (k2 := Nat.min n (length smp)) in *.
    eexists _, _, _, (map Some (firstn k2 smp)), _. split; [reflexivity|]. split; [exact D2|]. split.
    { replace n with (k2 + (n - k2))%nat at 1 by lia. rewrite play_add, D5. reflexivity. }
    cbn [di_out di_dec di_drop py_late]. rewrite sounds_some, map_length, firstn_length. unfold k2 in *. rewrite D3. repeat split; try lia.
    unfold busy in *. rewrite Ep in Ms.
    destruct (Nat.lt_ge_cases (Nat.min n (length smp)) n) as [l|g]; [rewrite (D4 l); lia|]. destruct (dz_pkt s'); lia.
Qed.

Lemma loop_ok fuel : forall s y n i, R s y -> (n + 2 * length (dz_q s) + busy s < fuel)%nat ->
  exists s' i', dz_loop fuel s n i = Ok (s', i') /\ R s' (snd (play n y)) /\
    di_out i' = di_out i ++ map render (fst (play n y)) /\ di_dec i' = (di_dec i + sounds (fst (play n y)))%nat /\
    (di_drop i' + py_late y = di_drop i + py_late (snd (play n y)))%nat.
Proof.
  induction fuel as [|f IH]; intros s y n i HR HF; [lia|]. cbn [dz_loop]. destruct (Nat.eqb_spec n 0) as [->|Hn].
  - exists s, i. cbn. rewrite app_nil_r. repeat split; auto; try lia; try apply HR.
  - destruct (samples_ok s y n i HR) as (s1 & n1 & i1 & l & y1 & E & R1 & P & O & D & L & N & M); [lia|]. rewrite E. cbn [bind].
    destruct (IH s1 y1 n1 i1 R1) as (s2 & i2 & E2 & R2 & O2 & D2 & L2); [lia|]. exists s2, i2. rewrite E2, P. cbn [fst snd].
    split; [reflexivity|]. split; [exact R2|]. rewrite O2, O, map_app, app_assoc. split; [reflexivity|]. rewrite sounds_app. lia.
Qed.

Lemma sounds_exists l : negb (sounds l =? 0)%nat = existsb is_sound l.
Proof. unfold sounds. induction l as [|[x|] l IH]; cbn; auto. Qed.
Lemma sounds_le l : (sounds l <= length l)%nat.
Proof. unfold sounds. induction l as [|[x|] l IH]; cbn; lia. Qed.
Lemma sounds_all l : (sounds l <? length l)%nat = existsb (fun x => negb (is_sound x)) l.
Proof.
  unfold sounds. induction l as [|[x|] l IH]; cbn [filter is_sound length existsb negb orb]; auto.
  apply Nat.ltb_lt. pose proof (sounds_le l). unfold sounds in *. lia.
Qed.
Lemma play_length n : forall y, length (fst (play n y)) = n.
Proof. induction n; intros y; cbn; [reflexivity|]. destruct (play1 y) as [x y1]. specialize (IHn y1). destruct (play n y1). cbn in *. lia. Qed.

Lemma read_ok nch raw s y : R s y -> (raw mod nch = 0)%nat ->
  exists s', dz_read nch raw s = Ok (s', frame_of (fst (play (raw / nch) y)) y (snd (play (raw / nch) y))) /\ R s' (snd (play (raw / nch) y)).
Proof.
  intros HR Hm. unfold dz_read. rewrite Hm. cbn [Nat.eqb negb]. cbv zeta. set (n := (raw / nch)%nat).
  destruct (loop_ok (n + 2 * length (dz_q s) + 2) s y n (mkDinfo [] 0 0) HR) as (s' & i' & E & R2 & O & D & L).
  { unfold busy. destruct (dz_pkt s); lia. }
  cbn [di_out di_dec di_drop] in *. rewrite E. cbn [bind]. exists s'. split; [|exact R2]. f_equal. f_equal.
  unfold frame_of. rewrite O, D. cbn [app Nat.add].
  rewrite <- (sounds_exists (fst (play n y))), <- (sounds_all (fst (play n y))), play_length. f_equal. f_equal.
  destruct (Nat.eqb_spec (di_drop i') 0), (Nat.eqb_spec (py_late (snd (play n y))) (py_late y)); auto; lia.
Qed.

Lemma run_ok nch ops : forall s y, R s y -> Forall (op_ok nch) ops ->
  exists s', dz_run nch s ops = Ok (fst (play_ops nch y ops), s') /\ R s' (snd (play_ops nch y ops)).
Proof.
  induction ops as [|[p|raw] ops IH]; intros s y HR F; cbn [dz_run play_ops].
  - exists s. split; auto.
  - apply IH; [|now apply Forall_inv_tail in F]. apply Forall_inv in F. cbn in F. destruct HR as (Q & G & H).
    split; [cbn; congruence|]. split; [cbn; apply Forall_app; split; auto|]. exact H.
  - pose proof (Forall_inv F) as Hm. apply Forall_inv_tail in F. cbn in Hm.
    destruct (read_ok nch raw s y HR Hm) as (s1 & E & R1). rewrite E. cbn [bind].
    destruct (IH s1 (snd (play (raw / nch) y)) R1 F) as (s2 & E2 & R2). rewrite E2. cbn [bind].
    destruct (play (raw / nch) y) as [l y1]. cbn [fst snd] in *. destruct (play_ops nch y1 ops) as [fs y2]. cbn [fst snd] in *.
    exists s2. split; auto.
Qed.
Lemma R0 : R dz_new player0.
Proof. split; [reflexivity|]. split; [constructor|]. cbn. auto. Qed.

(** * Facts about the player *)
Record py_inv (arr : list dpkt) (y : player) : Prop := {
  pi_q : incl (py_q y) arr;
  pi_taken : forall x, In x (py_taken y) -> exists p, In p arr /\ pl_smp x = dp_smp p /\ (pl_pos x - dp_ts p) mod 4294967296 = 0;
  pi_cur : forall x, py_cur y = Some x -> In x (py_taken y);
  pi_past : match py_t y with
            | None => py_taken y = [] /\ py_cur y = None
            | Some t => forall x, In x (py_taken y) -> py_cur y = Some x \/ pl_end x <= t
            end }.

Lemma take_inv arr q : forall t tk la, incl q arr ->
  (forall x, In x tk -> exists p, In p arr /\ pl_smp x = dp_smp p /\ (pl_pos x - dp_ts p) mod 4294967296 = 0) ->
  (forall x, In x tk -> pl_end x <= t) -> py_inv arr (take t q tk la).
Proof.
  induction q as [|p q IH]; intros t tk la Hq Ht He; cbn [take].
  - split; cbn; auto; try discriminate.
  - cbv zeta. assert (Hq' : incl q arr) by (intros z Hz; apply Hq; now right).
    assert (Hp : forall x, In x (place t p :: tk) -> exists p0, In p0 arr /\ pl_smp x = dp_smp p0 /\ (pl_pos x - dp_ts p0) mod 4294967296 = 0).
    { intros x [<-|Hx]; [|auto]. exists p. split; [apply Hq; now left|]. split; [reflexivity|apply place_mod]. }
    destruct (Z.leb_spec (pl_end (place t p)) t).
    + apply IH; auto. intros x [<-|Hx]; auto.
    + split; cbn; auto.
      * intros x Hx. injection Hx as <-. auto.
      * intros x [<-|Hx]; auto.
Qed.

Definition time_of (y : player) : option Z :=
  match py_t y with Some t => Some t | None => match py_q y with p :: _ => Some (dp_ts p) | [] => None end end.

Lemma play1_inv arr y : py_inv arr y -> py_inv arr (snd (play1 y)).
Proof.
  intros I. unfold play1. fold (time_of y). destruct (time_of y) as [t|] eqn:Et; [|exact I]. cbn [snd].
  set (z := if finished t (py_cur y) then _ else y).
  assert (Iz : py_inv arr z /\ forall x, In x (py_taken z) -> py_cur z = Some x \/ pl_end x <= t).
  { subst z. destruct (finished t (py_cur y)) eqn:F.
    - assert (J : py_inv arr (take t (py_q y) (py_taken y) (py_late y))).
      { destruct I as [I1 I2 I3 I4]. apply take_inv; auto. intros x Hx. unfold time_of in Et. destruct (py_t y) as [t'|].
        - injection Et as ->. destruct (I4 x Hx) as [E|E]; [|exact E]. rewrite E in F. cbn in F. lia.
        - destruct I4 as [I4 _]. rewrite I4 in Hx. destruct Hx. }
      split; [exact J|]. destruct J as [_ _ _ J4]. rewrite take_t in J4. exact J4.
    - split; [exact I|]. destruct I as [I1 I2 I3 I4]. unfold time_of in Et. destruct (py_t y) as [t'|].
      + injection Et as ->. exact I4.
      + destruct I4 as [I4 I5]. rewrite I5 in F. discriminate. }
  destruct Iz as [[J1 J2 J3 J4] J5]. split; cbn; auto. intros x Hx. destruct (J5 x Hx); [now left|right; lia].
Qed.
Lemma play_inv arr n : forall y, py_inv arr y -> py_inv arr (snd (play n y)).
Proof.
  induction n as [|n IH]; intros y I; [exact I|]. cbn [play]. pose proof (play1_inv arr y I) as J.
  destruct (play1 y) as [x y1]. specialize (IH y1 J). destruct (play n y1). exact IH.
Qed.
Lemma inv_mono a b y : incl a b -> py_inv a y -> py_inv b y.
Proof.
  intros H [I1 I2 I3 I4]. split; auto.
  - intros p Hp. apply H, I1, Hp.
  - intros x Hx. destruct (I2 x Hx) as (p & P1 & P2). exists p. split; [now apply H|exact P2].
Qed.
Lemma ops_inv nch ops : forall a y, py_inv a y -> py_inv (a ++ arrived ops) (snd (play_ops nch y ops)).
Proof.
  induction ops as [|[p|raw] ops IH]; intros a y I; cbn [arrived play_ops].
  - rewrite app_nil_r. exact I.
  - assert (J : py_inv (a ++ [p]) (py_arrive y p)).
    { apply (inv_mono a (a ++ [p])) in I; [|apply incl_appl, incl_refl]. destruct I as [I1 I2 I3 I4]. split; cbn; auto.
      apply incl_app; [auto|]. apply incl_appr, incl_refl. }
    apply IH in J. rewrite <- app_assoc in J. exact J.
  - pose proof (play_inv a (raw / nch) y I) as J. destruct (play (raw / nch) y) as [l y1]. cbn [snd] in J. apply IH in J.
    destruct (play_ops nch y1 ops) as [fs y2]. exact J.
Qed.
Lemma inv0 : py_inv [] player0.
Proof. split; cbn; auto; try discriminate; intros x []. Qed.
