From Coq Require Import Permutation.
From Verif Require Import Base Base_lemmas Interleaver_model Interleaver_spec.
Open Scope nat_scope.

Lemma aget_ok {A} (l : list A) i x : nth_error l i = Some x -> aget l i = Ok x.
Proof. unfold aget. intros ->. reflexivity. Qed.
Lemma aset_ok {A} (l : list A) i x : i < length l -> aset l i x = Ok (upd l i x).
Proof. unfold aset. intros H. apply Nat.ltb_lt in H. rewrite H. reflexivity. Qed.

(** Fisher-Yates *)
Lemma upd_upd_swap_perm (s : list nat) k j b c :
  nth_error s k = Some b -> nth_error s j = Some c ->
  Permutation s (upd (upd s k c) j b).
Proof.
  intros Hk Hj. destruct (Nat.eq_dec k j) as [->|N].
  - rewrite Hk in Hj. inversion Hj; subst.
    rewrite (upd_split (upd s j c) j c c).
    2:{ apply nth_error_upd_eq. apply nth_error_Some. congruence. }
    replace (firstn j (upd s j c) ++ c :: skipn (S j) (upd s j c)) with s; auto.
    symmetry. rewrite <- (upd_split (upd s j c) j c c).
    2:{ apply nth_error_upd_eq. apply nth_error_Some. congruence. }
    apply nth_error_ext. intros i. destruct (Nat.eq_dec j i) as [->|N2].
    + rewrite nth_error_upd_eq; auto. rewrite length_upd. apply nth_error_Some. congruence.
    + rewrite !nth_error_upd_neq; auto.
  - (* two distinct positions *)
    assert (Hperm : forall a d, a < d -> forall x y, nth_error s a = Some x -> nth_error s d = Some y ->
       Permutation s (upd (upd s a y) d x)).
    { clear. intros a d Had x y Ha Hd.
      assert (E : s = firstn a s ++ x :: firstn (d - a - 1) (skipn (S a) s) ++ y :: skipn (S d) s).
      { rewrite <- (firstn_skipn a s) at 1. f_equal.
        assert (E1 : skipn a s = x :: skipn (S a) s).
        { clear -Ha. revert a Ha. induction s; intros [|a0] H; cbn in *; try discriminate; [congruence|auto]. }
        rewrite E1. f_equal.
        rewrite <- (firstn_skipn (d - a - 1) (skipn (S a) s)) at 1. f_equal.
        rewrite skipn_skipn. replace (d - a - 1 + S a) with d by lia.
        clear -Hd. revert d Hd. induction s; intros [|a0] H; cbn in *; try discriminate; [congruence|auto]. }
      set (p := firstn a s) in *. set (m := firstn (d - a - 1) (skipn (S a) s)) in *. set (q := skipn (S d) s) in *.
      assert (Lp : length p = a). { unfold p. rewrite firstn_length. assert (a < length s) by (apply nth_error_Some; congruence). lia. }
      assert (Lm : length m = d - a - 1).
      { unfold m. rewrite firstn_length, skipn_length. assert (d < length s) by (apply nth_error_Some; congruence). lia. }
      rewrite E at 2. clearbody p m q. subst a.
      rewrite upd_app_r by lia. rewrite Nat.sub_diag. cbn [upd].
      rewrite upd_app_r by lia. replace (d - length p) with (S (length m)) by lia. cbn [upd].
      rewrite upd_app_r by lia. rewrite Nat.sub_diag. cbn [upd]. rewrite E.
      apply Permutation_app_head.
      transitivity (y :: x :: m ++ q).
      { rewrite perm_swap. constructor. symmetry. apply Permutation_middle. }
      constructor. apply Permutation_middle. }
    destruct (Nat.lt_total k j) as [L|[->|L]]; [|congruence|].
    + apply Hperm; auto.
    + assert (E : upd (upd s k c) j b = upd (upd s j b) k c).
      { apply nth_error_ext. intros i.
        destruct (Nat.eq_dec j i) as [->|N1].
        - rewrite nth_error_upd_eq by (rewrite length_upd; apply nth_error_Some; congruence).
          rewrite nth_error_upd_neq by auto. rewrite nth_error_upd_eq; auto. apply nth_error_Some; congruence.
        - rewrite nth_error_upd_neq by auto. destruct (Nat.eq_dec k i) as [->|N2].
          + rewrite !nth_error_upd_eq; auto; rewrite ?length_upd; apply nth_error_Some; congruence.
          + rewrite !nth_error_upd_neq; auto. }
      rewrite E. apply Hperm; auto.
Qed.

Lemma shuffle_perm rnd : forall i s,
  i <= length s -> (forall k, 0 < k <= i -> rnd k < k) ->
  exists s', shuffle_from rnd i s = Ok s' /\ Permutation s s'.
Proof.
  induction i as [|k IH]; intros s Hl Hr.
  - exists s. split; auto.
  - cbn [shuffle_from]. assert (Hj : rnd (S k) < S k) by (apply Hr; lia).
    destruct (nth_error s k) as [b|] eqn:Eb. 2:{ apply nth_error_None in Eb. lia. }
    destruct (nth_error s (rnd (S k))) as [c|] eqn:Ec. 2:{ apply nth_error_None in Ec. lia. }
    rewrite (aget_ok _ _ _ Eb), (aget_ok _ _ _ Ec). cbn [bind].
    rewrite aset_ok by lia. cbn [bind]. rewrite aset_ok by (rewrite length_upd; lia). cbn [bind].
    destruct (IH (upd (upd s k c) (rnd (S k)) b)) as (s' & E & P).
    { rewrite !length_upd. lia. }
    { intros; apply Hr; lia. }
    exists s'. split; auto. rewrite <- P. apply upd_upd_swap_perm; auto.
Qed.

Lemma reinit_perm rnd n : (forall k, 0 < k <= n -> rnd k < k) ->
  exists s, reinit_seq rnd n = Ok s /\ Permutation (List.seq 0 n) s.
Proof. intros. apply shuffle_perm; auto. rewrite seq_length. lia. Qed.

Section P.
Context {A : Type}.

Definition opt (o : option A) : list A := match o with Some x => [x] | None => [] end.
Definition pick (cur : list A) (l : list nat) : list A := flat_map (fun i => opt (nth_error cur i)) l.
Definition slot (cur : list A) (sent : list nat) (i : nat) : option A :=
  if existsb (Nat.eqb i) sent then None else nth_error cur i.

Lemma existsb_in i l : existsb (Nat.eqb i) l = true <-> In i l.
Proof.
  rewrite existsb_exists. split.
  - intros (x & Hx & E). apply Nat.eqb_eq in E. subst. auto.
  - intros H. exists i. split; auto. apply Nat.eqb_refl.
Qed.

Lemma nth_error_map_seq {B} (f : nat -> B) n i : i < n -> nth_error (map f (List.seq 0 n)) i = Some (f i).
Proof.
  intros H. rewrite nth_error_map, nth_error_nth' with (d := 0).
  - cbn. rewrite seq_nth; auto.
  - rewrite seq_length; auto.
Qed.

Lemma upd_map_seq {B} (f g : nat -> B) n i x :
  i < n -> g i = x -> (forall k, k < n -> k <> i -> g k = f k) ->
  upd (map f (List.seq 0 n)) i x = map g (List.seq 0 n).
Proof.
  intros Hi Hx Hg. apply nth_error_ext. intros k.
  destruct (Nat.lt_ge_cases k n).
  - rewrite (nth_error_map_seq g) by auto. destruct (Nat.eq_dec i k) as [->|N].
    + rewrite nth_error_upd_eq. { congruence. } rewrite map_length, seq_length; auto.
    + rewrite nth_error_upd_neq by auto. rewrite nth_error_map_seq by auto. f_equal. symmetry. apply Hg; auto.
  - assert (L1 : length (upd (map f (List.seq 0 n)) i x) <= k) by (rewrite length_upd, map_length, seq_length; auto).
    assert (L2 : length (map g (List.seq 0 n)) <= k) by (rewrite map_length, seq_length; auto).
    apply nth_error_None in L1. apply nth_error_None in L2. congruence.
Qed.

Lemma pick_all cur n : length cur <= n -> pick cur (List.seq 0 n) = cur.
Proof.
  intros H. unfold pick.
  assert (G : forall (pre l : list A) m, length l <= m ->
     flat_map (fun i => opt (nth_error (pre ++ l) i)) (List.seq (length pre) m) = l).
  { clear. intros pre l m. revert pre l. induction m as [|m IH]; intros pre l Hl; cbn.
    - destruct l; auto; cbn in Hl; lia.
    - destruct l as [|x l].
      + rewrite app_nil_r. replace (nth_error pre (length pre)) with (@None A).
        2:{ symmetry. apply nth_error_None. lia. }
        cbn. rewrite flat_map_concat_map. apply concat_nil_Forall. apply Forall_map.
        apply Forall_forall. intros i Hi. apply in_seq in Hi.
        replace (nth_error pre i) with (@None A); auto. symmetry; apply nth_error_None; lia.
      + rewrite nth_error_app2 by lia. rewrite Nat.sub_diag. cbn. f_equal.
        replace (pre ++ x :: l) with ((pre ++ [x]) ++ l) by (rewrite <- app_assoc; reflexivity).
        replace (S (length pre)) with (length (pre ++ [x])) by (rewrite app_length; cbn; lia).
        apply IH. cbn in Hl. lia. }
  exact (G [] cur n H).
Qed.

Definition held (cur : list A) (sent : list nat) (n : nat) : list A :=
  flat_map (fun i => opt (slot cur sent i)) (List.seq 0 n).

Lemma held_perm cur sent rest n :
  Permutation (sent ++ rest) (List.seq 0 n) -> length cur <= n ->
  Permutation (pick cur sent ++ held cur sent n) cur.
Proof.
  intros HP HL. unfold held.
  rewrite <- (Permutation_flat_map _ HP). rewrite flat_map_app.
  assert (ND : NoDup (sent ++ rest)). { apply (Permutation_NoDup (l := List.seq 0 n)); [symmetry; auto|apply seq_NoDup]. }
  assert (E1 : flat_map (fun i => opt (slot cur sent i)) sent = []).
  { rewrite flat_map_concat_map. apply concat_nil_Forall, Forall_map, Forall_forall.
    intros i Hi. unfold slot. replace (existsb (Nat.eqb i) sent) with true; auto. symmetry. apply existsb_in; auto. }
  assert (E2 : flat_map (fun i => opt (slot cur sent i)) rest = pick cur rest).
  { unfold pick. rewrite !flat_map_concat_map. f_equal. apply map_ext_in. intros i Hi. unfold slot.
    destruct (existsb (Nat.eqb i) sent) eqn:E; auto. apply existsb_in in E.
    exfalso. clear -ND E Hi. induction sent as [|a s IH]; [destruct E|].
    cbn in ND. inversion ND; subst. destruct E as [->|E]; [|auto]. apply H1. apply in_or_app; auto. }
  rewrite E1, E2. cbn. unfold pick. rewrite <- flat_map_app.
  rewrite (Permutation_flat_map _ HP). fold (pick cur (List.seq 0 n)). rewrite pick_all; auto.
Qed.

Notation okw := (fun _ : nat => true).

Lemma NoDup_firstn_nth (s : list nat) j i : NoDup s -> nth_error s j = Some i -> ~ In i (firstn j s).
Proof.
  revert j. induction s as [|a s IH]; intros [|j] ND E; cbn in *; try discriminate; auto.
  inversion ND; subst. intros [->|H].
  - apply H1. eapply nth_error_In; eauto.
  - eapply IH; eauto.
Qed.

Lemma firstn_snoc {B} (s : list B) j i : nth_error s j = Some i -> firstn (S j) s = firstn j s ++ [i].
Proof. revert j. induction s as [|a s IH]; intros [|j] E; cbn in *; try discriminate. { congruence. } f_equal. auto. Qed.

Lemma slot_snoc cur sent i k : slot cur (sent ++ [i]) k = if Nat.eqb k i then None else slot cur sent k.
Proof.
  unfold slot. rewrite existsb_app. cbn. rewrite orb_false_r.
  destruct (existsb (Nat.eqb k) sent); cbn; auto. destruct (Nat.eqb k i); auto.
Qed.

Lemma firstn_bounded_len (s : list nat) j k n :
  Permutation s (List.seq 0 n) -> (forall i, In i (firstn j s) -> i < k) -> j <= length s -> j <= k.
Proof.
  intros HP H Hj.
  assert (ND : NoDup (firstn j s)).
  { assert (NoDup s) by (apply (Permutation_NoDup (l := List.seq 0 n)); [symmetry; auto|apply seq_NoDup]).
    rewrite <- (firstn_skipn j s) in H0. clear -H0. induction (firstn j s) as [|a t IH]; [constructor|].
    cbn in H0. inversion H0; subst. constructor; auto. intros X. apply H2. apply in_or_app; auto. }
  assert (L : length (firstn j s) <= length (List.seq 0 k)).
  { apply NoDup_incl_length; auto. intros i Hi. apply in_seq. specialize (H _ Hi). lia. }
  rewrite seq_length, firstn_length in L. lia.
Qed.

(** Effect of the send loop. [j] packets of the current block have been sent. *)
Lemma send_loop_spec n sq (HP : Permutation sq (List.seq 0 n)) : forall m fuel cur j put out calls,
  m = n - j -> m < fuel -> j < n -> length cur <= n ->
  (forall i, In i (firstn j sq) -> i < length cur) ->
  exists j' , j <= j' <= n /\
    (forall i, In i (firstn j' sq) -> i < length cur) /\
    (j' < n -> exists i, nth_error sq j' = Some i /\ length cur <= i) /\
    exists calls',
    send_loop okw fuel (mkIl sq (map (slot cur (firstn j sq)) (List.seq 0 n)) put j n
                            (out ++ pick cur (firstn j sq)) calls)
    = Ok (mkIl sq (map (slot cur (firstn j' sq)) (List.seq 0 n)) put (if j' =? n then 0 else j') n
               (out ++ pick cur (firstn j' sq)) calls', true).
Proof.
  assert (Lsq : length sq = n) by (rewrite (Permutation_length HP), seq_length; auto).
  assert (ND : NoDup sq) by (apply (Permutation_NoDup (l := List.seq 0 n)); [symmetry; auto|apply seq_NoDup]).
  induction m as [|m IH]; intros fuel cur j put out calls Em Hf Hj Hc Hs; [lia|].
  destruct fuel as [|fuel]; [lia|]. cbn [send_loop il_seq il_send il_pkts].
  destruct (nth_error sq j) as [i|] eqn:Ei. 2:{ apply nth_error_None in Ei. lia. }
  rewrite (aget_ok _ _ _ Ei). cbn [bind].
  assert (Hi : i < n). { apply nth_error_In in Ei. apply (Permutation_in _ HP) in Ei. apply in_seq in Ei. lia. }
  rewrite (aget_ok _ i (slot cur (firstn j sq) i)) by (apply nth_error_map_seq; auto). cbn [bind].
  assert (NI : ~ In i (firstn j sq)) by (apply NoDup_firstn_nth; auto).
  assert (ES : slot cur (firstn j sq) i = nth_error cur i).
  { unfold slot. destruct (existsb (Nat.eqb i) (firstn j sq)) eqn:E; auto. apply existsb_in in E. contradiction. }
  rewrite ES. destruct (nth_error cur i) as [p|] eqn:Ep.
  - assert (Hik : i < length cur) by (apply nth_error_Some; congruence).
    cbn [il_calls]. rewrite aset_ok by (rewrite map_length, seq_length; auto). cbn [bind il_seq il_put il_send il_n il_out].
    assert (EF : firstn (S j) sq = firstn j sq ++ [i]) by (apply firstn_snoc; auto).
    assert (EU : upd (map (slot cur (firstn j sq)) (List.seq 0 n)) i None = map (slot cur (firstn (S j) sq)) (List.seq 0 n)).
    { apply upd_map_seq; auto.
      - rewrite EF, slot_snoc, Nat.eqb_refl. reflexivity.
      - intros k Hk Hn. rewrite EF, slot_snoc. apply Nat.eqb_neq in Hn. rewrite Hn. reflexivity. }
    assert (EO : (out ++ pick cur (firstn j sq)) ++ [p] = out ++ pick cur (firstn (S j) sq)).
    { rewrite EF. unfold pick. rewrite flat_map_app. cbn. rewrite Ep. cbn. rewrite app_assoc. reflexivity. }
    rewrite EU, EO.
    assert (HS' : forall x, In x (firstn (S j) sq) -> x < length cur).
    { intros x Hx. rewrite EF in Hx. apply in_app_or in Hx as [Hx|[<-|[]]]; auto. }
    destruct (Nat.eq_dec (S j) n) as [En|Nn].
    + (* all sent: wrapped *)
      assert (n <= length cur).
      { apply (firstn_bounded_len sq n (length cur) n); auto; [|lia]. rewrite <- En. auto. }
      exists n. split; [lia|]. split. { rewrite <- En. auto. } split; [lia|].
      exists (S calls). replace (j + 1) with n by lia. rewrite Nat.mod_same by lia.
      rewrite Nat.eqb_refl. rewrite En.
      destruct fuel as [|fuel]; [lia|]. cbn [send_loop il_seq il_send il_pkts].
      destruct (nth_error sq 0) as [i0|] eqn:E0. 2:{ apply nth_error_None in E0. lia. }
      rewrite (aget_ok _ _ _ E0). cbn [bind].
      assert (Hi0 : i0 < n). { apply nth_error_In in E0. apply (Permutation_in _ HP) in E0. apply in_seq in E0. lia. }
      rewrite (aget_ok _ i0 (slot cur (firstn n sq) i0)) by (apply nth_error_map_seq; auto). cbn [bind].
      replace (slot cur (firstn n sq) i0) with (@None A); auto.
      unfold slot. replace (existsb (Nat.eqb i0) (firstn n sq)) with true; auto.
      symmetry. apply existsb_in. rewrite firstn_all2 by lia. eapply nth_error_In; eauto.
    + rewrite Nat.mod_small by lia. replace (j + 1) with (S j) by lia.
      destruct (IH fuel cur (S j) put out (S calls)) as (j' & Hj' & H1 & H2 & c' & H3); auto; try lia.
      exists j'. split; [lia|]. split; auto. split; auto. exists c'. exact H3.
  - exists j. split; [lia|]. split; auto.
    assert (Hge : length cur <= i) by (apply nth_error_None; auto).
    split. { intros _. exists i. auto. }
    exists calls. replace (j =? n) with false by lia. reflexivity.
Qed.

Lemma flush_loop_spec : forall l pre (s : il A),
  il_pkts s = pre ++ l ->
  exists c, flush_loop okw (length l) (length pre) s =
    Ok (mkIl (il_seq s) (pre ++ repeat None (length l)) (il_put s) (il_send s) (il_n s)
         (il_out s ++ flat_map opt l) c, true).
Proof.
  induction l as [|o l IH]; intros pre s E; cbn [length flush_loop repeat flat_map].
  - exists (il_calls s). rewrite app_nil_r in E. rewrite !app_nil_r, <- E. destruct s; reflexivity.
  - assert (EN : nth_error (il_pkts s) (length pre) = Some o).
    { rewrite E, nth_error_app2, Nat.sub_diag by lia. reflexivity. }
    rewrite (aget_ok _ _ _ EN). cbn [bind].
    destruct o as [p|].
    + rewrite aset_ok by (rewrite E, app_length; cbn; lia). cbn [bind].
      set (s1 := mkIl _ _ _ _ _ _ _).
      specialize (IH (pre ++ [None]) s1).
      assert (E1 : il_pkts s1 = (pre ++ [None]) ++ l).
      { unfold s1; cbn [il_pkts]. rewrite E, upd_app_r by lia. rewrite Nat.sub_diag. cbn. rewrite <- app_assoc. reflexivity. }
      destruct (IH E1) as (c & H). exists c. rewrite app_length in H. cbn in H. rewrite Nat.add_1_r in H.
      rewrite H. unfold s1; cbn [il_seq il_put il_send il_n il_out]. cbn. rewrite <- !app_assoc. reflexivity.
    + specialize (IH (pre ++ [None]) s).
      destruct IH as (c & H). { rewrite E, <- app_assoc. reflexivity. }
      exists c. rewrite app_length in H. cbn in H. rewrite Nat.add_1_r in H. rewrite H.
      cbn. rewrite <- !app_assoc. reflexivity.
Qed.

(** State of an interleaver with an open block [cur] (fewer than n packets),
    having emitted [out] for the closed blocks. *)
Definition il_inv (n : nat) (sq : list nat) (cur out : list A) (s : il A) : Prop :=
  exists j calls, 
    length cur < n /\ j <= n /\ j < n /\
    (forall i, In i (firstn j sq) -> i < length cur) /\
    (exists i, nth_error sq j = Some i /\ length cur <= i) /\
    s = mkIl sq (map (slot cur (firstn j sq)) (List.seq 0 n)) (length cur) j n
             (out ++ pick cur (firstn j sq)) calls.

Lemma il_inv_fresh n sq out calls : 0 < n -> Permutation sq (List.seq 0 n) ->
  il_inv n sq [] out (mkIl sq (repeat None n) 0 0 n out calls).
Proof.
  intros Hn HP. exists 0, calls. cbn [length firstn].
  assert (Lsq : length sq = n) by (rewrite (Permutation_length HP), seq_length; auto).
  split; [auto|]. split; [lia|]. split; [auto|]. split; [intros ? []|]. split.
  - destruct (nth_error sq 0) eqn:E. { exists n0. split; auto. lia. } apply nth_error_None in E. lia.
  - f_equal.
    + apply nth_error_ext. intros k. destruct (Nat.lt_ge_cases k n).
      * rewrite nth_error_map_seq by auto. rewrite nth_error_repeat_lt by auto. unfold slot. cbn. destruct k; reflexivity.
      * assert (nth_error (repeat (@None A) n) k = None) as -> by (apply nth_error_None; rewrite repeat_length; auto).
        symmetry. apply nth_error_None. rewrite map_length, seq_length. auto.
    + unfold pick. cbn. rewrite app_nil_r. reflexivity.
Qed.

Lemma pick_full_block n sq cur : Permutation sq (List.seq 0 n) -> length cur = n ->
  Permutation cur (pick cur (firstn n sq)).
Proof.
  intros HP HL. assert (Lsq : length sq = n) by (rewrite (Permutation_length HP), seq_length; auto).
  rewrite firstn_all2 by lia. unfold pick. rewrite (Permutation_flat_map _ HP).
  fold (pick cur (List.seq 0 n)). rewrite pick_all; auto. lia.
Qed.

Lemma write_inv n sq cur out s p :
  Permutation sq (List.seq 0 n) -> il_inv n sq cur out s ->
  exists s', il_write okw s p = Ok (s', true) /\
    ((length (cur ++ [p]) = n /\ exists o, Permutation (cur ++ [p]) o /\ il_inv n sq [] (out ++ o) s')
     \/ (length (cur ++ [p]) < n /\ il_inv n sq (cur ++ [p]) out s')).
Proof.
  intros HP (j & calls & Hc & Hjn & Hj & Hs & Hnext & ->).
  assert (Lsq : length sq = n) by (rewrite (Permutation_length HP), seq_length; auto).
  unfold il_write. cbn [il_pkts il_put il_seq il_send il_n il_out il_calls].
  rewrite aset_ok by (rewrite map_length, seq_length; auto). cbn [bind].
  assert (NI : ~ In (length cur) (firstn j sq)) by (intros H; apply Hs in H; lia).
  assert (EU : upd (map (slot cur (firstn j sq)) (List.seq 0 n)) (length cur) (Some p)
     = map (slot (cur ++ [p]) (firstn j sq)) (List.seq 0 n)).
  { apply upd_map_seq; auto.
    - unfold slot. destruct (existsb _ _) eqn:E. { apply existsb_in in E. contradiction. }
      rewrite nth_error_app2, Nat.sub_diag by lia. reflexivity.
    - intros k Hk Hn. unfold slot. destruct (existsb _ _); auto.
      destruct (Nat.lt_ge_cases k (length cur)).
      + rewrite nth_error_app1; auto.
      + assert (nth_error cur k = None) as -> by (apply nth_error_None; auto).
        apply nth_error_None. rewrite app_length. cbn. lia. }
  assert (EP : pick cur (firstn j sq) = pick (cur ++ [p]) (firstn j sq)).
  { unfold pick. rewrite !flat_map_concat_map. f_equal. apply map_ext_in. intros i Hi.
    rewrite nth_error_app1; auto. }
  rewrite EU, EP.
  assert (HL : length (cur ++ [p]) = S (length cur)) by (rewrite app_length; cbn; lia).
  destruct (send_loop_spec n sq HP (n - j) (S n) (cur ++ [p]) j ((length cur + 1) mod n) out calls)
    as (j' & Hj' & H1 & H2 & c' & H3); try lia.
  { intros i Hi. rewrite HL. specialize (Hs _ Hi). lia. }
  eexists. split; [exact H3|].
  destruct (Nat.eq_dec j' n) as [->|Nj].
  - (* everything sent *)
    left. assert (n <= length (cur ++ [p])) by (apply (firstn_bounded_len sq n _ n); auto; lia).
    split; [lia|]. exists (pick (cur ++ [p]) (firstn n sq)). split.
    { apply pick_full_block; auto. lia. }
    replace (length cur + 1) with n by lia. rewrite Nat.mod_same by lia. rewrite Nat.eqb_refl.
    assert (EN : map (slot (cur ++ [p]) (firstn n sq)) (List.seq 0 n) = repeat None n).
    { apply nth_error_ext. intros k. destruct (Nat.lt_ge_cases k n).
      - rewrite nth_error_map_seq, nth_error_repeat_lt by auto. f_equal. unfold slot.
        replace (existsb (Nat.eqb k) (firstn n sq)) with true; auto. symmetry. apply existsb_in.
        rewrite firstn_all2 by lia. apply (Permutation_in _ (Permutation_sym HP)). apply in_seq. lia.
      - assert (nth_error (repeat (@None A) n) k = None) as -> by (apply nth_error_None; rewrite repeat_length; auto).
        apply nth_error_None. rewrite map_length, seq_length. auto. }
    rewrite EN. apply il_inv_fresh; auto. lia.
  - destruct (H2 ltac:(lia)) as (i & Ei & Hge).
    assert (Hi : i < n). { apply nth_error_In in Ei. apply (Permutation_in _ HP) in Ei. apply in_seq in Ei. lia. }
    right. split; [lia|]. exists j', c'. split; [lia|]. split; [lia|]. split; [lia|]. split; [auto|].
    split; [eauto|]. rewrite Nat.mod_small by lia. replace (j' =? n) with false by lia.
    f_equal. lia.
Qed.

Lemma flush_inv n sq cur out s :
  Permutation sq (List.seq 0 n) -> il_inv n sq cur out s ->
  exists s' o, il_flush okw s = Ok (s', true) /\ Permutation cur o /\ il_inv n sq [] (out ++ o) s'.
Proof.
  intros HP (j & calls & Hc & Hjn & Hj & Hs & Hnext & ->).
  unfold il_flush.
  set (s := mkIl _ _ _ _ _ _ _).
  destruct (flush_loop_spec (map (slot cur (firstn j sq)) (List.seq 0 n)) [] s eq_refl) as (c & H).
  rewrite map_length, seq_length in H. cbn [length app] in H.
  unfold s at 1; cbn [il_n]. rewrite H. cbn [bind]. clear H.
  eexists. exists (pick cur (firstn j sq) ++ held cur (firstn j sq) n). split; [reflexivity|]. split.
  - symmetry. apply (held_perm cur (firstn j sq) (skipn j sq) n); [|lia].
    rewrite firstn_skipn. auto.
  - cbn [il_seq il_pkts il_n il_out il_calls]. unfold s; cbn [il_seq il_n il_out].
    assert (EH : flat_map opt (map (slot cur (firstn j sq)) (List.seq 0 n)) = held cur (firstn j sq) n).
    { unfold held. rewrite !flat_map_concat_map, map_map. reflexivity. }
    rewrite EH, <- app_assoc. apply il_inv_fresh; auto. lia.
Qed.

Lemma run_inv n sq (Hn : 0 < n) (HP : Permutation sq (List.seq 0 n)) : forall ops cur out s,
  il_inv n sq cur out s ->
  exists s' outb, il_run okw s ops = Ok s' /\
    Forall2 (@Permutation A) (fst (blocks_from n cur ops)) outb /\
    il_inv n sq (snd (blocks_from n cur ops)) (out ++ concat outb) s'.
Proof.
  induction ops as [|o ops IH]; intros cur out s HI.
  - exists s, []. cbn. rewrite app_nil_r. auto.
  - cbn [il_run blocks_from]. destruct o as [p|]; cbn [il_step].
    + destruct (write_inv n sq cur out s p HP HI) as (s1 & E & [(HL & o & Ho & HI1)|(HL & HI1)]); rewrite E; cbn [bind fst].
      * replace (length (cur ++ [p]) =? n) with true by (symmetry; apply Nat.eqb_eq; auto).
        destruct (IH _ _ _ HI1) as (s' & outb & ER & HF & HI2).
        destruct (blocks_from n [] ops) as [b r] eqn:EB. cbn [fst snd] in *.
        exists s', (o :: outb). split; auto. split. { constructor; auto. }
        cbn [concat]. rewrite app_assoc. auto.
      * replace (length (cur ++ [p]) =? n) with false by (symmetry; apply Nat.eqb_neq; lia).
        apply IH; auto.
    + destruct (flush_inv n sq cur out s HP HI) as (s1 & o & E & Ho & HI1); rewrite E; cbn [bind fst].
      destruct (IH _ _ _ HI1) as (s' & outb & ER & HF & HI2).
      destruct (blocks_from n [] ops) as [b r] eqn:EB. cbn [fst snd] in *.
      exists s', (o :: outb). split; auto. split. { constructor; auto. }
      cbn [concat]. rewrite app_assoc. auto.
Qed.

Definition in_slots (s : il A) : list A := flat_map opt (il_pkts s).

Lemma run_final n sq ops : 0 < n -> Permutation sq (List.seq 0 n) ->
  exists s' outb part, il_run okw (il_new sq n) ops = Ok s' /\
    Forall2 (@Permutation A) (fst (blocks n ops)) outb /\
    il_out s' = concat outb ++ part /\
    Permutation (part ++ in_slots s') (snd (blocks n ops)) /\
    length (snd (blocks n ops)) < n.
Proof.
  intros Hn HP.
  destruct (run_inv n sq Hn HP ops [] [] (il_new sq n)) as (s' & outb & ER & HF & (j & c & Hc & Hjn & Hj & Hs & Hnx & E)).
  { apply il_inv_fresh; auto. }
  exists s', outb. set (cur := snd (blocks_from n [] ops)) in *.
  exists (pick cur (firstn j sq)). unfold blocks. fold cur.
  split; auto. split; auto. subst s'. cbn [il_out il_pkts]. split; [reflexivity|]. split; auto.
  unfold in_slots. cbn [il_pkts].
  assert (EH : flat_map opt (map (slot cur (firstn j sq)) (List.seq 0 n)) = held cur (firstn j sq) n).
  { unfold held. rewrite !flat_map_concat_map, map_map. reflexivity. }
  rewrite EH. apply (held_perm cur (firstn j sq) (skipn j sq) n); [|lia]. rewrite firstn_skipn. auto.
Qed.

Lemma blocks_written n ops : forall cur, 
  cur ++ il_written ops = concat (fst (blocks_from n cur ops)) ++ snd (blocks_from n cur ops) :> list A.
Proof.
  induction ops as [|[p|] ops IH]; intros cur; cbn [blocks_from il_written].
  - cbn. rewrite app_nil_r. reflexivity.
  - destruct (length (cur ++ [p]) =? n).
    + specialize (IH []). destruct (blocks_from n [] ops). cbn in *. rewrite <- !app_assoc, <- IH. reflexivity.
    + rewrite <- IH, <- app_assoc. reflexivity.
  - specialize (IH []). destruct (blocks_from n [] ops). cbn in *. rewrite <- !app_assoc, <- IH. reflexivity.
Qed.

Lemma flush_all (n : nat) (sq : list nat) (ops : list (il_op A)) :
  0 < n -> Permutation sq (List.seq 0 n) ->
  exists s, il_run okw (il_new sq n) (ops ++ [IlFlush]) = Ok s /\
            Permutation (il_written ops) (il_out s) /\ in_slots s = [].
Proof.
  intros Hn HP.
  destruct (run_final n sq (ops ++ [IlFlush]) Hn HP) as (s & outb & part & ER & HF & EO & HQ & HL).
  assert (EB : forall cur, snd (blocks_from n cur (ops ++ [IlFlush])) = [] :> list A).
  { clear. induction ops as [|[p|] t IH]; intros cur; cbn [app blocks_from].
    - reflexivity.
    - destruct (_ =? _). { specialize (IH []). destruct (blocks_from n [] (t ++ [IlFlush])). auto. } apply IH.
    - specialize (IH []). destruct (blocks_from n [] (t ++ [IlFlush])). auto. }
  assert (EW : il_written (ops ++ [IlFlush]) = il_written ops :> list A).
  { clear. induction ops as [|[p|] t IH]; cbn; auto. f_equal; auto. }
  unfold blocks in *. rewrite EB in *. apply Permutation_sym, Permutation_nil, app_eq_nil in HQ.
  destruct HQ as [-> HS]. exists s. split; auto. split; auto.
  rewrite EO, app_nil_r, <- EW. rewrite (blocks_written n (ops ++ [IlFlush]) [] : il_written _ = _).
  rewrite EB, app_nil_r. clear -HF. induction HF; cbn; auto. apply Permutation_app; auto.
Qed.
End P.
