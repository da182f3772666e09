From Verif Require Import Base Base_lemmas StrList_model StrList_spec.

Definition block (s : list Z) : list Z :=
  le32 (u32 (Z.of_nat (blk_sz (length s)))) ++
  (s ++ 0 :: repeat 0 (align4 (length s + 1) - (length s + 1))) ++ le32 (u32 (Z.of_nat (blk_sz (length s)))).

Definition datas (l : list (list Z)) : list Z := concat (map block l).
Definition off (l : list (list Z)) (i : nat) : nat := length (datas (firstn i l)).

Lemma align4_spec n : (n <= align4 n < n + 4 /\ align4 n mod 4 = 0)%nat.
Proof. unfold align4. destruct (Nat.eqb_spec (n mod 4) 0) as [E|E]; split; lia. Qed.

Lemma blk_sz_eq n m : blk_sz n = blk_sz m <-> (n / 4 = m / 4)%nat.
Proof.
  unfold blk_sz, align4.
  destruct (Nat.eqb_spec ((n+1) mod 4) 0); destruct (Nat.eqb_spec ((m+1) mod 4) 0); lia.
Qed.

Lemma length_block s : length (block s) = blk_sz (length s).
Proof.
  unfold block. rewrite !app_length. cbn [length le32]. rewrite repeat_length.
  pose proof (align4_spec (length s + 1)). unfold blk_sz. lia.
Qed.

Lemma rd_app_r {A} (p q : list A) i : rd (p ++ q) (length p + i) = rd q i.
Proof. unfold rd. rewrite nth_error_app2 by lia. replace (length p + i - length p)%nat with i by lia. reflexivity. Qed.

Lemma rd32_app p v q : 0 <= v < 4294967296 -> rd32 (p ++ le32 v ++ q) (length p) = Ok (Z.to_nat v).
Proof.
  intros H. unfold rd32. replace (length p) with (length p + 0)%nat at 1 by lia.
  rewrite !rd_app_r. cbn. f_equal. f_equal. unfold be32, byte_of. cbn. lia.
Qed.

Lemma datas_app a b : datas (a ++ b) = datas a ++ datas b.
Proof. unfold datas. rewrite map_app, concat_app. reflexivity. Qed.


Definition shape (l : slist) (ss : list (list Z)) : Prop :=
  sl_data l = datas ss /\ sl_size l = length ss /\ (ss <> [] -> sl_back l = off ss (length ss - 1)).

Lemma shape_push l ss s : shape l ss -> shape (fst (sl_push l s true)) (ss ++ [s]).
Proof.
  intros (D & S & B). unfold sl_push. cbn [negb fst]. split; [|split]; cbn [sl_data sl_size sl_back].
  - rewrite datas_app, D. change (datas [s]) with (block s ++ []). rewrite app_nil_r. reflexivity.
  - rewrite app_length. cbn. lia.
  - intros _. unfold off. rewrite app_length. cbn [length].
    replace (length ss + 1 - 1)%nat with (length ss) by lia.
    rewrite firstn_app, Nat.sub_diag, firstn_all. cbn [firstn]. rewrite app_nil_r, D. reflexivity.
Qed.

Lemma shape_run : forall ops l ss, shape l ss -> shape (sl_run l ops) (ss ++ pushed ops).
Proof.
  induction ops as [|[s a] ops IH]; intros l ss H; cbn [sl_run pushed].
  - rewrite app_nil_r. exact H.
  - destruct a.
    + specialize (IH _ _ (shape_push l ss s H)). rewrite <- app_assoc in IH. exact IH.
    + apply IH. exact H.
Qed.

Lemma datas_split ss i s : nth_error ss i = Some s ->
  datas ss = datas (firstn i ss) ++ block s ++ datas (skipn (S i) ss).
Proof.
  intros H. rewrite <- (firstn_skipn i ss) at 1. rewrite datas_app. f_equal.
  assert (skipn i ss = s :: skipn (S i) ss) as ->.
  { revert i H. induction ss as [|x ss IH]; intros i H; destruct i; cbn in *; try discriminate; [congruence|]. apply IH. exact H. }
  reflexivity.
Qed.

Lemma off_S ss i s : nth_error ss i = Some s -> off ss (S i) = (off ss i + blk_sz (length s))%nat.
Proof.
  intros H. unfold off.
  assert (firstn (S i) ss = firstn i ss ++ [s]) as ->.
  { revert i H. induction ss as [|x ss IH]; intros i H; destruct i; cbn in *; try discriminate; [congruence|]. f_equal. apply IH. exact H. }
  rewrite datas_app, app_length. change (datas [s]) with (block s ++ []). rewrite app_nil_r, length_block. reflexivity.
Qed.

Lemma off_mono ss i j : (i < j)%nat -> (j <= length ss)%nat -> (off ss i < off ss j)%nat.
Proof.
  intros H1 H2. induction j; [lia|].
  destruct (nth_error ss j) as [s|] eqn:E.
  2:{ apply nth_error_None in E. lia. }
  rewrite (off_S ss j s E). unfold blk_sz.
  destruct (Nat.eq_dec i j) as [->|]; [lia|]. specialize (IHj ltac:(lia) ltac:(lia)). lia.
Qed.

Lemma off_all ss : off ss (length ss) = length (datas ss).
Proof. unfold off. rewrite firstn_all. reflexivity. Qed.

Section Shaped.
  Variables (l : slist) (ss : list (list Z)).
  Hypothesis (Hs : shape l ss) (Hg : Forall good_str ss).

  Lemma small_blk s : good_str s -> u32 (Z.of_nat (blk_sz (length s))) = Z.of_nat (blk_sz (length s)) /\
     0 <= Z.of_nat (blk_sz (length s)) < 4294967296.
  Proof.
    intros [_ H]. pose proof (align4_spec (length s + 1)).
    assert (0 <= Z.of_nat (blk_sz (length s)) < 4294967296) by (unfold blk_sz; lia).
    split; [|assumption]. unfold u32, wrapu. change (2 ^ 32) with 4294967296. apply Z.mod_small. assumption.
  Qed.

  Lemma good_nth i s : nth_error ss i = Some s -> good_str s.
  Proof. intros H. rewrite Forall_forall in Hg. apply Hg. eapply nth_error_In, H. Qed.

  Lemma hdr_at i s : nth_error ss i = Some s -> rd32 (sl_data l) (off ss i) = Ok (blk_sz (length s)).
  Proof.
    intros H. destruct Hs as (-> & _). rewrite (datas_split ss i s H). unfold block, off.
    destruct (small_blk s (good_nth i s H)) as [E R]. rewrite E.
    rewrite <- !app_assoc. rewrite rd32_app by exact R. f_equal. lia.
  Qed.

  Lemma ftr_at i s : nth_error ss i = Some s -> rd32 (sl_data l) (off ss (S i) - 4) = Ok (blk_sz (length s)).
  Proof.
    intros H. rewrite (off_S ss i s H). destruct Hs as (-> & _). rewrite (datas_split ss i s H). unfold block, off.
    destruct (small_blk s (good_nth i s H)) as [E R]. rewrite E.
    set (h := le32 (Z.of_nat (blk_sz (length s)))). set (m := s ++ 0 :: _).
    assert (Lm : length m = align4 (length s + 1)).
    { unfold m. rewrite app_length. cbn [length]. rewrite repeat_length. pose proof (align4_spec (length s + 1)). lia. }
    replace (datas (firstn i ss) ++ (h ++ m ++ h) ++ datas (skipn (S i) ss))
      with ((datas (firstn i ss) ++ h ++ m) ++ h ++ datas (skipn (S i) ss)) by (rewrite <- !app_assoc; reflexivity).
    replace (length (datas (firstn i ss)) + blk_sz (length s) - 4)%nat with (length (datas (firstn i ss) ++ h ++ m)).
    2:{ rewrite !app_length, Lm. unfold h. cbn [length le32]. unfold blk_sz. lia. }
    pose proof (rd32_app (datas (firstn i ss) ++ h ++ m) _ (datas (skipn (S i) ss)) R) as X. fold h in X. rewrite X. f_equal. lia.
  Qed.

  Lemma body_at i s : nth_error ss i = Some s ->
    exists q, skipn (off ss i + 4) (sl_data l) = s ++ 0 :: q /\
      (align4 (length s + 1) <= length s + 1 + length q)%nat.
  Proof.
    intros H. destruct Hs as (-> & _). rewrite (datas_split ss i s H). unfold block, off.
    set (v := u32 _). set (p := datas (firstn i ss)). set (pad := repeat 0 _). set (q := datas (skipn (S i) ss)).
    exists (pad ++ le32 v ++ q). split.
    - replace (length p + 4)%nat with (length (p ++ le32 v)) by (rewrite app_length; reflexivity).
      rewrite <- !app_assoc. rewrite (app_assoc p (le32 v)). rewrite skipn_app, skipn_all, Nat.sub_diag. cbn [skipn app]. reflexivity.
    - rewrite app_length. unfold pad. rewrite repeat_length. pose proof (align4_spec (length s + 1)). lia.
  Qed.

  Lemma until_nul_app s q : Forall (fun c => 1 <= c < 256) s -> until_nul (s ++ 0 :: q) = Some s.
  Proof.
    induction s as [|c s IH]; intros F; cbn [until_nul app].
    - reflexivity.
    - rewrite Forall_cons_iff in F. destruct F as [Hc F]. replace (c =? 0) with false by lia.
      rewrite (IH F). reflexivity.
  Qed.

  Lemma str_at i s : nth_error ss i = Some s -> sl_str l (off ss i) = Some s.
  Proof.
    intros H. unfold sl_str. destruct (body_at i s H) as (q & -> & _). apply until_nul_app.
    apply (good_nth i s H).
  Qed.

  Lemma off_lt i : (i < length ss)%nat -> (off ss i + 12 <= length (sl_data l))%nat.
  Proof.
    intros H. destruct Hs as (D & _). rewrite D, <- off_all.
    destruct (nth_error ss i) as [s|] eqn:E; [|apply nth_error_None in E; lia].
    assert (off ss i + 12 <= off ss (S i))%nat.
    { rewrite (off_S ss i s E). pose proof (align4_spec (length s + 1)). unfold blk_sz. lia. }
    destruct (Nat.eq_dec (S i) (length ss)) as [<-|]; [lia|].
    pose proof (off_mono ss (S i) (length ss)). lia.
  Qed.

  Lemma back_eq i : (i < length ss)%nat -> (off ss i =? sl_back l)%nat = (S i =? length ss)%nat.
  Proof.
    intros H. destruct Hs as (_ & _ & B). rewrite B by (destruct ss; [cbn in H; lia|discriminate]).
    destruct (Nat.eqb_spec (S i) (length ss)) as [E|E].
    - replace (length ss - 1)%nat with i by lia. apply Nat.eqb_refl.
    - pose proof (off_mono ss i (length ss - 1)). apply Nat.eqb_neq. lia.
  Qed.

  Lemma check_at i : (i < length ss)%nat -> sl_check l (off ss i) = Ok tt.
  Proof.
    intros H. unfold sl_check. pose proof (off_lt i H). destruct Hs as (_ & S & _). rewrite S.
    replace (length ss =? 0)%nat with false by lia. replace (off ss i + 4 <? _)%nat with true by lia. reflexivity.
  Qed.

  Lemma next_at i : (i < length ss)%nat ->
    sl_nextof l (off ss i) = Ok (if (S i =? length ss)%nat then None else Some (off ss (S i))).
  Proof.
    intros H. unfold sl_nextof. rewrite check_at by exact H. cbn [bind]. rewrite back_eq by exact H.
    destruct (S i =? length ss)%nat; [reflexivity|].
    destruct (nth_error ss i) as [s|] eqn:E; [|apply nth_error_None in E; lia].
    rewrite (hdr_at i s E), (off_S ss i s E). reflexivity.
  Qed.

  Lemma prev_at i : (i < length ss)%nat ->
    sl_prevof l (off ss i) = Ok (match i with O => None | S j => Some (off ss j) end).
  Proof.
    intros H. unfold sl_prevof. rewrite check_at by exact H. cbn [bind]. destruct i as [|j].
    - reflexivity.
    - destruct (nth_error ss j) as [s|] eqn:E; [|apply nth_error_None in E; lia].
      pose proof (off_S ss j s E) as EO. pose proof (align4_spec (length s + 1)).
      replace (off ss (S j) =? 0)%nat with false by (unfold blk_sz in EO; lia).
      replace (off ss (S j) <? 4)%nat with false by (unfold blk_sz in EO; lia).
      rewrite (ftr_at j s E). cbn [bind]. replace (off ss (S j) <? _)%nat with false by lia.
      do 2 f_equal. lia.
  Qed.

  Lemma memeq_spec t : forall d o, (o + length t <= length d)%nat ->
    exists b, memeq d o t = Ok b /\ (b = true <-> firstn (length t) (skipn o d) = t).
  Proof.
    induction t as [|c t IH]; intros d o H; cbn [memeq length] in *.
    - exists true. split; [reflexivity|]. cbn. tauto.
    - destruct (nth_error d o) as [x|] eqn:E; [|apply nth_error_None in E; lia].
      assert (K : skipn o d = x :: skipn (S o) d).
      { clear -E. revert o E. induction d as [|y d IHd]; intros o E; destruct o; cbn in *; try discriminate; [congruence|]. apply IHd. exact E. }
      unfold rd. rewrite E. cbn [bind]. rewrite K. cbn [firstn].
      destruct (Z.eqb_spec x c) as [->|N].
      + destruct (IH d (S o) ltac:(lia)) as (b & Eb & Hb). exists b. split; [exact Eb|].
        rewrite Hb. split; [intros ->; reflexivity|congruence].
      + exists false. split; [reflexivity|]. split; [discriminate|congruence].
  Qed.

  (** Does block [s] match a lookup of [t]? *)
  Definition matches (t s : list Z) : Prop := same_block t s /\ firstn (length t) s = t.

  Lemma match_at i s t : nth_error ss i = Some s -> Forall (fun c => 1 <= c < 256) t ->
    exists b, (if (blk_sz (length s) =? blk_sz (length t))%nat then memeq (sl_data l) (off ss i + 4) t else Ok false) = Ok b /\
      (b = true <-> matches t s).
  Proof.
    intros E F. unfold matches, same_block.
    destruct (Nat.eqb_spec (blk_sz (length s)) (blk_sz (length t))) as [B|B].
    - destruct (body_at i s E) as (q & K & Q).
      assert (L : (length t <= length s + length q)%nat).
      { unfold blk_sz in B. pose proof (align4_spec (length t + 1)). lia. }
      assert (HO : (off ss i + 4 + length t <= length (sl_data l))%nat).
      { apply f_equal with (f := @length Z) in K. rewrite skipn_length, app_length in K. cbn in K.
        assert (i < length ss)%nat by (apply nth_error_Some; congruence). pose proof (off_lt i ltac:(lia)). lia. }
      destruct (memeq_spec t (sl_data l) (off ss i + 4) ltac:(lia)) as (b & Eb & Hb).
      exists b. split; [exact Eb|]. rewrite Hb, K.
      assert (BB : (length t / 4 = length s / 4)%nat) by (symmetry; apply blk_sz_eq; exact B).
      rewrite firstn_app. split.
      + intros H. split; [exact BB|].
        destruct (Nat.le_gt_cases (length t) (length s)) as [Hle|Hgt].
        * replace (length t - length s)%nat with 0%nat in H by lia. cbn in H. rewrite app_nil_r in H. exact H.
        * exfalso. replace (length t - length s)%nat with (S (length t - length s - 1)) in H by lia. cbn [firstn] in H.
          assert (In 0 t) by (rewrite <- H; apply in_or_app; right; left; reflexivity).
          rewrite Forall_forall in F. specialize (F 0 ltac:(assumption)). lia.
      + intros [_ H].
        assert (length t <= length s)%nat.
        { apply f_equal with (f := @length Z) in H. rewrite firstn_length in H. lia. }
        replace (length t - length s)%nat with 0%nat by lia. cbn. rewrite app_nil_r. exact H.
    - exists false. split; [reflexivity|]. split; [discriminate|]. intros [X _]. exfalso. apply B.
      apply blk_sz_eq. congruence.
  Qed.

  Lemma find_from_spec t : Forall (fun c => 1 <= c < 256) t -> forall fuel i,
    (i < length ss)%nat -> (length ss <= i + fuel)%nat ->
    exists r, sl_find_from fuel l (off ss i) t = Ok r /\
      match r with
      | None => forall j s, (i <= j)%nat -> nth_error ss j = Some s -> ~ matches t s
      | Some o => exists j s, (i <= j)%nat /\ nth_error ss j = Some s /\ o = off ss j /\ matches t s /\
          (forall k s', (i <= k < j)%nat -> nth_error ss k = Some s' -> ~ matches t s')
      end.
  Proof.
    intros F. induction fuel as [|f IH]; intros i Hi Hf; [lia|].
    cbn [sl_find_from].
    destruct (nth_error ss i) as [s|] eqn:E; [|apply nth_error_None in E; lia].
    rewrite (hdr_at i s E). cbn [bind].
    destruct (match_at i s t E F) as (b & -> & Hb). cbn [bind]. destruct b.
    - exists (Some (off ss i)). split; [reflexivity|]. exists i, s. repeat split; auto; try (apply Hb; reflexivity). intros; lia.
    - assert (Hnm : ~ matches t s) by (intros X; apply Hb in X; discriminate).
      rewrite back_eq by exact Hi. destruct (Nat.eqb_spec (S i) (length ss)) as [El|El].
      + exists None. split; [reflexivity|]. intros j s' Hj Ej.
        assert (j < length ss)%nat by (apply nth_error_Some; congruence).
        replace j with i in Ej by lia. congruence.
      + rewrite <- (off_S ss i s E).
        destruct (IH (S i) ltac:(lia) ltac:(lia)) as (r & Er & Hr). exists r. split; [exact Er|].
        destruct r as [o|].
        * destruct Hr as (j & s' & H1 & H2 & H3 & H4 & H5). exists j, s'. repeat split; auto; try lia; try apply H4.
          intros k s'' Hk Ek. destruct (Nat.eq_dec k i) as [->|]; [congruence|]. apply (H5 k s''); auto. lia.
        * intros j s' Hj Ej. destruct (Nat.eq_dec j i) as [->|]; [congruence|]. apply (Hr j s'); auto. lia.
  Qed.

  Lemma find_spec t : Forall (fun c => 1 <= c < 256) t ->
    exists r, sl_find l t = Ok r /\
      match r with
      | None => forall s, In s ss -> ~ matches t s
      | Some o => exists j s, nth_error ss j = Some s /\ o = off ss j /\ matches t s /\
          (forall k s', (k < j)%nat -> nth_error ss k = Some s' -> ~ matches t s')
      end.
  Proof.
    intros F. unfold sl_find. pose proof Hs as (_ & S & _). rewrite S.
    destruct ss as [|x ss'] eqn:Ess.
    - exists None. split; [reflexivity|]. intros s [].
    - cbn [length Nat.eqb]. rewrite <- Ess in *.
      assert (L : length ss = Datatypes.S (length ss')) by (rewrite Ess; reflexivity).
      destruct (find_from_spec t F (Datatypes.S (length ss')) 0%nat ltac:(lia) ltac:(lia)) as (r & Er & Hr).
      change (off ss 0) with 0%nat in Er. exists r. split; [exact Er|]. destruct r as [o|].
      + destruct Hr as (j & s & _ & H2 & H3 & H4 & H5). exists j, s. repeat split; auto; try apply H4. intros. apply (H5 k s'); auto. lia.
      + intros s Hin. apply In_nth_error in Hin. destruct Hin as [j Hj]. apply (Hr j s); auto. lia.
  Qed.

  Lemma walk_fwd : forall n i fuel, (i < length ss)%nat -> (n = length ss - i)%nat -> (n <= fuel)%nat ->
    walk (sl_nextof l) l fuel (Some (off ss i)) = Some (skipn i ss).
  Proof.
    induction n as [|n IH]; intros i fuel Hi Hn Hf; [lia|].
    destruct fuel as [|f]; [lia|]. cbn [walk].
    destruct (nth_error ss i) as [s|] eqn:E; [|apply nth_error_None in E; lia].
    rewrite (str_at i s E), next_at by exact Hi.
    assert (K : skipn i ss = s :: skipn (S i) ss).
    { clear -E. revert i E. induction ss as [|y d IHd]; intros o E; destruct o; cbn in *; try discriminate; [congruence|]. apply IHd. exact E. }
    rewrite K. destruct (Nat.eqb_spec (S i) (length ss)) as [El|El].
    - rewrite skipn_all2 by lia. destruct f; reflexivity.
    - rewrite IH by lia. reflexivity.
  Qed.

  Lemma walk_bwd : forall i fuel, (i < length ss)%nat -> (i < fuel)%nat ->
    walk (sl_prevof l) l fuel (Some (off ss i)) = Some (rev (firstn (S i) ss)).
  Proof.
    induction i as [|i IH]; intros fuel Hi Hf; (destruct fuel as [|f]; [lia|]); cbn [walk].
    - destruct (nth_error ss 0) as [s|] eqn:E; [|apply nth_error_None in E; lia].
      rewrite (str_at 0 s E), prev_at by exact Hi. destruct ss; [discriminate|]. injection E as ->. destruct f; reflexivity.
    - destruct (nth_error ss (S i)) as [s|] eqn:E; [|apply nth_error_None in E; lia].
      rewrite (str_at (S i) s E), prev_at by exact Hi. rewrite IH by lia. cbn [option_map].
      assert (firstn (S (S i)) ss = firstn (S i) ss ++ [s]) as ->.
      { clear -E. revert E. generalize (S i). induction ss as [|x d IHd]; intros j H; destruct j; cbn in *; try discriminate; [congruence|]. f_equal. apply IHd. exact H. }
      rewrite rev_app_distr. reflexivity.
  Qed.
End Shaped.
