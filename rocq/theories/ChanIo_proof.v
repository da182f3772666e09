From Coq Require Import QArith Reals Lra.
From Verif Require Import Base Base_lemmas ChannelSet_model ChanMap_model ChanMap_spec ChanMap_props.
From Verif Require Import TimeConv_model TimeConv_spec TimeConv_props ChanIo_model ChanIo_spec.
Open Scope Z_scope.
Open Scope res_scope.

Lemma rabs_inv x y : (Rabs x <= y)%R -> (- y <= x <= y)%R.
Proof. intros H. pose proof (Rle_abs x). pose proof (Rle_abs (- x)) as G. rewrite Rabs_Ropp in G. lra. Qed.

Lemma forall2_fun {A B} (R : A -> B -> Prop) l : (forall a b c, R a b -> R a c -> b = c) ->
  forall x y, Forall2 R l x -> Forall2 R l y -> x = y.
Proof.
  intros D. induction l as [|a l IH]; intros x y X Y; inversion X; inversion Y; subst; auto. f_equal; eauto.
Qed.
Lemma one_call_app inp out mp fs gs : usable inp -> usable out -> made inp out mp -> Forall (is_frame inp) fs -> Forall (is_frame inp) gs ->
  exists a b, one_call mp fs a /\ one_call mp gs b /\ one_call mp (fs ++ gs) (a ++ b) /\
    Z.of_nat (length a) = Z.of_nat (length fs) * num_channels out.
Proof.
  intros UI UO M F G. destruct (made_map inp out mp UI UO M) as (EI & EO & _).
  destruct (C61_frames inp out mp fs UI UO M F) as (x & X & CX). destruct (C61_frames inp out mp gs UI UO M G) as (y & Y & CY).
  destruct (C61_frames inp out mp (fs ++ gs) UI UO M) as (z & Z0 & CZ); [now apply Forall_app|].
  assert (E : z = x ++ y).
  { eapply forall2_fun; [|exact Z0|apply Forall2_app; eauto]. intros a b c [_ B] [_ C]. congruence. }
  subst z. rewrite (concat_app x y) in CZ. unfold one_call. rewrite EO. exists (concat x), (concat y). split; auto. split; auto. split; auto.
  clear - X. induction X as [|a b fs outs [H _] P IH]; [reflexivity|]. cbn [concat length]. rewrite app_length. unfold is_frame in H. lia.
Qed.
Lemma one_call_fun mp fs a b : one_call mp fs a -> one_call mp fs b -> a = b.
Proof. unfold one_call. intros. congruence. Qed.
Lemma one_call_nil mp : usable (mp_in mp) -> usable (mp_out mp) -> one_call mp [] [].
Proof.
  intros UI UO. pose proof (usable_num _ UI). pose proof (usable_num _ UO). unfold one_call, map_samples. cbn [concat length Z.of_nat Z.mul].
  rewrite !Z.mod_0_l, !Z.div_0_l by lia. cbn. reflexivity.
Qed.

Lemma raw_ok fl : Z.testbit fl 0 = false -> is_raw fl = true.
Proof. unfold is_raw. now intros ->. Qed.
Lemma set_ts_ok t : 0 <= t -> set_capture_timestamp t = Ok t.
Proof. unfold set_capture_timestamp. intros. now rewrite (proj2 (Z.ltb_ge t 0)). Qed.
Lemma set_dur_ok n : 1 <= n < 2 ^ 32 -> set_duration n = Ok n.
Proof. unfold set_duration. intros. rewrite Z.mod_small by lia. now rewrite (proj2 (Z.eqb_neq n 0)) by lia. Qed.

Definition lors (a : Z) (rs : list (Z * Z)) : Z := fold_left (fun a r => Z.lor a (fst r)) rs a.
Lemma lors_bits rs : forall a i, 0 <= i -> Z.testbit (lors a rs) i = Z.testbit a i || existsb (fun r => Z.testbit (fst r) i) rs.
Proof.
  induction rs as [|r rs IH]; intros a i I; cbn [lors fold_left existsb]; [now rewrite orb_false_r|].
  change (fold_left _ rs ?x) with (lors x rs). rewrite IH, Z.lor_spec by lia. now rewrite orb_assoc.
Qed.
Lemma lors_union rs : union_flags (lors 0 rs) rs.
Proof. intros i I. rewrite lors_bits, Z.testbit_0_l by lia. reflexivity. Qed.
Lemma union_unique a b rs : 0 <= a -> 0 <= b -> union_flags a rs -> union_flags b rs -> a = b.
Proof.
  intros PA PB A B. apply Z.bits_inj'. intros i I. now rewrite (A i I), (B i I).
Qed.

Lemma parts_pos n m k : parts n m (S k) -> (0 < n)%nat.
Proof. intros [_ H]. destruct n; [|lia]. specialize (H 0%nat ltac:(lia)). lia. Qed.
Lemma parts_step n m k : (0 < n)%nat -> parts n m k -> exists j, k = S j /\ (0 < m)%nat /\ parts (n - Nat.min n m) m j.
Proof.
  unfold parts. intros N [A B]. destruct k as [|j]; [lia|]. exists j. split; auto. destruct m as [|m]; [lia|]. split; [lia|]. split.
  - cbn [Nat.mul] in A. lia.
  - intros i I. specialize (B (S i)). cbn [Nat.mul] in B. lia.
Qed.

Section Io.
Variables (inp out : chset) (mp : mapper).
Hypothesis (UI : usable inp) (UO : usable out) (M : made inp out mp).

Lemma read_batch_ok k fs more fl ts rest : length fs = k -> Forall (is_frame inp) fs -> Z.testbit fl 0 = false ->
  exists l, one_call mp fs l /\ read_batch mp k (mkSrc (fs ++ more) (Some (fl, ts) :: rest)) = Ok (Some (l, fl, ts), mkSrc more rest).
Proof.
  intros <- F R. destruct (one_call_app inp out mp fs [] UI UO M F ltac:(constructor)) as (l & _ & C & _). exists l. split; auto.
  unfold read_batch, src_read. cbn [sr_reads sr_frames]. rewrite app_length, (proj2 (Nat.leb_le _ _)) by lia.
  rewrite firstn_app, firstn_all, Nat.sub_diag, firstn_O, app_nil_r, skipn_app, skipn_all, Nat.sub_diag. cbn [app skipn].
  rewrite raw_ok by auto. cbn [negb]. unfold one_call in C. rewrite C. reflexivity.
Qed.

Lemma read_loop_ok rs : forall fuel mb fs more rest acc flags ts, Forall (is_frame inp) fs -> parts (length fs) mb (length rs) ->
  Forall fine rs -> (length rs < fuel)%nat ->
  exists l, one_call mp fs l /\
    read_loop fuel mp mb (length fs) (mkSrc (fs ++ more) (map Some rs ++ rest)) acc flags ts =
    Ok (Some (Some (acc ++ l, lors flags rs, match ts with Some t => Some t | None => option_map snd (hd_error rs) end), mkSrc more rest)).
Proof.
  induction rs as [|[fl t] rs IH]; intros fuel mb fs more rest acc flags ts F P R L.
  - assert (E : fs = []) by (unfold parts in P; cbn [length] in P; destruct fs; [reflexivity|cbn [length] in P; lia]). subst fs.
    destruct fuel as [|fuel]; [cbn [length] in L; lia|]. exists []. split.
    + destruct (made_map inp out mp UI UO M) as (EI & EO & _). apply one_call_nil; rewrite ?EI, ?EO; auto.
    + cbn. rewrite app_nil_r. destruct ts; reflexivity.
  - destruct fuel as [|fuel]; [lia|]. cbn [length] in L.
    assert (N : (0 < length fs)%nat) by (cbn [length] in P; exact (parts_pos _ _ _ P)).
    destruct (parts_step _ _ _ N P) as (j & EJ & MB & PJ). cbn [length] in EJ. injection EJ as <-.
    set (k := Nat.min (length fs) mb) in *. rewrite <- (firstn_skipn k fs) in F. apply Forall_app in F. destruct F as [F1 F2].
    assert (LK : length (firstn k fs) = k) by (rewrite firstn_length; lia).
    destruct (read_batch_ok k (firstn k fs) (skipn k fs ++ more) fl t (map Some rs ++ rest) LK F1 (proj1 (Forall_inv R))) as (l1 & C1 & E1).
    destruct (IH fuel mb (skipn k fs) more rest (acc ++ l1) (Z.lor flags fl) (Some (match ts with Some t0 => t0 | None => t end)) F2) as (l2 & C2 & E2);
      [rewrite skipn_length; exact PJ|exact (Forall_inv_tail R)|lia|].
    destruct (one_call_app inp out mp (firstn k fs) (skipn k fs) UI UO M F1 F2) as (a & b & A & B & AB & _).
    rewrite firstn_skipn in AB. pose proof (one_call_fun _ _ _ _ A C1). pose proof (one_call_fun _ _ _ _ B C2). subst a b.
    exists (l1 ++ l2). split; auto. cbn [read_loop]. destruct (length fs) as [|n] eqn:EN; [lia|]. fold k.
    replace (fs ++ more) with (firstn k fs ++ skipn k fs ++ more) by (rewrite app_assoc, firstn_skipn; reflexivity).
    cbn [map app]. rewrite E1. cbn [bind fst snd].
    assert (T : (match ts with Some t0 => Ok t0 | None => set_capture_timestamp t end) = Ok (match ts with Some t0 => t0 | None => t end)).
    { destruct ts; auto. apply set_ts_ok. apply (Forall_inv R). }
    rewrite T. cbn [bind]. rewrite skipn_length, EN in E2. rewrite E2. rewrite <- app_assoc. destruct ts; reflexivity.
Qed.

Lemma read_loop_fails rs : forall fuel mb n fs more rest acc flags ts, Forall (is_frame inp) fs -> length fs = (length rs * mb)%nat ->
  (length fs < n)%nat -> (0 < mb)%nat -> Forall fine rs -> (length rs < fuel)%nat ->
  read_loop fuel mp mb n (mkSrc (fs ++ more) (map Some rs ++ None :: rest)) acc flags ts = Ok (Some (None, mkSrc more rest)).
Proof.
  induction rs as [|[fl t] rs IH]; intros fuel mb n fs more rest acc flags ts F P N MB R L.
  - assert (E : fs = []) by (destruct fs; [reflexivity|cbn [length] in P; lia]). subst fs.
    destruct fuel as [|fuel]; [cbn [length] in L; lia|]. destruct n as [|n]; [cbn [length] in N; lia|]. reflexivity.
  - destruct fuel as [|fuel]; [lia|]. cbn [length] in L, P.
    assert (K : Nat.min n mb = mb) by (cbn [Nat.mul] in P; lia).
    rewrite <- (firstn_skipn mb fs) in F. apply Forall_app in F. destruct F as [F1 F2].
    assert (LK : length (firstn mb fs) = mb) by (rewrite firstn_length; lia).
    destruct (read_batch_ok mb (firstn mb fs) (skipn mb fs ++ more) fl t (map Some rs ++ None :: rest) LK F1 (proj1 (Forall_inv R))) as (l1 & C1 & E1).
    cbn [read_loop]. destruct n as [|n]; [lia|]. rewrite K.
    replace (fs ++ more) with (firstn mb fs ++ skipn mb fs ++ more) by (rewrite app_assoc, firstn_skipn; reflexivity).
    cbn [map app]. rewrite E1. cbn [bind fst snd].
    assert (T : (match ts with Some t0 => Ok t0 | None => set_capture_timestamp t end) = Ok (match ts with Some t0 => t0 | None => t end)).
    { destruct ts; auto. apply set_ts_ok. apply (Forall_inv R). }
    rewrite T. cbn [bind]. apply IH; auto; rewrite ?skipn_length; try lia. exact (Forall_inv_tail R).
Qed.

Lemma read_loop_stuck rs : forall fuel n fs acc flags ts, (0 < n)%nat -> Forall fine rs -> (length rs < fuel)%nat ->
  read_loop fuel mp 0 n (mkSrc fs (map Some rs)) acc flags ts = Ok (Some (None, mkSrc fs [])).
Proof.
  induction rs as [|[fl t] rs IH]; intros fuel n fs acc flags ts N R L; (destruct fuel as [|fuel]; [cbn [length] in L; lia|]); (destruct n as [|n]; [lia|]).
  - reflexivity.
  - cbn [length] in L. destruct (read_batch_ok 0 [] fs fl t (map Some rs) eq_refl ltac:(constructor) (proj1 (Forall_inv R))) as (l1 & C1 & E1).
    cbn [read_loop]. rewrite Nat.min_0_r. cbn [map app] in *. rewrite E1. cbn [bind fst snd].
    assert (T : (match ts with Some t0 => Ok t0 | None => set_capture_timestamp t end) = Ok (match ts with Some t0 => t0 | None => t end)).
    { destruct ts; auto. apply set_ts_ok. apply (Forall_inv R). }
    rewrite T. cbn [bind]. apply IH; [lia|exact (Forall_inv_tail R)|lia].
Qed.

(** Writing. *)
Lemma ns_ok sp n : usual sp -> 0 <= n < 2 ^ 32 -> (exact_ns n (s_rate sp) <= IZR (2 ^ 62))%R ->
  exists d, samples_per_chan_2_ns sp n = Ok d /\ 0 <= d /\
    (Rabs (IZR d - exact_ns n (s_rate sp)) <= exact_ns n (s_rate sp) / 4194304 + 1 / 2)%R /\ (0 <= exact_ns n (s_rate sp))%R.
Proof.
  intros U N B. assert (V : valid sp) by apply U. destruct (C55_never_undefined sp V) as (_ & _ & _ & _ & H & _).
  destruct (H n ltac:(lia)) as (d & E & _). exists d. split; auto.
  assert (P : (0 <= exact_ns n (s_rate sp))%R).
  { unfold exact_ns. assert (0 <= IZR n)%R by (apply (IZR_le 0); lia). assert (0 < IZR (s_rate sp))%R by (apply (IZR_lt 0); unfold usual, valid in U; lia).
    unfold Rdiv. apply Rmult_le_pos; [lra|]. left. now apply Rinv_0_lt_compat. }
  destruct (C55_samples_to_duration sp n d U) as (C & _); [now rewrite Rabs_pos_eq|].
  specialize (C ltac:(lia) E). unfold close in C. rewrite (Rabs_pos_eq _ P) in C. split; [|split; auto].
  assert (X : (-1 < IZR d)%R). { apply rabs_inv in C. lra. }
  apply lt_IZR in X. lia.
Qed.
Lemma ns_add a b r : 0 < r -> exact_ns (a + b) r = (exact_ns a r + exact_ns b r)%R.
Proof. intros P. unfold exact_ns. rewrite plus_IZR. assert (IZR r <> 0)%R by (apply IZR_neq; lia). field. auto. Qed.

Definition out_ok (sp : spec) (mb n : nat) (fl ts0 : Z) (k : nat) (g : frame) : Prop :=
  fr_flags g = fl /\ fr_dur g = Z.of_nat (Nat.min mb (n - k * mb)) /\ Z.of_nat (length (fr_samples g)) = fr_dur g * num_channels out /\
  (ts0 = 0 -> fr_ts g = 0) /\
  (0 < ts0 -> (Rabs (IZR (fr_ts g) - (IZR ts0 + exact_ns (Z.of_nat (k * mb)) (s_rate sp))) <=
               exact_ns (Z.of_nat (k * mb)) (s_rate sp) / 4194304 + INR k / 2)%R).

Lemma write_loop_ok sp mb fl : usual sp -> (0 < mb)%nat -> forall p fuel fs ts, Forall (is_frame inp) fs -> parts (length fs) mb p ->
  Z.of_nat (length fs) < 2 ^ 32 -> 0 <= ts -> (IZR ts + 2 * exact_ns (Z.of_nat (length fs)) (s_rate sp) + INR p < IZR (2 ^ 62))%R -> (p < fuel)%nat ->
  exists outs l, write_loop fuel mp sp mb (length fs) (concat fs) fl ts = Ok (Some outs) /\ one_call mp fs l /\
    concat (map fr_samples outs) = l /\ length outs = p /\
    (forall k g, nth_error outs k = Some g -> out_ok sp mb (length fs) fl ts k g).
Proof.
  intros U MB. assert (RP : 0 < s_rate sp) by (unfold usual, valid in U; lia).
  destruct (made_map inp out mp UI UO M) as (EI & EO & _). pose proof (usable_num _ UI) as NI.
  induction p as [|p IH]; intros fuel fs ts F P N T B L.
  - assert (E : fs = []) by (unfold parts in P; destruct fs; [reflexivity|cbn [length] in P; lia]). subst fs.
    destruct fuel as [|fuel]; [lia|]. exists [], []. split; [reflexivity|]. split; [apply one_call_nil; rewrite ?EI, ?EO; auto|].
    split; auto. split; auto. intros [|k] g X; inversion X.
  - destruct fuel as [|fuel]; [lia|].
    assert (N0 : (0 < length fs)%nat) by exact (parts_pos _ _ _ P).
    destruct (parts_step _ _ _ N0 P) as (j & EJ & _ & PJ). assert (j = p) by lia. subst j. clear EJ.
    set (k := Nat.min (length fs) mb) in *. pose proof F as F0. rewrite <- (firstn_skipn k fs) in F0. apply Forall_app in F0. destruct F0 as [F1 F2].
    assert (LK : length (firstn k fs) = k) by (rewrite firstn_length; lia).
    destruct (one_call_app inp out mp (firstn k fs) (skipn k fs) UI UO M F1 F2) as (a & b & A & B0 & AB & LA).
    rewrite firstn_skipn in AB. rewrite LK in LA.
    assert (LC : length (concat (firstn k fs)) = (k * Z.to_nat (num_channels inp))%nat).
    { rewrite <- LK at 2. clear - F1. generalize dependent (firstn k fs). intros l0 F1. induction F1 as [|x l X F IH]; [reflexivity|]. cbn [concat length Nat.mul]. rewrite app_length, IH. unfold is_frame in X. lia. }
    assert (CF : concat fs = concat (firstn k fs) ++ concat (skipn k fs)) by (rewrite <- concat_app, firstn_skipn; reflexivity).
    assert (SP : exact_ns (Z.of_nat (length fs)) (s_rate sp) = (exact_ns (Z.of_nat k) (s_rate sp) + exact_ns (Z.of_nat (length fs - k)) (s_rate sp))%R).
    { rewrite <- ns_add by auto. f_equal. lia. }
    assert (PN : forall m, (0 <= exact_ns (Z.of_nat m) (s_rate sp))%R).
    { intros m. unfold exact_ns, Rdiv. apply Rmult_le_pos; [apply Rmult_le_pos; [apply (IZR_le 0); lia|lra]|]. left. apply Rinv_0_lt_compat. apply (IZR_lt 0). lia. }
    assert (T0 : (0 <= IZR ts)%R) by (apply (IZR_le 0); lia). pose proof (pos_INR p) as PP. rewrite S_INR in B.
    pose proof (PN (length fs - k)%nat) as PR. pose proof (PN k) as PK.
    destruct (ns_ok sp (Z.of_nat k) U) as (d & ED & D0 & DC & _); [lia|lra|].
    apply rabs_inv in DC.
    set (ts' := if ts =? 0 then 0 else ts + d).
    assert (T' : 0 <= ts') by (unfold ts'; destruct (ts =? 0); lia).
    assert (B' : (IZR ts' <= IZR ts + 2 * exact_ns (Z.of_nat k) (s_rate sp) + 1)%R).
    { unfold ts'. destruct (Z.eqb_spec ts 0); [lra|]. rewrite plus_IZR. lra. }
    destruct (IH fuel (skipn k fs) ts' F2) as (outs & l2 & W & C2 & L2 & P2 & O2); rewrite ?skipn_length; auto; try lia; [lra|].
    rewrite skipn_length in W, O2. pose proof (one_call_fun _ _ _ _ B0 C2) as EB. subst b.
    exists (mkFr a fl (Z.of_nat k) ts :: outs), (a ++ l2). split; [|split; [auto|split; [cbn [map concat fr_samples]; now rewrite L2|split; [cbn [length]; lia|]]]].
    + cbn [write_loop]. destruct (length fs) as [|n] eqn:EN; [lia|]. fold k. rewrite EI. rewrite CF. rewrite <- LC.
      rewrite firstn_app, firstn_all, Nat.sub_diag, firstn_O, app_nil_r, skipn_app, skipn_all, Nat.sub_diag. cbn [app skipn].
      unfold write_batch at 1. unfold one_call in A. rewrite LK in A. rewrite A. cbn [bind]. rewrite set_dur_ok by lia. cbn [bind].
      rewrite set_ts_ok by auto. cbn [bind].
      assert (TT : (if ts =? 0 then Ok 0 else d <- samples_per_chan_2_ns sp (Z.of_nat k) ;; if ts + d <? 2 ^ 63 then Ok (ts + d) else UB) = Ok ts').
      { unfold ts'. destruct (ts =? 0) eqn:E0; [reflexivity|]. rewrite ED. cbn [bind].
        assert (X : ts + d < 2 ^ 62). { apply lt_IZR. rewrite plus_IZR. lra. }
        rewrite (proj2 (Z.ltb_lt _ _)) by lia. reflexivity. }
      rewrite TT. cbn [bind]. rewrite W. reflexivity.
    + intros [|i] g X.
      * cbn [nth_error] in X. injection X as <-. unfold out_ok. cbn [fr_flags fr_dur fr_samples fr_ts Nat.mul].
        split; auto. split; [unfold k; lia|]. split; auto. split; auto. intros _. cbn [INR]. change (Z.of_nat 0) with 0.
        unfold exact_ns. replace (IZR 0 * 1000000000 / IZR (s_rate sp))%R with 0%R by (field; apply IZR_neq; lia).
        replace (IZR ts - (IZR ts + 0))%R with 0%R by ring. rewrite Rabs_R0. lra.
      * cbn [nth_error] in X. specialize (O2 i g X). destruct O2 as (O1 & O2 & O3 & O4 & O5).
        assert (I : (i < p)%nat) by (rewrite <- P2; apply nth_error_Some; congruence).
        assert (K : k = mb).
        { unfold k. apply Nat.min_r. destruct P as [_ P]. destruct (Nat.le_gt_cases mb (length fs)) as [Q|Q]; auto. specialize (P 1%nat ltac:(lia)). lia. }
        unfold out_ok. split; auto. split; [rewrite O2; f_equal; cbn [Nat.mul]; lia|]. split; auto. split.
        -- intros Z0. apply O4. unfold ts'. now rewrite Z0.
        -- intros Z0. assert (E' : ts' = ts + d) by (unfold ts'; now rewrite (proj2 (Z.eqb_neq ts 0)) by lia).
           specialize (O5 ltac:(lia)). rewrite E', plus_IZR in O5. cbn [Nat.mul]. rewrite Nat2Z.inj_add, ns_add by auto. rewrite K in *.
           rewrite S_INR. apply rabs_inv in O5. apply Rabs_le. lra.
Qed.
End Io.
