From Coq Require Import Permutation.
From Verif Require Import Base Base_lemmas Seqnum_model Seqnum_proof
  SortedQueue_model SortedQueue_spec SortedQueue_proof DelayedReader_model DelayedReader_spec.

Section P.
Variable pos time : dpkt -> Z.
Notation coherent := (coherent pos time).
Notation ordered := (ordered pos).

Lemma coherent_sub F G : coherent F -> NoDup G -> incl G F -> coherent G.
Proof.
  intros (A & B & C & D & E) N I.
  split; [auto|]. split; [intros; apply B; auto|]. split; [intros; apply C; auto|].
  split; intros; [apply D|apply E]; auto.
Qed.

Lemma coherent_perm F G : coherent F -> Permutation F G -> coherent G.
Proof.
  intros H P. eapply coherent_sub; eauto.
  - eapply Permutation_NoDup; eauto. apply H.
  - intros x Hx. apply (Permutation_in _ (Permutation_sym P)). auto.
Qed.

Lemma NoDup_app_l {A} (l1 l2 : list A) : NoDup (l1 ++ l2) -> NoDup l1.
Proof. induction l1; cbn; intros H; [constructor|]. inversion H; subst. constructor; auto. intros X. apply H2. apply in_or_app; auto. Qed.
Lemma NoDup_app_r {A} (l1 l2 : list A) : NoDup (l1 ++ l2) -> NoDup l2.
Proof. induction l1; cbn; auto. intros H. inversion H; auto. Qed.

Lemma coherent_app_l F G : coherent (F ++ G) -> coherent F.
Proof. intros H. eapply coherent_sub; eauto. - eapply NoDup_app_l. apply H. - intros x Hx. apply in_or_app; auto. Qed.
Lemma coherent_app_r F G : coherent (F ++ G) -> coherent G.
Proof. intros H. eapply coherent_sub; eauto. - eapply NoDup_app_r. apply H. - intros x Hx. apply in_or_app; auto. Qed.

Lemma desc_rev l : desc pos l -> ordered (rev l).
Proof.
  assert (G : forall a b, ordered a -> ordered b -> (forall x y, In x a -> In y b -> pos x < pos y) -> ordered (a ++ b)).
  { induction a as [|x a IH]; cbn; auto. intros b [H1 H2] Hb Hxy. split.
    - intros q Hq. apply in_app_or in Hq as [Hq|Hq]; auto.
    - apply IH; auto. }
  induction l as [|x l IH]; cbn; auto. intros [H1 H2]. apply G; auto.
  - cbn; split; [intros ? []|auto].
  - intros a b Ha [<-|[]]. apply in_rev in Ha. auto.
Qed.

Lemma desc_of_ordered_rev Q : ordered Q -> desc pos (rev Q).
Proof.
  assert (G : forall a b, desc pos a -> desc pos b -> (forall x y, In x a -> In y b -> pos y < pos x) -> desc pos (a ++ b)).
  { induction a as [|x a IH]; cbn; auto. intros b [H1 H2] Hb Hxy. split.
    - intros q Hq. apply in_app_or in Hq as [Hq|Hq]; auto.
    - apply IH; auto. }
  induction Q as [|x l IH]; cbn; auto. intros [H1 H2]. apply G; auto.
  - cbn; split; [intros ? []|auto].
  - intros a b Ha [<-|[]]. apply in_rev in Ha. auto.
Qed.

(** fetching *)
Lemma fetch_spec u : forall (q : sq dpkt) F,
  sq_max q = O -> desc pos (sq_list q) -> Permutation F (sq_list q) -> coherent (F ++ u) ->
  let q' := fold_left (sq_write dp_cmp) u q in
  sq_max q' = O /\ desc pos (sq_list q') /\ Permutation (F ++ u) (sq_list q').
Proof.
  induction u as [|p u IH]; intros q F Hm Hd HP HC; cbn [fold_left].
  - rewrite app_nil_r. auto.
  - assert (HC1 : coherent (F ++ [p])).
    { apply (coherent_app_l _ u). rewrite <- app_assoc. exact HC. }
    destruct HC1 as (ND & HV & HW & _).
    assert (Hin : forall x, In x (sq_list q) -> In x (F ++ [p]) /\ x <> p).
    { intros x Hx. apply (Permutation_in _ (Permutation_sym HP)) in Hx. split; [apply in_or_app; auto|].
      intros ->. apply NoDup_remove_2 in ND. rewrite app_nil_r in ND. auto. }
    assert (Hp : In p (F ++ [p])) by (apply in_or_app; right; left; auto).
    destruct (write_spec dp_cmp pos q p Hd) as (HS & Hd' & Hm').
    { intros x Hx. destruct (Hin x Hx) as [I1 I2]. unfold agree, dp_cmp.
      rewrite (proj1 (HV _ Hp)), (proj1 (HV _ I1)). apply rtp_compare_pos.
      apply (HW p x); auto. }
    assert (HP' : Permutation (F ++ [p]) (sq_list (sq_write dp_cmp q p))).
    { inversion HS as [s0 p0 Hc Hl|s0 p0 x Hf Hi Hk|s0 p0 s' Hf Hne Hpm| |]; subst.
      - lia.
      - exfalso. destruct (Hin x Hi) as [I1 I2]. destruct (HW p x); auto. 
      - rewrite Hpm. rewrite <- Permutation_cons_append. constructor. exact HP. }
    specialize (IH (sq_write dp_cmp q p) (F ++ [p])). rewrite <- app_assoc in IH. cbn [app] in IH.
    apply IH; auto. congruence.
Qed.

(** duration of an ordered list *)
Definition durn (Q : list dpkt) : Z :=
  match Q with
  | [] => 0
  | a :: _ => time (last Q a) + dp_dur (last Q a) - time a
  end.

Lemma last_In {A} (l : list A) d : l <> [] -> In (last l d) l.
Proof.
  induction l as [|x l IH]; [congruence|]. intros _. destruct l as [|y l]; [left; auto|].
  right. apply IH. discriminate.
Qed.

Lemma ordered_last Q a : ordered Q -> forall q, In q Q -> pos q <= pos (last Q a).
Proof.
  induction Q as [|x Q IH]; cbn [DelayedReader_spec.ordered]; intros HO q Hq; [destruct Hq|].
  destruct HO as [H1 H2]. destruct Q as [|y Q].
  - destruct Hq as [<-|[]]. cbn. lia.
  - change (last (x :: y :: Q) a) with (last (y :: Q) a).
    destruct Hq as [<-|Hq]; [|apply IH; auto].
    specialize (H1 (last (y :: Q) a)). rewrite Z.le_lteq. left. apply H1. apply last_In. discriminate.
Qed.

Lemma time_mono Q p q : coherent Q -> In p Q -> In q Q -> pos p <= pos q -> time p <= time q.
Proof.
  intros (ND & HV & HW & HT & HS) Hp Hq H.
  destruct (Z.eq_dec (pos p) (pos q)) as [E|N].
  - assert (~ p <> q) as E2. { intros X. destruct (HW p q Hp Hq X). auto. }
    (* p and q have equal positions hence are equal *)
    destruct (list_eq_dec (fun x y : Z => Z.eq_dec x y) [dp_id p; dp_seq p; dp_ts p; dp_dur p] [dp_id q; dp_seq q; dp_ts q; dp_dur q]) as [E3|N3].
    + destruct p, q; cbn in E3; inversion E3; subst; lia.
    + exfalso. apply E2. intros ->. apply N3. reflexivity.
  - apply HT; auto. lia.
Qed.

Lemma span_durn F Q d : coherent F -> Permutation F Q -> ordered Q -> (span pos time F d <-> d = durn Q).
Proof.
  intros HC HP HO. destruct Q as [|a Q].
  - apply Permutation_sym, Permutation_nil in HP. subst F. cbn. split.
    + intros [[_ H]|(a & b & [] & _)]; auto.
    + intros ->. left; auto.
  - assert (Ha : In a F) by (apply (Permutation_in _ (Permutation_sym HP)); left; auto).
    set (Q' := a :: Q) in *. cbn [durn]. unfold Q'. cbn [durn].
    fold Q'. set (b := last Q' a).
    assert (Hb : In b F). { apply (Permutation_in _ (Permutation_sym HP)). apply last_In. discriminate. }
    assert (Hbnd : forall q, In q F -> pos a <= pos q <= pos b).
    { intros q Hq. apply (Permutation_in _ HP) in Hq. split.
      - destruct Hq as [<-|Hq]; [lia|]. destruct HO as [H1 _]. specialize (H1 _ Hq). lia.
      - apply ordered_last; auto. }
    assert (Heq : forall p q, In p F -> In q F -> pos p = pos q -> p = q).
    { intros p q Hp Hq E. destruct HC as (_ & _ & HW & _).
      destruct (list_eq_dec (fun x y : Z => Z.eq_dec x y) [dp_id p; dp_seq p; dp_ts p; dp_dur p] [dp_id q; dp_seq q; dp_ts q; dp_dur q]) as [E3|N3].
      - destruct p, q; cbn in E3; inversion E3; subst; auto.
      - exfalso. destruct (HW p q Hp Hq); auto. intros ->. apply N3; auto. }
    split.
    + intros [[E _]|(x & y & Hx & Hy & Hxy & E)]. { subst F. destruct Ha. }
      assert (x = a). { apply Heq; auto. pose proof (Hxy a Ha). pose proof (Hbnd x Hx). lia. }
      assert (y = b). { apply Heq; auto. pose proof (Hxy b Hb). pose proof (Hbnd y Hy). lia. }
      subst. auto.
    + intros ->. right. exists a, b. auto.
Qed.

Lemma rev_hd_last (Q : list dpkt) a x : rev (a :: Q) = x :: tl (rev (a :: Q)) -> x = last (a :: Q) a.
Proof.
  intros H. rewrite <- (rev_involutive (a :: Q)). rewrite H. cbn [rev].
  rewrite last_last. reflexivity.
Qed.

Lemma queue_size_spec Q l m : coherent Q -> ordered Q ->
  dr_queue_size (mkSq (rev Q) l m) = durn Q.
Proof.
  intros HC HO. unfold dr_queue_size, sq_tail, sq_head. cbn [sq_list].
  destruct Q as [|a Q]; [reflexivity|].
  assert (EB : list_back (rev (a :: Q)) = Some a). { cbn [rev]. apply list_back_app. }
  rewrite EB. destruct (rev (a :: Q)) as [|x r] eqn:ER.
  { apply (f_equal (@length dpkt)) in ER. rewrite rev_length in ER. discriminate. }
  assert (x = last (a :: Q) a). { apply rev_hd_last. rewrite ER. reflexivity. } subst x.
  set (b := last (a :: Q) a) in *. cbn [durn]. fold b.
  assert (Hb : In b (a :: Q)) by (apply last_In; discriminate).
  assert (Ha : In a (a :: Q)) by (left; auto).
  assert (Hab : pos a <= pos b) by (apply ordered_last; auto).
  assert (Ht : time a <= time b) by (apply (time_mono (a :: Q)); auto).
  destruct HC as (ND & HV & HW & HT & HS).
  destruct (HV b Hb) as (_ & Eb & Db). destruct (HV a Ha) as (_ & Ea & Da).
  pose proof (HS a b Ha Hb) as Hspan.
  assert (E : stream_timestamp_diff (u32 (dp_ts b + dp_dur b)) (dp_ts a) = time b + dp_dur b - time a).
  { rewrite Ea. unfold u32, wrapu. change (2^32) with 4294967296.
    rewrite Eb. rewrite Zplus_mod_idemp_l. apply stream_timestamp_diff_pos. lia. }
  rewrite E. destruct (Z.ltb_spec (time b + dp_dur b - time a) 0); lia.
Qed.

Lemma coherent_tl p Q : coherent (p :: Q) -> coherent Q.
Proof. apply (coherent_app_r [p] Q). Qed.


Lemma last_indep {A} (l : list A) d d' : l <> [] -> last l d = last l d'.
Proof.
  induction l as [|x l IH]; [congruence|]. intros _. destruct l as [|y l]; auto.
  change (last (y :: l) d = last (y :: l) d'). apply IH. discriminate.
Qed.

Lemma durn_tl p Q : coherent (p :: Q) -> ordered (p :: Q) -> durn Q <= durn (p :: Q).
Proof.
  intros HC HO. destruct Q as [|a Q].
  - cbn. destruct HC as (_ & HV & _). destruct (HV p (or_introl eq_refl)) as (_ & _ & H). lia.
  - cbn [durn]. change (last (p :: a :: Q) p) with (last (a :: Q) p).
    rewrite (last_indep (a :: Q) p a) by discriminate.
    assert (time p <= time a); [|lia].
    apply (time_mono (p :: a :: Q)); cbn; auto. destruct HO as [H _].
    specialize (H a (or_introl eq_refl)). lia.
Qed.

Lemma sq_read_rev (p : dpkt) Q l m : sq_read (mkSq (rev (p :: Q)) l m) = (mkSq (rev Q) l m, Some p).
Proof.
  unfold sq_read. cbn [sq_list sq_latest sq_max rev]. rewrite list_back_app, removelast_last. reflexivity.
Qed.

Lemma read_queued_spec delay : 0 < delay -> forall Q l m fuel,
  coherent Q -> ordered Q -> Q <> [] -> (length Q < fuel)%nat ->
  exists D p R, Q = D ++ p :: R /\ durn R < delay /\ (D = [] \/ delay <= durn (p :: R)) /\
    dr_read_queued fuel (mkSq (rev Q) l m) delay = (mkSq (rev R) l m, Some p).
Proof.
  intros Hdel. induction Q as [|p Q IH]; intros l m fuel HC HO HN HF; [congruence|].
  destruct fuel as [|fuel]; [lia|]. cbn [dr_read_queued].
  rewrite sq_read_rev. pose proof (coherent_tl _ _ HC) as HC'. destruct HO as [HO1 HO'].
  rewrite queue_size_spec by auto.
  destruct (Z.ltb_spec (durn Q) delay) as [L|G].
  - exists [], p, Q. auto.
  - destruct Q as [|q Q]. { cbn in G. lia. }
    destruct (IH l m fuel) as (D & p' & R & E & H1 & H2 & H3); auto; [discriminate|cbn in HF |- *; lia|].
    exists (p :: D), p', R. rewrite H3. split; [rewrite E; auto|]. split; [auto|]. split; [|auto].
    right. destruct H2 as [->|]; auto. cbn in E. congruence.
Qed.

Lemma ordered_app_r a b : ordered (a ++ b) -> ordered b.
Proof. induction a; cbn; auto. intros [_ H]; auto. Qed.

(** after start *)
Lemma started_step Q l m delay u st : 0 < delay -> coherent Q -> ordered Q -> durn Q < delay ->
  dr_read (mkDr (mkSq (rev Q) l m) delay true) u st =
  match Q with
  | p :: R => (mkDr (mkSq (rev R) l m) delay true, u, RPkt p)
  | [] => match u with
          | p :: u' => (mkDr (mkSq [] l m) delay true, u', RPkt p)
          | [] => (mkDr (mkSq [] l m) delay true, [], RStatus st)
          end
  end.
Proof.
  intros Hdel HC HO Hd. unfold dr_read, dr_read_started. cbn [dr_started dr_q sq_list dr_delay].
  destruct Q as [|p R]; [reflexivity|]. rewrite rev_length. cbn [length].
  change (S (length R) =? 0)%nat with false. cbv iota.
  cbn [dr_read_queued]. rewrite sq_read_rev.
  pose proof (durn_tl _ _ HC HO). rewrite queue_size_spec.
  - destruct (Z.ltb_spec (durn R) delay); [reflexivity|lia].
  - eapply coherent_tl; eauto.
  - apply HO.
Qed.

Lemma started_polls delay : 0 < delay -> forall post Q l m u,
  coherent Q -> ordered Q -> durn Q < delay ->
  snd (dr_polls (mkDr (mkSq (rev Q) l m) delay true) u post) = fifo_polls (Q ++ u) post.
Proof.
  intros Hdel. induction post as [|[b st] post IH]; intros Q l m u HC HO Hd; [reflexivity|].
  cbn [dr_polls fifo_polls]. rewrite started_step by auto. rewrite <- app_assoc.
  destruct Q as [|p R].
  - cbn [app]. destruct (u ++ b) as [|p u'].
    + specialize (IH [] l m [] HC HO Hd). cbn [rev app] in IH.
      destruct (dr_polls _ [] post) as [[s2 u2] rs]. cbn in IH |- *. congruence.
    + specialize (IH [] l m u' HC HO Hd). cbn [rev app] in IH.
      destruct (dr_polls _ u' post) as [[s2 u2] rs]. cbn in IH |- *. congruence.
  - cbn [app]. pose proof (durn_tl _ _ HC HO).
    specialize (IH R l m (u ++ b) (coherent_tl _ _ HC) (proj2 HO) ltac:(lia)).
    destruct (dr_polls _ (u ++ b) post) as [[s2 u2] rs]. cbn in IH |- *. congruence.
Qed.

(** before start *)
Definition waiting_at delay (pre : list (list dpkt * ustatus)) : Prop :=
  forall a x b, pre = a ++ x :: b -> snd x = UErr \/ span_below pos time (arrived (a ++ [x])) delay.

Lemma arrived_app a b : arrived (a ++ b) = arrived a ++ arrived b.
Proof. unfold arrived. rewrite map_app, concat_app. reflexivity. Qed.

Definition qinv (F : list dpkt) (q : sq dpkt) : Prop :=
  sq_max q = O /\ desc pos (sq_list q) /\ Permutation F (sq_list q).

Lemma sq_eta (q : sq dpkt) : q = mkSq (rev (rev (sq_list q))) (sq_latest q) (sq_max q).
Proof. rewrite rev_involutive. destruct q; reflexivity. Qed.

Lemma qinv_view F q : coherent F -> qinv F q ->
  coherent (rev (sq_list q)) /\ ordered (rev (sq_list q)) /\ Permutation F (rev (sq_list q)).
Proof.
  intros HC (_ & Hd & HP).
  assert (HP' : Permutation F (rev (sq_list q))) by (rewrite HP; apply Permutation_rev).
  split; [eapply coherent_perm; eauto|]. split; auto. apply desc_rev; auto.
Qed.

Lemma polls_app s u a b : dr_polls s u (a ++ b) =
  let '(s1, u1, r1) := dr_polls s u a in
  let '(s2, u2, r2) := dr_polls s1 u1 b in (s2, u2, r1 ++ r2).
Proof.
  revert s u. induction a as [|[x st] a IH]; intros s u; cbn [dr_polls app].
  - destruct (dr_polls s u b) as [[? ?] ?]. reflexivity.
  - destruct (dr_read s (u ++ x) st) as [[s1 u1] r]. rewrite IH.
    destruct (dr_polls s1 u1 a) as [[s2 u2] r2]. destruct (dr_polls s2 u2 b) as [[s3 u3] r3]. reflexivity.
Qed.

Lemma waiting_spec delay : forall pre,
  coherent (arrived pre) -> waiting_at delay pre ->
  exists q, dr_polls (dr_new delay) [] pre =
            (mkDr q delay false, [], map (fun x => RStatus (snd x)) pre) /\ qinv (arrived pre) q.
Proof.
  induction pre as [|[b st] pre IH] using rev_ind; intros HC HW.
  - exists (sq_new 0). cbn. split; [reflexivity|]. split; [auto|split; cbn; auto].
  - assert (EA : arrived (pre ++ [(b, st)]) = arrived pre ++ b).
    { rewrite arrived_app. cbn. rewrite app_nil_r. auto. }
    rewrite EA in *.
    destruct IH as (q & E & Hm & Hd & HP).
    { eapply coherent_app_l; eauto. }
    { intros a x c Ec. apply (HW a x (c ++ [(b, st)])). rewrite Ec, <- app_assoc. reflexivity. }
    rewrite polls_app, E. cbn [dr_polls app]. unfold dr_read. cbn [dr_started].
    unfold dr_fetch. cbn [dr_q dr_delay].
    pose proof (fetch_spec b q (arrived pre) Hm Hd HP HC) as HI. cbv zeta in HI.
    set (q' := fold_left (sq_write dp_cmp) b q) in *.
    rewrite map_app. cbn [map].
    destruct st.
    + destruct (HW pre (b, UNoData) []) as [HX|(d & Hs & Hlt)]; [reflexivity|discriminate|].
      rewrite EA in Hs.
      destruct (qinv_view _ _ HC HI) as (V1 & V2 & V3).
      apply (span_durn _ _ d HC V3 V2) in Hs. subst d.
      assert (ES : dr_queue_size q' = durn (rev (sq_list q'))) by (rewrite (sq_eta q') at 1; apply queue_size_spec; auto). rewrite ES.
      destruct (Z.ltb_spec (durn (rev (sq_list q'))) delay); [|lia].
      exists q'. auto.
    + exists q'. auto.
Qed.

Lemma start_spec delay pre b post :
  0 < delay ->
  coherent (arrived pre ++ b) -> waiting_at delay pre ->
  span_reaches pos time (arrived pre ++ b) delay ->
  exists D p R,
    Permutation (arrived pre ++ b) (D ++ p :: R) /\ ordered (D ++ p :: R) /\
    span_reaches pos time (p :: R) delay /\ span_below pos time R delay /\
    snd (dr_polls (dr_new delay) [] (pre ++ (b, UNoData) :: post)) =
    map (fun x => RStatus (snd x)) pre ++ RPkt p :: fifo_polls R post.
Proof.
  intros Hdel HC HW (d & Hs & Hge).
  destruct (waiting_spec delay pre) as (q & E & Hm & Hd & HP); auto.
  { eapply coherent_app_l; eauto. }
  rewrite polls_app, E. cbn [dr_polls app]. unfold dr_read. cbn [dr_started].
  unfold dr_fetch. cbn [dr_q dr_delay].
  pose proof (fetch_spec b q (arrived pre) Hm Hd HP HC) as HI. cbv zeta in HI.
  set (q' := fold_left (sq_write dp_cmp) b q) in *.
  destruct (qinv_view _ _ HC HI) as (V1 & V2 & V3).
  apply (span_durn _ _ d HC V3 V2) in Hs. subst d.
  assert (ES : dr_queue_size q' = durn (rev (sq_list q'))) by (rewrite (sq_eta q') at 1; apply queue_size_spec; auto). rewrite ES.
  destruct (Z.ltb_spec (durn (rev (sq_list q'))) delay); [lia|].
  set (Q := rev (sq_list q')) in *.
  assert (HQ : Q <> []). { intros E0. rewrite E0 in Hge. cbn in Hge. lia. }
  unfold dr_read_started. cbn [dr_q dr_delay].
  assert (EL : length (sq_list q') = length Q) by (unfold Q; rewrite rev_length; auto).
  rewrite EL. destruct (length Q =? 0)%nat eqn:EZ.
  { apply Nat.eqb_eq in EZ. destruct Q; [congruence|discriminate]. }
  destruct (read_queued_spec delay Hdel Q (sq_latest q') (sq_max q') (S (length Q))) as (D & p & R & EQ & H1 & H2 & H3); auto.
  rewrite (sq_eta q'). fold Q. rewrite H3.
  assert (HCpR : coherent (p :: R)). { apply (coherent_app_r D). rewrite <- EQ. auto. }
  assert (HOpR : ordered (p :: R)). { apply (ordered_app_r D). rewrite <- EQ. auto. }
  exists D, p, R. rewrite <- EQ. split; [auto|]. split; [auto|]. split; [|split].
  - exists (durn (p :: R)). split.
    + apply (span_durn (p :: R) (p :: R)); auto.
    + destruct H2 as [->|]; auto. cbn in EQ. rewrite <- EQ. auto.
  - exists (durn R). split; auto. apply (span_durn R R); auto.
    + eapply coherent_tl; eauto.
    + apply HOpR.
  - pose proof (started_polls delay Hdel post R (sq_latest q') (sq_max q') [] (coherent_tl _ _ HCpR) (proj2 HOpR) H1) as HF.
    rewrite app_nil_r in HF.
    destruct (dr_polls _ [] post) as [[s2 u2] rs]. cbn in HF |- *. congruence.
Qed.
End P.
