From Verif Require Import Base Base_lemmas RingQueue_model RingQueue_spec RingQueue_proof MovStats_model MovStats_spec.
Open Scope res_scope.

(** * Slides on plain lists *)
Section W.
Variable worse : Z -> Z -> bool.

Fixpoint popw (l : list Z) (x : Z) : list Z := (* drop the worse suffix *)
  match l with
  | [] => []
  | y :: t => match popw t x with [] => if worse y x then [] else [y] | t' => y :: t' end
  end.
Definition slide_l (l : list Z) (x x_old : Z) : list Z :=
  match l with
  | [] => [x]
  | f :: t => popw (if f =? x_old then t else l) x ++ [x]
  end.

Lemma popw_snoc l y x : popw (l ++ [y]) x = if worse y x then popw l x else l ++ [y].
Proof.
  induction l as [|z l IH]; cbn [app popw]; [reflexivity|]. rewrite IH. destruct (worse y x); [reflexivity|].
  destruct (l ++ [y]) eqn:E; [destruct l; discriminate|reflexivity].
Qed.
Lemma popw_prefix l x : exists t, l = popw l x ++ t.
Proof.
  induction l as [|y l [t IH]]; cbn; [exists []; reflexivity|]. destruct (popw l x) as [|z p] eqn:E.
  - destruct (worse y x); [exists (y :: l)|exists l]; reflexivity.
  - exists t. cbn in *. rewrite IH at 1. reflexivity.
Qed.

Lemma pop_while_sound n x : forall fuel q l, rinv n q l -> (length l <= fuel)%nat ->
  exists q', ms_pop_while worse fuel q x = Ok q' /\ rinv n q' (popw l x).
Proof.
  induction fuel as [|fuel IH]; intros q l I Hf; cbn [ms_pop_while].
  - destruct l; [|cbn in Hf; lia]. exists q. auto.
  - rewrite (rinv_empty n q l I). destruct l as [|y0 l0]; [exists q; auto|].
    destruct (exists_last (l := y0 :: l0)) as (l & y & E); [discriminate|]. rewrite E in *. rewrite app_length in *. cbn [length] in *.
    replace (length l + 1 =? 0)%nat with false by (symmetry; apply Nat.eqb_neq; lia).
    rewrite (rinv_back n q y l I). cbn [bind]. rewrite popw_snoc. destruct (worse y x); [|exists q; auto].
    destruct (rinv_pop_back true n q l y eq_refl I) as (q' & -> & I'). cbn [bind]. apply IH; [exact I'|lia].
Qed.

Lemma slide_sound n q l curr x x_old : rinv n q l -> (l <> [] -> hd 0 l = curr) ->
  (length (slide_l l x x_old) < n)%nat ->
  exists q', ms_slide worse q curr x x_old = Ok (q', hd 0 (slide_l l x x_old)) /\ rinv n q' (slide_l l x x_old).
Proof.
  intros I Hc Hb. unfold ms_slide. rewrite (rinv_empty n q l I). destruct l as [|f t]; cbn [length Nat.eqb].
  - destruct (rinv_push_back n q [] x I) as (q' & -> & I'); [cbn in *; lia|]. exists q'. split; [reflexivity|exact I'].
  - rewrite (rinv_front n q f t I). cbn [bind slide_l] in *. specialize (Hc ltac:(discriminate)). cbn in Hc. subst curr.
    set (l1 := if f =? x_old then t else f :: t) in *.
    assert (S1 : exists q1 c1, (if f =? x_old then q1 <- rq_pop_front true q ;; (if rq_empty q1 then Ok (q1, x) else f1 <- rq_front q1 ;; Ok (q1, f1)) else Ok (q, f))
                   = Ok (q1, c1) /\ rinv n q1 l1 /\ (l1 <> [] -> hd 0 l1 = c1)).
    { unfold l1. destruct (f =? x_old).
      - destruct (rinv_pop_front true n q t f I) as (q1 & -> & I1). cbn [bind]. rewrite (rinv_empty n q1 t I1). destruct t as [|f1 t].
        + exists q1, x. split; [reflexivity|]. split; [exact I1|]. congruence.
        + cbn [length Nat.eqb]. rewrite (rinv_front n q1 f1 t I1). exists q1, f1. auto.
      - exists q, f. auto. }
    destruct S1 as (q1 & c1 & E1 & I1 & H1). rewrite E1. cbn [bind fst snd].
    destruct (pop_while_sound n x (rq_cap q1) q1 l1 I1) as (q2 & E2 & I2).
    { destruct I1. unfold rq_cap. lia. }
    rewrite E2. cbn [bind]. rewrite (rinv_empty n q2 _ I2).
    rewrite app_length in Hb. cbn [length] in Hb. destruct (rinv_push_back n q2 _ x I2 Hb) as (q3 & -> & I3). cbn [bind]. exists q3. split; [|exact I3].
    do 2 f_equal. destruct (popw_prefix l1 x) as [s Es]. destruct (popw l1 x) as [|z p]; cbn [length Nat.eqb app hd]; [reflexivity|].
    rewrite Es in H1. cbn in H1. symmetry. apply H1. discriminate.
Qed.
End W.

(** * The queue is always a subsequence of the window *)
Inductive subl : list Z -> list Z -> Prop :=
| sub_nil : forall l, subl [] l
| sub_skip : forall a b y, subl a b -> subl a (y :: b)
| sub_take : forall a b y, subl a b -> subl (y :: a) (y :: b).
Lemma subl_length a b : subl a b -> (length a <= length b)%nat.
Proof. induction 1; cbn; lia. Qed.
Lemma subl_app a b c : subl a b -> subl (a ++ c) (b ++ c).
Proof.
  induction 1; cbn; [|apply sub_skip; assumption|apply sub_take; assumption]. induction l; cbn.
  - induction c; [apply sub_nil|apply sub_take; assumption].
  - apply sub_skip. exact IHl.
Qed.
Lemma subl_pre p s b : subl (p ++ s) b -> subl p b.
Proof.
  revert p. intros p H. remember (p ++ s) as a eqn:E. revert p E. induction H; intros p E.
  - destruct p; [constructor|discriminate].
  - constructor. auto.
  - destruct p as [|z p]; [constructor|]. cbn in E. injection E as -> E. apply sub_take. auto.
Qed.
Lemma subl_tl f t o w : subl (f :: t) (o :: w) -> subl (if f =? o then t else f :: t) w.
Proof.
  intros H. inversion H; subst.
  - destruct (Z.eqb_spec f o); [|assumption]. clear - H2. remember (f :: t) as a eqn:E. induction H2; [discriminate| |].
    + apply sub_skip. auto.
    + injection E as -> ->. apply sub_skip. assumption.
  - rewrite Z.eqb_refl. assumption.
Qed.

Lemma slide_sub worse l w x o : subl l (o :: w) -> subl (slide_l worse l x o) (w ++ [x]).
Proof.
  intros H. unfold slide_l. destruct l as [|f t].
  - apply (subl_app [] w [x]). constructor.
  - apply subl_app. apply subl_tl in H. destruct (popw_prefix worse (if f =? o then t else f :: t) x) as [s E].
    apply (subl_pre _ s). rewrite <- E. exact H.
Qed.
Lemma slide_sub0 worse l w x o : subl l w -> subl (slide_l worse l x o) (w ++ [x]).
Proof.
  intros H. unfold slide_l. destruct l as [|f t].
  - apply (subl_app [] w [x]). constructor.
  - apply subl_app. destruct (popw_prefix worse (if f =? o then t else f :: t) x) as [s E].
    apply (subl_pre _ s). rewrite <- E. destruct (f =? o); [|exact H].
    clear - H. remember (f :: t) as a eqn:E. induction H; [discriminate| |]; apply sub_skip; auto. injection E as -> ->. assumption.
Qed.

(** * Exactness *)
Section E.
Variable worse : Z -> Z -> bool.
Variable f : Z -> Z.
Hypothesis worse_f : forall a b, worse a b = (f a <? f b).

Fixpoint recs (w : list Z) : list Z :=
  match w with [] => [] | x :: t => if existsb (worse x) t then recs t else x :: recs t end.

Lemma recs_in w x : In x (recs w) -> In x w.
Proof. induction w as [|y w IH]; cbn; [auto|]. destruct (existsb (worse y) w); cbn; tauto. Qed.

Lemma recs_best : forall w, w <> [] -> exists m t, recs w = m :: t /\ In m w /\ (forall y, In y w -> f y <= f m).
Proof.
  induction w as [|x w IH]; intros H; [congruence|]. cbn [recs]. destruct (existsb (worse x) w) eqn:E.
  - apply existsb_exists in E. destruct E as (z & Hz & Ez). rewrite worse_f in Ez. destruct IH as (m & t & -> & Hm & Hb); [intros ->; destruct Hz|].
    exists m, t. split; [reflexivity|]. split; [right; exact Hm|]. intros y [<-|Hy]; [specialize (Hb z Hz); lia|auto].
  - exists x, (recs w). split; [reflexivity|]. split; [left; reflexivity|]. intros y [<-|Hy]; [lia|].
    assert (worse x y = false) by (destruct (worse x y) eqn:Ew; [|reflexivity]; rewrite <- E; symmetry; apply existsb_exists; eauto).
    rewrite worse_f in H0. lia.
Qed.

Lemma popw_recs : forall w x, popw worse (recs w) x = filter (fun y => negb (worse y x)) (recs w).
Proof.
  induction w as [|y w IH]; intros x; cbn [recs]; [reflexivity|]. destruct (existsb (worse y) w) eqn:E; [apply IH|].
  cbn [popw filter]. rewrite IH. destruct (filter (fun z => negb (worse z x)) (recs w)) as [|z p] eqn:F.
  - destruct (worse y x); reflexivity.
  - assert (Hz : In z (filter (fun z => negb (worse z x)) (recs w))) by (rewrite F; left; reflexivity).
    apply filter_In in Hz. destruct Hz as [Hz Wz].
    assert (worse y z = false) by (destruct (worse y z) eqn:Ew; [|reflexivity]; rewrite <- E; symmetry; apply existsb_exists; exists z; split; [apply recs_in, Hz|exact Ew]).
    replace (worse y x) with false; [reflexivity|]. rewrite worse_f in *. destruct (f z <? f x) eqn:?; [discriminate|]. lia.
Qed.

Lemma recs_snoc : forall w x, recs (w ++ [x]) = filter (fun y => negb (worse y x)) (recs w) ++ [x].
Proof.
  induction w as [|y w IH]; intros x; cbn [app recs existsb filter]; [reflexivity|]. rewrite existsb_app. cbn [existsb]. rewrite orb_false_r, IH.
  destruct (existsb (worse y) w) eqn:E; [reflexivity|]. cbn [orb filter]. destruct (worse y x); reflexivity.
Qed.

Lemma recs_cons o w : recs (o :: w) <> [] /\ match recs (o :: w) with [] => [] | h :: t => if h =? o then t else h :: t end = recs w.
Proof.
  destruct (recs_best (o :: w)) as (m & t & Em & Hm & Hb); [discriminate|]. rewrite Em. split; [discriminate|].
  cbn [recs] in Em. destruct (existsb (worse o) w) eqn:E.
  - apply existsb_exists in E. destruct E as (z & Hz & Ez). rewrite worse_f in Ez.
    destruct (Z.eqb_spec m o) as [->|_]; [|symmetry; exact Em]. specialize (Hb z (or_intror Hz)). lia.
  - injection Em as -> <-. rewrite Z.eqb_refl. reflexivity.
Qed.

Lemma slide_exact_full o w x : slide_l worse (recs (o :: w)) x o = recs (w ++ [x]).
Proof.
  destruct (recs_cons o w) as [Hn E]. unfold slide_l. destruct (recs (o :: w)) as [|h t]; [congruence|].
  rewrite E, popw_recs, recs_snoc. reflexivity.
Qed.
Lemma slide_exact_part w x o : ~ In o w -> slide_l worse (recs w) x o = recs (w ++ [x]).
Proof.
  intros Hn. unfold slide_l. rewrite recs_snoc. destruct (recs w) as [|h t] eqn:E; [reflexivity|].
  destruct (Z.eqb_spec h o) as [->|_]; [exfalso; apply Hn, recs_in; rewrite E; left; reflexivity|].
  rewrite <- E, popw_recs. reflexivity.
Qed.
End E.

Lemma upd_mid {A} (a : list A) o c y : upd (a ++ o :: c) (length a) y = a ++ y :: c.
Proof. induction a; cbn; [reflexivity|]. f_equal. assumption. Qed.

(** * The whole structure *)
Lemma zsum_app a b : zsum (a ++ b) = zsum a + zsum b.
Proof. induction a; cbn; lia. Qed.
Lemma zsum_repeat n : zsum (repeat 0 n) = 0.
Proof. induction n; cbn; lia. Qed.

(** [w]: window, oldest first; [hist]: whether the queues hold exactly the records of the window. *)
Record minv (win : nat) (exact : bool) (s : mst) (w : list Z) : Prop := mkMi {
  mi_win : ms_win s = win;
  mi_i : (ms_i s < win)%nat;
  mi_buf : exists a o c, ms_buf s = a ++ o :: c /\ length a = ms_i s /\ length (ms_buf s) = win /\
      if ms_full s then w = o :: c ++ a else w = a /\ o :: c = repeat 0 (win - ms_i s);
  mi_buf2 : ms_buf2 s = map (fun x => x * x) (ms_buf s);
  mi_sum : ms_sum s = zsum w;
  mi_sum2 : ms_sum2 s = zsum (map (fun x => x * x) w);
  mi_q : exists lmax lmin, rinv (win + 1) (ms_qmax s) lmax /\ rinv (win + 1) (ms_qmin s) lmin /\ subl lmax w /\ subl lmin w /\
      (w <> [] -> lmax <> [] /\ lmin <> []) /\ (lmax <> [] -> hd 0 lmax = ms_cmax s) /\ (lmin <> [] -> hd 0 lmin = ms_cmin s) /\
      (exact = true -> lmax = recs (fun b x => b <? x) w /\ lmin = recs (fun b x => x <? b) w) }.

Lemma slide_nonempty worse l x o : slide_l worse l x o <> [].
Proof. unfold slide_l. destruct l; [discriminate|]. destruct (popw worse (if z =? o then l else z :: l) x); discriminate. Qed.

Lemma Wmax : forall a b, (fun b x => b <? x) a b = ((fun z => z) a <? (fun z => z) b).
Proof. reflexivity. Qed.
Lemma Wmin : forall a b, (fun b x => x <? b) a b = (Z.opp a <? Z.opp b).
Proof. intros. destruct (Z.ltb_spec b a), (Z.ltb_spec (- a) (- b)); lia. Qed.

Definition next_w (full : bool) (w : list Z) (x : Z) : list Z := (if full then tl w else w) ++ [x].

Lemma ms_add_sound win exact s w x : minv win exact s w ->
  (exact = true -> ms_full s = false -> ~ In 0 w) ->
  exists s', ms_add s x = Ok s' /\ minv win exact s' (next_w (ms_full s) w x) /\
    ms_full s' = (if (ms_i s + 1 =? win)%nat then true else ms_full s) /\
    ms_i s' = (if (ms_i s + 1 =? win)%nat then 0 else ms_i s + 1)%nat.
Proof.
  intros [Hw Hi (a & o & c & Eb & La & Lb & Hc) Hb2 Hs Hs2 (lmax & lmin & Imax & Imin & Smax & Smin & Hne & Cmax & Cmin & Hex)] Hz.
  assert (Er : forall A (a0 : list A) o0 c0, rd (a0 ++ o0 :: c0) (length a0) = Ok o0).
  { intros. unfold rd. rewrite nth_error_app2, Nat.sub_diag by lia. reflexivity. }
  assert (Ew : forall A (a0 : list A) o0 c0 y, wr (a0 ++ o0 :: c0) (length a0) y = Ok (a0 ++ y :: c0)).
  { intros. unfold wr. rewrite app_length. cbn [length]. replace (length a0 <? length a0 + S (length c0))%nat with true by (symmetry; apply Nat.ltb_lt; lia).
    f_equal. apply upd_mid. }
  assert (Lw : (length w <= win)%nat /\ (ms_full s = false -> (length w < win)%nat)).
  { destruct (ms_full s); [subst w; rewrite Eb in Lb; cbn [length] in *; rewrite !app_length in *; cbn [length] in *; split; [lia|discriminate]|].
    destruct Hc as [-> _]. lia. }
  (* queue facts, with x_old = o *)
  assert (SM : subl (slide_l (fun b x => b <? x) lmax x o) (next_w (ms_full s) w x) /\ subl (slide_l (fun b x => x <? b) lmin x o) (next_w (ms_full s) w x)).
  { unfold next_w. destruct (ms_full s).
    - subst w. cbn [tl]. split; apply slide_sub; assumption.
    - split; apply slide_sub0; assumption. }
  assert (LN : (length (next_w (ms_full s) w x) <= win)%nat).
  { unfold next_w. rewrite app_length. cbn [length]. destruct (ms_full s); [|lia]. subst w. cbn [tl length] in *. lia. }
  destruct SM as [SM1 SM2]. pose proof (subl_length _ _ SM1). pose proof (subl_length _ _ SM2).
  destruct (slide_sound (fun b x => b <? x) (win + 1) _ lmax (ms_cmax s) x o Imax Cmax) as (qmx & Emx & Imx); [lia|].
  destruct (slide_sound (fun b x => x <? b) (win + 1) _ lmin (ms_cmin s) x o Imin Cmin) as (qmn & Emn & Imn); [lia|].
  unfold ms_add. rewrite Hb2, Eb, <- La. rewrite Er. cbn [bind]. rewrite Ew. cbn [bind]. rewrite map_app. cbn [map].
  pose proof (Er _ (map (fun x => x * x) a) (o * o) (map (fun x => x * x) c)) as Er2. rewrite map_length in Er2. rewrite Er2. cbn [bind].
  pose proof (Ew _ (map (fun x => x * x) a) (o * o) (map (fun x => x * x) c) (x * x)) as Ew2. rewrite map_length in Ew2. rewrite Ew2. cbn [bind].
  rewrite Emx. cbn [bind]. rewrite Emn. cbn [bind fst snd].
  eexists. split; [reflexivity|]. cbn [ms_full ms_i]. rewrite Hw. split; [|rewrite La; split; reflexivity].
  rewrite Eb, app_length in Lb. cbn [length] in Lb.
  assert (Hzero : ms_full s = false -> o = 0 /\ c = repeat 0 (win - ms_i s - 1)).
  { intros E. rewrite E in Hc. destruct Hc as [_ Hc]. replace (win - ms_i s)%nat with (S (win - ms_i s - 1)) in Hc by lia. cbn [repeat] in Hc. injection Hc as -> ->. auto. }
  constructor; cbn [ms_win ms_i ms_buf ms_buf2 ms_sum ms_sum2 ms_full ms_qmax ms_cmax ms_qmin ms_cmin].
  - reflexivity.
  - destruct (Nat.eqb_spec (length a + 1) win); lia.
  - destruct (Nat.eqb_spec (length a + 1) win) as [E|E].
    + assert (c = []) as -> by (destruct c; [reflexivity|cbn in Lb; lia]).
      destruct (a ++ [x]) as [|h t] eqn:Eh; [destruct a; discriminate|]. exists [], h, t. split; [reflexivity|]. split; [reflexivity|].
      split; [rewrite <- Eh, app_length; cbn; lia|]. rewrite app_nil_r, <- Eh. unfold next_w. destruct (ms_full s) eqn:Ef.
      * subst w. reflexivity.
      * destruct Hc as [-> _]. reflexivity.
    + destruct c as [|h c]; [cbn in Lb; lia|]. exists (a ++ [x]), h, c. rewrite <- app_assoc. split; [reflexivity|].
      rewrite !app_length. cbn [length] in *. split; [lia|]. split; [lia|]. unfold next_w. destruct (ms_full s) eqn:Ef.
      * subst w. cbn [tl app]. rewrite <- app_assoc. reflexivity.
      * destruct Hc as [-> _]. split; [reflexivity|]. destruct (Hzero eq_refl) as [_ ->]. f_equal. lia.
  - rewrite map_app. reflexivity.
  - unfold next_w. rewrite zsum_app. cbn [zsum]. rewrite Hs. destruct (ms_full s) eqn:Ef; [subst w; cbn [zsum tl]; lia|].
    destruct (Hzero eq_refl) as [-> _]. lia.
  - unfold next_w. rewrite map_app, zsum_app. cbn [map zsum]. rewrite Hs2. destruct (ms_full s) eqn:Ef; [subst w; cbn [map zsum tl]; lia|].
    destruct (Hzero eq_refl) as [-> _]. lia.
  - exists (slide_l (fun b x => b <? x) lmax x o), (slide_l (fun b x => x <? b) lmin x o).
    split; [exact Imx|]. split; [exact Imn|]. split; [exact SM1|]. split; [exact SM2|].
    split; [intros _; split; apply slide_nonempty|]. split; [reflexivity|]. split; [reflexivity|].
    intros Ee. destruct (Hex Ee) as [-> ->]. unfold next_w. destruct (ms_full s) eqn:Ef.
    + subst w. cbn [tl]. split; [apply (slide_exact_full _ (fun z => z) Wmax)|apply (slide_exact_full _ Z.opp Wmin)].
    + destruct (Hzero eq_refl) as [-> _]. split; [apply (slide_exact_part _ (fun z => z) Wmax)|apply (slide_exact_part _ Z.opp Wmin)]; auto.
Qed.

(** Window after a whole history. *)
Lemma ms_adds_sound win exact : forall xs s pre, minv win exact s (last_n win pre) ->
  ms_full s = (win <=? length pre)%nat -> ms_i s = (length pre mod win)%nat ->
  (exact = true -> forall x, In x (firstn win (pre ++ xs)) -> x <> 0) ->
  exists s', ms_adds s xs = Ok s' /\ minv win exact s' (last_n win (pre ++ xs)) /\
    ms_full s' = (win <=? length (pre ++ xs))%nat /\ ms_i s' = (length (pre ++ xs) mod win)%nat.
Proof.
  induction xs as [|x xs IH]; intros s pre I Hf Hi Hz; cbn [ms_adds].
  - rewrite app_nil_r. eauto.
  - assert (Wpos : (0 < win)%nat) by (destruct I; lia).
    destruct (ms_add_sound win exact s _ x I) as (s' & -> & I' & Hf' & Hi').
    { intros Ee Ef Hin. rewrite Hf in Ef. apply Nat.leb_gt in Ef. unfold last_n in Hin.
      replace (length pre - win)%nat with 0%nat in Hin by lia. cbn [skipn] in Hin. apply (Hz Ee 0); [|reflexivity].
      rewrite firstn_app, firstn_all2 by lia. apply in_or_app. left. exact Hin. }
    cbn [bind]. replace (pre ++ x :: xs) with ((pre ++ [x]) ++ xs) in * by (rewrite <- app_assoc; reflexivity).
    apply IH; clear IH.
    + replace (last_n win (pre ++ [x])) with (next_w (ms_full s) (last_n win pre) x); [exact I'|].
      rewrite Hf. unfold next_w, last_n. rewrite app_length. cbn [length]. destruct (Nat.leb_spec win (length pre)).
      * replace (length pre + 1 - win)%nat with (S (length pre - win)) by lia. rewrite skipn_app.
        replace (S (length pre - win) - length pre)%nat with 0%nat by lia. cbn [skipn]. f_equal.
        clear. generalize (length pre - win)%nat as k. induction pre as [|y pre IH]; intros [|k]; cbn; auto.
      * replace (length pre - win)%nat with 0%nat by lia. replace (length pre + 1 - win)%nat with 0%nat by lia. reflexivity.
    + rewrite Hf', Hf, app_length, Hi. cbn [length]. pose proof (Nat.div_mod (length pre) win ltac:(lia)) as D.
      pose proof (Nat.mod_upper_bound (length pre) win ltac:(lia)).
      destruct (Nat.eqb_spec (length pre mod win + 1) win), (Nat.leb_spec win (length pre)), (Nat.leb_spec win (length pre + 1)); try reflexivity; try lia.
      * destruct (length pre / win)%nat eqn:Ed; [lia|]. nia.
      * rewrite Nat.mod_small in n by lia. lia.
    + rewrite Hi', Hi, app_length. cbn [length]. pose proof (Nat.mod_upper_bound (length pre) win ltac:(lia)).
      rewrite <- (Nat.add_mod_idemp_l (length pre) 1) by lia. destruct (Nat.eqb_spec (length pre mod win + 1) win) as [->|].
      * rewrite Nat.mod_same by lia. reflexivity.
      * symmetry. apply Nat.mod_small. lia.
    + exact Hz.
Qed.

Lemma ms_new_sound win exact : (0 < win)%nat -> exists s, ms_new win = Ok s /\ minv win exact s (last_n win []) /\ ms_full s = false /\ ms_i s = 0%nat.
Proof.
  intros H. unfold ms_new. destruct (rinv_new (A := Z) (win + 1)) as (q & -> & I); [lia|]. cbn [bind].
  replace (win =? 0)%nat with false by (symmetry; apply Nat.eqb_neq; lia). eexists. split; [reflexivity|]. split; [|split; reflexivity].
  unfold last_n. cbn [length Nat.sub skipn].
  constructor; cbn [ms_win ms_i ms_buf ms_buf2 ms_sum ms_sum2 ms_full ms_qmax ms_cmax ms_qmin ms_cmin]; auto.
  - exists [], 0, (repeat 0 (win - 1)). rewrite Nat.sub_0_r, repeat_length. destruct win; [lia|]. cbn. rewrite Nat.sub_0_r. auto.
  - clear. induction win; cbn; [reflexivity|]. f_equal. assumption.
  - exists [], []. split; [exact I|]. split; [exact I|]. split; [constructor|]. split; [constructor|]. split; [congruence|]. split; [congruence|]. split; [congruence|]. split; reflexivity.
Qed.

Lemma minv_length win e s w : minv win e s w -> length w = if ms_full s then win else ms_i s.
Proof.
  intros [_ _ (a & o & c & Eb & La & Lb & Hc) _ _ _ _]. destruct (ms_full s).
  - subst w. rewrite Eb in Lb. cbn [length]. rewrite !app_length in *. cbn [length] in *. lia.
  - destruct Hc as [-> _]. exact La.
Qed.
