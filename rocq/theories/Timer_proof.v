From Verif Require Import Base Base_lemmas Timer_model Timer_spec.

Definition some_setter (s : timer) (p : spc) : Prop := exists i, nth_error (tm_set s) i = Some p.

Definition seen (w : wpc) : option Z :=
  match w with WCmp d | WPub d | WPub2 d | WTimed d | WWait d => Some d | _ => None end.

Record inv (outs : list tout) (s : timer) : Prop := {
  i_last : last_set outs = tm_dl s;
  i_now : 0 <= tm_now s;
  i_busy : tm_dl_busy s = true -> exists d, some_setter s (SStore d);
  i_nwb : tm_nw_busy s = false ->
    match tm_wt s with WLoad | WCmp _ | WPub _ | WWait _ => tm_nw s = -1 | WTimed d => tm_nw s = d | WBeg2 | WPub2 _ | WEnd2 _ => False | _ => True end;
  i_flag : tm_flag s = true -> tm_wt s = WRst \/ (0 < tm_sem s)%nat \/ some_setter s SPost;
  i_pc : match tm_wt s with WPub d | WPub2 d | WTimed d => 0 < d | WWait d => d < 0 | _ => True end;
  i_key : forall d, seen (tm_wt s) = Some d ->
    tm_dl s = d \/ (tm_wt s = WTimed d /\ (tm_dl s < 0 \/ d <= tm_dl s)) \/ (0 < tm_sem s)%nat \/
    some_setter s SPost \/ some_setter s SCas \/ some_setter s (SLoad (tm_dl s)) }.

Lemma last_set_from_app : forall a b d, last_set_from d (a ++ b) = last_set_from (last_set_from d a) b.
Proof. induction a as [|o a IH]; intros b d; [reflexivity|]. destruct o; cbn; apply IH. Qed.
Lemma last_set_snoc : forall a o, last_set (a ++ [o]) = match o with TStored _ x => x | _ => last_set a end.
Proof. intros. unfold last_set. rewrite last_set_from_app. destruct o; reflexivity. Qed.

Lemma inv0 : forall n now, 0 <= now -> inv [] (tm_new n now).
Proof. intros. constructor; cbn; auto; try discriminate. Qed.

Lemma setter_mono : forall s s' i p q, nth_error (tm_set s) i = Some p -> tm_set s' = upd (tm_set s) i q ->
  (forall r, some_setter s r -> r <> p -> some_setter s' r) /\ some_setter s' q.
Proof.
  intros s s' i p q H E. split.
  - intros r [j Hj] N. exists j. rewrite E. destruct (Nat.eq_dec j i) as [->|]; [congruence|]. now rewrite nth_error_upd_neq by congruence.
  - exists i. rewrite E. apply nth_error_upd_eq. apply nth_error_Some. congruence.
Qed.

Ltac tbool := repeat match goal with
  | H : (_ && _)%bool = true |- _ => apply andb_true_iff in H; destruct H
  | H : (_ || _)%bool = false |- _ => apply orb_false_iff in H; destruct H
  | H : (_ <=? _) = true |- _ => apply Z.leb_le in H
  | H : (_ <=? _) = false |- _ => apply Z.leb_gt in H
  | H : (_ <? _) = true |- _ => apply Z.ltb_lt in H
  | H : (_ <? _) = false |- _ => apply Z.ltb_ge in H
  end.

Lemma step_inv : forall outs s l o s', inv outs s -> tm_step s l = Some (o, s') -> inv (outs ++ [o]) s'.
Proof.
  intros outs s l o s' I H. destruct l as [i d|i fail| |b|dt]; cbn [tm_step] in H.
  - (* TSet *)
    destruct (nth_error (tm_set s) i) as [[]|] eqn:E; try discriminate.
    destruct (tm_dl_busy s) eqn:B; injection H as <- <-.
    + destruct I. constructor; rewrite ?last_set_snoc; auto.
    + match goal with |- inv _ ?x => destruct (setter_mono s x i SIdle (SStore d) E eq_refl) as [M N] end.
      destruct I as [i1 i2 i3 i4 i5 i6 i7]. constructor; rewrite ?last_set_snoc; cbn [upd_set upd_dl tm_sem tm_flag tm_dl tm_dl_busy tm_nw tm_nw_busy tm_now tm_wt]; auto.
      * intros _. exists d. exact N.
      * intros F. destruct (i5 F) as [?|[?|X]]; auto. right. right. apply M; auto. discriminate.
      * intros x Hx. destruct (i7 x Hx) as [?|[?|[?|[X|[X|X]]]]]; auto.
        -- do 3 right. left. apply M; auto. discriminate.
        -- do 4 right. left. apply M; auto. discriminate.
        -- do 5 right. apply M; auto. discriminate.
  - (* TStep *)
    destruct (nth_error (tm_set s) i) as [p|] eqn:E; try discriminate.
    destruct p as [|d|d| |]; try discriminate; cbn [set_step] in H.
    + injection H as <- <-.
      match goal with |- inv _ ?x => destruct (setter_mono s x i _ (SLoad d) E eq_refl) as [M N] end.
      destruct I as [i1 i2 i3 i4 i5 i6 i7]. constructor; rewrite ?last_set_snoc; cbn [upd_set upd_dl tm_sem tm_flag tm_dl tm_dl_busy tm_nw tm_nw_busy tm_now tm_wt]; auto; try discriminate.
      * intros F. destruct (i5 F) as [?|[?|X]]; auto. right. right. apply M; auto. discriminate.
      * intros x Hx. do 5 right. exact N.
    + match type of H with Some (if ?c then _ else _) = _ => destruct c eqn:C end; injection H as <- <-.
      * match goal with |- inv _ ?x => destruct (setter_mono s x i _ SCas E eq_refl) as [M N] end.
        destruct I as [i1 i2 i3 i4 i5 i6 i7]. constructor; rewrite ?last_set_snoc; cbn [upd_set upd_dl tm_sem tm_flag tm_dl tm_dl_busy tm_nw tm_nw_busy tm_now tm_wt]; auto.
        -- intros B. destruct (i3 B) as [x X]. exists x. apply M; auto. discriminate.
        -- intros F. destruct (i5 F) as [?|[?|X]]; auto. right. right. apply M; auto. discriminate.
        -- intros x Hx. do 4 right. left. exact N.
      * match goal with |- inv _ ?x => destruct (setter_mono s x i _ SIdle E eq_refl) as [M N] end.
        destruct I as [i1 i2 i3 i4 i5 i6 i7]. constructor; rewrite ?last_set_snoc; cbn [upd_set upd_dl tm_sem tm_flag tm_dl tm_dl_busy tm_nw tm_nw_busy tm_now tm_wt]; auto.
        -- intros B. destruct (i3 B) as [x X]. exists x. apply M; auto. discriminate.
        -- intros F. destruct (i5 F) as [?|[?|X]]; auto. right. right. apply M; auto. discriminate.
        -- intros x Hx. destruct (i7 x Hx) as [?|[?|[?|[X|[X|X]]]]]; auto.
           ++ do 3 right. left. apply M; auto. discriminate.
           ++ do 4 right. left. apply M; auto. discriminate.
           ++ destruct (Z.eq_dec (tm_dl s) d) as [Q|Q]; [|do 5 right; apply M; auto; congruence].
              apply orb_false_iff in C. destruct C as [C1 C2]. apply Z.ltb_ge in C1.
              destruct (fail || tm_nw_busy s) eqn:NB; [lia|]. apply orb_false_iff in NB. destruct NB as [_ NB].
              specialize (i4 NB).
              destruct (tm_wt s) as [ | | | | | | |z| | | | ] eqn:W; cbn in Hx; try discriminate; try lia; try contradiction.
              injection Hx as ->. right. left. split; auto.
              apply andb_false_iff in C2. destruct C2; tbool; lia.
    + destruct (tm_flag s) eqn:F; injection H as <- <-.
      * match goal with |- inv _ ?x => destruct (setter_mono s x i _ SIdle E eq_refl) as [M N] end.
        destruct I as [i1 i2 i3 i4 i5 i6 i7]. constructor; rewrite ?last_set_snoc; cbn [upd_set upd_dl tm_sem tm_flag tm_dl tm_dl_busy tm_nw tm_nw_busy tm_now tm_wt]; auto.
        -- intros B. destruct (i3 B) as [x X]. exists x. apply M; auto. discriminate.
        -- intros _. destruct (i5 F) as [?|[?|X]]; auto. right. right. apply M; auto. discriminate.
        -- intros x Hx. destruct (i5 F) as [W|[?|X]]; auto.
           ++ rewrite W in Hx. discriminate.
           ++ do 3 right. left. apply M; auto. discriminate.
      * match goal with |- inv _ ?x => destruct (setter_mono s x i _ SPost E eq_refl) as [M N] end.
        destruct I as [i1 i2 i3 i4 i5 i6 i7]. constructor; rewrite ?last_set_snoc; cbn [upd_set upd_flag tm_sem tm_flag tm_dl tm_dl_busy tm_nw tm_nw_busy tm_now tm_wt]; auto.
        -- intros B. destruct (i3 B) as [x X]. exists x. apply M; auto. discriminate.
    + injection H as <- <-.
      match goal with |- inv _ ?x => destruct (setter_mono s x i _ SIdle E eq_refl) as [M N] end.
      destruct I as [i1 i2 i3 i4 i5 i6 i7]. constructor; rewrite ?last_set_snoc; cbn [upd_set upd_sem tm_sem tm_flag tm_dl tm_dl_busy tm_nw tm_nw_busy tm_now tm_wt]; auto.
      * intros B. destruct (i3 B) as [x X]. exists x. apply M; auto. discriminate.
      * intros _. right. left. lia.
      * intros x Hx. do 2 right. left. lia.
  - (* TWait *)
    destruct (tm_wt s) eqn:W; try discriminate. injection H as <- <-.
    destruct I as [i1 i2 i3 i4 i5 i6 i7]. constructor; rewrite ?last_set_snoc; cbn [upd_wt tm_sem tm_flag tm_dl tm_dl_busy tm_nw tm_nw_busy tm_now tm_wt]; auto.
    + intros F. destruct (i5 F) as [?|[?|X]]; auto. congruence.
    + discriminate.
  - (* TWStep *)
    unfold wait_step in H. destruct I as [i1 i2 i3 i4 i5 i6 i7].
    destruct (tm_wt s) as [ | | | |d|d|d|d|d| |d|d] eqn:W; try discriminate.
    all: repeat match type of H with
      | (if ?c then _ else _) = _ => destruct c eqn:?
      | (match ?c with _ => _ end) = _ => destruct c eqn:? end; try discriminate.
    all: injection H as <- <-; constructor; rewrite ?last_set_snoc;
      cbn [upd_wt upd_nw upd_sem upd_flag tm_sem tm_flag tm_dl tm_dl_busy tm_nw tm_nw_busy tm_now tm_wt seen]; auto; try discriminate.
    all: try (intros F; destruct (i5 F) as [?|[?|X]]; auto; discriminate).
    all: tbool; try lia; auto.
    all: try (intros x Hx; injection Hx as <-; auto).
    all: try (destruct (i7 d eq_refl) as [?|[[? ?]|?]]; auto; discriminate).
    all: try (apply andb_false_iff in Heqb0; destruct Heqb0; tbool; lia).
    all: try (intros NB; specialize (i4 NB); auto).
    all: try (intros X; congruence).
  - (* TTick *)
    destruct (0 <=? dt) eqn:D; [|discriminate]. injection H as <- <-. apply Z.leb_le in D.
    destruct I as [i1 i2 i3 i4 i5 i6 i7]. constructor; rewrite ?last_set_snoc; cbn [tm_sem tm_flag tm_dl tm_dl_busy tm_nw tm_nw_busy tm_now tm_wt]; auto; lia.
Qed.

Lemma run_inv : forall ls outs s, inv outs s -> forall o s', tm_run s ls = (o, s') -> inv (outs ++ o) s'.
Proof.
  induction ls as [|l ls IH]; intros outs s I o s' H; cbn [tm_run] in H.
  - injection H as <- <-. now rewrite app_nil_r.
  - destruct (tm_step s l) as [[o1 s1]|] eqn:E; [|eauto].
    destruct (tm_run s1 ls) as [os s2] eqn:R. injection H as <- <-.
    replace (outs ++ o1 :: os) with ((outs ++ [o1]) ++ os) by now rewrite <- app_assoc.
    eapply IH; eauto. eapply step_inv; eauto.
Qed.

Lemma idle_none : forall s p, setters_idle s -> p <> SIdle -> ~ some_setter s p.
Proof. intros s p F N [i H]. apply nth_error_In in H. unfold setters_idle in F. rewrite Forall_forall in F. auto. Qed.

Lemma no_lost : forall outs s u, inv outs s -> setters_idle s -> asleep s u ->
  last_set outs < 0 \/ (exists t, u = Some t /\ t <= last_set outs).
Proof.
  intros outs s u I Id [S0 A]. rewrite (i_last _ _ I).
  assert (K : forall d, seen (tm_wt s) = Some d -> tm_dl s = d \/ (tm_wt s = WTimed d /\ (tm_dl s < 0 \/ d <= tm_dl s))).
  { intros d Hd. destruct (i_key _ _ I d Hd) as [?|[?|[?|[X|[X|X]]]]]; auto; [lia| | |]; exfalso; revert X; apply idle_none; auto; discriminate. }
  pose proof (i_pc _ _ I) as P.
  destruct (tm_wt s) as [ | | | |d|d|d|d|d| |d|d] eqn:W; try contradiction.
  - destruct A as [-> A]. destruct (K d eq_refl) as [->|[_ [?|?]]]; auto; right; exists d; split; auto; lia.
  - destruct (K d eq_refl) as [->|[? ?]]; [auto|discriminate].
Qed.

Definition rank (s : timer) : nat :=
  match tm_wt s with
  | WOut => 0 | WEnd2 _ => 1 | WEnd _ => 2
  | WCmp d => if ((0 <=? d) && (d <=? tm_now s))%Z then 3 else 11
  | WLoad => 4 | WBeg2 => 5 | WBeg => 6 | WRst => 7 | WTimed _ => 8 | WWait _ => 8 | WPub2 _ => 9 | WPub _ => 10
  end%nat.

Definition due (s : timer) : Prop := setters_idle s /\ 0 <= tm_dl s <= tm_now s.

Lemma wait_progress : forall outs s b, inv outs s -> due s -> waiting s ->
  exists o s', tm_step s (TWStep b) = Some (o, s') /\ due s' /\
    ((exists d, o = TReturned d) \/ (waiting s' /\ (rank s' < rank s)%nat)).
Proof.
  intros outs s b I [Id D] Wt. unfold waiting in Wt.
  assert (B : tm_dl_busy s = false).
  { destruct (tm_dl_busy s) eqn:B; auto. destruct (i_busy _ _ I B) as [d X]. exfalso. revert X. apply idle_none; auto. discriminate. }
  assert (K : forall d, seen (tm_wt s) = Some d -> tm_dl s = d \/ (tm_wt s = WTimed d /\ (tm_dl s < 0 \/ d <= tm_dl s)) \/ (0 < tm_sem s)%nat).
  { intros d Hd. destruct (i_key _ _ I d Hd) as [?|[?|[?|[X|[X|X]]]]]; auto; exfalso; revert X; apply idle_none; auto; discriminate. }
  pose proof (i_pc _ _ I) as P. unfold tm_step, wait_step, due, rank, waiting, setters_idle in *.
  destruct (tm_wt s) as [ | | | |d|d|d|d|d| |d|d] eqn:W; try congruence.
  - do 2 eexists. split; [reflexivity|]. cbn. split; [auto|]. right. split; [discriminate|lia].
  - do 2 eexists. split; [reflexivity|]. cbn. split; [auto|]. right. split; [discriminate|lia].
  - rewrite B. do 2 eexists. split; [reflexivity|]. cbn [upd_wt tm_wt tm_set tm_dl tm_now]. split; [auto|]. right. split; [discriminate|].
    replace (0 <=? tm_dl s) with true by lia. replace (tm_dl s <=? tm_now s) with true by lia. cbn. lia.
  - destruct ((0 <=? d) && (d <=? tm_now s)) eqn:C; [|destruct (0 <? d) eqn:C2];
      (do 2 eexists; split; [reflexivity|]; cbn; split; [auto|]; right; split; [discriminate|lia]).
  - do 2 eexists. split; [reflexivity|]. cbn. split; [auto|]. right. split; [discriminate|lia].
  - do 2 eexists. split; [reflexivity|]. cbn. split; [auto|]. right. split; [discriminate|lia].
  - destruct (b && (d <=? tm_now s)); [|destruct (tm_sem s) eqn:S].
    + do 2 eexists. split; [reflexivity|]. cbn. split; [auto|]. right. split; [discriminate|lia].
    + assert (L : (d <=? tm_now s) = true) by (destruct (K d eq_refl) as [?|[[_ ?]|?]]; lia). rewrite L.
      do 2 eexists. split; [reflexivity|]. cbn. split; [auto|]. right. split; [discriminate|lia].
    + do 2 eexists. split; [reflexivity|]. cbn. split; [auto|]. right. split; [discriminate|lia].
  - destruct (tm_sem s) eqn:S.
    + exfalso. destruct (K d eq_refl) as [?|[[? _]|?]]; [lia|discriminate|lia].
    + do 2 eexists. split; [reflexivity|]. cbn. split; [auto|]. right. split; [discriminate|lia].
  - do 2 eexists. split; [reflexivity|]. cbn. split; [auto|]. right. split; [discriminate|lia].
  - do 2 eexists. split; [reflexivity|]. cbn. split; [auto|]. right. split; [discriminate|lia].
  - do 2 eexists. split; [reflexivity|]. cbn. split; [auto|]. left. eauto.
Qed.

Lemma wakes : forall bs outs s, inv outs s -> due s -> waiting s -> (rank s <= length bs)%nat ->
  exists d, In (TReturned d) (fst (tm_run s (map TWStep bs))).
Proof.
  induction bs as [|b bs IH]; intros outs s I D W L.
  - exfalso. unfold waiting, rank in *. cbn in L. destruct (tm_wt s); try lia; [congruence|]. destruct ((0 <=? d) && (d <=? tm_now s)); lia.
  - destruct (wait_progress outs s b I D W) as (o & s1 & E & D1 & G).
    cbn [map tm_run]. rewrite E. destruct (tm_run s1 (map TWStep bs)) as [os s2] eqn:R. cbn [fst].
    destruct G as [[d ->]|[W1 L1]]; [exists d; now left|].
    cbn in L. destruct (IH (outs ++ [o]) s1) as [d Hd]; auto; [eapply step_inv; eauto|lia|].
    rewrite R in Hd. exists d. now right.
Qed.

Lemma rank_le : forall s, (rank s <= 11)%nat.
Proof. intros s. unfold rank. destruct (tm_wt s); try lia. destruct ((0 <=? d) && (d <=? tm_now s)); lia. Qed.

(** The deadline a call acts on was in force during the call. *)
Definition holds_at (outs : list tout) (d : Z) : Prop :=
  exists o1 a b, outs = o1 ++ TEntered :: a ++ b /\ ~ In TEntered (a ++ b) /\ last_set (o1 ++ TEntered :: a) = d.
Definition in_call (outs : list tout) : Prop := exists o1 o2, outs = o1 ++ TEntered :: o2 /\ ~ In TEntered o2.
Record cinv (outs : list tout) (s : timer) : Prop := {
  c_in : tm_wt s <> WOut -> in_call outs;
  c_seen : forall d, seen (tm_wt s) = Some d -> holds_at outs d;
  c_end : forall d, tm_wt s = WEnd d \/ tm_wt s = WEnd2 d -> holds_at outs d /\ 0 <= d <= tm_now s }.

Lemma holds_snoc : forall outs d o, o <> TEntered -> holds_at outs d -> holds_at (outs ++ [o]) d.
Proof.
  intros outs d o N (o1 & a & b & -> & H & L). exists o1, a, (b ++ [o]). split; [rewrite <- !app_assoc; cbn; now rewrite <- !app_assoc|]. split; auto.
  rewrite app_assoc. intros X. apply in_app_or in X. destruct X as [X|[X|[]]]; auto.
Qed.
Lemma in_call_snoc : forall outs o, o <> TEntered -> in_call outs -> in_call (outs ++ [o]).
Proof.
  intros outs o N (o1 & a & -> & H). exists o1, (a ++ [o]). split; [now rewrite <- app_assoc|].
  intros X. apply in_app_or in X. destruct X as [X|[X|[]]]; auto.
Qed.

Lemma cinv_same : forall outs s s' o, o <> TEntered -> tm_wt s' = tm_wt s -> tm_now s <= tm_now s' -> cinv outs s -> cinv (outs ++ [o]) s'.
Proof.
  intros outs s s' o N W T [c1 c2 c3]. constructor; rewrite W.
  - intros X. apply in_call_snoc; auto.
  - intros d X. apply holds_snoc; auto.
  - intros d X. destruct (c3 d X). split; [now apply holds_snoc|lia].
Qed.

Lemma step_cinv : forall outs s l o s', inv outs s -> cinv outs s -> tm_step s l = Some (o, s') -> cinv (outs ++ [o]) s'.
Proof.
  intros outs s l o s' I C H. pose proof (i_last _ _ I) as Last. clear I.
  destruct l as [i d|i fail| |b|dt]; cbn [tm_step] in H.
  - destruct (nth_error (tm_set s) i) as [[]|] eqn:E; try discriminate.
    destruct (tm_dl_busy s) eqn:B; injection H as <- <-; (apply (cinv_same outs s); [discriminate|reflexivity|cbn; lia|exact C]).
  - destruct (nth_error (tm_set s) i) as [p|] eqn:E; try discriminate.
    destruct p as [|d|d| |]; try discriminate; cbn [set_step] in H; cbv zeta in H;
    repeat match type of H with Some (if ?c then _ else _) = _ => destruct c end; injection H as <- <-; (apply (cinv_same outs s); [discriminate|reflexivity|cbn; lia|exact C]).
  - destruct (tm_wt s) eqn:W; try discriminate. injection H as <- <-. constructor; cbn [upd_wt tm_wt tm_now seen].
    + intros _. exists outs, []. split; auto.
    + discriminate.
    + intros d [X|X]; discriminate.
  - destruct C as [c1 c2 c3]. unfold wait_step in H.
    destruct (tm_wt s) as [ | | | |d|d|d|d|d| |d|d] eqn:W; try discriminate.
    all: assert (IC : in_call outs) by (apply c1; discriminate).
    all: repeat match type of H with
      | (if ?c then _ else _) = _ => destruct c eqn:?
      | (match ?c with _ => _ end) = _ => destruct c eqn:? end; try discriminate.
    all: injection H as <- <-; constructor;
      cbn [upd_wt upd_nw upd_sem upd_flag tm_wt tm_now seen].
    all: try (intros _; apply in_call_snoc; auto; discriminate).
    all: try (intros x X; discriminate).
    all: try (intros x [X|X]; discriminate).
    all: try (intros x X; injection X as <-; apply holds_snoc; [discriminate|]; apply c2; reflexivity).
    + (* load *) intros x X. injection X as <-. destruct IC as (o1 & a & -> & NI).
      exists o1, a, [TNone]. split; [now rewrite <- app_assoc|]. split; auto. intros X. apply in_app_or in X. destruct X as [X|[X|[]]]; auto. discriminate.
    + intros x [X|X]; [|discriminate]. injection X as <-. tbool. split; [|lia]. apply holds_snoc; [discriminate|]. apply c2. reflexivity.
    + intros x [X|X]; [discriminate|]. injection X as <-. destruct (c3 d (or_introl eq_refl)). split; [|lia]. apply holds_snoc; [discriminate|auto].
  - destruct (0 <=? dt) eqn:D; [|discriminate]. injection H as <- <-. apply Z.leb_le in D.
    apply (cinv_same outs s); [discriminate|reflexivity|cbn; lia|exact C].
Qed.

Lemma run_cinv : forall ls outs s, inv outs s -> cinv outs s -> forall o s', tm_run s ls = (o, s') -> inv (outs ++ o) s' /\ cinv (outs ++ o) s'.
Proof.
  induction ls as [|l ls IH]; intros outs s I C o s' H; cbn [tm_run] in H.
  - injection H as <- <-. now rewrite app_nil_r.
  - destruct (tm_step s l) as [[o1 s1]|] eqn:E; [|eauto].
    destruct (tm_run s1 ls) as [os s2] eqn:R. injection H as <- <-.
    replace (outs ++ o1 :: os) with ((outs ++ [o1]) ++ os) by now rewrite <- app_assoc.
    eapply IH; eauto; [eapply step_inv|eapply step_cinv]; eauto.
Qed.

Lemma cinv0 : forall n now, cinv [] (tm_new n now).
Proof. intros. constructor; cbn; try congruence; try discriminate. intros d [X|X]; discriminate. Qed.

Lemma run_app : forall a b s, tm_run s (a ++ b) = let '(o1, s1) := tm_run s a in let '(o2, s2) := tm_run s1 b in (o1 ++ o2, s2).
Proof.
  induction a as [|l a IH]; intros b s; cbn [app tm_run].
  - destruct (tm_run s b); reflexivity.
  - destruct (tm_step s l) as [[o s1]|]; auto. rewrite IH. destruct (tm_run s1 a) as [o1 s2]. destruct (tm_run s2 b); reflexivity.
Qed.

Lemma returned : forall outs s l d s', inv outs s -> cinv outs s -> tm_step s l = Some (TReturned d, s') -> holds_at outs d /\ 0 <= d <= tm_now s.
Proof.
  intros outs s l d s' I C H. destruct l as [i x|i fail| |b|dt]; cbn [tm_step] in H.
  - destruct (nth_error (tm_set s) i) as [[]|]; try discriminate. destruct (tm_dl_busy s); discriminate.
  - destruct (nth_error (tm_set s) i) as [[]|]; try discriminate; cbn [set_step] in H; cbv zeta in H;
    repeat match type of H with Some (if ?c then _ else _) = _ => destruct c end; discriminate.
  - destruct (tm_wt s); discriminate.
  - unfold wait_step in H. destruct (tm_wt s) eqn:W; try discriminate.
    all: repeat match type of H with
      | (if ?c then _ else _) = _ => destruct c eqn:?
      | (match ?c with _ => _ end) = _ => destruct c eqn:? end; try discriminate.
    injection H as -> _. apply (c_end _ _ C). auto.
  - destruct (0 <=? dt); discriminate.
Qed.
