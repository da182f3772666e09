(** Invariant of the concurrent packet queue over all schedules. *)
From Verif Require Import Base Mpsc_model Mpsc_spec Mpsc_proof Mpsc_props ConcQueue_model ConcQueue_spec.

(** What one step of the inner queue does to its threads. *)
Lemma push_eff : forall q t x o q', mq_step q (QPush t x) = Some (Ok (o, q')) ->
  o = QCall t x /\ mq_prods q t = MPIdle /\ mq_prods q' = upt (mq_prods q) t (MPOwned x) /\
  mq_cons q' = mq_cons q.
Proof.
  intros q t x o q' H. cbn [mq_step] in H. destruct (mq_prods q t) eqn:E; try discriminate H.
  destruct (x =? stub); [discriminate H|]. destruct (mq_owned q x); [discriminate H|].
  injection H as <- <-. cbn. auto.
Qed.

Lemma prod_eff : forall q t o q', mq_step q (QStep t) = Some (Ok (o, q')) ->
  mq_cons q' = mq_cons q /\ exists x,
  (mq_prods q t = MPOwned x /\ o = QNone /\ mq_prods q' = upt (mq_prods q) t (MPCleared x)) \/
  (mq_prods q t = MPCleared x /\ o = QLin t x /\
     mq_prods q' = upt (mq_prods q) t (MPLink x (mq_tail q))) \/
  (exists a, mq_prods q t = MPLink x a /\ o = QRet t x /\ mq_prods q' = upt (mq_prods q) t MPIdle).
Proof.
  intros q t o q' H. cbn [mq_step] in H. unfold mq_prod_step in H.
  destruct (mq_prods q t) eqn:E; [discriminate H| | |]; injection H as <- <-; cbn;
    (split; [auto|]); eexists.
  - left. eauto.
  - right. left. eauto.
  - right. right. eauto.
Qed.

Lemma pop_eff : forall q b o q', mq_step q (QPop b) = Some (Ok (o, q')) ->
  o = QNone /\ mq_prods q' = mq_prods q /\ mq_cons q' <> MCIdle.
Proof.
  intros q b o q' H. cbn [mq_step] in H. destruct (mq_cons q) eqn:E; try discriminate H.
  unfold mq_begin_pop, goto, advance, finish in H.
  destruct (mq_next q (mq_head q)), (mq_head q =? stub); injection H as <- <-; cbn;
    repeat split; discriminate.
Qed.

Lemma cons_eff : forall q o q', mq_step q QCons = Some (Ok (o, q')) ->
  mq_prods q' = mq_prods q /\
  ((o = QNone /\ mq_cons q' <> MCIdle) \/ (exists v, o = QPopped v /\ mq_cons q' = MCIdle)).
Proof.
  intros q o q' H. cbn [mq_step] in H. unfold mq_cons_step, goto, advance, finish, return_null in H.
  destruct (mq_cons q) eqn:E; try discriminate H;
  repeat match type of H with
  | context [if ?c then _ else _] => destruct c
  | context [match ?c with Some _ => _ | None => _ end] => destruct c
  | context [match ?c with S _ => _ | O => _ end] => destruct c
  end; try discriminate H; injection H as <- <-; cbn; (split; [auto|]);
  try (left; split; [auto|discriminate]); try (right; eauto).
Qed.

(** After entering the queue and before the return of [write]. *)
Definition late (s : cq) (t : nat) : Prop :=
  (exists x a, mq_prods (c_q s) t = MPLink x a) \/ (exists x, c_w s t = WPost x).

Definition held (s : cq) : list Z :=
  match c_lock s with
  | Some r => match c_r s r with RHave (Some x) => [x] | _ => [] end
  | None => []
  end.

Definition past (s : cq) : nat :=
  match c_lock s with
  | Some r => match c_r s r with RGo | RPop | RHave _ => 1%nat | _ => 0%nat end
  | None => 0%nat
  end.

Record cinv (b : bool) (s : cq) (outs : list cqout) : Prop := {
  i_run : exists ls, Forall (fun l => l <> QPop false) ls /\ mq_run mq_new ls = Ok (inner outs, c_q s);
  i_w : forall t, match c_w s t with
                  | WIn x => mq_prods (c_q s) t = MPOwned x \/ mq_prods (c_q s) t = MPCleared x \/
                             exists a, mq_prods (c_q s) t = MPLink x a
                  | _ => mq_prods (c_q s) t = MPIdle
                  end;
  i_post : b = false -> forall t x, c_w s t <> WPost x;
  i_lock : forall r, c_r s r <> RIdle <-> c_lock s = Some r;
  i_cons : forall r, c_lock s = Some r -> (c_r s r = RPop <-> mq_cons (c_q s) <> MCIdle);
  i_free : c_lock s = None -> mq_cons (c_q s) = MCIdle;
  i_pop : popped (inner outs) = got outs ++ held s;
  i_some : b = true -> (forall r, ~ In (CGot r None) outs) /\ (forall r, c_r s r <> RHave None);
  i_late : exists P, NoDup P /\ (forall t, In t P <-> late s t) /\
             length (entered outs) = (length (wrote outs) + length P)%nat;
  i_sem : b = true -> (c_sem s + length (got outs) + past s = length (wrote outs))%nat;
  i_by : forall t, returned_of t (inner outs) =
           wrote_by t outs ++ match c_w s t with WPost x => [x] | _ => [] end }.

Lemma inner_app : forall a b, inner (a ++ b) = inner a ++ inner b.
Proof. intros. apply flat_map_app. Qed.
Lemma got_app : forall a b, got (a ++ b) = got a ++ got b.
Proof. intros. apply flat_map_app. Qed.
Lemma wrote_app : forall a b, wrote (a ++ b) = wrote a ++ wrote b.
Proof. intros. apply flat_map_app. Qed.
Lemma wrote_by_app : forall t a b, wrote_by t (a ++ b) = wrote_by t a ++ wrote_by t b.
Proof. intros. apply flat_map_app. Qed.
Lemma popped_app : forall a b, popped (a ++ b) = popped a ++ popped b.
Proof. intros. apply flat_map_app. Qed.
Lemma queued_app : forall a b, queued (a ++ b) = queued a ++ queued b.
Proof. intros. apply flat_map_app. Qed.
Lemma returned_app : forall t a b, returned_of t (a ++ b) = returned_of t a ++ returned_of t b.
Proof. intros. apply flat_map_app. Qed.

Lemma inner_run : forall q outs l o q',
  (exists ls, Forall (fun l => l <> QPop false) ls /\ mq_run mq_new ls = Ok (outs, q)) ->
  l <> QPop false -> mq_step q l = Some (Ok (o, q')) ->
  exists ls, Forall (fun l => l <> QPop false) ls /\ mq_run mq_new ls = Ok (outs ++ [o], q').
Proof.
  intros q outs l o q' (ls & F & R) N S. exists (ls ++ [l]). split.
  - apply Forall_app. auto.
  - eapply run_step; eauto.
Qed.

Lemma upf_same : forall A (f : nat -> A) t v, upf f t v t = v.
Proof. intros. unfold upf. rewrite Nat.eqb_refl. auto. Qed.
Lemma upf_other : forall A (f : nat -> A) t u v, u <> t -> upf f t v u = f u.
Proof. intros. unfold upf. destruct (Nat.eqb_spec u t); congruence. Qed.
Lemma upt_same : forall f t v, upt f t v t = v.
Proof. intros. unfold upt. rewrite Nat.eqb_refl. auto. Qed.
Lemma upt_other : forall f t u v, u <> t -> upt f t v u = f u.
Proof. intros. unfold upt. destruct (Nat.eqb_spec u t); congruence. Qed.

Lemma new_cinv : forall b, cinv b cq_new [].
Proof.
  intros b. constructor; cbn; auto; try congruence.
  - exists []. split; auto.
  - intros r. split; intros H; congruence.
  - intros _. split; [auto|]. discriminate.
  - exists []. split; [constructor|]. split; [|auto]. intros t. split; [intros []|].
    intros [(x & a & H)|(x & H)]; discriminate H.
Qed.

Lemma length_remove : forall (P : list nat) t, NoDup P -> In t P ->
  S (length (remove Nat.eq_dec t P)) = length P.
Proof.
  induction P as [|p P IH]; intros t ND I; [destruct I|]. apply NoDup_cons_iff in ND. destruct ND as [N ND].
  cbn [remove length]. destruct (Nat.eq_dec t p) as [->|NE].
  - rewrite notin_remove by auto. auto.
  - cbn [length]. rewrite IH; auto. destruct I; congruence.
Qed.
Lemma nodup_remove : forall (P : list nat) t, NoDup P -> NoDup (remove Nat.eq_dec t P).
Proof.
  induction P as [|p P IH]; intros t ND; [auto|]. apply NoDup_cons_iff in ND. destruct ND as [N ND].
  cbn [remove]. destruct (Nat.eq_dec t p); auto. constructor; auto. intros I. apply in_remove in I. tauto.
Qed.

(** [write] is called. *)
Lemma inv_write : forall b s outs t x o q, cinv b s outs -> c_w s t = WIdle ->
  mq_step (c_q s) (QPush t x) = Some (Ok (o, q)) ->
  cinv b (mkCq q (c_sem s) (upf (c_w s) t (WIn x)) (c_r s) (c_lock s)) (outs ++ [CQ o]).
Proof.
  intros b s outs t x o q I W S. destruct (push_eff _ _ _ _ _ S) as (-> & E1 & E2 & E3).
  destruct I. constructor; cbn [c_q c_w c_r c_lock c_sem]; rewrite ?inner_app, ?got_app, ?wrote_app; cbn [inner got wrote flat_map app];
    rewrite ?app_nil_r.
  - apply inner_run with (q := c_q s) (l := QPush t x); auto. discriminate.
  - intros u. rewrite E2. destruct (Nat.eq_dec u t) as [->|N].
    + rewrite upf_same, upt_same. auto.
    + rewrite upf_other, upt_other by auto. apply i_w0.
  - intros B u y. destruct (Nat.eq_dec u t) as [->|N]; [rewrite upf_same; discriminate|].
    rewrite upf_other by auto. auto.
  - auto.
  - rewrite E3. auto.
  - rewrite E3. auto.
  - rewrite popped_app. cbn. rewrite app_nil_r. apply i_pop0.
  - intros B. destruct (i_some0 B) as [A1 A2]. split; auto. intros r J. apply in_app_iff in J.
    destruct J as [J|[J|[]]]; [eapply A1; eauto|discriminate J].
  - destruct i_late0 as (P & P1 & P2 & P3). exists P. split; auto. split.
    + intros u. rewrite P2. unfold late. cbn. rewrite E2. destruct (Nat.eq_dec u t) as [->|N].
      * rewrite upf_same, upt_same, E1, W. split; intros [(y & a & H)|(y & H)]; discriminate H.
      * rewrite upf_other, upt_other by auto. tauto.
    + unfold entered in *. rewrite inner_app, queued_app. cbn. rewrite app_nil_r. auto.
  - intros B. apply i_sem0 in B. unfold past in *. cbn. auto.
  - intros u. rewrite returned_app, wrote_by_app. cbn. rewrite !app_nil_r. rewrite i_by0.
    destruct (Nat.eq_dec u t) as [->|N]; [rewrite upf_same, W; auto|rewrite upf_other; auto].
Qed.

(** A step inside [push_back] that does not end it. *)
Lemma inv_push1 : forall b s outs t x o q, cinv b s outs -> c_w s t = WIn x ->
  mq_step (c_q s) (QStep t) = Some (Ok (o, q)) -> mq_prods q t <> MPIdle ->
  cinv b (mkCq q (c_sem s) (c_w s) (c_r s) (c_lock s)) (outs ++ [CQ o]).
Proof.
  intros b s outs t x o q I W S NI. destruct (prod_eff _ _ _ _ S) as (E3 & y & E).
  assert (RO : returned_of t [o] = [] /\ forall u, returned_of u [o] = []).
  { assert (forall u, returned_of u [o] = []); [|auto]. intros u.
    destruct E as [(A1 & -> & A3)|[(A1 & -> & A3)|(a & A1 & A2 & A3)]]; auto.
    rewrite A3, upt_same in NI. congruence. }
  assert (PO : popped [o] = []).
  { destruct E as [(A1 & -> & A3)|[(A1 & -> & A3)|(a & A1 & -> & A3)]]; auto. }
  destruct I. pose proof (i_w0 t) as WT. rewrite W in WT.
  constructor; cbn [c_q c_w c_r c_lock c_sem]; rewrite ?inner_app, ?got_app, ?wrote_app; cbn [inner got wrote flat_map app];
    rewrite ?app_nil_r.
  - apply inner_run with (q := c_q s) (l := QStep t); auto. discriminate.
  - intros u. destruct (Nat.eq_dec u t) as [->|N].
    + rewrite W. destruct E as [(A1 & A2 & A3)|[(A1 & A2 & A3)|(a & A1 & A2 & A3)]]; rewrite A3, upt_same in *.
      * right. left. destruct WT as [WT|[WT|(a & WT)]]; congruence.
      * right. right. destruct WT as [WT|[WT|(a & WT)]]; try congruence. exists (mq_tail (c_q s)). congruence.
      * congruence.
    + assert (Q : mq_prods q u = mq_prods (c_q s) u).
      { destruct E as [(A1 & A2 & A3)|[(A1 & A2 & A3)|(a & A1 & A2 & A3)]]; rewrite A3; apply upt_other; auto. }
      rewrite Q. apply i_w0.
  - auto.
  - auto.
  - rewrite E3. auto.
  - rewrite E3. auto.
  - rewrite popped_app, PO, app_nil_r. apply i_pop0.
  - intros B. destruct (i_some0 B) as [A1 A2]. split; auto. intros r J. apply in_app_iff in J.
    destruct J as [J|[J|[]]]; [eapply A1; eauto|discriminate J].
  - destruct i_late0 as (P & P1 & P2 & P3).
    destruct E as [(A1 & A2 & A3)|[(A1 & A2 & A3)|(a & A1 & A2 & A3)]].
    + exists P. split; auto. split.
      * intros u. rewrite P2. unfold late. cbn. rewrite A3. destruct (Nat.eq_dec u t) as [->|N].
        -- rewrite upt_same, A1, W. split; intros [(y0 & a & H)|(y0 & H)]; discriminate H.
        -- rewrite upt_other by auto. tauto.
      * unfold entered in *. rewrite inner_app, queued_app, A2. cbn. rewrite app_nil_r. auto.
    + exists (t :: P). assert (NT : ~ In t P).
      { rewrite P2. intros [(y0 & a & H)|(y0 & H)]; congruence. }
      split; [constructor; auto|]. split.
      * intros u. cbn [In]. rewrite P2. unfold late. cbn. rewrite A3. destruct (Nat.eq_dec u t) as [->|N].
        -- rewrite upt_same. split; eauto.
        -- rewrite upt_other by auto. split; [intros [H|H]; [congruence|auto]|auto].
      * unfold entered in *. rewrite inner_app, queued_app, A2. cbn. rewrite app_length. cbn. lia.
    + exfalso. rewrite A3, upt_same in NI. congruence.
  - intros B. apply i_sem0 in B. unfold past in *. cbn. auto.
  - intros u. rewrite returned_app, wrote_by_app. cbn [wrote_by flat_map app]. rewrite !app_nil_r.
    rewrite (proj2 RO u), app_nil_r. auto.
Qed.

(** [push_back] ends. *)
Lemma inv_push2 : forall b s outs t x o q, cinv b s outs -> c_w s t = WIn x ->
  mq_step (c_q s) (QStep t) = Some (Ok (o, q)) -> mq_prods q t = MPIdle ->
  cinv b (mkCq q (c_sem s) (upf (c_w s) t (if b then WPost x else WIdle)) (c_r s) (c_lock s))
    (outs ++ (if b then [CQ o] else [CQ o; CWrote t x])).
Proof.
  intros b s outs t x o q I W S NI. destruct (prod_eff _ _ _ _ S) as (E3 & y & E).
  destruct I. pose proof (i_w0 t) as WT. rewrite W in WT.
  assert (Q : (exists a, mq_prods (c_q s) t = MPLink x a) /\ o = QRet t x /\
              mq_prods q = upt (mq_prods (c_q s)) t MPIdle).
  { destruct E as [(A1 & A2 & A3)|[(A1 & A2 & A3)|(a & A1 & A2 & A3)]].
    - rewrite A3, upt_same in NI. discriminate NI.
    - rewrite A3, upt_same in NI. discriminate NI.
    - assert (y = x) by (destruct WT as [WT|[WT|(a' & WT)]]; congruence). subst y. eauto. }
  clear E. destruct Q as ((a & A1) & -> & A3).
  assert (INN : inner (outs ++ (if b then [CQ (QRet t x)] else [CQ (QRet t x); CWrote t x])) =
                inner outs ++ [QRet t x]) by (rewrite inner_app; destruct b; auto).
  assert (GOT : got (outs ++ (if b then [CQ (QRet t x)] else [CQ (QRet t x); CWrote t x])) = got outs)
    by (rewrite got_app; destruct b; apply app_nil_r).
  constructor; cbn [c_q c_w c_r c_lock c_sem]; rewrite ?INN, ?GOT.
  - apply inner_run with (q := c_q s) (l := QStep t); auto. discriminate.
  - intros u. rewrite A3. destruct (Nat.eq_dec u t) as [->|N].
    + rewrite upf_same, upt_same. destruct b; auto.
    + rewrite upf_other, upt_other by auto. apply i_w0.
  - intros -> u z. destruct (Nat.eq_dec u t) as [->|N]; [rewrite upf_same; discriminate|].
    rewrite upf_other by auto. auto.
  - auto.
  - rewrite E3. auto.
  - rewrite E3. auto.
  - rewrite popped_app. cbn. rewrite app_nil_r. apply i_pop0.
  - intros ->. destruct (i_some0 eq_refl) as [B1 B2]. split; auto. intros r J. apply in_app_iff in J.
    destruct J as [J|[J|[]]]; [eapply B1; eauto|discriminate J].
  - destruct i_late0 as (P & P1 & P2 & P3). destruct b.
    + exists P. split; auto. split.
      * intros u. rewrite P2. unfold late. cbn. rewrite A3. destruct (Nat.eq_dec u t) as [->|N].
        -- rewrite upt_same, upf_same. split; eauto.
        -- rewrite upt_other, upf_other by auto. tauto.
      * unfold entered in *. rewrite INN, queued_app, wrote_app. cbn. rewrite !app_nil_r. auto.
    + exists (remove Nat.eq_dec t P). split; [apply nodup_remove; auto|]. split.
      * intros u. unfold late. cbn. rewrite A3. destruct (Nat.eq_dec u t) as [->|N].
        -- rewrite upt_same, upf_same. split; [intros J; apply in_remove in J; tauto|].
           intros [(y0 & a0 & H)|(y0 & H)]; discriminate H.
        -- rewrite upt_other, upf_other by auto.
           change (In u (remove Nat.eq_dec t P) <-> late s u). rewrite <- P2. split.
           ++ intros J. apply in_remove in J. tauto.
           ++ intros J. apply in_in_remove; auto.
      * unfold entered in *. rewrite INN, queued_app, wrote_app. cbn. rewrite app_nil_r, app_length. cbn.
        assert (IN : In t P) by (apply P2; left; eauto).
        pose proof (length_remove P t P1 IN). lia.
  - intros ->. specialize (i_sem0 eq_refl). unfold past in *. cbn. rewrite wrote_app, app_length. cbn. lia.
  - intros u. rewrite returned_app, wrote_by_app, i_by0. destruct (Nat.eq_dec u t) as [->|N].
    + rewrite upf_same, W. cbn [returned_of flat_map]. rewrite Nat.eqb_refl.
      destruct b; cbn [wrote_by flat_map app]; rewrite ?Nat.eqb_refl, !app_nil_r; cbn; rewrite ?app_nil_r; auto.
    + rewrite upf_other by auto. cbn [returned_of flat_map].
      destruct (Nat.eqb_spec t u); [congruence|].
      destruct b; cbn [wrote_by flat_map app]; try (destruct (Nat.eqb_spec t u); [congruence|]);
        cbn [app]; rewrite !app_nil_r; auto.
Qed.

(** [post], and [write] returns. *)
Lemma inv_post : forall b s outs t x, cinv b s outs -> c_w s t = WPost x ->
  cinv b (mkCq (c_q s) (S (c_sem s)) (upf (c_w s) t WIdle) (c_r s) (c_lock s)) (outs ++ [CWrote t x]).
Proof.
  intros b s outs t x I W. destruct I. pose proof (i_w0 t) as WT. rewrite W in WT.
  constructor; cbn [c_q c_w c_r c_lock c_sem]; rewrite ?inner_app, ?got_app; cbn [inner got flat_map app];
    rewrite ?app_nil_r.
  - auto.
  - intros u. destruct (Nat.eq_dec u t) as [->|N]; [rewrite upf_same; auto|rewrite upf_other by auto; apply i_w0].
  - intros B u z. destruct (Nat.eq_dec u t) as [->|N]; [rewrite upf_same; discriminate|].
    rewrite upf_other by auto. auto.
  - auto.
  - auto.
  - auto.
  - apply i_pop0.
  - intros B. destruct (i_some0 B) as [B1 B2]. split; auto. intros r J. apply in_app_iff in J.
    destruct J as [J|[J|[]]]; [eapply B1; eauto|discriminate J].
  - destruct i_late0 as (P & P1 & P2 & P3).
    exists (remove Nat.eq_dec t P). split; [apply nodup_remove; auto|]. split.
    + intros u. unfold late. cbn. destruct (Nat.eq_dec u t) as [->|N].
      * rewrite upf_same, WT. split; [intros J; apply in_remove in J; tauto|].
        intros [(y0 & a0 & H)|(y0 & H)]; discriminate H.
      * rewrite upf_other by auto.
        change (In u (remove Nat.eq_dec t P) <-> late s u). rewrite <- P2. split.
        -- intros J. apply in_remove in J. tauto.
        -- intros J. apply in_in_remove; auto.
    + unfold entered in *. rewrite inner_app, wrote_app. cbn. rewrite app_nil_r, app_length. cbn.
      assert (IN : In t P) by (apply P2; right; eauto).
      pose proof (length_remove P t P1 IN). lia.
  - intros B. specialize (i_sem0 B). unfold past in *. cbn [c_lock c_r]. rewrite wrote_app, app_length. cbn [wrote flat_map app length]. lia.
  - intros u. rewrite wrote_by_app, i_by0. cbn [wrote_by flat_map app]. destruct (Nat.eq_dec u t) as [->|N].
    + rewrite upf_same, W, Nat.eqb_refl, !app_nil_r. auto.
    + rewrite upf_other by auto. destruct (Nat.eqb_spec t u); [congruence|]. rewrite !app_nil_r. auto.
Qed.

(** Steps of readers leave the writers alone. *)
Lemma inv_reader : forall b s outs l o s', cinv b s outs ->
  (exists r, l = CRead r \/ l = CReader r) -> cq_step b s l = Some (Ok (o, s')) ->
  cinv b s' (outs ++ o).
Proof.
  intros b s outs l o s' I (r & L) S. pose proof I as I0. destruct I.
  assert (KEEP : forall q sem rr lk (oi : list mqout),
    mq_prods q = mq_prods (c_q s) -> queued oi = [] -> (forall t, returned_of t oi = []) ->
    inner o = oi -> wrote o = [] -> (forall t, wrote_by t o = []) ->
    s' = mkCq q sem (c_w s) rr lk ->
    (forall t, match c_w s' t with
                  | WIn x => mq_prods (c_q s') t = MPOwned x \/ mq_prods (c_q s') t = MPCleared x \/
                             exists a, mq_prods (c_q s') t = MPLink x a
                  | _ => mq_prods (c_q s') t = MPIdle
                  end) /\
    (b = false -> forall t x, c_w s' t <> WPost x) /\
    (exists P, NoDup P /\ (forall t, In t P <-> late s' t) /\
             length (entered (outs ++ o)) = (length (wrote (outs ++ o)) + length P)%nat) /\
    (forall t, returned_of t (inner (outs ++ o)) =
           wrote_by t (outs ++ o) ++ match c_w s' t with WPost x => [x] | _ => [] end)).
  { intros q sem rr lk oi Q1 Q2 Q3 Q4 Q5 Q6 ->. cbn [c_q c_w]. rewrite Q1. split; [auto|]. split; [auto|].
    split.
    - destruct i_late0 as (P & P1 & P2 & P3). exists P. split; auto. split.
      + intros t. rewrite P2. unfold late. cbn. rewrite Q1. tauto.
      + unfold entered in *. rewrite inner_app, queued_app, wrote_app, Q4, Q2, Q5, !app_nil_r. auto.
    - intros t. rewrite inner_app, returned_app, wrote_by_app, Q4, Q3, Q6, !app_nil_r. auto. }
  destruct L as [->| ->]; cbn [cq_step] in S.
  - (* read is called *)
    destruct (c_r s r) eqn:CR; try discriminate S. destruct (c_lock s) eqn:CL; [discriminate S|].
    assert (E : o = [] /\ s' = mkCq (c_q s) (c_sem s) (c_w s)
      (upf (c_r s) r (if b then RWait else RGo)) (Some r)) by (split; congruence).
    destruct E as [-> E].
    destruct (KEEP (c_q s) (c_sem s) (upf (c_r s) r (if b then RWait else RGo)) (Some r) []) as (K1 & K2 & K3 & K4); auto.
    rewrite app_nil_r in *. subst s'. constructor; auto; cbn [c_q c_w c_r c_lock c_sem].
    + intros u. destruct (Nat.eq_dec u r) as [->|N].
      * rewrite upf_same. split; auto. destruct b; discriminate.
      * rewrite upf_other by auto. rewrite i_lock0. split; congruence.
    + intros u U. assert (u = r) by congruence. subst u. rewrite upf_same, i_free0 by auto.
      destruct b; split; congruence.
    + rewrite i_pop0. unfold held. cbn. rewrite CL, upf_same. destruct b; auto.
    + intros B. destruct (i_some0 B) as [B1 B2]. split; auto. intros u.
      destruct (Nat.eq_dec u r) as [->|N]; [rewrite upf_same, B; discriminate|rewrite upf_other; auto].
    + intros B. specialize (i_sem0 B). unfold past in *. cbn. rewrite CL in i_sem0. rewrite upf_same, B. auto.
  - unfold cq_reader in S. destruct (c_r s r) eqn:CR; [discriminate S| | | |].
    + (* wait *)
      assert (CL : c_lock s = Some r) by (apply i_lock0; congruence).
      destruct (c_sem s) as [|n] eqn:CS; [discriminate S|].
      assert (E : o = [] /\ s' = mkCq (c_q s) n (c_w s) (upf (c_r s) r RGo) (c_lock s)) by (split; congruence).
      destruct E as [-> E].
      destruct (KEEP (c_q s) n (upf (c_r s) r RGo) (c_lock s) []) as (K1 & K2 & K3 & K4); auto.
      rewrite app_nil_r in *. subst s'. constructor; auto; cbn [c_q c_w c_r c_lock c_sem].
      * intros u. destruct (Nat.eq_dec u r) as [->|N].
        -- rewrite upf_same. split; auto. discriminate.
        -- rewrite upf_other by auto. apply i_lock0.
      * intros u U. assert (u = r) by congruence. subst u. rewrite upf_same.
        pose proof (i_cons0 r CL) as C. rewrite CR in C. split; [discriminate|]. intros H. apply C in H. discriminate H.
      * rewrite i_pop0. unfold held. cbn. rewrite CL, upf_same, CR. auto.
      * intros B. destruct (i_some0 B) as [B1 B2]. split; auto. intros u.
        destruct (Nat.eq_dec u r) as [->|N]; [rewrite upf_same; discriminate|rewrite upf_other; auto].
      * intros B. specialize (i_sem0 B). unfold past in *. cbn. rewrite CL in *. rewrite CR in i_sem0. rewrite upf_same. lia.
    + (* the pop begins *)
      assert (CL : c_lock s = Some r) by (apply i_lock0; congruence).
      destruct (mq_step (c_q s) (QPop true)) as [[(x, q)| |]|] eqn:MS; try discriminate S.
      assert (E : o = [CQ x] /\ s' = mkCq q (c_sem s) (c_w s) (upf (c_r s) r RPop) (c_lock s)) by (split; congruence).
      destruct E as [-> E]. destruct (pop_eff _ _ _ _ MS) as (-> & P1 & P2).
      destruct (KEEP q (c_sem s) (upf (c_r s) r RPop) (c_lock s) [QNone]) as (K1 & K2 & K3 & K4); auto.
      subst s'. constructor; auto; cbn [c_q c_w c_r c_lock c_sem];
        rewrite ?inner_app, ?got_app, ?wrote_app; cbn [inner got wrote flat_map app]; rewrite ?app_nil_r.
      * apply inner_run with (q := c_q s) (l := QPop true); auto. discriminate.
      * intros u. destruct (Nat.eq_dec u r) as [->|N].
        -- rewrite upf_same. split; auto. discriminate.
        -- rewrite upf_other by auto. apply i_lock0.
      * intros u U. assert (u = r) by congruence. subst u. rewrite upf_same. tauto.
      * congruence.
      * rewrite popped_app. cbn. rewrite app_nil_r, i_pop0. unfold held. cbn. rewrite CL, upf_same, CR. auto.
      * intros B. destruct (i_some0 B) as [B1 B2]. split.
        -- intros u J. apply in_app_iff in J. destruct J as [J|[J|[]]]; [eapply B1; eauto|discriminate J].
        -- intros u. destruct (Nat.eq_dec u r) as [->|N]; [rewrite upf_same; discriminate|rewrite upf_other; auto].
      * intros B. specialize (i_sem0 B). unfold past in *. cbn. rewrite CL in *. rewrite CR in i_sem0. rewrite upf_same. lia.
    + (* inside the pop *)
      assert (CL : c_lock s = Some r) by (apply i_lock0; congruence).
      destruct (mq_step (c_q s) QCons) as [[(x, q)| |]|] eqn:MS; try discriminate S.
      assert (E : o = [CQ x] /\ s' = mkCq q (c_sem s) (c_w s)
        (match x with QPopped v => upf (c_r s) r (RHave v) | _ => c_r s end) (c_lock s)) by (split; congruence).
      destruct E as [-> E]. destruct (cons_eff _ _ _ MS) as (P1 & [(-> & P2)|(v & -> & P2)]).
      * destruct (KEEP q (c_sem s) (c_r s) (c_lock s) [QNone]) as (K1 & K2 & K3 & K4); auto.
        subst s'. constructor; auto; cbn [c_q c_w c_r c_lock c_sem];
          rewrite ?inner_app, ?got_app, ?wrote_app; cbn [inner got wrote flat_map app]; rewrite ?app_nil_r.
        -- apply inner_run with (q := c_q s) (l := QCons); auto. discriminate.
        -- intros u U. assert (u = r) by congruence. subst u. rewrite CR. tauto.
        -- congruence.
        -- rewrite popped_app. cbn. rewrite app_nil_r. apply i_pop0.
        -- intros B. destruct (i_some0 B) as [B1 B2]. split; auto.
           intros u J. apply in_app_iff in J. destruct J as [J|[J|[]]]; [eapply B1; eauto|discriminate J].
        -- intros B. apply i_sem0 in B. unfold past in *. cbn. auto.
      * assert (NN : b = true -> v <> None).
        { intros B V. subst v. destruct i_run0 as (ls & F & R).
          assert (Q : popped (inner outs) = queued (inner outs)).
          { eapply C28_blocking_empty; [|exact R|exact MS]. apply Forall_app. split; auto.
            constructor; auto. discriminate. }
          rewrite i_pop0 in Q. unfold held in Q. rewrite CL, CR, app_nil_r in Q.
          destruct i_late0 as (P & _ & _ & P3). unfold entered in P3. rewrite <- Q in P3.
          specialize (i_sem0 B). unfold past in i_sem0. rewrite CL, CR in i_sem0. lia. }
        destruct (KEEP q (c_sem s) (upf (c_r s) r (RHave v)) (c_lock s) [QPopped v]) as (K1 & K2 & K3 & K4); auto.
        subst s'. constructor; auto; cbn [c_q c_w c_r c_lock c_sem];
          rewrite ?inner_app, ?got_app, ?wrote_app; cbn [inner got wrote flat_map app]; rewrite ?app_nil_r.
        -- apply inner_run with (q := c_q s) (l := QCons); auto. discriminate.
        -- intros u. destruct (Nat.eq_dec u r) as [->|N].
           ++ rewrite upf_same. split; auto. discriminate.
           ++ rewrite upf_other by auto. apply i_lock0.
        -- intros u U. assert (u = r) by congruence. subst u. rewrite upf_same. split; [discriminate|congruence].
        -- rewrite popped_app, i_pop0. unfold held. cbn. rewrite CL, upf_same, CR.
           rewrite app_nil_r. destruct v; auto.
        -- intros B. destruct (i_some0 B) as [B1 B2]. split.
           ++ intros u J. apply in_app_iff in J. destruct J as [J|[J|[]]]; [eapply B1; eauto|discriminate J].
           ++ intros u. destruct (Nat.eq_dec u r) as [->|N]; [rewrite upf_same|rewrite upf_other; auto].
              specialize (NN B). congruence.
        -- intros B. specialize (i_sem0 B). unfold past in *. cbn. rewrite CL in *. rewrite CR in i_sem0. rewrite upf_same. lia.
    + (* read returns *)
      assert (CL : c_lock s = Some r) by (apply i_lock0; congruence).
      assert (E : o = [CGot r v] /\ s' = mkCq (c_q s) (c_sem s) (c_w s) (upf (c_r s) r RIdle) None) by (split; congruence).
      destruct E as [-> E].
      destruct (KEEP (c_q s) (c_sem s) (upf (c_r s) r RIdle) None []) as (K1 & K2 & K3 & K4); auto.
      assert (MC : mq_cons (c_q s) = MCIdle).
      { pose proof (i_cons0 r CL) as C. rewrite CR in C. destruct (mq_cons (c_q s)); auto;
          exfalso; assert (Z : RHave v = RPop) by (apply C; discriminate); discriminate Z. }
      subst s'. constructor; auto; cbn [c_q c_w c_r c_lock c_sem];
        rewrite ?inner_app, ?wrote_app; cbn [inner wrote flat_map app]; rewrite ?app_nil_r.
      * auto.
      * intros u. destruct (Nat.eq_dec u r) as [->|N].
        -- rewrite upf_same. split; congruence.
        -- rewrite upf_other by auto. rewrite i_lock0. split; congruence.
      * congruence.
      * rewrite i_pop0, got_app. unfold held. cbn. rewrite CL, CR. destruct v; rewrite !app_nil_r; auto.
      * intros B. destruct (i_some0 B) as [B1 B2]. split.
        -- intros u J. apply in_app_iff in J. destruct J as [J|[J|[]]]; [eapply B1; eauto|].
           assert (v = None) by congruence. apply (B2 r). congruence.
        -- intros u. destruct (Nat.eq_dec u r) as [->|N]; [rewrite upf_same; discriminate|rewrite upf_other; auto].
      * intros B. destruct (i_some0 B) as [_ B2]. specialize (i_sem0 B). unfold past in *. cbn [c_lock].
        rewrite CL, CR in i_sem0. rewrite got_app, app_length. cbn [got flat_map app].
        destruct v; cbn; [lia|]. exfalso. apply (B2 r). auto.
Qed.

Lemma step_cinv : forall b s outs l o s', cinv b s outs -> cq_step b s l = Some (Ok (o, s')) ->
  cinv b s' (outs ++ o).
Proof.
  intros b s outs l o s' I S. destruct l as [t x|t|r|r].
  - cbn [cq_step] in S. destruct (c_w s t) eqn:W; try discriminate S.
    destruct (mq_step (c_q s) (QPush t x)) as [[(y, q)| |]|] eqn:MS; try discriminate S.
    injection S as <- <-. apply inv_write; auto.
  - cbn [cq_step] in S. unfold cq_writer in S. destruct (c_w s t) eqn:W; try discriminate S.
    + destruct (mq_step (c_q s) (QStep t)) as [[(y, q)| |]|] eqn:MS; try discriminate S.
      destruct (mq_prods q t) eqn:PT.
      * pose proof (inv_push2 b s outs t x y q I W MS PT) as K.
        destruct b; injection S as <- <-; exact K.
      * injection S as <- <-. eapply inv_push1; eauto. congruence.
      * injection S as <- <-. eapply inv_push1; eauto. congruence.
      * injection S as <- <-. eapply inv_push1; eauto. congruence.
    + injection S as <- <-. apply inv_post; auto.
  - apply (inv_reader b s outs (CRead r)); auto. exists r. auto.
  - apply (inv_reader b s outs (CReader r)); auto. exists r. auto.
Qed.

Lemma run_cinv : forall b ls s acc outs s', cinv b s acc -> cq_run b s ls = Ok (outs, s') ->
  cinv b s' (acc ++ outs).
Proof.
  induction ls as [|l ls IH]; intros s acc outs s' I R; cbn [cq_run] in R.
  - injection R as <- <-. rewrite app_nil_r. auto.
  - destruct (cq_step b s l) as [[(o, s1)| |]|] eqn:S; cbn [bind fst snd] in R; try discriminate R; eauto.
    destruct (cq_run b s1 ls) as [(o2, s2)| |] eqn:R2; cbn [bind fst snd] in R; try discriminate R.
    injection R as <- <-. rewrite app_assoc. eapply IH; eauto. eapply step_cinv; eauto.
Qed.

Lemma new_run : forall b ls outs s, cq_run b cq_new ls = Ok (outs, s) -> cinv b s outs.
Proof. intros. apply (run_cinv b ls cq_new [] outs s); auto. apply new_cinv. Qed.
