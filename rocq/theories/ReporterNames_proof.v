(** How operations of the reporter change the names of the known streams. *)
From Verif Require Import Base Base_lemmas Reporter_model Reporter_spec Reporter_proof.
From Coq Require Import Permutation Sorted.
Open Scope res_scope.
Local Open Scope Z_scope.

(** Name of a stream, and whether it sent a sender report *)
Definition nm (t : tab) (id : Z) : option (Z * bool) := option_map (fun s => (s_cname s, s_hass s)) (get t id).

(** Nothing changes, apart from the entry of [id] *)
Definition only (id : Z) (t t' : tab) : Prop := forall id', id' <> id -> nm t' id' = nm t id'.

Lemma only_get id t t' : (forall id', id' <> id -> get t' id' = get t id') -> only id t t'.
Proof. intros H x Hx; unfold nm; rewrite H by exact Hx; reflexivity. Qed.

Lemma nm_get t id s : get t id = Some s -> nm t id = Some (s_cname s, s_hass s).
Proof. intros H; unfold nm; rewrite H; reflexivity. Qed.
Lemma nm_none t id : get t id = None -> nm t id = None.
Proof. intros H; unfold nm; rewrite H; reflexivity. Qed.

Lemma nm_collision m c r id x : rok m r -> nm (r_tab (detect_collision c r id)) x = nm (r_tab r) x.
Proof.
  intros Hk; destruct (Z.eq_dec x id) as [-> | Hne].
  - destruct (collision_pair m c r id Hk) as (_ & Hn & Hs); destruct (get (r_tab r) id) as [s|] eqn:G.
    + destruct (Hs s eq_refl) as (s' & G' & _ & _ & _ & _ & E1 & E2 & _); rewrite (nm_get _ _ _ G), (nm_get _ _ _ G'), E1, E2; reflexivity.
    + rewrite (nm_none _ _ G), (nm_none _ _ (Hn eq_refl)); reflexivity.
  - destruct (collision_spec m c r id Hk) as (_ & _ & _ & Ho & _); unfold nm; rewrite Ho by exact Hne; reflexivity.
Qed.

(** What a step may do to the name of a stream *)
Record renames (o : rop) (t t' : tab) (ev : list evt) : Prop := {
  rn_keep : forall id c h, nm t id = Some (c, h) -> c <> 0 -> (exists h', nm t' id = Some (c, h')) \/ In (Halt id) ev;
  rn_anon : forall id, nm t' id = Some (0, true) ->
              nm t id = Some (0, true) \/ (exists ok ts, o = RSr ok id ts) /\ (forall c h, nm t id = Some (c, h) -> c = 0);
  rn_halt : forall id, In (Halt id) ev -> o = RBye id \/ (exists ok name, o = RCname ok id name) \/ o = REndP \/ exists ids, o = REndG ids;
  rn_named : forall id name, o = RCname true id name -> name <> 0 -> exists h, nm t' id = Some (name, h)
}.
(** Halted streams come first; then only streams with a sender report are announced *)
Definition told (t' : tab) (ev : list evt) : Prop :=
  exists hs ns, ev = map Halt hs ++ ns /\ (forall id, ~ In (Halt id) ns) /\ forall id, In (NotifyRecv id) ns -> exists c, nm t' id = Some (c, true).

Lemma told_nil t : told t [].
Proof. exists [], []; splits; auto; intros id []. Qed.
Lemma told_halts t hs : told t (map Halt hs).
Proof. exists hs, []; rewrite app_nil_r; splits; auto; intros id []. Qed.

Lemma renames_same o t t' : (forall id, nm t' id = nm t id) -> (forall id name, o <> RCname true id name) -> renames o t t' [].
Proof.
  intros H Hn; constructor.
  - intros id c h G _; left; exists h; rewrite H; exact G.
  - intros id G; left; rewrite <- H; exact G.
  - intros id [].
  - intros id name E; destruct (Hn _ _ E).
Qed.

Lemma names_cname m c r ok id name r' ev : rok m r -> process_cname c r ok id name = (r', ev) ->
  renames (RCname ok id name) (r_tab r) (r_tab r') ev /\ told (r_tab r') ev.
Proof.
  intros Hk H; unfold process_cname in H; destruct (name =? 0) eqn:En.
  { injection H as <- <-; apply Z.eqb_eq in En; split; [|apply told_nil]; constructor.
    - intros x cc h G _; left; eauto.
    - intros x G; left; exact G.
    - intros x [].
    - intros x nn E Hn; assert (nn = name) by congruence; congruence. }
  apply Z.eqb_neq in En.
  destruct (find_create ok (r_time r) (r_tab r) id) as [t o] eqn:F.
  destruct (find_create_spec m _ _ _ _ _ _ Hk F) as (Hk2 & Ho2 & Hg2 & Hc2).
  assert (Hold : forall s, get (r_tab r) id = Some s -> t = r_tab r /\ o = Some s).
  { intros s G; destruct Hc2 as [(C & _) | [(_ & -> & ->) | (C & _)]]; try congruence; auto. }
  destruct o as [s|].
  2: { injection H as <- <-; destruct Hc2 as [(C & Ok & _ & Et) | [(C & _ & C') | (_ & _ & _ & C & _)]]; [| congruence | discriminate C].
       subst t ok; split; [|apply told_nil]; constructor.
       - intros x cc h G _; left; eauto.
       - intros x G; left; exact G.
       - intros x [].
       - intros x nn E; discriminate E. }
  destruct (s_cname s =? name) eqn:Es.
  { injection H as <- <-; apply Z.eqb_eq in Es; split; [|apply told_nil].
    assert (Gs : get (r_tab r) id = Some s).
    { destruct Hc2 as [(_ & _ & C & _) | [(C & _ & C') | (_ & _ & _ & C & _)]]; [discriminate C | congruence |].
      exfalso; injection C as ->; cbn [s_cname] in Es; congruence. }
    destruct (Hold s Gs) as (-> & _); constructor.
    - intros x cc h G _; left; eauto.
    - intros x G; left; exact G.
    - intros x [].
    - intros x nn E Hn; injection E as _ <- <-; exists (s_hass s); cbn [with_tab r_tab]; rewrite (nm_get _ _ _ Gs); congruence. }
  apply Z.eqb_neq in Es.
  destruct (negb (s_cname s =? 0)) eqn:E0.
  - (* the name changes *)
    apply negb_true_iff, Z.eqb_neq in E0.
    destruct (get_in _ _ _ Hg2) as (Gi & Gd).
    set (p := find_create ok (r_time r) (remove_stream t (s_uid s)) id) in H.
    assert (Hk3 : tok m (r_time r) (remove_stream t (s_uid s))) by (apply tok_remove; exact Hk2).
    destruct p as [t3 o3] eqn:F3; unfold p in F3; destruct (find_create_spec m _ _ _ _ _ _ Hk3 F3) as (Hk4 & Ho4 & Hg4 & Hc4).
    cbn [fst snd] in H.
    assert (Gs : get (r_tab r) id = Some s).
    { destruct Hc2 as [(_ & _ & C & _) | [(C & _ & C') | (_ & _ & _ & C & _)]]; [discriminate C | congruence |].
      exfalso; injection C as ->; cbn [s_cname] in E0; congruence. }
    destruct (Hold s Gs) as (-> & _).
    assert (G3 : get (remove_stream (r_tab r) (s_uid s)) id = None) by (rewrite (get_remove m _ _ _ _ Hk2 Gi), Gd, Z.eqb_refl; reflexivity).
    assert (Hoth : only id (r_tab r) t3).
    { apply only_get; intros x Hx; rewrite Ho4 by exact Hx; rewrite (get_remove m _ _ _ _ Hk2 Gi); destruct (s_id s =? x) eqn:Fx; [apply Z.eqb_eq in Fx; congruence | reflexivity]. }
    destruct o3 as [s3|].
    + destruct Hc4 as [(_ & _ & C & _) | [(C & _ & C') | (_ & Eok & _ & C & _)]]; [discriminate C | congruence |].
      injection C as C3.
      destruct (rename_spec m c r t3 id s3 name Hk4 Hg4 En) as (_ & _ & Ho5 & _ & s5 & G5 & _ & _ & _ & Eh5 & Ec5).
      injection H as <- <-; split; [|exists [id], []; splits; auto; intros x []].
      set (r5 := with_tab _ _) in *.
      assert (N5 : nm (r_tab r5) id = Some (name, false)) by (rewrite (nm_get _ _ _ G5), Ec5, Eh5, C3; reflexivity).
      assert (O5 : only id (r_tab r) (r_tab r5)).
      { intros x Hx; rewrite <- (Hoth x Hx); unfold nm; rewrite Ho5 by exact Hx; reflexivity. }
      constructor.
      * intros x cc h G _; destruct (Z.eq_dec x id) as [-> | Hne]; [right; left; reflexivity | left; exists h; rewrite O5 by exact Hne; exact G].
      * intros x G; destruct (Z.eq_dec x id) as [-> | Hne]; [rewrite N5 in G; congruence | left; rewrite <- (O5 x Hne); exact G].
      * intros x [E | []]; injection E as <-; right; left; eauto.
      * intros x nn E Hn; injection E as _ <- <-; eauto.
    + injection H as <- <-; split; [|exists [id], []; splits; auto; intros x []].
      assert (N5 : nm (r_tab (with_tab r t3)) id = None) by (cbn [with_tab r_tab]; apply nm_none; exact Hg4).
      constructor.
      * intros x cc h G _; destruct (Z.eq_dec x id) as [-> | Hne]; [right; left; reflexivity | left; exists h; cbn [with_tab r_tab]; rewrite (Hoth x Hne); exact G].
      * intros x G; destruct (Z.eq_dec x id) as [-> | Hne]; [rewrite N5 in G; discriminate G | left; rewrite <- (Hoth x Hne); exact G].
      * intros x [E | []]; injection E as <-; right; left; eauto.
      * intros x nn E Hn; exfalso; injection E as -> <- <-; destruct Hc4 as [(_ & C & _) | [(C & _ & C') | (_ & _ & _ & C & _)]]; congruence.
  - apply negb_false_iff, Z.eqb_eq in E0.
    destruct (rename_spec m c r t id s name Hk2 Hg2 En) as (_ & _ & Ho5 & _ & s5 & G5 & _ & _ & _ & Eh5 & Ec5).
    injection H as <- <-; split; [|apply told_nil].
    set (r5 := with_tab _ _) in *.
    assert (N5 : nm (r_tab r5) id = Some (name, s_hass s)) by (rewrite (nm_get _ _ _ G5), Ec5, Eh5; reflexivity).
    assert (O5 : only id (r_tab r) (r_tab r5)).
    { intros x Hx; unfold nm; rewrite Ho5, Ho2 by exact Hx; reflexivity. }
    constructor.
    * intros x cc h G Hc; left; destruct (Z.eq_dec x id) as [-> | Hne]; [|exists h; rewrite O5 by exact Hne; exact G].
      exfalso; unfold nm in G; destruct (get (r_tab r) id) as [q|] eqn:Gq; [|discriminate G].
      destruct (Hold q eq_refl) as (_ & Eq); injection Eq as ->; cbn in G; congruence.
    * intros x G; destruct (Z.eq_dec x id) as [-> | Hne]; [rewrite N5 in G; congruence | left; rewrite <- (O5 x Hne); exact G].
    * intros x [].
    * intros x nn E Hn; injection E as _ <- <-; eauto.
Qed.

Lemma names_sr m c r ok id ts : rok m r ->
  renames (RSr ok id ts) (r_tab r) (r_tab (process_sr c r ok id ts)) [].
Proof.
  intros Hk; unfold process_sr.
  destruct (collision_spec m c r id Hk) as (Hk1 & Hf1 & _ & Ho1 & _).
  assert (N1 : forall x, nm (r_tab (detect_collision c r id)) x = nm (r_tab r) x) by (intros x; eapply nm_collision; exact Hk).
  set (r1 := detect_collision c r id) in *.
  destruct (find_create ok (r_time r1) (r_tab r1) id) as [t o] eqn:F.
  destruct (find_create_spec m _ _ _ _ _ _ Hk1 F) as (Hk2 & Ho2 & Hg2 & Hc2).
  destruct o as [s|].
  - destruct (touch_spec m t (r_time r1) id s (set_sr ts (r_from r1)) (negb (s_hass s) || negb (s_addr s =? r_from r1)) Hk2 Hg2) as (_ & Ho3 & Hg3 & _ & _);
      [intros x; auto | intros x; auto|].
    set (t3 := update_stream _ _ _) in *; cbn [with_tab r_tab].
    assert (O3 : only id (r_tab r) t3).
    { intros x Hx; rewrite <- N1; unfold nm; rewrite Ho3, Ho2 by exact Hx; reflexivity. }
    assert (N3 : nm t3 id = Some (s_cname s, true)) by (rewrite (nm_get _ _ _ Hg3); reflexivity).
    assert (Hs : forall c0 h, nm (r_tab r) id = Some (c0, h) -> c0 = s_cname s).
    { intros c0 h G; rewrite <- N1 in G; unfold nm in G; destruct (get (r_tab r1) id) as [q|] eqn:Gq; [|discriminate G].
      destruct Hc2 as [(C & _) | [(_ & _ & C) | (C & _)]]; [congruence | | congruence].
      injection C as ->; cbn in G; congruence. }
    constructor.
    + intros x cc h G Hc; left; destruct (Z.eq_dec x id) as [-> | Hne]; [|exists h; rewrite O3 by exact Hne; exact G].
      exists true; rewrite N3, (Hs _ _ G); reflexivity.
    + intros x G; destruct (Z.eq_dec x id) as [-> | Hne]; [|left; rewrite <- (O3 x Hne); exact G].
      right; split; [eauto|]; intros cc h G'; rewrite (Hs _ _ G'); rewrite N3 in G; congruence.
    + intros x [].
    + intros x nn E; discriminate E.
  - cbn [with_tab r_tab]; apply renames_same; [|intros; discriminate].
    intros x; destruct Hc2 as [(C & _ & _ & ->) | [(C & _ & C') | (_ & _ & _ & C & _)]]; [apply N1 | congruence | discriminate C].
Qed.

Lemma names_reception m c r ok id about : rok m r ->
  renames (RReception ok id about) (r_tab r) (r_tab (process_reception c r ok id about)) [].
Proof.
  intros Hk; unfold process_reception.
  destruct (collision_spec m c r id Hk) as (Hk1 & Hf1 & _ & Ho1 & _).
  assert (N1 : forall x, nm (r_tab (detect_collision c r id)) x = nm (r_tab r) x) by (intros x; eapply nm_collision; exact Hk).
  set (r1 := detect_collision c r id) in *.
  destruct (negb (r_send r1) || negb (about =? r_local r1)); [apply renames_same; [exact N1 | intros; discriminate]|].
  destruct (find_create ok (r_time r1) (r_tab r1) id) as [t o] eqn:F.
  destruct (find_create_spec m _ _ _ _ _ _ Hk1 F) as (Hk2 & Ho2 & Hg2 & Hc2).
  destruct o as [s|].
  - destruct (touch_spec m t (r_time r1) id s (set_rr (r_from r1)) (negb (s_hasr s) || negb (s_addr s =? r_from r1)) Hk2 Hg2) as (_ & Ho3 & Hg3 & _ & _);
      [intros x; auto | intros x; auto|].
    set (t3 := update_stream _ _ _) in *; cbn [with_tab r_tab].
    assert (O3 : only id (r_tab r) t3).
    { intros x Hx; rewrite <- N1; unfold nm; rewrite Ho3, Ho2 by exact Hx; reflexivity. }
    assert (N3 : nm t3 id = Some (s_cname s, s_hass s)) by (rewrite (nm_get _ _ _ Hg3); reflexivity).
    destruct Hc2 as [(_ & _ & C & _) | [(_ & _ & C) | (C & _ & _ & C' & _)]]; [discriminate C | |].
    + apply renames_same; [|intros; discriminate]; intros x; destruct (Z.eq_dec x id) as [-> | Hne]; [|apply O3; exact Hne].
      rewrite N3, <- N1, (nm_get (r_tab r1) id s); [reflexivity | symmetry; exact C].
    + injection C' as ->; cbn [s_cname s_hass] in N3.
      assert (Nn : nm (r_tab r) id = None) by (rewrite <- N1; apply nm_none; exact C).
      constructor.
      * intros x cc h G Hc; left; destruct (Z.eq_dec x id) as [-> | Hne]; [congruence | exists h; rewrite O3 by exact Hne; exact G].
      * intros x G; destruct (Z.eq_dec x id) as [-> | Hne]; [congruence | left; rewrite <- (O3 x Hne); exact G].
      * intros x [].
      * intros x nn E; discriminate E.
  - cbn [with_tab r_tab]; apply renames_same; [|intros; discriminate].
    intros x; destruct Hc2 as [(C & _ & _ & ->) | [(C & _ & C') | (_ & _ & _ & C & _)]]; [apply N1 | congruence | discriminate C].
Qed.

(** A known stream is touched *)
Lemma nm_known m c r id (b : bool) (q : strm -> bool) f : rok m r -> same_key f -> same_upd f ->
  (forall s, s_cname (f s) = s_cname s /\ s_hass (f s) = s_hass s) ->
  let r1 := detect_collision c r id in
  let r' := if negb b then r1 else match get (r_tab r1) id with
                                   | Some s => if q s then with_tab r1 (update_stream (r_time r1) (modify (r_tab r1) (s_uid s) f) (s_uid s)) else r1
                                   | None => r1 end in
  forall x, nm (r_tab r') x = nm (r_tab r) x.
Proof.
  intros Hk Hf Hu Hp r1 r' x; assert (N1 : forall y, nm (r_tab r1) y = nm (r_tab r) y) by (intros y; eapply nm_collision; exact Hk).
  destruct (collision_spec m c r id Hk) as (Hk1 & _); fold r1 in Hk1; unfold r'.
  destruct (negb b); [apply N1|]; destruct (get (r_tab r1) id) as [s|] eqn:G; [|apply N1]; destruct (q s); [|apply N1].
  destruct (touch_spec m (r_tab r1) (r_time r1) id s f false Hk1 G Hf Hu) as (_ & Ho3 & Hg3 & _ & _); cbn [need_if] in *.
  cbn [with_tab r_tab]; rewrite <- N1; destruct (Z.eq_dec x id) as [-> | Hne].
  - rewrite (nm_get _ _ _ Hg3), (nm_get _ _ _ G); cbn [set_upd s_cname s_hass]; destruct (Hp s) as (-> & ->); reflexivity.
  - unfold nm; rewrite Ho3 by exact Hne; reflexivity.
Qed.

Lemma nm_streams t t' id : t_streams t' = t_streams t -> nm t' id = nm t id.
Proof. intros E; unfold nm, get; rewrite E; reflexivity. Qed.

Lemma names_begin m c st from now r p r' o : tok m (next_time (r_time r) now) (r_tab r) -> begin_ c st from now r p = Ok r' ->
  (forall id name, o <> RCname true id name) -> renames o (r_tab r) (r_tab r') [].
Proof.
  intros Hk H Hn; pose proof (begin_grown _ _ _ _ _ _ _ _ Hk H) as G.
  assert (K : forall id s, get (r_tab r) id = Some s -> nm (r_tab r') id = Some (s_cname s, s_hass s)).
  { intros id s Gs; specialize (G id); rewrite Gs in G; destruct G as (s' & G' & E); rewrite (nm_get _ _ _ G').
    pose proof (forget_eq _ _ E) as Q; destruct Q as (_ & _ & -> & _ & _ & -> & _); reflexivity. }
  constructor.
  - intros id cc h N _; left; unfold nm in N; destruct (get (r_tab r) id) as [s|] eqn:Gs; [|discriminate N].
    rewrite (K _ _ Gs); cbn in N; injection N as <- <-; eauto.
  - intros id N; left; destruct (get (r_tab r) id) as [s|] eqn:Gs.
    + rewrite (K _ _ Gs) in N; rewrite (nm_get _ _ _ Gs); exact N.
    + exfalso; specialize (G id); rewrite Gs in G; unfold nm in N; destruct (get (r_tab r') id) as [s'|]; [|discriminate N].
      destruct G as (_ & _ & _ & B & _); cbn in N; rewrite B in N; congruence.
  - intros id [].
  - intros id name E; destruct (Hn _ _ E).
Qed.

Lemma names_timeouts m fuel : forall d n t t' ev, tok m n t -> detect_timeouts fuel d n t = Ok (Some (t', ev)) ->
  (forall id, nm t' id = nm t id \/ nm t' id = None /\ In (Halt id) ev) /\ exists hs, ev = map Halt hs.
Proof.
  induction fuel as [|fuel IH]; intros d n t t' ev Hk H; [discriminate H|]; cbn [detect_timeouts] in H.
  destruct (rev (t_lru t)) as [|u l]; [injection H as <- <-; split; [intros id; left; reflexivity | exists []; reflexivity]|].
  destruct (get_uid t u) as [s|] eqn:G; [|discriminate H]; destruct (get_uid_in _ _ _ G) as (Gi & <-).
  destruct (n - d <? s_upd s); [injection H as <- <-; split; [intros id; left; reflexivity | exists []; reflexivity]|].
  destruct (negb (s_hasr s) && negb (s_hass s)).
  - destruct (update_spec _ _ _ _ Hk Gi) as (Hk2 & _ & _); destruct (IH _ _ _ _ _ Hk2 H) as (N & Hh); split; [|exact Hh].
    assert (E : forall id, nm (update_stream n t (s_uid s)) id = nm t id).
    { intros id; unfold nm; rewrite (update_get _ _ _ _ id Hk Gi); destruct (s_id s =? id) eqn:F; [|reflexivity].
      apply Z.eqb_eq in F; subst id; rewrite (in_get _ _ _ _ Hk Gi); reflexivity. }
    intros id; rewrite <- E; apply N.
  - destruct (detect_timeouts fuel d n (remove_stream t (s_uid s))) as [[[t1 e1]|]| |] eqn:D; try discriminate H.
    cbn [bind] in H; injection H as <- <-.
    destruct (IH _ _ _ _ _ (tok_remove _ _ _ _ Hk) D) as (N & hs & ->); split; [|exists (s_id s :: hs); reflexivity].
    intros id; unfold nm at 2; destruct (N id) as [E | (E & Hi)]; [|right; split; [exact E | right; exact Hi]].
    unfold nm at 2 in E; rewrite (get_remove _ _ _ _ id Hk Gi) in E; destruct (s_id s =? id) eqn:F.
    + apply Z.eqb_eq in F; subst id; right; split; [exact E | left; reflexivity].
    + left; exact E.
Qed.

Lemma notify_told m n t sending now : tok m n t -> forall l ev, notify t sending now l = Ok ev ->
  (forall id, ~ In (Halt id) ev) /\ forall id, In (NotifyRecv id) ev -> exists c, nm t id = Some (c, true).
Proof.
  intros Hk; induction l as [|u l IH]; intros ev H; cbn [notify] in H.
  - injection H as <-; split; intros id [].
  - destruct (get_uid t u) as [s|] eqn:G; [|discriminate H]; destruct (get_uid_in _ _ _ G) as (Gi & _).
    destruct (negb (s_upd s =? now)); [injection H as <-; split; intros id []|].
    destruct (notify t sending now l) as [e| |]; try discriminate H; cbn [bind] in H; injection H as <-.
    destruct (IH e eq_refl) as (I1 & I2); destruct (s_loop s); [split; assumption|].
    split; intros id Hi; apply in_app_or in Hi; destruct Hi as [Hi | Hi].
    + destruct (s_hasr s && sending); [destruct Hi as [E | []]; discriminate E | destruct Hi].
    + apply in_app_or in Hi; destruct Hi as [Hi | Hi]; [|exact (I1 id Hi)]; destruct (s_hass s); [destruct Hi as [E | []]; discriminate E | destruct Hi].
    + destruct (s_hasr s && sending); [destruct Hi as [E | []]; discriminate E | destruct Hi].
    + apply in_app_or in Hi; destruct Hi as [Hi | Hi]; [|exact (I2 id Hi)]; destruct (s_hass s) eqn:Eh; [|destruct Hi].
      destruct Hi as [E | []]; injection E as <-; exists (s_cname s); rewrite (nm_get t (s_id s) s); [rewrite Eh; reflexivity | eapply in_get; eauto].
Qed.

Lemma names_end o t t' ev ev' : (forall id, nm t' id = nm t id \/ nm t' id = None /\ In (Halt id) ev) ->
  (forall id, In (Halt id) ev -> In (Halt id) ev') -> (o = REndP \/ exists ids, o = REndG ids) -> renames o t t' ev'.
Proof.
  intros N Hi Ho; constructor.
  - intros id cc h G _; destruct (N id) as [E | (_ & E)]; [left; exists h; rewrite E; exact G | right; apply Hi; exact E].
  - intros id G; left; destruct (N id) as [E | (E & _)]; [rewrite <- E; exact G | congruence].
  - intros id _; right; right; exact Ho.
  - intros id name E; destruct Ho as [-> | (ids & ->)]; discriminate E.
Qed.

Lemma blocks_quiet : forall l ev, all_ok l = Ok ev -> (forall x e, In x l -> x = Ok e -> exists a b, e = Dlrr a b \/ exists c, e = Reception a b c) ->
  forall e, In e ev -> exists a b, e = Dlrr a b \/ exists c, e = Reception a b c.
Proof.
  induction l as [|x l IH]; intros ev H Hx e He; cbn [all_ok] in H.
  - injection H as <-; destruct He.
  - destruct x as [y| |] eqn:Ey; try discriminate H; cbn [bind] in H; destruct (all_ok l) as [z| |] eqn:E; try discriminate H.
    cbn [bind] in H; injection H as <-; destruct He as [<- | He]; [eapply Hx; [left; reflexivity | reflexivity] | eapply IH; eauto; intros; eapply Hx; [right|]; eauto].
Qed.
Lemma gen_quiet r ev : gen_all r = Ok ev -> forall e, In e ev -> exists a b, e = Dlrr a b \/ exists c, e = Reception a b c.
Proof.
  unfold gen_all; intros H; eapply blocks_quiet; [exact H|]; intros x e Hx He; apply in_concat in Hx; destruct Hx as (l & Hl & Hx).
  apply in_map_iff in Hl; destruct Hl as (a & <- & _); unfold gen_addr in Hx; destruct (nth_adr r a) as [y|] eqn:Ea; [|destruct Hx as [<- | []]; discriminate He].
  apply in_app_or in Hx; destruct Hx as [Hx | Hx].
  - destruct (r_send r); [|destruct Hx]; apply in_map_iff in Hx; destruct Hx as (k & <- & _); unfold gen_dlrr in He; rewrite Ea in He.
    destruct (nth_error (a_send y) k); [|discriminate He]; destruct (get_uid (r_tab r) n); [|discriminate He]; injection He as <-; eauto.
  - destruct (r_recv r) as [|i0 il] eqn:Er; [destruct Hx|]; apply in_map_iff in Hx; destruct Hx as (k & <- & _); unfold gen_reception in He; rewrite Ea in He.
    destruct (nth_error (a_recv y) k); [|discriminate He]; destruct (get_uid (r_tab r) n); [|discriminate He]; destruct (s_lrr s); [|discriminate He].
    destruct (nth_error (r_recv r) n0); [|discriminate He]; injection He as <-; eauto.
Qed.

Lemma step_names fuel c r o r' ev : rok False r -> r_step fuel c r o = Ok (Some (r', ev)) ->
  renames o (r_tab r) (r_tab r') ev /\ told (r_tab r') ev.
Proof.
  intros Hk H; destruct o; cbn [r_step] in H.
  1, 10: destruct (begin_ _ _ _ _ _ _) as [q| |] eqn:B; try discriminate H; cbn [bind] in H; unfold lift in H; injection H as <- <-;
    split; [eapply (names_begin False); [|exact B|intros; discriminate]; eapply tok_later; [exact Hk | intros []] | apply told_nil].
  all: destruct (in_st r _) eqn:S0; try discriminate H; unfold lift in H.
  - destruct (process_cname c r ok id name) as [q e] eqn:P; injection H as <- <-; eapply names_cname; eauto.
  - injection H as <- <-; split; [eapply names_sr; eauto | apply told_nil].
  - injection H as <- <-; split; [eapply names_reception; eauto | apply told_nil].
  - injection H as <- <-; split; [|apply told_nil]; apply renames_same; [|intros; discriminate]; unfold process_dlrr.
    pose proof (nm_known False c r id (about =? r_local (detect_collision c r id)) s_hass (fun s => s) Hk) as X; cbn zeta in X; cbn zeta.
    intros x; rewrite <- X by (intros s; auto); destruct (negb _); [reflexivity|]; destruct (get _ id); [|reflexivity]; rewrite modify_same; reflexivity.
  - injection H as <- <-; split; [|apply told_nil]; apply renames_same; [|intros; discriminate]; unfold process_rrtr.
    pose proof (nm_known False c r id true s_hasr (set_rrtr ts) Hk) as X; cbn zeta in X; cbn zeta.
    intros x; rewrite <- X by (intros s; auto); reflexivity.
  - injection H as <- <-; split; [|apply told_nil]; apply renames_same; [|intros; discriminate]; unfold process_metrics.
    pose proof (nm_known False c r id (about =? r_local (detect_collision c r id)) s_hasr (fun s => s) Hk) as X; cbn zeta in X; cbn zeta.
    intros x; rewrite <- X by (intros s; auto); destruct (negb _); [reflexivity|]; destruct (get _ id); [|reflexivity]; rewrite modify_same; reflexivity.
  - pose proof (bye_spec False r id Hk) as (_ & _ & Ho & Hg); destruct (process_goodbye r id) as [q e] eqn:P; injection H as <- <-; cbn [fst] in *.
    assert (e = [Halt id]) by (unfold process_goodbye in P; congruence); subst e; split; [|exists [id], []; splits; auto; intros x []].
    assert (O5 : only id (r_tab r) (r_tab q)) by (apply only_get; exact Ho); assert (N5 : nm (r_tab q) id = None) by (apply nm_none; exact Hg).
    constructor.
    + intros x cc h G _; destruct (Z.eq_dec x id) as [-> | Hne]; [right; left; reflexivity | left; exists h; rewrite (O5 x Hne); exact G].
    + intros x G; destruct (Z.eq_dec x id) as [-> | Hne]; [congruence | left; rewrite <- (O5 x Hne); exact G].
    + intros x [E | []]; injection E as <-; left; reflexivity.
    + intros x nn E; discriminate E.
  - unfold end_processing in H; destruct (detect_timeouts fuel (rc_timeout c) (r_time r) (r_tab r)) as [[[t e]|]| |] eqn:D; try discriminate H; cbn [bind] in H.
    destruct (names_timeouts False _ _ _ _ _ _ Hk D) as (N & hs & ->); pose proof (detect_tok False _ _ _ _ _ _ Hk D) as Hk2.
    destruct (if r_time r =? 0 then Ok [] else notify t (r_send r) (r_time r) (t_lru t)) as [e2| |] eqn:E2; try discriminate H; cbn [bind] in H; injection H as <- <-.
    cbn [with_tab idle r_tab].
    assert (T : (forall id, ~ In (Halt id) e2) /\ forall id, In (NotifyRecv id) e2 -> exists c0, nm t id = Some (c0, true)).
    { destruct (r_time r =? 0); [injection E2 as <-; split; intros id [] | eapply notify_told; eauto]. }
    split; [|exists hs, e2; splits; auto; apply T].
    eapply names_end; [exact N | intros id Hi; apply in_or_app; left; exact Hi | left; reflexivity].
  - destruct (gen_all r) as [l| |] eqn:Eg; try discriminate H; cbn [bind] in H; injection H as <- <-; pose proof (gen_quiet _ _ Eg) as Q; cbn [r_tab]; split.
    + constructor.
      * intros x cc h G _; left; eauto.
      * intros x G; left; exact G.
      * intros x Hi; exfalso; destruct (Q _ Hi) as (a & b & [E | (d & E)]); discriminate E.
      * intros x nn E; discriminate E.
    + exists [], l; splits; auto; intros x Hi; exfalso; destruct (Q _ Hi) as (a & b & [E | (d & E)]); discriminate E.
  - unfold end_generation in H; destruct (resolve_collision (idle r) ids) as [[q|]| |] eqn:Er; try discriminate H; cbn [bind] in H.
    assert (Eq : r_tab q = r_tab r /\ r_time q = r_time r).
    { unfold resolve_collision in Er; destruct (negb (r_coll (idle r))); [injection Er as <-; auto|]; destruct (negb (r_crep (idle r))); [discriminate Er|].
      destruct (pick (r_tab (idle r)) ids); injection Er; intros; subst; auto; discriminate. }
    destruct Eq as (Eq1 & Eq2); rewrite Eq1, Eq2 in H.
    destruct (detect_timeouts fuel (rc_timeout c) (r_time r) (r_tab r)) as [[[t e]|]| |] eqn:D; try discriminate H; cbn [bind] in H; injection H as <- <-.
    destruct (names_timeouts False _ _ _ _ _ _ Hk D) as (N & hs & ->); cbn [with_tab r_tab].
    split; [|apply told_halts]; eapply names_end; [exact N | auto | right; eauto].
Qed.
