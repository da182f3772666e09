(** The index of reports through whole histories. *)
From Coq Require Import Permutation Sorting.Sorted.
From Verif Require Import Base Base_lemmas Reporter_model Reporter_spec Reporter_proof ReporterIndex_proof.
Open Scope res_scope.
Local Open Scope Z_scope.

(** *** What the index depends on *)
Definition sg (c : rcfg) (s : strm) := (s_uid s, s_id s, send_due s, recv_due c s, dest_of c s, s_lrr s).
Definition quiet (c : rcfg) (t t' : tab) : Prop := t_need t' = false -> t_need t = false /\ map (sg c) (t_streams t') = map (sg c) (t_streams t).
Lemma quiet_refl : forall c t, quiet c t t.
Proof. intros c t H; auto. Qed.
Lemma quiet_trans : forall c a b d, quiet c a b -> quiet c b d -> quiet c a d.
Proof. intros c a b d H1 H2 H; destruct (H2 H) as (H3 & H4); destruct (H1 H3) as (H5 & H6); split; congruence. Qed.
Lemma quiet_need : forall c t t', t_need t' = true -> quiet c t t'.
Proof. intros c t t' E H; congruence. Qed.
Lemma sg_inv : forall c a b, sg c a = sg c b -> s_uid a = s_uid b /\ s_id a = s_id b /\ send_due a = send_due b /\ recv_due c a = recv_due c b /\ dest_of c a = dest_of c b /\ s_lrr a = s_lrr b.
Proof. unfold sg; intros c a b H; injection H; intros; splits; assumption. Qed.
Lemma find_sg : forall c id l l', map (sg c) l = map (sg c) l' ->
  match find (fun s => s_id s =? id) l, find (fun s => s_id s =? id) l' with Some a, Some b => sg c a = sg c b | None, None => True | _, _ => False end.
Proof.
  intros c id; induction l as [|a l IH]; intros [|b l'] H; try discriminate H; [exact I|]; cbn [map] in H; injection H as H1 H2 H3 H4 H5 H6 H; cbn [find]; rewrite H2.
  destruct (s_id b =? id); [unfold sg; congruence | apply IH; exact H].
Qed.
Lemma items_sg : forall c sd rv l l', map (sg c) l = map (sg c) l' -> items c sd rv l = items c sd rv l'.
Proof.
  intros c sd rv l l' H; unfold items; f_equal.
  - unfold send_items; destruct sd; [|reflexivity]; f_equal; revert l' H; induction l as [|a l IH]; intros [|b l'] H; try discriminate H; [reflexivity|].
    cbn [map] in H; injection H as H1 H2 H3 H4 H5 H6 H; cbn [filter]; rewrite H3; destruct (send_due b); [|apply IH; exact H]; cbn [map]; rewrite H1, H5, (IH _ H); reflexivity.
  - unfold recv_items; induction rv as [|id rv IH]; [reflexivity|]; cbn [flat_map]; rewrite IH; f_equal; pose proof (find_sg c id _ _ H) as F.
    destruct (find _ l) as [a|], (find _ l') as [b|]; [|destruct F | destruct F | reflexivity]; apply sg_inv in F; destruct F as (F1 & F2 & F3 & F4 & F5 & F6); rewrite F1, F4, F5; reflexivity.
Qed.
Lemma exact_sg : forall c sd rv t t' i, map (sg c) (t_streams t') = map (sg c) (t_streams t) -> exact c sd rv t i -> exact c sd rv t' i.
Proof.
  intros c sd rv t t' i H [X1 X2 X3]; constructor; [exact X1 | |].
  - intros k; rewrite (items_sg c sd rv _ _ H); apply X2.
  - intros j id Hj; destruct (X3 j id Hj) as (s & G & L); pose proof (find_sg c id _ _ H) as F; fold (get t id) in F; fold (get t' id) in F; rewrite G in F.
    destruct (get t' id) as [a|]; [|destruct F]; exists a; split; [reflexivity|]; apply sg_inv in F; destruct F as (F1 & F2 & F3 & F4 & F5 & F6); rewrite F4, F6; exact L.
Qed.

(** *** Streams without surprises *)
Definition sound (c : rcfg) (local : Z) (coll : bool) (s : strm) : Prop :=
  (coll = false -> s_id s = local -> s_cname s = rc_cname c -> s_loop s = true) /\ (s_hass s = true -> s_sts s <> 0).
Definition sounds (c : rcfg) (r : rep) (t : tab) : Prop := Forall (sound c (r_local r) (r_coll r)) (t_streams t).
Lemma coll_same : forall m c r id, rok m r -> sounds c r (r_tab r) -> let r' := detect_collision c r id in
  r_tab r' = r_tab r /\ frame r r' /\ sounds c r' (r_tab r') /\ (sounds c r (r_tab r) -> forall t, sounds c r t -> sounds c r' t).
Proof.
  intros m c r id Hk Hs r'; destruct (collision_spec m c r id Hk) as (_ & F & _ & _ & E); fold r' in E, F.
  assert (Et : r_tab r' = r_tab r).
  { destruct E as [E | (s & G & L & N & D & C & _)]; [exact E|]; exfalso; destruct (get_in _ _ _ G) as (Gi & Gd).
    unfold sounds in Hs; rewrite Forall_forall in Hs; destruct (Hs s Gi) as (Q & _); rewrite Q in L; [discriminate L | exact C | congruence | exact N]. }
  assert (Ec : r_coll r' = r_coll r \/ r_coll r' = true).
  { unfold r', detect_collision; destruct (r_coll r) eqn:Ec; [left; exact Ec|]; destruct (negb _); [left; exact Ec|]; destruct (get _ _) as [s|]; [|right; reflexivity].
    destruct (s_loop s); [left; exact Ec|]; destruct (_ =? _); [left; exact Ec | right; reflexivity]. }
  assert (Hw : forall t, sounds c r t -> sounds c r' t).
  { intros t; unfold sounds; apply Forall_impl; intros s (Q1 & Q2); split; [|exact Q2]; destruct F as (_ & _ & _ & Fl & _); rewrite Fl; intros Hc; apply Q1.
    destruct Ec as [Ec | Ec]; congruence. }
  splits; auto; rewrite Et; apply Hw; exact Hs.
Qed.
Lemma forall_at : forall (P : strm -> Prop) u f l, Forall P l -> (forall s, In s l -> s_uid s = u -> P (f s)) -> Forall P (map (at_uid u f) l).
Proof.
  intros P u f l H Hf; apply Forall_map, Forall_forall; intros s Hs; unfold at_uid; destruct (Nat.eqb (s_uid s) u) eqn:E; [apply Nat.eqb_eq in E; auto | rewrite Forall_forall in H; auto].
Qed.
Lemma map_sg_at : forall c u f l, (forall s, In s l -> s_uid s = u -> sg c (f s) = sg c s) -> map (sg c) (map (at_uid u f) l) = map (sg c) l.
Proof.
  intros c u f l H; rewrite map_map; apply map_ext_in; intros s Hs; unfold at_uid; destruct (Nat.eqb (s_uid s) u) eqn:E; [apply Nat.eqb_eq in E; auto | reflexivity].
Qed.
Lemma update_quiet : forall c now t u, quiet c t (update_stream now t u).
Proof.
  intros c now t u; unfold update_stream; destruct (get_uid t u) as [s|]; [|apply quiet_refl]; destruct (_ =? _); [apply quiet_refl|]; intros H; split; [exact H|].
  cbn [t_streams]; rewrite modify_streams; apply map_sg_at; reflexivity.
Qed.
Lemma update_sounds : forall c r now t u, sounds c r t -> sounds c r (update_stream now t u).
Proof.
  intros c r now t u H; unfold update_stream; destruct (get_uid t u) as [s|]; [|exact H]; destruct (_ =? _); [exact H|]; unfold sounds; cbn [t_streams]; rewrite modify_streams.
  apply forall_at; [exact H|]; intros x Hx _; unfold sounds in H; rewrite Forall_forall in H; exact (H x Hx).
Qed.
Lemma need_if_streams : forall b t, t_streams (need_if b t) = t_streams t.
Proof. intros []; reflexivity. Qed.
Lemma touch_quiet : forall m n c now t s f b, tok m n t -> In s (t_streams t) -> (sg c (f s) = sg c s \/ b = true \/ t_need t = true) ->
  quiet c t (update_stream now (need_if b (modify t (s_uid s) f)) (s_uid s)).
Proof.
  intros m n c now t s f b Hk Hi H; eapply quiet_trans; [|apply update_quiet]; intros Hn; destruct b; [discriminate Hn|]; cbn [need_if] in *; split; [exact Hn|].
  cbn [modify t_need] in Hn; rewrite modify_streams; apply map_sg_at; intros x Hx Hu; destruct H as [H | [C | C]]; [|discriminate C | congruence].
  assert (x = s) by (eapply uid_eq; eauto); subst x; exact H.
Qed.
Lemma touch_sounds : forall m n c r now t s f b, tok m n t -> In s (t_streams t) -> sounds c r t -> sound c (r_local r) (r_coll r) (f s) ->
  sounds c r (update_stream now (need_if b (modify t (s_uid s) f)) (s_uid s)).
Proof.
  intros m n c r now t s f b Hk Hi H Hf; apply update_sounds; unfold sounds; rewrite need_if_streams, modify_streams; apply forall_at; [exact H|]; intros x Hx Hu.
  assert (x = s) by (eapply uid_eq; eauto); subst x; exact Hf.
Qed.
Lemma create_quiet : forall m n c r ok t id t' o, rc_cname c <> 0 -> tok m n t -> sounds c r t -> find_create ok n t id = (t', o) ->
  quiet c t t' /\ sounds c r t' /\ tok m n t' /\ (forall s, o = Some s -> In s (t_streams t') /\ s_id s = id).
Proof.
  intros m n c r ok t id t' o Hc Hk Hs H; destruct (find_create_spec _ _ _ _ _ _ _ Hk H) as (K' & _ & G & E); splits; auto.
  - destruct E as [(_ & _ & _ & ->) | [(_ & -> & _) | (_ & _ & E & _)]]; [apply quiet_refl | apply quiet_refl | apply quiet_need; exact E].
  - destruct E as [(_ & _ & _ & ->) | [(_ & -> & _) | (_ & _ & _ & _ & E)]]; auto; unfold sounds; rewrite E; apply Forall_app; split; [exact Hs|]; constructor; [|constructor].
    split; [intros _ _ C; cbn in C; congruence | intros C; discriminate C].
  - intros s ->; apply get_in; exact G.
Qed.
Definition still (c : rcfg) (r r' : rep) : Prop := quiet c (r_tab r) (r_tab r') /\ sounds c r' (r_tab r').
Lemma still_sr : forall m c r ok id ts, rc_cname c <> 0 -> rok m r -> sounds c r (r_tab r) -> ts <> 0 -> still c r (process_sr c r ok id ts).
Proof.
  intros m c r ok id ts Hc Hk Hs Ht; unfold process_sr; destruct (coll_same m c r id Hk Hs) as (Et & F & Hs' & _); set (r1 := detect_collision c r id) in *.
  assert (K1 : tok m (r_time r1) (r_tab r1)) by (destruct F as (_ & Ft & _); rewrite Ft, Et; exact Hk).
  destruct (find_create ok (r_time r1) (r_tab r1) id) as [t o] eqn:D; destruct (create_quiet m _ c r1 ok _ id _ _ Hc K1 Hs' D) as (Q & S1 & Kt & G).
  destruct o as [s|]; [|split; [rewrite <- Et; exact Q | exact S1]]; destruct (G s eq_refl) as (Gi & Gd).
  assert (Hss : sound c (r_local r1) (r_coll r1) s) by (unfold sounds in S1; rewrite Forall_forall in S1; exact (S1 s Gi)).
  split; cbn [with_tab r_tab].
  - rewrite <- Et; eapply quiet_trans; [exact Q|]; eapply touch_quiet; [exact Kt | exact Gi|].
    destruct (negb (s_hass s)) eqn:Eh; [right; left; reflexivity|]; destruct (s_addr s =? r_from r1) eqn:Ea; [left | right; left; reflexivity].
    apply negb_false_iff in Eh; apply Z.eqb_eq in Ea; pose proof (proj2 Hss Eh) as Hz; apply Z.eqb_neq in Hz; apply Z.eqb_neq in Ht; unfold sg, send_due, recv_due, dest_of, set_sr; cbn [s_uid s_id s_loop s_hasr s_rts s_hass s_sts s_addr s_lrr].
    rewrite Hz, Ht, Eh, Ea; reflexivity.
  - unfold sounds; cbn [with_tab r_local r_coll]; eapply (touch_sounds m _ c r1); [exact Kt | exact Gi | exact S1|]; split; [apply Hss | intros _; exact Ht].
Qed.
Lemma still_reception : forall m c r ok id about, rc_cname c <> 0 -> rok m r -> sounds c r (r_tab r) -> still c r (process_reception c r ok id about).
Proof.
  intros m c r ok id about Hc Hk Hs; unfold process_reception; destruct (coll_same m c r id Hk Hs) as (Et & F & Hs' & _); set (r1 := detect_collision c r id) in *.
  assert (K1 : tok m (r_time r1) (r_tab r1)) by (destruct F as (_ & Ft & _); rewrite Ft, Et; exact Hk).
  destruct (_ || _); [split; [rewrite Et; apply quiet_refl | exact Hs']|].
  destruct (find_create ok (r_time r1) (r_tab r1) id) as [t o] eqn:D; destruct (create_quiet m _ c r1 ok _ id _ _ Hc K1 Hs' D) as (Q & S1 & Kt & G).
  destruct o as [s|]; [|split; [rewrite <- Et; exact Q | exact S1]]; destruct (G s eq_refl) as (Gi & Gd).
  assert (Hss : sound c (r_local r1) (r_coll r1) s) by (unfold sounds in S1; rewrite Forall_forall in S1; exact (S1 s Gi)).
  split; cbn [with_tab r_tab].
  - rewrite <- Et; eapply quiet_trans; [exact Q|]; eapply touch_quiet; [exact Kt | exact Gi|].
    destruct (negb (s_hasr s)) eqn:Eh; [right; left; reflexivity|]; destruct (s_addr s =? r_from r1) eqn:Ea; [left | right; left; reflexivity].
    apply negb_false_iff in Eh; apply Z.eqb_eq in Ea; unfold sg, send_due, recv_due, dest_of, set_rr; cbn [s_uid s_id s_loop s_hasr s_rts s_hass s_sts s_addr s_lrr].
    rewrite Eh, Ea; reflexivity.
  - unfold sounds; cbn [with_tab r_local r_coll]; eapply (touch_sounds m _ c r1); [exact Kt | exact Gi | exact S1 | exact Hss].
Qed.
Lemma still_known : forall m c r id (b : bool) (q : strm -> bool) f, rok m r -> sounds c r (r_tab r) ->
  (forall s, get (r_tab r) id = Some s -> q s = true -> sg c (f s) = sg c s \/ t_need (r_tab r) = true) ->
  (forall s x, sound c (r_local r) x s -> sound c (r_local r) x (f s)) ->
  still c r (let r := detect_collision c r id in
    if b then r else match get (r_tab r) id with Some s => if q s then with_tab r (update_stream (r_time r) (modify (r_tab r) (s_uid s) f) (s_uid s)) else r | None => r end).
Proof.
  intros m c r id b q f Hk Hs Hf Hp; destruct (coll_same m c r id Hk Hs) as (Et & F & Hs' & _); set (r1 := detect_collision c r id) in *; cbv zeta.
  assert (Hr : still c r r1) by (split; [rewrite Et; apply quiet_refl | exact Hs']).
  destruct b; [exact Hr|]; rewrite Et; destruct (get (r_tab r) id) as [s|] eqn:G; [|exact Hr]; destruct (q s) eqn:Q; [|exact Hr]; destruct (get_in _ _ _ G) as (Gi & Gd).
  split; cbn [with_tab r_tab].
  - apply (touch_quiet m (r_time r) c (r_time r1) (r_tab r) s f false); [exact Hk | exact Gi|]; destruct (Hf s eq_refl Q) as [E | E]; auto.
  - unfold sounds; cbn [with_tab r_local r_coll]; rewrite Et in Hs'; eapply (touch_sounds m _ c r1 _ _ s f false); [exact Hk | exact Gi | exact Hs' |].
    destruct F as (_ & _ & _ & Fl & _); rewrite Fl; apply Hp; rewrite <- Fl; unfold sounds in Hs'; rewrite Forall_forall in Hs'; exact (Hs' s Gi).
Qed.
Lemma still_dlrr : forall m c r id about, rok m r -> sounds c r (r_tab r) -> still c r (process_dlrr c r id about).
Proof.
  intros m c r id about Hk Hs; pose proof (still_known m c r id (negb (about =? r_local r)) s_hass (fun s => s) Hk Hs) as H; unfold process_dlrr.
  destruct (coll_same m c r id Hk Hs) as (_ & (_ & _ & _ & Fl & _) & _); cbv zeta in *; rewrite Fl;
  assert (E : forall r t u, with_tab r (update_stream (r_time r) (modify t u (fun s => s)) u) = with_tab r (update_stream (r_time r) t u)) by (intros; rewrite modify_same; reflexivity).
  destruct (negb _); [apply H; auto|]; destruct (get (r_tab (detect_collision c r id)) id) as [s|]; [|apply H; auto]; destruct (s_hass s); [rewrite <- E|]; apply H; auto.
Qed.
Lemma still_metrics : forall m c r id about, rok m r -> sounds c r (r_tab r) -> still c r (process_metrics c r id about).
Proof.
  intros m c r id about Hk Hs; pose proof (still_known m c r id (negb (about =? r_local r)) s_hasr (fun s => s) Hk Hs) as H; unfold process_metrics.
  destruct (coll_same m c r id Hk Hs) as (_ & (_ & _ & _ & Fl & _) & _); cbv zeta in *; rewrite Fl.
  assert (E : forall r t u, with_tab r (update_stream (r_time r) (modify t u (fun s => s)) u) = with_tab r (update_stream (r_time r) t u)) by (intros; rewrite modify_same; reflexivity).
  destruct (negb _); [apply H; auto|]; destruct (get (r_tab (detect_collision c r id)) id) as [s|]; [|apply H; auto]; destruct (s_hasr s); [rewrite <- E|]; apply H; auto.
Qed.
Lemma still_rrtr : forall m c r id ts, rok m r -> sounds c r (r_tab r) -> ts <> 0 -> prompt r (RRrtr id ts) -> still c r (process_rrtr c r id ts).
Proof.
  intros m c r id ts Hk Hs Ht Hp; apply (still_known m c r id false s_hasr (set_rrtr ts) Hk Hs).
  - intros s G Q; destruct (s_rts s =? 0) eqn:E; [right; apply Z.eqb_eq in E; exact (Hp s G Q E)|]; left.
    apply Z.eqb_neq in Ht; unfold sg, send_due, recv_due, dest_of, set_rrtr; cbn [s_uid s_id s_loop s_hasr s_rts s_hass s_sts s_addr s_lrr]; rewrite E, Ht; reflexivity.
  - intros s x H; exact H.
Qed.
Lemma remove_sounds : forall c r t u, sounds c r t -> sounds c r (remove_stream t u).
Proof. intros c r t u H; unfold sounds in *; cbn [remove_stream t_streams]; apply Forall_forall; intros s Hs; apply filter_In in Hs; rewrite Forall_forall in H; apply H; tauto. Qed.
Lemma still_bye : forall c r id, sounds c r (r_tab r) -> still c r (fst (process_goodbye r id)).
Proof.
  intros c r id Hs; unfold process_goodbye; cbn [fst]; destruct (get (r_tab r) id) as [s|]; [|split; [apply quiet_refl | exact Hs]].
  split; [apply quiet_need; reflexivity | apply (remove_sounds c r); exact Hs].
Qed.
Lemma name_coll : forall m c r t id s name, rc_cname c <> 0 -> tok m (r_time r) t -> In s (t_streams t) -> s_id s = id -> sounds c r t -> name <> 0 ->
  let r1 := with_tab r (set_need (modify t (s_uid s) (set_cname name))) in let r2 := detect_collision c r1 id in
  sounds c r2 (r_tab r2) /\ t_need (r_tab r2) = true.
Proof.
  intros m c r t id s name Hc Hk Hi Hd Hs Hn r1 r2.
  assert (Hf : same_key (set_cname name)) by (intros x; auto); assert (Hu : same_upd (set_cname name)) by (intros x; auto).
  assert (K1 : rok m r1) by (apply tok_need, tok_modify; auto).
  assert (G1 : get (r_tab r1) id = Some (set_cname name s)).
  { change (get (modify t (s_uid s) (set_cname name)) id = Some (set_cname name s)); rewrite (modify_get m _ t s _ id Hk Hf Hi), Hd, Z.eqb_refl; reflexivity. }
  assert (S1 : forall x, In x (t_streams (r_tab r1)) -> x = set_cname name s \/ sound c (r_local r) (r_coll r) x).
  { intros x Hx; change (In x (t_streams (modify t (s_uid s) (set_cname name)))) in Hx; rewrite modify_streams in Hx; apply in_map_iff in Hx; destruct Hx as (y & <- & Hy); unfold at_uid.
    destruct (Nat.eqb (s_uid y) (s_uid s)) eqn:E; [left; apply Nat.eqb_eq in E; f_equal; exact (uid_eq _ _ _ _ _ Hk Hy Hi E) | right; unfold sounds in Hs; rewrite Forall_forall in Hs; auto]. }
  assert (Ss : sound c (r_local r) (r_coll r) s) by (unfold sounds in Hs; rewrite Forall_forall in Hs; auto).
  destruct (collision_spec m c r1 id K1) as (_ & F & N & _ & E); fold r2 in E, F, N; split; [|rewrite N; reflexivity].
  assert (HH : sounds c r2 (r_tab r2)); [|exact HH].
  unfold r2, detect_collision; change (r_coll r1) with (r_coll r); change (r_local r1) with (r_local r).
  assert (Hall : forall coll, (coll = r_coll r \/ coll = true) -> sound c (r_local r) coll (set_cname name s) -> Forall (sound c (r_local r) coll) (t_streams (r_tab r1))).
  { intros coll Hcc Hx; apply Forall_forall; intros x Hin; destruct (S1 x Hin) as [-> | (A & B)]; [exact Hx|]; split; [|exact B]; intros Hz; apply A; destruct Hcc; congruence. }
  destruct (r_coll r) eqn:Ec.
  { unfold sounds; change (r_local r1) with (r_local r); change (r_coll r1) with (r_coll r); rewrite Ec; apply Hall; [auto|]; split; [discriminate | apply Ss]. }
  destruct (id =? r_local r) eqn:Ei; cbn [negb].
  2:{ unfold sounds; change (r_local r1) with (r_local r); change (r_coll r1) with (r_coll r); rewrite Ec; apply Hall; [auto|]; split; [|apply Ss].
      intros _ C; cbn [set_cname s_id] in C; apply Z.eqb_neq in Ei; congruence. }
  rewrite G1; cbn [set_cname s_loop s_cname s_uid].
  destruct (s_loop s) eqn:El.
  { unfold sounds; change (r_local r1) with (r_local r); change (r_coll r1) with (r_coll r); rewrite Ec; apply Hall; [auto|]; split; [|apply Ss]; intros; exact El. }
  destruct (name =? rc_cname c) eqn:En.
  - unfold sounds; cbn [with_tab r_local r_coll r_tab]; change (r_local r1) with (r_local r); change (r_coll r1) with (r_coll r); rewrite Ec, modify_streams.
    apply Forall_map, Forall_forall; intros x Hin; unfold at_uid; destruct (S1 x Hin) as [-> | Hx].
    + cbn [set_cname s_uid]; rewrite Nat.eqb_refl; split; [reflexivity | apply Ss].
    + destruct (Nat.eqb _ _); [split; [reflexivity | apply Hx] | exact Hx].
  - unfold sounds; cbn [r_local r_coll r_tab]; apply (Hall true); [auto|]; split; [discriminate | apply Ss].
Qed.
Lemma still_cname : forall m c r ok id name, rc_cname c <> 0 -> rok m r -> sounds c r (r_tab r) -> still c r (fst (process_cname c r ok id name)).
Proof.
  intros m c r ok id name Hc Hk Hs; unfold process_cname; destruct (name =? 0) eqn:Ez; [split; [apply quiet_refl | exact Hs]|]; apply Z.eqb_neq in Ez.
  destruct (find_create ok (r_time r) (r_tab r) id) as [t o] eqn:D; destruct (create_quiet m _ c r ok _ id _ _ Hc Hk Hs D) as (Q & S1 & Kt & G).
  destruct o as [s|]; [|split; [exact Q | exact S1]]; destruct (G s eq_refl) as (Gi & Gd).
  destruct (s_cname s =? name); [split; [exact Q | exact S1]|]; destruct (negb (s_cname s =? 0)).
  - destruct (find_create ok (r_time r) (remove_stream t (s_uid s)) id) as [t2 o2] eqn:D2; cbn [fst snd].
    destruct (create_quiet m _ c r ok _ id _ _ Hc (tok_remove _ _ _ _ Kt) (remove_sounds _ _ _ _ S1) D2) as (Q2 & S2 & Kt2 & G2).
    assert (N2 : t_need t2 = true) by (destruct (t_need t2) eqn:N; [reflexivity|]; destruct (Q2 N) as (C & _); discriminate C).
    destruct o2 as [s2|]; cbn [fst]; [|split; [apply quiet_need; exact N2 | exact S2]]; destruct (G2 s2 eq_refl) as (G2i & G2d).
    destruct (name_coll m c r t2 id s2 name Hc Kt2 G2i G2d S2 Ez) as (R1 & R2); split; cbn [with_tab r_tab r_local r_coll].
    + eapply quiet_trans; [|apply update_quiet]; apply quiet_need; exact R2.
    + apply (update_sounds c (detect_collision c _ id)); exact R1.
  - cbn [fst]; destruct (name_coll m c r t id s name Hc Kt Gi Gd S1 Ez) as (R1 & R2); split; cbn [with_tab r_tab r_local r_coll].
    + eapply quiet_trans; [|apply update_quiet]; apply quiet_need; exact R2.
    + apply (update_sounds c (detect_collision c _ id)); exact R1.
Qed.

(** *** The invariant of a history *)
Record good (c : rcfg) (sending : bool) (last : option (list Z)) (r : rep) : Prop := {
  g_tab : rok True r;
  g_idx : iok (r_time r) (r_idx r);
  g_sound : sounds c r (r_tab r);
  g_exact : t_need (r_tab r) = false -> exact c (r_send r) (r_recv r) (r_tab r) (r_idx r);
  g_gen : r_st r = RGen -> t_need (r_tab r) = false;
  g_part : t_need (r_tab r) = false -> last = Some (r_recv r) /\ r_send r = sending }.
Lemma good_new : forall c sending local, good c sending None (r_new local).
Proof.
  intros c sending local; constructor; cbn; try discriminate; [apply new_ok | exists []; constructor; cbn; constructor | constructor].
Qed.
Lemma good_still : forall c sending last r r', good c sending last r -> rok True r' -> frame r r' -> still c r r' -> r_st r <> RGen -> good c sending last r'.
Proof.
  intros c sending last r r' [G1 G2 G3 G4 G5 G6] K F (Q & S1) Hg; destruct F as (F1 & F2 & F3 & F4 & F5 & F6 & F7); constructor; auto.
  - rewrite F2, F7; exact G2.
  - intros N; destruct (Q N) as (N0 & E); rewrite F5, F6, F7; eapply exact_sg; [exact E | apply G4; exact N0].
  - rewrite F1; intros C; contradiction.
  - intros N; destruct (Q N) as (N0 & _); rewrite F5, F6; apply G6; exact N0.
Qed.
Lemma good_begin : forall c sending last r st from now p r', good c sending last r -> rc_cname c <> 0 -> r_time r <= now -> p_send p = sending -> NoDup (p_recv p) ->
  match last with Some x => length x = length (p_recv p) -> x = p_recv p | None => True end -> begin_ c st from now r p = Ok r' -> good c sending (Some (p_recv p)) r'.
Proof.
  intros c sending last r st from now p r' [G1 G2 G3 G4 G5 G6] Hc Ht Hp Hd Hl H.
  destruct (next_later _ _ Ht) as (T1 & _).
  assert (K1 : tok True (next_time (r_time r) now) (r_tab r)) by (eapply tok_later; [exact G1 | intros _; lia]).
  destruct (begin_spec _ _ _ _ _ _ _ _ K1 H) as (B1 & B2 & B3 & B4 & B5 & B6 & B7 & B8 & B9 & B10 & B11 & B12 & _); pose proof (begin_grown _ _ _ _ _ _ _ _ K1 H) as Gr.
  assert (Ss : sounds c r' (r_tab r')).
  { unfold sounds; apply Forall_forall; intros s Hs; rewrite B5, B10; specialize (Gr (s_id s)); rewrite (in_get _ _ _ _ B1 Hs) in Gr; destruct (get (r_tab r) (s_id s)) as [s0|] eqn:G0.
    - destruct Gr as (s' & E & F); injection E as <-; apply forget_eq in F; destruct (get_in _ _ _ G0) as (Gi & Gd); unfold sounds in G3; rewrite Forall_forall in G3; destruct (G3 s0 Gi) as (A & B).
      destruct F as (F1 & F2 & F3 & F4 & F5 & F6 & F7 & F8 & F9 & F10); split; [rewrite F2, F3, F10; exact A | rewrite F6, F7; exact B].
    - destruct Gr as (_ & Z1 & Z2 & Z3 & _); split; [intros _ _ C; congruence | intros C; congruence]. }
  unfold begin_ in H; rewrite B8 in H; destruct (now <=? 0); [discriminate H|]; fold (begun st from now r) in H; injection H as H; unfold refresh in H.
  set (r1 := query (begun st from now r) p) in H; destruct (t_need (r_tab r1)) eqn:N1.
  - destruct (rebuild_exact True c r1 (r_time r)) as (X1 & X2); [apply tok_need_if; exact K1 | exact G2 | exact T1 | exact Hd|]; rewrite H in X1, X2.
    constructor; auto; intros _; rewrite B7, B6; auto.
  - subst r'; unfold r1, query in N1; cbn [r_tab] in N1; set (b := _ || _) in N1; destruct b eqn:Eb; [discriminate N1|]; cbn [need_if] in N1.
    unfold b in Eb; apply orb_false_iff in Eb; destruct Eb as (Eb & _); apply negb_false_iff, Nat.eqb_eq in Eb; change (r_recv (begun st from now r)) with (r_recv r) in Eb.
    change (r_tab (begun st from now r)) with (r_tab r) in N1; destruct (G6 N1) as (L1 & L2); subst last; specialize (Hl Eb).
    assert (Et : r_tab r1 = r_tab r).
    { unfold r1, query; cbn [r_tab]; fold b; unfold b; destruct b eqn:Eb2; [|unfold b in Eb2; rewrite Eb2; reflexivity].
      exfalso; revert B12; unfold r1, query; cbn [r_tab]; fold b; rewrite Eb2; discriminate. }
    constructor; auto.
    + cbn [r1 query r_time r_idx begun]; eapply iok_later; [exact G2 | lia].
    + intros _; change (r_send r1) with (p_send p); change (r_recv r1) with (p_recv p); rewrite Et, <- Hl, Hp, <- L2; apply G4; exact N1.
Qed.
Lemma good_end : forall fuel c sending last r o r' ev, good c sending last r -> 0 < rc_timeout c -> ends o = true -> r_step fuel c r o = Ok (Some (r', ev)) -> good c sending last r'.
Proof.
  intros fuel c sending last r o r' ev G Hd He H; pose proof G as [G1 G2 G3 G4 G5 G6]; destruct (end_step _ _ _ _ _ _ He H) as (e1 & e2 & D & _ & E1 & E2 & E3 & E4 & E5 & E6).
  pose proof (timeouts_spec fuel (rc_timeout c) (r_time r) (r_tab r) G1 Hd) as T; rewrite D in T; destruct T as (T1 & _ & T3 & T4).
  assert (Q : quiet c (r_tab r) (r_tab r')).
  { intros N; destruct (T4 N) as (N0 & X); split; [exact N0|]; rewrite T1; unfold after_timeouts; rewrite filter_all.
    - rewrite map_map; apply map_ext; intros s; unfold restarted; destruct (silent _ _ s); reflexivity.
    - apply Forall_forall; intros s Hs; apply negb_true_iff; destruct (expired _ _ s) eqn:Ex; [|reflexivity]; exfalso.
      assert (C : In s (filter (expired (rc_timeout c) (r_time r)) (t_streams (r_tab r)))) by (apply filter_In; auto); rewrite X in C; exact C. }
  assert (Hin : forall s', In s' (t_streams (r_tab r')) -> exists s, In s (t_streams (r_tab r)) /\ s_id s' = s_id s /\ s_cname s' = s_cname s /\ s_loop s' = s_loop s /\ s_hass s' = s_hass s /\ s_sts s' = s_sts s).
  { intros s' Hs; rewrite T1 in Hs; unfold after_timeouts in Hs; apply in_map_iff in Hs; destruct Hs as (s & <- & Hs); apply filter_In in Hs; exists s; split; [tauto|].
    unfold restarted; destruct (silent _ _ s); splits; reflexivity. }
  constructor.
  - unfold rok; rewrite E2; exact T3.
  - rewrite E2, E5; exact G2.
  - unfold sounds; apply Forall_forall; intros s' Hs; destruct (Hin s' Hs) as (s & Hi & I1 & I2 & I3 & I4 & I5); unfold sounds in G3; rewrite Forall_forall in G3; destruct (G3 s Hi) as (A & B).
    split; [|rewrite I4, I5; exact B]; intros Hc Hl Hn; rewrite I3; rewrite I1 in Hl; rewrite I2 in Hn; destruct o; try discriminate He.
    + destruct E6 as (L1 & L2 & _); apply A; congruence.
    + destruct E6 as (_ & [(C1 & C2 & C3) | (C1 & C2 & C3)]); [apply A; congruence|]; exfalso; apply (get_none _ _ C2); rewrite <- Hl; apply in_map; exact Hi.
  - intros N; destruct (Q N) as (N0 & X); rewrite E3, E4, E5; eapply exact_sg; [exact X | auto].
  - rewrite E1; discriminate.
  - intros N; destruct (Q N) as (N0 & _); rewrite E3, E4; auto.
Qed.
Lemma good_step : forall fuel c sending last r o r' ev, good c sending last r -> rc_cname c <> 0 -> 0 < rc_timeout c -> times True r o -> dated o -> prompt r o ->
  (forall now p, begins o = Some (now, p) -> p_send p = sending /\ NoDup (p_recv p) /\ match last with Some x => length x = length (p_recv p) -> x = p_recv p | None => True end) ->
  r_step fuel c r o = Ok (Some (r', ev)) -> good c sending (match begins o with Some (_, p) => Some (p_recv p) | None => last end) r'.
Proof.
  intros fuel c sending last r o r' ev G Hc Hd Ht Hda Hpr Hst H; destruct (op_cases o) as [(now & p & Hb) | [He | [(b & ->) | Ho]]].
  - rewrite Hb; destruct (begin_step _ _ _ _ _ _ _ _ Hb H) as (_ & st & from & B); destruct (Hst now p Hb) as (S1 & S2 & S3); eapply good_begin; [exact G | exact Hc | | exact S1 | exact S2 | exact S3 | exact B].
    destruct o; cbn [begins times] in *; try discriminate Hb; injection Hb as -> ->; exact (Ht I).
  - replace (begins o) with (@None (Z * part)) by (destruct o; try discriminate He; reflexivity); eapply good_end; eauto.
  - apply blocks_step in H; destruct H as (_ & _ & ->); destruct G as [G1 G2 G3 G4 G5 G6]; constructor; auto.
  - assert (Hk' : rok True r') by (eapply step_ok; [apply G | exact Ht | exact H]).
    assert (Hgen : r_st r <> RGen /\ frame r r' /\ still c r r' /\ begins o = None).
    { pose proof (g_tab _ _ _ _ G) as Hk; pose proof (g_sound _ _ _ _ G) as Hs.
      assert (F : frame r r' /\ begins o = None).
      { destruct Ho as [(id & ->) | (id & E1 & E2)]; [split; [eapply bye_step; eauto | reflexivity]|]; split; [eapply proc_does; eauto | destruct o; try discriminate E1; reflexivity]. }
      destruct F as (F & Eb); destruct o; try (exfalso; destruct Ho as [(? & Ho) | (? & Ho & _)]; discriminate Ho); cbn [r_step] in H; destruct (in_st r RProc) eqn:S0; try discriminate H; apply in_st_eq in S0;
        (split; [rewrite S0; discriminate|]); splits; auto; unfold lift in H.
      - assert (E : r' = fst (process_cname c r ok id name)) by (destruct (process_cname c r ok id name); cbn [fst]; congruence); rewrite E; eapply still_cname; eauto.
      - assert (E : r' = process_sr c r ok id ts) by congruence; rewrite E; eapply still_sr; eauto.
      - assert (E : r' = process_reception c r ok id about) by congruence; rewrite E; eapply still_reception; eauto.
      - assert (E : r' = process_dlrr c r id about) by congruence; rewrite E; eapply still_dlrr; eauto.
      - assert (E : r' = process_rrtr c r id ts) by congruence; rewrite E; eapply still_rrtr; eauto.
      - assert (E : r' = process_metrics c r id about) by congruence; rewrite E; eapply still_metrics; eauto.
      - assert (E : r' = fst (process_goodbye r id)) by (destruct (process_goodbye r id); cbn [fst]; congruence); rewrite E; eapply still_bye; eauto. }
    destruct Hgen as (Hg & F & Hst' & Eb); rewrite Eb; eapply good_still; eauto.
Qed.
Lemma good_run : forall fuel c sending l last r r' ev, good c sending last r -> rc_cname c <> 0 -> 0 < rc_timeout c -> on_time (r_time r) l -> steady sending last l -> Forall dated l ->
  (forall l1 o l2 r1 e1, l = l1 ++ o :: l2 -> r_run fuel c r l1 = Ok (Some (r1, e1)) -> prompt r1 o) ->
  r_run fuel c r l = Ok (Some (r', ev)) -> exists last', good c sending last' r'.
Proof.
  intros fuel c sending; induction l as [|o l IH]; intros last r r' ev G Hc Hd Ht Hst Hda Hpr H; [cbn in H; injection H as <- <-; eauto|].
  apply run_cons in H; destruct H as (r1 & e1 & e2 & H1 & H2 & ->); inversion Hda as [|? ? D1 D2]; subst.
  pose proof (step_time _ _ _ _ _ _ _ (g_tab _ _ _ _ G) H1) as Et; apply on_time_cons in Ht.
  assert (T1 : times True r o) by (destruct o; cbn [times begins] in *; auto; intros _; tauto).
  eapply IH; [eapply good_step; [exact G | exact Hc | exact Hd | exact T1 | exact D1 | | | exact H1] | exact Hc | exact Hd | | | exact D2 | | exact H2].
  - apply (Hpr [] o l r []); reflexivity.
  - intros now p Hb; destruct o; cbn [begins steady] in *; try discriminate Hb; injection Hb as <- <-; tauto.
  - rewrite Et; destruct (begins o) as [[now p]|]; tauto.
  - destruct o; cbn [begins steady] in *; tauto.
  - intros l1 o' l2 r2 e3 -> R; apply (Hpr (o :: l1) o' l2 r2 (e1 ++ e3)); [reflexivity|]; cbn [r_run]; rewrite H1; cbn [bind]; rewrite R; reflexivity.
Qed.
