(* Proofs about sequences of calls on a sender or receiver. *)
From Coq Require Import ZArith List Bool Arith Lia.
From Verif Require Import Base NodeSlots_model NodeSlots_spec NodeSlots_proof NodeSlots_step.
Import ListNotations.
Local Open Scope Z_scope.
Local Open Scope res_scope.

Lemma add_port_range w c a h b w' :
  env_ok (w_env w) -> c_bind c = Some a -> 0 <= a_port a <= 65535 -> t_add_port w c = (Some (h, b), w') -> 0 <= a_port b <= 65535.
Proof.
  intros EV CB RA T. unfold t_add_port in T. rewrite CB in T. destruct (ask w) as [a' w1] eqn:A.
  destruct a' as [a'|]; [|assert (X : None = Some (h, b)) by congruence; discriminate X].
  assert (RA' : 0 <= a_port a' <= 65535).
  { unfold ask in A. destruct (w_env w) as [|x env]; [assert (X : None = Some a') by congruence; discriminate X|]. apply EV. left. congruence. }
  assert (E : (if a_port a =? 0 then mkAddr (a_fam a) (a_host a) (a_port a') else a) = b) by congruence.
  destruct (a_port a =? 0); subst b; [exact RA'|exact RA].
Qed.
Lemma add_port_new w c h b w' : t_add_port w c = (Some (h, b), w') -> w_net w' = net_add h b (w_net w).
Proof.
  unfold t_add_port, ask. destruct (w_env w) as [|x env]; [intros T; assert (X : None = Some (h, b)) by congruence; discriminate X|].
  destruct x as [a|]; [|intros T; assert (X : None = Some (h, b)) by congruence; discriminate X].
  set (b' := match c_bind c with Some b => _ | None => a end). intros T.
  assert (E1 : h = w_nport w) by (cbn in T; congruence). assert (E2 : b' = b) by (cbn in T; congruence). rewrite E2 in T. subst h.
  assert (E3 : w' = move (net_add (w_nport w) b (w_net w)) (mkWorld (w_net w) (S (w_nport w)) (w_nslot w) env (w_seen w))) by (cbn in T; congruence).
  now subst w'.
Qed.

Section Bind.
Variable Q : net -> Prop.
Variable oP : port -> Prop.
Variable oS : nat * list ep -> Prop.
Variable seen0 : list net.
Hypothesis Qok : forall n loc, covers n loc oP oS -> good Rcv loc -> Q n.
Let LI := LI Rcv Q oP oS seen0.

(* before the port is opened, and if it cannot be *)
Lemma bind_start used sl w loc k0 i u :
  LI (ns_ports sl) (ns_handle sl) w loc -> rest Rcv sl loc -> 0 <= i < 5 ->
  post Rcv Q oP oS seen0 (Attach k0 i u) sl loc (bind_slot used sl w i u) \/
  exists a w1 h b w2, u_ok u = true /\ ns_broken sl = false /\ LI (ns_ports sl) (ns_handle sl) w1 loc /\ 0 <= a_port b <= 65535 /\
    t_add_port w1 (mkCfg (Some a) (c_rest (np_config (getp i sl)))) = (Some (h, b), w2) /\
    bind_slot used sl w i u = tail (setp i (mkNp (mkCfg (Some b) (c_rest (np_config (getp i sl)))) (np_orig (getp i sl)) (Some h) (np_writer (getp i sl))) sl) w2 i u h.
Proof.
  intros L R I. unfold bind_slot. destruct (ns_broken sl) eqn:B.
  { left. apply post_dead; try assumption. constructor. }
  destruct R as [Len [[B1 _]|[_ [s [eps [HD [SL [ND R]]]]]]]]; [congruence|].
  assert (V : view sl loc = Working (map ep_iface eps)) by exact (view_working _ _ _ _ B SL).
  assert (SC : slot_call Rcv (Attach k0 i u) (view sl loc) No Broken) by (rewrite V; constructor).
  assert (BRK : forall sl1 w1 loc1, LI (ns_ports sl1) (ns_handle sl1) w1 loc1 -> length (ns_ports sl1) = 5%nat -> ns_index sl1 = ns_index sl ->
     post Rcv Q oP oS seen0 (Attach k0 i u) sl loc (break_slot rcv_cleanup sl1 w1)).
  { intros sl1 w1 loc1 L1 Len1 IX. exact (post_break Rcv Q oP oS seen0 Qok _ _ _ _ _ loc1 L1 Len1 IX SC). }
  destruct (negb (u_ok u)) eqn:UO; [left; now apply (BRK _ _ loc)|]. apply negb_false_iff in UO.
  match goal with |- context [if ?b then break_slot _ _ _ else _] => destruct b end; [left; now apply (BRK _ _ loc)|].
  unfold t_resolve. destruct (ask w) as [a w1] eqn:A. pose proof (LI_ask _ _ _ _ _ _ _ _ _ _ _ L A) as L1.
  destruct a as [a|]; [|left; now apply (BRK _ _ loc)].
  pose proof (LI_asked _ _ _ _ _ _ _ _ _ _ _ L A) as RA. clear A L w.
  unfold rcv_open. set (c := mkCfg (Some a) _). destruct (t_add_port w1 c) as [[[h b]|] w2] eqn:T.
  - right. exists a, w1, h, b, w2. split; [exact UO|]. split; [reflexivity|]. split; [exact L1|].
    split; [exact (add_port_range w1 c a h b w2 (li_env _ _ _ _ _ _ _ _ _ L1) eq_refl RA T)|]. split; [exact T|]. reflexivity.
  - left. pose proof (LI_add_none _ _ _ _ _ _ _ _ _ _ _ L1 T) as L2.
    assert (K : (Z.to_nat i < length (ns_ports sl))%nat) by lia. set (p' := mkNp c _ _ _).
    apply (BRK _ _ loc); [| |reflexivity].
    + refine (LI_ps _ _ _ _ _ _ _ _ _ _ L2 _). intros j. unfold setp. cbn [ns_ports]. rewrite hnd_upd by exact K.
      destruct (Nat.eqb_spec j (Z.to_nat i)) as [E|E]; [|reflexivity]. subst j. reflexivity.
    + unfold setp. cbn [ns_ports]. now rewrite upd_length.
Qed.

Lemma bind_clean used sl w loc k0 i u :
  LI (ns_ports sl) (ns_handle sl) w loc -> rest Rcv sl loc -> 0 <= i < 5 -> ns_broken sl = true \/ hnd (ns_ports sl) (Z.to_nat i) = None ->
  post Rcv Q oP oS seen0 (Attach k0 i u) sl loc (bind_slot used sl w i u).
Proof.
  intros L R I HN. destruct (bind_start used sl w loc k0 i u L R I) as [P|[a [w1 [h [b [w2 [UO [B [L1 [PB [T E]]]]]]]]]]]; [exact P|].
  destruct HN as [HN|HN]; [congruence|]. rewrite E. clear E L.
  destruct R as [Len [[B1 _]|[_ [s [eps [HD [SL [ND [R1 [R2 R3]]]]]]]]]]; [congruence|].
  assert (K : (Z.to_nat i < length (ns_ports sl))%nat) by lia. set (p' := mkNp _ _ _ _).
  pose proof (LI_add _ _ _ _ _ Qok _ _ _ _ _ _ _ _ _ p' L1 K HN T eq_refl) as L2.
  assert (HH : forall j, hnd (upd (ns_ports sl) (Z.to_nat i) p') j = if (j =? Z.to_nat i)%nat then Some h else hnd (ns_ports sl) j).
  { intros j. now rewrite hnd_upd. }
  apply (tail_ok Q oP oS seen0 Qok sl loc (setp i p' sl) w2 (net_add h b loc) k0 i u h b s eps); try assumption; try reflexivity.
  - unfold setp. cbn [ns_ports]. now rewrite upd_length.
  - unfold setp. cbn [ns_ports]. rewrite HH. now rewrite Nat.eqb_refl.
  - rewrite getp_setp by exact K. reflexivity.
  - now left.
  - intros j h' J NE. unfold setp in J. cbn [ns_ports] in J. rewrite HH in J. destruct (Nat.eqb_spec j (Z.to_nat i)) as [E|E]; [contradiction|].
    destruct (R1 j h' J) as [Y1 [p [Y2 Y3]]]. split; [exact Y1|]. exists p. split; [now right|exact Y3].
  - intros j J. destruct (R2 j J) as [Y1 [h' Y2]]. split; [exact Y1|]. unfold setp. cbn [ns_ports]. rewrite HH.
    destruct (Z.to_nat j =? Z.to_nat i)%nat; [now exists h|now exists h'].
  - intros e h' J NE O1. unfold setp. cbn [ns_ports]. rewrite HH. pose proof (R3 e h' J O1) as Y.
    destruct (Nat.eqb_spec (Z.to_nat (ep_iface e)) (Z.to_nat i)) as [E|E]; [|exact Y]. rewrite E in Y. congruence.
Qed.
End Bind.

(* a second bind of an interface: its port is forgotten *)
Lemma bind_dirty (Q : net -> Prop) oP oS seen0 used sl w loc k0 i u h0 :
  (forall n, Q n) ->
  LI Rcv Q oP oS seen0 (ns_ports sl) (ns_handle sl) w loc -> rest Rcv sl loc -> 0 <= i < 5 ->
  ns_broken sl = false -> hnd (ns_ports sl) (Z.to_nat i) = Some h0 ->
  post Rcv Q oP oS seen0 (Attach k0 i u) sl loc (bind_slot used sl w i u) \/
  post Rcv Q (fun p => oP p \/ In p (n_ports loc) /\ p_id p = h0) oS seen0 (Attach k0 i u) sl loc (bind_slot used sl w i u).
Proof.
  intros HQ L R I B0 H0. destruct (bind_start Q oP oS seen0 (fun n _ _ _ => HQ n) used sl w loc k0 i u L R I)
    as [P|[a [w1 [h [b [w2 [UO [B [L1 [PB [T E]]]]]]]]]]]; [now left|]. right. rewrite E. clear E L w.
  destruct R as [Len [[B1 _]|[_ [s [eps [HD [SL [ND [R1 [R2 R3]]]]]]]]]]; [congruence|].
  assert (K : (Z.to_nat i < length (ns_ports sl))%nat) by lia. set (p' := mkNp _ _ _ _).
  set (oP1 := fun p => oP p \/ In p (n_ports loc) /\ p_id p = h0).
  set (ps1 := upd (ns_ports sl) (Z.to_nat i) np0).
  assert (HH1 : forall j, hnd ps1 j = if (j =? Z.to_nat i)%nat then None else hnd (ns_ports sl) j).
  { intros j. unfold ps1. now rewrite hnd_upd. }
  assert (L2 : LI Rcv Q oP1 oS seen0 ps1 (ns_handle sl) w1 (net_remove h0 loc)).
  { destruct L1 as [W [C1 C2] DP DS PO ND1 UN SL1 GO EN SE].
    assert (UID : forall p q, In p (n_ports loc) -> In q (n_ports loc) -> p_id p = p_id q -> p = q).
    { intros p q Y1 Y2 Y3. clear -ND1 Y1 Y2 Y3. induction (n_ports loc) as [|x l IH]; [destruct Y1|].
      cbn in ND1. apply NoDup_cons_iff in ND1 as [N1 N2]. destruct Y1 as [Y1|Y1]; destruct Y2 as [Y2|Y2].
      - congruence.
      - exfalso. apply N1. subst x. rewrite Y3. now apply in_map.
      - exfalso. apply N1. subst x. rewrite <- Y3. now apply in_map.
      - now apply IH. }
    constructor; try assumption.
    - split; [|exact C2]. intros p. rewrite C1. cbn. rewrite filter_In, negb_true_iff, Nat.eqb_neq. unfold oP1.
      destruct (Nat.eq_dec (p_id p) h0); tauto.
    - intros p q J1 J2. cbn in J1. rewrite filter_In, negb_true_iff, Nat.eqb_neq in J1. destruct J1 as [J1 J3].
      destruct J2 as [J2|[J2 J4]]; [now apply DP|congruence].
    - intros h'. cbn. split.
      + intros J. apply in_map_iff in J as [p [J1 J2]]. rewrite filter_In, negb_true_iff, Nat.eqb_neq in J2. destruct J2 as [J2 J3].
        assert (X : In h' (map p_id (n_ports loc))) by (apply in_map_iff; now exists p). apply PO in X as [j X]. exists j. rewrite HH1.
        destruct (Nat.eqb_spec j (Z.to_nat i)) as [EJ|EJ]; [|exact X]. subst j. congruence.
      + intros [j J]. rewrite HH1 in J. destruct (Nat.eqb_spec j (Z.to_nat i)) as [EJ|EJ]; [discriminate J|].
        assert (X : In h' (map p_id (n_ports loc))) by (apply PO; now exists j). apply in_map_iff in X as [p [J1 J2]].
        apply in_map_iff. exists p. split; [exact J1|]. rewrite filter_In, negb_true_iff, Nat.eqb_neq. split; [exact J2|].
        intros X. apply EJ. apply (UN j (Z.to_nat i) h0); [congruence|exact H0].
    - cbn. now apply NoDup_map_filter.
    - intros x y h'. rewrite !HH1. destruct (x =? Z.to_nat i)%nat; [intros X; discriminate X|]. destruct (y =? Z.to_nat i)%nat; [intros _ X; discriminate X|]. apply UN.
    - intros p s' i' J1 J2. cbn in J1. rewrite filter_In in J1. destruct J1 as [J1 _]. exact (GO p s' i' J1 J2). }
  assert (K1 : (Z.to_nat i < length ps1)%nat) by (unfold ps1; rewrite upd_length by exact K; exact K).
  assert (N1 : hnd ps1 (Z.to_nat i) = None) by (rewrite HH1; now rewrite Nat.eqb_refl).
  pose proof (LI_add Rcv Q oP1 oS seen0 (fun n _ _ _ => HQ n) _ _ _ _ _ _ _ _ _ p' L2 K1 N1 T eq_refl) as L3.
  assert (HH : forall j, hnd (upd (ns_ports sl) (Z.to_nat i) p') j = if (j =? Z.to_nat i)%nat then Some h else hnd (ns_ports sl) j).
  { intros j. now rewrite hnd_upd. }
  assert (L4 : LI Rcv Q oP1 oS seen0 (upd (ns_ports sl) (Z.to_nat i) p') (ns_handle sl) w2 (net_add h b (net_remove h0 loc))).
  { refine (LI_ps _ _ _ _ _ _ _ _ _ _ L3 _). intros j. rewrite HH, hnd_upd by exact K1. cbn [np_handle p'].
    destruct (Nat.eqb_spec j (Z.to_nat i)) as [EJ|EJ]; [reflexivity|]. rewrite HH1. now apply Nat.eqb_neq in EJ as ->. }
  apply (tail_ok Q oP1 oS seen0 (fun n _ _ _ => HQ n) sl loc (setp i p' sl) w2 (net_add h b (net_remove h0 loc)) k0 i u h b s eps); try assumption; try reflexivity.
  - unfold setp. cbn [ns_ports]. now rewrite upd_length.
  - unfold setp. cbn [ns_ports]. rewrite HH. now rewrite Nat.eqb_refl.
  - rewrite getp_setp by exact K. reflexivity.
  - now left.
  - intros j h' J NE. unfold setp in J. cbn [ns_ports] in J. rewrite HH in J. destruct (Nat.eqb_spec j (Z.to_nat i)) as [E|E]; [contradiction|].
    destruct (R1 j h' J) as [Y1 [p [Y2 [Y3 Y4]]]]. split; [exact Y1|]. exists p. split; [|tauto]. right. cbn.
    rewrite filter_In, negb_true_iff, Nat.eqb_neq. split; [exact Y2|]. intros X. apply E.
    apply (li_uni _ _ _ _ _ _ _ _ _ L1 j (Z.to_nat i) h0); [congruence|exact H0].
  - intros j J. destruct (R2 j J) as [Y1 [h' Y2]]. split; [exact Y1|]. unfold setp. cbn [ns_ports]. rewrite HH.
    destruct (Z.to_nat j =? Z.to_nat i)%nat; [now exists h|now exists h'].
  - intros e h' J NE O1. unfold setp. cbn [ns_ports]. rewrite HH. pose proof (R3 e h' J O1) as Y.
    destruct (Nat.eqb_spec (Z.to_nat (ep_iface e)) (Z.to_nat i)) as [E|E]; [|exact Y]. exfalso. apply NE.
    assert (J2 : In (ep_iface e) (map ep_iface eps)) by now apply in_map. destruct (R2 _ J2) as [Y1 _]. lia.
Qed.

(* creating a slot *)
Lemma LI_create d (Q : net -> Prop) oP oS seen0 (Qok : forall n loc, covers n loc oP oS -> good d loc -> Q n) ps w s w' :
  LI d Q oP oS seen0 ps None w (mkNet [] []) -> t_create_slot w = (Some s, w') ->
  LI d Q oP oS seen0 ps (Some s) w' (mkNet [] [(s, [])]).
Proof.
  intros L E. unfold t_create_slot in E. destruct (ask w) as [a w1] eqn:A.
  apply (LI_ask _ _ _ _ _ _ _ _ _ _ _ L) in A. clear L w.
  destruct a as [a|]; [|assert (X : None = Some s) by congruence; discriminate X].
  assert (Eh : s = w_nslot w1) by congruence.
  assert (Ew : w' = move (net_slot (w_nslot w1) (w_net w1)) (mkWorld (w_net w1) (w_nport w1) (S (w_nslot w1)) (w_env w1) (w_seen w1))) by congruence.
  subst w' s. clear E. destruct A as [[W1 [W2 [W3 W4]]] [C1 C2] DP DS PO ND UN SL GO EN SE].
  assert (CV : covers (net_slot (w_nslot w1) (w_net w1)) (mkNet [] [(w_nslot w1, [])]) oP oS).
  { split; [exact C1|]. intros p. cbn. rewrite C2. cbn. tauto. }
  assert (GD : good d (mkNet [] [(w_nslot w1, [])])).
  { destruct d; cbn.
    - intros s eps e h [I1|[]] I2 I3. assert (X : eps = []) by congruence. subst eps. destruct I2.
    - intros p s i []. }
  constructor; cbn [w_net w_nport w_nslot w_seen move].
  - repeat split.
    + exact W1. + exact W2.
    + cbn. constructor; [|exact W3]. intros I. apply in_map_iff in I as [p [E I]]. specialize (W4 p I). lia.
    + intros p [I|I]; [subst p; cbn; lia|]. specialize (W4 p I). lia.
  - exact CV.
  - exact DP.
  - intros x y [I|[]] O1. subst x. cbn. specialize (W4 y (proj2 (C2 y) (or_intror O1))). lia.
  - exact PO. - exact ND. - exact UN.
  - reflexivity.
  - exact GD.
  - exact EN.
  - apply (seen_move d Q oP oS seen0 Qok (mkWorld (w_net w1) (w_nport w1) (S (w_nslot w1)) (w_env w1) (w_seen w1)) _ _ SE CV GD).
Qed.
Lemma create_none d Q oP oS seen0 ps hd w loc w' :
  LI d Q oP oS seen0 ps hd w loc -> t_create_slot w = (None, w') -> LI d Q oP oS seen0 ps hd w' loc.
Proof.
  intros L E. unfold t_create_slot in E. destruct (ask w) as [a w1] eqn:A.
  destruct a as [a|]; [assert (X : Some (w_nslot w1) = None) by congruence; discriminate X|].
  assert (w' = w1) by congruence. subst w'. exact (LI_ask _ _ _ _ _ _ _ _ _ _ _ L A).
Qed.

(* --- the whole node --- *)
Record Loc (d : side) (ps : list nport) (hd : option nat) (loc : net) : Prop := mkLoc {
  lo_ports : forall h, In h (map p_id (n_ports loc)) <-> exists j, hnd ps j = Some h;
  lo_nd : NoDup (map p_id (n_ports loc));
  lo_uni : forall i j h, hnd ps i = Some h -> hnd ps j = Some h -> i = j;
  lo_slots : map fst (n_slots loc) = match hd with Some s => [s] | None => [] end;
  lo_good : good d loc
}.
Definition oPk (own : Z -> net) (G : port -> Prop) (k : Z) (p : port) : Prop := (exists j, j <> k /\ In p (n_ports (own j))) \/ G p.
Definition oSk (own : Z -> net) (k : Z) (x : nat * list ep) : Prop := exists j, j <> k /\ In x (n_slots (own j)).
Definition Qc (d : side) (clean : Prop) (n : net) : Prop := clean -> good d n.
Definition entry (d : side) (o : option nslot) (k : Z) (loc : net) (st : status) : Prop :=
  match o with
  | None => loc = mkNet [] [] /\ st = Absent
  | Some sl => Loc d (ns_ports sl) (ns_handle sl) loc /\ rest d sl loc /\ st = view sl loc /\ ns_index sl = k
  end.
Record NI (d : side) (clean : Prop) (slots : list nslot) (w : world) (own : Z -> net) (G : port -> Prop) (t : table) : Prop := mkNI {
  ni_wf : wfn (w_net w) (w_nport w) (w_nslot w);
  ni_cp : forall p, In p (n_ports (w_net w)) <-> (exists k, In p (n_ports (own k))) \/ G p;
  ni_cs : forall x, In x (n_slots (w_net w)) <-> exists k, In x (n_slots (own k));
  ni_dp : forall j k p q, j <> k -> In p (n_ports (own j)) -> In q (n_ports (own k)) -> p_id p <> p_id q;
  ni_dg : forall k p q, In p (n_ports (own k)) -> G q -> p_id p <> p_id q;
  ni_ds : forall j k x y, j <> k -> In x (n_slots (own j)) -> In y (n_slots (own k)) -> fst x <> fst y;
  ni_idx : NoDup (map ns_index slots);
  ni_ent : forall k, entry d (find_slot k slots) k (own k) (t k);
  ni_env : env_ok (w_env w);
  ni_seen : Forall (Qc d clean) (w_seen w);
  ni_clean : clean -> forall p, ~ G p
}.

Lemma good_empty d : good d (mkNet [] []).
Proof. destruct d; cbn. - intros s eps e h []. - intros p s i []. Qed.
Lemma entry_good d o k loc st : entry d o k loc st -> good d loc.
Proof. destruct o as [sl|]; cbn; [intros [L _]; apply L|intros [E _]; subst; apply good_empty]. Qed.
Lemma NI_Qok d clean slots w own G t k : NI d clean slots w own G t ->
  forall n loc, covers n loc (oPk own G k) (oSk own k) -> good d loc -> Qc d clean n.
Proof.
  intros N n loc [C1 C2] GL CL. assert (GO : forall j, good d (own j)) by (intros j; exact (entry_good _ _ _ _ _ (ni_ent _ _ _ _ _ _ _ N j))).
  pose proof (ni_clean _ _ _ _ _ _ _ N CL) as NG. destruct d; cbn in *.
  - intros s eps e h I1 I2 I3. apply C2 in I1 as [I1|[j [J1 I1]]].
    + destruct (GL s eps e h I1 I2 I3) as [p [X Y]]. exists p. split; [apply C1; now left|exact Y].
    + destruct (GO j s eps e h I1 I2 I3) as [p [X Y]]. exists p. split; [|exact Y]. apply C1. right. left. exists j. tauto.
  - intros p s i I1 I2. apply C1 in I1 as [I1|[[j [J1 I1]]|I1]].
    + destruct (GL p s i I1 I2) as [eps [e [X Y]]]. exists eps, e. split; [apply C2; now left|exact Y].
    + destruct (GO j p s i I1 I2) as [eps [e [X Y]]]. exists eps, e. split; [|exact Y]. apply C2. right. exists j. tauto.
    + exfalso. exact (NG p I1).
Qed.
Lemma NI_LI d clean slots w own G t k sl : NI d clean slots w own G t -> find_slot k slots = Some sl ->
  LI d (Qc d clean) (oPk own G k) (oSk own k) [] (ns_ports sl) (ns_handle sl) w (own k).
Proof.
  intros N F. pose proof (ni_ent _ _ _ _ _ _ _ N k) as E. rewrite F in E. destruct E as [[L1 L2 L3 L4 L5] _].
  destruct N as [WF CP CS DP DG DS IX EN EV SE CL]. constructor; try assumption.
  - split.
    + intros p. rewrite CP. unfold oPk. split.
      * intros [[j J]|J]; [|tauto]. destruct (Z.eq_dec j k) as [->|NE]; [now left|]. right. left. exists j. tauto.
      * intros [J|[[j [_ J]]|J]]; [left; now exists k|left; now exists j|now right].
    + intros p. rewrite CS. unfold oSk. split.
      * intros [j J]. destruct (Z.eq_dec j k) as [->|NE]; [now left|]. right. exists j. tauto.
      * intros [J|[j [_ J]]]; [now exists k|now exists j].
  - intros p q J [[j [NE K]]|K]; [apply (DP k j); try assumption; congruence|exact (DG k p q J K)].
  - intros x y J [j [NE K]]. apply (DS k j); try assumption. congruence.
  - exists (w_seen w). split; [now rewrite app_nil_r|exact SE].
Qed.
Lemma NI_LI0 d clean slots w own G t k ps : NI d clean slots w own G t -> find_slot k slots = None -> (forall j, hnd ps j = None) ->
  LI d (Qc d clean) (oPk own G k) (oSk own k) [] ps None w (mkNet [] []) /\ own k = mkNet [] [].
Proof.
  intros N F HP. pose proof (ni_ent _ _ _ _ _ _ _ N k) as E. rewrite F in E. destruct E as [E _]. split; [|exact E].
  destruct N as [WF CP CS DP DG DS IX EN EV SE CL]. constructor; try assumption.
  - split.
    + intros p. rewrite CP. unfold oPk. split.
      * intros [[j J]|J]; [|tauto]. destruct (Z.eq_dec j k) as [->|NE]; [rewrite E in J; destruct J|]. right. left. exists j. tauto.
      * intros [J|[[j [_ J]]|J]]; [destruct J|left; now exists j|now right].
    + intros p. rewrite CS. unfold oSk. split.
      * intros [j J]. destruct (Z.eq_dec j k) as [->|NE]; [rewrite E in J; destruct J|]. right. exists j. tauto.
      * intros [J|[j [_ J]]]; [destruct J|now exists j].
  - intros p q [].
  - intros p q [].
  - intros h. split; [intros []|intros [j J]; rewrite HP in J; discriminate J].
  - constructor.
  - intros i j h J. rewrite HP in J. discriminate J.
  - reflexivity.
  - apply good_empty.
  - exists (w_seen w). split; [now rewrite app_nil_r|exact SE].
Qed.

Definition setk {X} (f : Z -> X) (k : Z) (x : X) : Z -> X := fun j => if j =? k then x else f j.
Lemma setk_same {X} (f : Z -> X) k x : setk f k x k = x.
Proof. unfold setk. now rewrite Z.eqb_refl. Qed.
Lemma setk_other {X} (f : Z -> X) k x j : j <> k -> setk f k x j = f j.
Proof. intros H. unfold setk. apply Z.eqb_neq in H. now rewrite H. Qed.

(* the slot k changes; some of its ports may have been forgotten *)
Lemma NI_update d clean slots w own G t k slots' ps' hd' w' loc' st' (X : port -> Prop) :
  NI d clean slots w own G t ->
  LI d (Qc d clean) (fun p => oPk own G k p \/ X p) (oSk own k) [] ps' hd' w' loc' ->
  (forall p, X p -> In p (n_ports (own k))) -> (clean -> forall p, ~ X p) ->
  NoDup (map ns_index slots') -> (forall j, j <> k -> find_slot j slots' = find_slot j slots) ->
  entry d (find_slot k slots') k loc' st' ->
  NI d clean slots' w' (setk own k loc') (fun p => G p \/ X p) (setk t k st').
Proof.
  intros N L XO XC IX' F E'. destruct L as [WF' [C1 C2] DP' DS' PO ND UN SL GO EV' SE']. destruct N as [WF CP CS DP DG DS IX EN EV SE CL].
  constructor; try assumption.
  - intros p. rewrite C1. unfold oPk. split.
    + intros [J|[[[j [NE J]]|J]|J]]; try tauto; [left; exists k; now rewrite setk_same|left; exists j; now rewrite setk_other].
    + intros [[j J]|J]; [|tauto]. destruct (Z.eq_dec j k) as [->|NE]; [rewrite setk_same in J; now left|]. rewrite setk_other in J by exact NE.
      right. left. left. exists j. tauto.
  - intros x. rewrite C2. unfold oSk. split.
    + intros [J|[j [NE J]]]; [exists k; now rewrite setk_same|exists j; now rewrite setk_other].
    + intros [j J]. destruct (Z.eq_dec j k) as [->|NE]; [rewrite setk_same in J; now left|]. rewrite setk_other in J by exact NE.
      right. exists j. tauto.
  - intros i j p q NE J1 J2. destruct (Z.eq_dec i k) as [->|NI1]; destruct (Z.eq_dec j k) as [->|NJ1]; [contradiction| | |].
    + rewrite setk_same in J1. rewrite setk_other in J2 by exact NJ1. apply DP'; [exact J1|]. left. left. exists j. tauto.
    + rewrite setk_same in J2. rewrite setk_other in J1 by exact NI1. apply not_eq_sym. apply DP'; [exact J2|]. left. left. exists i. tauto.
    + rewrite setk_other in J1 by exact NI1. rewrite setk_other in J2 by exact NJ1. exact (DP i j p q NE J1 J2).
  - intros j p q J1 J2. destruct (Z.eq_dec j k) as [->|NE].
    + rewrite setk_same in J1. apply DP'; [exact J1|]. unfold oPk. tauto.
    + rewrite setk_other in J1 by exact NE. destruct J2 as [J2|J2]; [exact (DG j p q J1 J2)|]. exact (DP j k p q NE J1 (XO q J2)).
  - intros i j p q NE J1 J2. destruct (Z.eq_dec i k) as [->|NI1]; destruct (Z.eq_dec j k) as [->|NJ1]; [contradiction| | |].
    + rewrite setk_same in J1. rewrite setk_other in J2 by exact NJ1. apply DS'; [exact J1|]. exists j. tauto.
    + rewrite setk_same in J2. rewrite setk_other in J1 by exact NI1. apply not_eq_sym. apply DS'; [exact J2|]. exists i. tauto.
    + rewrite setk_other in J1 by exact NI1. rewrite setk_other in J2 by exact NJ1. exact (DS i j p q NE J1 J2).
  - intros j. destruct (Z.eq_dec j k) as [->|NE]; [now rewrite !setk_same|]. rewrite !setk_other by exact NE. rewrite F by exact NE. apply EN.
  - destruct SE' as [new [E1 E2]]. rewrite app_nil_r in E1. now rewrite E1.
  - intros C p [J|J]; [exact (CL C p J)|exact (XC C p J)].
Qed.
Lemma LI_weak d Q oP oP' oS seen0 ps hd w loc : LI d Q oP oS seen0 ps hd w loc -> (forall p, oP' p <-> oP p) -> LI d Q oP' oS seen0 ps hd w loc.
Proof.
  intros L E. destruct L as [WF [C1 C2] DP DS PO ND UN SL GO EV SE]. constructor; try assumption.
  - split; [|exact C2]. intros p. now rewrite E.
  - intros p q J1 J2. apply DP; [exact J1|]. now apply E.
Qed.
Lemma NI_G d clean slots w own G G' t : NI d clean slots w own G t -> (forall p, G' p <-> G p) -> NI d clean slots w own G' t.
Proof.
  intros N E. destruct N as [WF CP CS DP DG DS IX EN EV SE CL]. constructor; try assumption.
  - intros p. now rewrite E. - intros k p q J1 J2. apply (DG k); [exact J1|]. now apply E.
  - intros C p J. apply (CL C p). now apply E.
Qed.
(* the same without forgotten ports *)
Lemma NI_update0 d clean slots w own G t k slots' ps' hd' w' loc' st' :
  NI d clean slots w own G t ->
  LI d (Qc d clean) (oPk own G k) (oSk own k) [] ps' hd' w' loc' ->
  NoDup (map ns_index slots') -> (forall j, j <> k -> find_slot j slots' = find_slot j slots) ->
  entry d (find_slot k slots') k loc' st' ->
  NI d clean slots' w' (setk own k loc') G (setk t k st').
Proof.
  intros N L IX F E.
  apply (NI_G d clean slots' w' (setk own k loc') (fun p => G p \/ False) G (setk t k st')); [|intros p; tauto].
  apply (NI_update d clean slots w own G t k slots' ps' hd' w' loc' st' (fun _ => False)); try assumption; try tauto.
  apply (LI_weak _ _ _ _ _ _ _ _ _ _ L). intros p. tauto.
Qed.

Lemma find_index k l sl : find_slot k l = Some sl -> ns_index sl = k /\ In sl l.
Proof. intros H. apply find_some in H as [H1 H2]. split; [now apply Z.eqb_eq|exact H1]. Qed.
Lemma find_put_same sl l sl0 : find_slot (ns_index sl) l = Some sl0 -> find_slot (ns_index sl) (put_slot sl l) = Some sl.
Proof.
  unfold find_slot, put_slot. induction l as [|x l IH]; [intros H; discriminate H|]. cbn.
  destruct (ns_index x =? ns_index sl) eqn:E; cbn.
  - intros _. now rewrite Z.eqb_refl.
  - rewrite E. exact IH.
Qed.
Lemma find_put_other sl l k : k <> ns_index sl -> find_slot k (put_slot sl l) = find_slot k l.
Proof.
  intros H. unfold find_slot, put_slot. induction l as [|x l IH]; [reflexivity|]. cbn.
  destruct (Z.eqb_spec (ns_index x) (ns_index sl)) as [E|E]; cbn.
  - replace (ns_index sl =? k) with false by (symmetry; apply Z.eqb_neq; congruence).
    replace (ns_index x =? k) with false by (symmetry; apply Z.eqb_neq; congruence). exact IH.
  - now rewrite IH.
Qed.
Lemma map_put sl l : map ns_index (put_slot sl l) = map ns_index l.
Proof.
  unfold put_slot. rewrite map_map. apply map_ext. intros x. destruct (Z.eqb_spec (ns_index x) (ns_index sl)); congruence.
Qed.
Lemma find_drop_same k l : find_slot k (drop_slot k l) = None.
Proof.
  unfold find_slot, drop_slot. induction l as [|x l IH]; [reflexivity|]. cbn. destruct (ns_index x =? k) eqn:E; cbn; [exact IH|]. rewrite E. exact IH.
Qed.
Lemma find_drop_other k j l : j <> k -> find_slot j (drop_slot k l) = find_slot j l.
Proof.
  intros H. unfold find_slot, drop_slot. induction l as [|x l IH]; [reflexivity|]. cbn. destruct (Z.eqb_spec (ns_index x) k) as [E|E]; cbn.
  - replace (ns_index x =? j) with false by (symmetry; apply Z.eqb_neq; congruence). exact IH.
  - now rewrite IH.
Qed.
Lemma NoDup_drop k l : NoDup (map ns_index l) -> NoDup (map ns_index (drop_slot k l)).
Proof.
  unfold drop_slot. induction l as [|x l IH]; intros H; [constructor|]. cbn in *. apply NoDup_cons_iff in H as [H1 H2].
  destruct (negb (ns_index x =? k)); [|now apply IH]. cbn. constructor; [|now apply IH].
  intros C. apply H1. apply in_map_iff in C as [y [E C]]. apply filter_In in C as [C _]. apply in_map_iff. exists y. tauto.
Qed.
Lemma find_app_last k l sl : ns_index sl = k -> find_slot k l = None -> find_slot k (l ++ [sl]) = Some sl.
Proof.
  intros E. unfold find_slot. induction l as [|x l IH]; cbn; [rewrite E, Z.eqb_refl; reflexivity|]. destruct (ns_index x =? k); [intros H; discriminate H|exact IH].
Qed.
Lemma find_app_other k l sl : ns_index sl <> k -> find_slot k (l ++ [sl]) = find_slot k l.
Proof.
  intros E. unfold find_slot. induction l as [|x l IH]; cbn; [apply Z.eqb_neq in E; now rewrite E|]. now rewrite IH.
Qed.
Lemma find_none_notin k l : find_slot k l = None -> ~ In k (map ns_index l).
Proof.
  unfold find_slot. intros H C. apply in_map_iff in C as [x [E C]]. pose proof (find_none _ _ H x C) as X. cbn in X. apply Z.eqb_neq in X. contradiction.
Qed.
Lemma NoDup_snoc {X} (l : list X) x : NoDup l -> ~ In x l -> NoDup (l ++ [x]).
Proof.
  induction l as [|y l IH]; intros H N; cbn; [constructor; [intros []|constructor]|]. apply NoDup_cons_iff in H as [H1 H2]. constructor.
  - intros C. apply in_app_or in C as [C|[C|[]]]; [now apply H1|]. apply N. left. congruence.
  - apply IH; [exact H2|]. intros C. apply N. now right.
Qed.
Lemma find_in l sl : NoDup (map ns_index l) -> In sl l -> find_slot (ns_index sl) l = Some sl.
Proof.
  unfold find_slot. induction l as [|x l IH]; intros ND H; [destruct H|]. cbn in *. apply NoDup_cons_iff in ND as [N1 N2].
  destruct H as [H|H]; [subst x; now rewrite Z.eqb_refl|]. destruct (Z.eqb_spec (ns_index x) (ns_index sl)) as [E|E]; [|now apply IH].
  exfalso. apply N1. rewrite E. now apply in_map.
Qed.
Lemma LI_Loc d Q oP oS seen0 ps hd w loc : LI d Q oP oS seen0 ps hd w loc -> Loc d ps hd loc.
Proof. intros []. constructor; assumption. Qed.

(* finding or creating a slot *)
Lemma get_slot_ok d clean n own G t k :
  NI d clean (nd_slots n) (nd_w n) own G t ->
  (exists w', get_slot n k true = (None, mkNode (nd_slots n) (nd_used n) w') /\ NI d clean (nd_slots n) w' own G t /\ t k = Absent) \/
  exists sl n' own' t', get_slot n k true = (Some sl, n') /\ NI d clean (nd_slots n') (nd_w n') own' G t' /\
    find_slot k (nd_slots n') = Some sl /\ nd_used n' = nd_used n /\
    (forall j, j <> k -> t' j = t j) /\ (t' k = t k /\ t k <> Absent \/ t k = Absent /\ t' k = Working []).
Proof.
  intros N. unfold get_slot. destruct (find_slot k (nd_slots n)) as [sl|] eqn:F.
  - right. exists sl, n, own, t. split; [reflexivity|]. split; [exact N|]. split; [exact F|]. split; [reflexivity|]. split; [reflexivity|]. left. split; [reflexivity|].
    pose proof (ni_ent _ _ _ _ _ _ _ N k) as E. rewrite F in E. destruct E as [_ [_ [E _]]]. rewrite E. unfold view. destruct (ns_broken sl); intros X; discriminate X.
  - assert (TK : t k = Absent). { pose proof (ni_ent _ _ _ _ _ _ _ N k) as E. rewrite F in E. apply E. }
    assert (HP : forall j, hnd (repeat np0 5) j = None).
    { intros j. unfold hnd. do 5 (destruct j as [|j]; [reflexivity|]). now destruct j. }
    destruct (NI_LI0 _ _ _ _ _ _ _ k (repeat np0 5) N F HP) as [L OK]. destruct (t_create_slot (nd_w n)) as [[s|] w'] eqn:T.
    + right. pose proof (LI_create _ _ _ _ _ (NI_Qok _ _ _ _ _ _ _ k N) _ _ _ _ L T) as L2.
      exists (new_slot k s), (mkNode (nd_slots n ++ [new_slot k s]) (nd_used n) w'), (setk own k (mkNet [] [(s, [])])), (setk t k (Working [])).
      split; [reflexivity|]. cbn [nd_slots nd_w nd_used]. assert (FN : find_slot k (nd_slots n ++ [new_slot k s]) = Some (new_slot k s)) by (apply find_app_last; [reflexivity|exact F]).
      split; [|split; [exact FN|split; [reflexivity|split; [intros j NE; now rewrite setk_other|right; split; [exact TK|now rewrite setk_same]]]]].
      refine (NI_update0 _ _ _ _ _ _ _ _ _ _ _ _ _ _ N L2 _ _ _).
      * rewrite map_app. cbn. apply NoDup_snoc; [apply N|]. now apply find_none_notin.
      * intros j NE. apply find_app_other. cbn. congruence.
      * rewrite FN. cbn [entry]. split; [exact (LI_Loc _ _ _ _ _ _ _ _ _ L2)|]. split; [|split; reflexivity].
        split; [reflexivity|]. right. split; [reflexivity|]. exists s, []. split; [reflexivity|]. split; [reflexivity|]. split; [constructor|].
        destruct d.
        -- split; [|split; [|split]].
           ++ intros j h J. exfalso. revert J. unfold wrt. cbn. do 5 (destruct j as [|j]; [intros J; discriminate J|]). destruct j; intros J; discriminate J.
           ++ intros j h J. cbn [ns_ports new_slot] in J. rewrite HP in J. discriminate J.
           ++ intros e [].
           ++ intros p s' i [].
        -- split; [|split].
           ++ intros j h J. cbn [ns_ports new_slot] in J. rewrite HP in J. discriminate J.
           ++ intros i [].
           ++ intros e h [].
    + left. exists w'. split; [reflexivity|]. split; [|exact TK].
      pose proof (create_none _ _ _ _ _ _ _ _ _ _ L T) as L2. rewrite <- OK in L2.
      pose proof (NI_update0 _ _ _ _ _ _ _ k (nd_slots n) _ _ _ _ (t k) N L2 (ni_idx _ _ _ _ _ _ _ N) (fun j _ => eq_refl)) as N2.
      assert (EE : entry d (find_slot k (nd_slots n)) k (own k) (t k)) by apply N. specialize (N2 EE).
      assert (EO : forall j, setk own k (own k) j = own j) by (intros j; unfold setk; destruct (Z.eqb_spec j k); [now subst|reflexivity]).
      assert (ET : forall j, setk t k (t k) j = t j) by (intros j; unfold setk; destruct (Z.eqb_spec j k); [now subst|reflexivity]).
      destruct N2 as [WF CP CS DP DG DS IX EN EV SE CL]. constructor; try assumption.
      * intros p. rewrite CP. split; (intros [[j J]|J]; [left; exists j|now right]); [rewrite <- EO|rewrite EO]; exact J.
      * intros x. rewrite CS. split; intros [j J]; exists j; [rewrite <- EO|rewrite EO]; exact J.
      * intros j1 j2 p q. rewrite <- (EO j1), <- (EO j2). apply DP.
      * intros j p q. rewrite <- (EO j). apply DG.
      * intros j1 j2 x y. rewrite <- (EO j1), <- (EO j2). apply DS.
      * intros j. rewrite <- EO, <- ET. apply EN.
Qed.
