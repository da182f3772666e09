(* Proofs about histories of calls on a sender or receiver. *)
From Coq Require Import ZArith List Bool Arith Lia.
From Verif Require Import Base NodeSlots_model NodeSlots_spec NodeSlots_proof NodeSlots_step NodeSlots_node.
Import ListNotations.
Local Open Scope Z_scope.
Local Open Scope res_scope.

Definition reported (o : op) (a : ans) (n : net) : Prop :=
  forall q, a = YesPort q -> exists p s i, (exists k u, o = Attach k i u) /\ In p (n_ports n) /\ p_recv p = Some (s, i) /\ a_port (p_bind p) = q.

Lemma view_not_absent sl loc : view sl loc <> Absent.
Proof. unfold view. destruct (ns_broken sl); intros X; discriminate X. Qed.

(* after the call on a slot that was found or created *)
Lemma finish d clean n1 own G t t1 k o a sl sl' w' loc' (X : port -> Prop) :
  NI d clean (nd_slots n1) (nd_w n1) own G t1 -> find_slot k (nd_slots n1) = Some sl ->
  slot_of o = Some k -> creates o = true ->
  (forall j, j <> k -> t1 j = t j) -> (t1 k = t k /\ t k <> Absent \/ t k = Absent /\ t1 k = Working []) ->
  (forall p, X p -> In p (n_ports (own k))) -> (clean -> forall p, ~ X p) ->
  LI d (Qc d clean) (fun p => oPk own G k p \/ X p) (oSk own k) [] (ns_ports sl') (ns_handle sl') w' loc' ->
  rest d sl' loc' -> ns_index sl' = ns_index sl -> slot_call d o (view sl (own k)) a (view sl' loc') ->
  (forall q, a = YesPort q -> exists p s i, (exists k u, o = Attach k i u) /\ In p (n_ports loc') /\ p_recv p = Some (s, i) /\ a_port (p_bind p) = q) ->
  exists own' G' t', NI d clean (put_slot sl' (nd_slots n1)) w' own' G' t' /\ api d t o a t' /\ reported o a (w_net w').
Proof.
  intros N F SO CR TJ TK XO XC L R IX SC RP.
  pose proof (find_index _ _ _ F) as [FI _].
  assert (ET : t1 k = view sl (own k)). { pose proof (ni_ent _ _ _ _ _ _ _ N k) as E. rewrite F in E. apply E. }
  exists (setk own k loc'), (fun p => G p \/ X p), (setk t1 k (view sl' loc')). split; [|split].
  - refine (NI_update _ _ _ _ _ _ _ _ _ _ _ _ _ _ X N L XO XC _ _ _).
    + rewrite map_put. apply N.
    + intros j NE. apply find_put_other. congruence.
    + assert (E : ns_index sl' = k) by congruence. rewrite <- E in F |- *. rewrite (find_put_same sl' _ sl F). cbn [entry].
      split; [exact (LI_Loc _ _ _ _ _ _ _ _ _ L)|]. split; [exact R|]. split; reflexivity.
  - destruct TK as [[TK1 TK2]|[TK1 TK2]].
    + apply (Api_slot d t o k); [exact SO| |].
      * rewrite setk_same. rewrite <- TK1, ET. exact SC.
      * intros j NE. rewrite setk_other by exact NE. now apply TJ.
    + apply (Api_create d t o k); [exact SO|exact CR|exact TK1| |].
      * rewrite setk_same. rewrite <- TK2, ET. exact SC.
      * intros j NE. rewrite setk_other by exact NE. now apply TJ.
  - intros q E. destruct (RP q E) as [p [s [i [P0 [P1 P2]]]]]. exists p, s, i. split; [exact P0|]. split; [|exact P2].
    apply (proj1 (li_cov _ _ _ _ _ _ _ _ _ L)). now left.
Qed.

Lemma NI_t d clean slots w own G t t' : NI d clean slots w own G t -> (forall k, t' k = t k) -> NI d clean slots w own G t'.
Proof. intros N E. destruct N. constructor; try assumption. intros k. rewrite E. apply ni_ent. Qed.

Lemma step_ok d clean n own G t o :
  NI d clean (nd_slots n) (nd_w n) own G t -> valid_op o ->
  (clean -> d = Rcv -> forall k i u cs, o = Attach k i u -> t k = Working cs -> ~ In i cs) ->
  (forall k, o = Query k -> t k <> Broken) ->
  exists a n' own' G' t', node_step d o n = Ok (a, n') /\ NI d clean (nd_slots n') (nd_w n') own' G' t' /\ api d t o a t' /\
    reported o a (w_net (nd_w n')).
Proof.
  intros N VO ON QB. destruct o as [k i c|k i u|k|k|]; cbn [valid_op] in VO; cbn [node_step].
  - assert (BI : bad_iface i = false). { unfold bad_iface, iface_max. apply orb_false_iff. rewrite Z.ltb_ge, Z.leb_gt. lia. } rewrite BI.
    destruct (get_slot_ok d clean n own G t k N) as [[w' [E [N1 TK]]]|[sl [n1 [own1 [t1 [E [N1 [F [US [TJ TK]]]]]]]]]]; rewrite E.
    + exists No, (mkNode (nd_slots n) (nd_used n) w'), own, G, t. split; [reflexivity|]. split; [exact N1|]. split; [|intros q X; discriminate X].
      apply (Api_none d t _ k); [reflexivity|exact TK|reflexivity].
    + pose proof (NI_LI _ _ _ _ _ _ _ _ _ N1 F) as L.
      assert (R : rest d sl (own1 k)). { pose proof (ni_ent _ _ _ _ _ _ _ N1 k) as EE. rewrite F in EE. apply EE. }
      destruct (configure_ok d _ _ _ _ (NI_Qok _ _ _ _ _ _ _ k N1) sl (nd_w n1) (own1 k) k i c L R VO)
        as [a [sl' [w' [loc' [E2 [L2 [R2 [IX2 [SC RP]]]]]]]]].
      rewrite E2. cbn [Base.bind].
      destruct (finish d clean n1 own1 G t t1 k (Configure k i c) a sl sl' w' loc' (fun _ => False)) as [own' [G' [t' [N3 [A3 R3]]]]]; try assumption; try reflexivity; try tauto.
      { apply (LI_weak _ _ _ _ _ _ _ _ _ _ L2). intros p. tauto. }
      do 5 eexists. split; [reflexivity|]. cbn [nd_slots nd_w]. split; [exact N3|]. split; [exact A3|exact R3].
  - assert (BI : bad_iface i = false). { unfold bad_iface, iface_max. apply orb_false_iff. rewrite Z.ltb_ge, Z.leb_gt. lia. } rewrite BI.
    destruct (get_slot_ok d clean n own G t k N) as [[w' [E [N1 TK]]]|[sl [n1 [own1 [t1 [E [N1 [F [US [TJ TK]]]]]]]]]]; rewrite E.
    + exists No, (mkNode (nd_slots n) (nd_used n) w'), own, G, t. split; [reflexivity|]. split; [exact N1|]. split; [|intros q X; discriminate X].
      apply (Api_none d t _ k); [reflexivity|exact TK|reflexivity].
    + pose proof (NI_LI _ _ _ _ _ _ _ _ _ N1 F) as L.
      pose proof (ni_ent _ _ _ _ _ _ _ N1 k) as EE. rewrite F in EE. destruct EE as [_ [R [ET _]]].
      set (us := nth (Z.to_nat i) (nd_used n1) None).
      assert (PO : exists X : port -> Prop, (forall p, X p -> In p (n_ports (own1 k))) /\ (clean -> forall p, ~ X p) /\
         post d (Qc d clean) (fun p => oPk own1 G k p \/ X p) (oSk own1 k) [] (Attach k i u) sl (own1 k) (attach_of d us sl (nd_w n1) i u)).
      { assert (PW : forall r, post d (Qc d clean) (oPk own1 G k) (oSk own1 k) [] (Attach k i u) sl (own1 k) r ->
           post d (Qc d clean) (fun p => oPk own1 G k p \/ False) (oSk own1 k) [] (Attach k i u) sl (own1 k) r).
        { intros r [a [sl' [w' [loc' [E2 [L2 PP]]]]]]. exists a, sl', w', loc'. split; [exact E2|]. split; [|exact PP].
          apply (LI_weak _ _ _ _ _ _ _ _ _ _ L2). intros p. tauto. }
        pose proof (NI_Qok _ _ _ _ _ _ _ k N1) as QO.
        destruct d; cbn [attach_of].
        - exists (fun _ => False). split; [tauto|]. split; [tauto|]. apply PW. exact (connect_ok _ _ _ _ QO us sl _ _ k i u L R VO).
        - assert (CS : (ns_broken sl = true \/ hnd (ns_ports sl) (Z.to_nat i) = None) \/ ns_broken sl = false /\ exists h0, hnd (ns_ports sl) (Z.to_nat i) = Some h0).
          { destruct (ns_broken sl); [tauto|]. destruct (hnd (ns_ports sl) (Z.to_nat i)) as [h0|]; [right; split; [reflexivity|now exists h0]|tauto]. }
          destruct CS as [CS|[BR [h0 H0]]].
          + exists (fun _ => False). split; [tauto|]. split; [tauto|]. apply PW. exact (bind_clean _ _ _ _ QO us sl _ _ k i u L R VO CS).
          + assert (NC : ~ clean).
            { intros C. destruct R as [Len [[B1 _]|[_ [s [eps [HD [SL [ND R]]]]]]]]; [congruence|].
              assert (II : In i (map ep_iface eps)).
              { destruct R as [R1 _]. destruct (R1 _ _ H0) as [X _]. now rewrite Z2Nat.id in X by lia. }
              rewrite (view_working _ _ _ _ BR SL) in ET. destruct TK as [[TK1 TK2]|[TK1 TK2]].
              - apply (ON C eq_refl k i u (map ep_iface eps) eq_refl); [congruence|exact II].
              - assert (X : Working (map ep_iface eps) = Working []) by congruence.
                assert (X2 : map ep_iface eps = []) by congruence. rewrite X2 in II. destruct II. }
            destruct (bind_dirty _ _ _ _ us sl (nd_w n1) (own1 k) k i u h0 (fun n C => False_ind _ (NC C)) L R VO BR H0) as [P|P].
            * exists (fun _ => False). split; [tauto|]. split; [tauto|]. now apply PW.
            * exists (fun p => In p (n_ports (own1 k)) /\ p_id p = h0). split; [tauto|]. split; [tauto|exact P]. }
      destruct PO as [X [XO [XC [a [sl' [w' [loc' [E2 [L2 [R2 [IX2 [SC RP]]]]]]]]]]]].
      rewrite E2. cbn [Base.bind].
      destruct (finish d clean n1 own1 G t t1 k (Attach k i u) a sl sl' w' loc' X) as [own' [G' [t' [N3 [A3 R3]]]]]; try assumption; try reflexivity.
      do 5 eexists. split; [reflexivity|]. cbn [nd_slots nd_w]. split; [exact N3|]. split; [exact A3|exact R3].
  - unfold get_slot. destruct (find_slot k (nd_slots n)) as [sl|] eqn:F.
    + pose proof (NI_LI _ _ _ _ _ _ _ _ _ N F) as L.
      destruct (cleanup_ok d _ _ _ _ (NI_Qok _ _ _ _ _ _ _ k N) sl _ _ L) as [sl' [w' [E [L2 _]]]]. rewrite E. cbn [Base.bind snd].
      exists Yes, (mkNode (drop_slot k (nd_slots n)) (nd_used n) w'), (setk own k (mkNet [] [])), G, (setk t k Absent).
      split; [reflexivity|]. cbn [nd_slots nd_w]. split; [|split; [|intros q X; discriminate X]].
      * refine (NI_update0 _ _ _ _ _ _ _ _ _ _ _ _ _ _ N L2 _ _ _).
        -- apply NoDup_drop. apply N.
        -- intros j NE. now apply find_drop_other.
        -- rewrite find_drop_same. split; reflexivity.
      * apply (Api_slot d t _ k); [reflexivity| |intros j NE; now rewrite setk_other]. rewrite setk_same. constructor.
        pose proof (ni_ent _ _ _ _ _ _ _ N k) as EE. rewrite F in EE. destruct EE as [_ [_ [EE _]]]. rewrite EE. apply view_not_absent.
    + exists No, n, own, G, t. split; [reflexivity|]. split; [exact N|]. split; [|intros q X; discriminate X].
      apply (Api_none d t _ k); [reflexivity| |reflexivity]. pose proof (ni_ent _ _ _ _ _ _ _ N k) as EE. rewrite F in EE. apply EE.
  - unfold get_slot. destruct (find_slot k (nd_slots n)) as [sl|] eqn:F.
    + pose proof (ni_ent _ _ _ _ _ _ _ N k) as EE. rewrite F in EE. destruct EE as [_ [R [ET _]]].
      destruct R as [Len [[B1 _]|[B1 [s [eps [HD [SL _]]]]]]].
      { exfalso. apply (QB k eq_refl). rewrite ET. unfold view. now rewrite B1. }
      rewrite HD. pose proof (NI_LI _ _ _ _ _ _ _ _ _ N F) as L. rewrite HD in L. rewrite (LI_live _ _ _ _ _ _ _ _ _ L).
      exists Yes, n, own, G, t. split; [reflexivity|]. split; [exact N|]. split; [|intros q X; discriminate X].
      apply (Api_slot d t _ k); [reflexivity| |reflexivity]. rewrite ET, (view_working _ _ _ _ B1 SL). constructor.
    + exists No, n, own, G, t. split; [reflexivity|]. split; [exact N|]. split; [|intros q X; discriminate X].
      apply (Api_none d t _ k); [reflexivity| |reflexivity]. pose proof (ni_ent _ _ _ _ _ _ _ N k) as EE. rewrite F in EE. apply EE.
  - exists (if existsb ns_broken (nd_slots n) then Yes else No), n, own, G, t. split; [reflexivity|]. split; [exact N|].
    split; [|intros q X; destruct (existsb ns_broken (nd_slots n)); discriminate X].
    apply Api_has_broken; [|reflexivity]. destruct (existsb ns_broken (nd_slots n)) eqn:EX.
    + left. split; [reflexivity|]. apply existsb_exists in EX as [sl [I B]]. exists (ns_index sl).
      pose proof (ni_ent _ _ _ _ _ _ _ N (ns_index sl)) as EE. rewrite (find_in _ _ (ni_idx _ _ _ _ _ _ _ N) I) in EE.
      destruct EE as [_ [_ [EE _]]]. rewrite EE. unfold view. now rewrite B.
    + right. split; [reflexivity|]. intros k TK. pose proof (ni_ent _ _ _ _ _ _ _ N k) as EE. destruct (find_slot k (nd_slots n)) as [sl|] eqn:F.
      * destruct EE as [_ [_ [EE _]]]. pose proof (find_index _ _ _ F) as [_ I].
        assert (B : ns_broken sl = true). { rewrite TK in EE. unfold view in EE. destruct (ns_broken sl); [reflexivity|discriminate EE]. }
        assert (X : existsb ns_broken (nd_slots n) = true) by (apply existsb_exists; now exists sl). congruence.
      * destruct EE as [_ EE]. congruence.
Qed.

Lemma NI_new d clean env : env_ok env ->
  NI d clean (nd_slots (node_new env)) (nd_w (node_new env)) (fun _ => mkNet [] []) (fun _ => False) table0.
Proof.
  intros EV. constructor; cbn.
  - repeat split; try constructor; intros x [].
  - intros p. split; [intros []|intros [[k []]|[]]].
  - intros p. split; [intros []|intros [k []]].
  - intros j k p q _ [].
  - intros k p q [].
  - intros j k p q _ [].
  - constructor.
  - intros k. split; reflexivity.
  - exact EV.
  - constructor.
  - intros _ p [].
Qed.

Lemma run_app d a b n : node_run d (a ++ b) n = (r <- node_run d a n ;; q <- node_run d b (snd r) ;; Ok (fst r ++ fst q, snd q)).
Proof.
  revert n. induction a as [|o a IH]; intros n; cbn [node_run app].
  - cbn [Base.bind fst snd]. destruct (node_run d b n) as [[l n']| |]; reflexivity.
  - destruct (node_step d o n) as [[x n1]| |]; cbn [Base.bind fst snd]; [|reflexivity|reflexivity]. rewrite IH.
    destruct (node_run d a n1) as [[l n']| |]; cbn [Base.bind fst snd]; [|reflexivity|reflexivity].
    destruct (node_run d b n') as [[l2 n2]| |]; reflexivity.
Qed.

(* what is needed of the rest of the history so that no interface is bound twice *)
Definition okc (d : side) (seen : list (Z * Z)) (ops : list op) : Prop := match d with Snd => True | Rcv => once seen ops end.
Definition known (d : side) (seen : list (Z * Z)) (t : table) : Prop :=
  match d with Snd => True | Rcv => forall k cs i, t k = Working cs -> In i cs -> In (k, i) seen end.
Definition seen_after (o : op) (seen : list (Z * Z)) : list (Z * Z) :=
  match o with Attach k i _ => (k, i) :: seen | Unlink k => filter (fun x => negb (fst x =? k)) seen | _ => seen end.
Lemma okc_step d seen o ops : okc d seen (o :: ops) -> okc d (seen_after o seen) ops.
Proof. destruct d; [auto|]. cbn. destruct o; cbn; tauto. Qed.
Lemma known_step d seen t o a t' : known d seen t -> api d t o a t' -> known d (seen_after o seen) t'.
Proof.
  destruct d; [auto|]. cbn. intros K A j cs i TJ II.
  assert (MON : forall x, In x seen -> (forall k, o = Unlink k -> fst x <> k) -> In x (seen_after o seen)).
  { intros x J1 J2. destruct o as [k0 i0 c0|k0 i0 u0|k0|k0|]; cbn; try assumption; [now right|]. apply filter_In. split; [exact J1|].
    rewrite negb_true_iff, Z.eqb_neq. now apply J2. }
  destruct A as [o k a t' SO SC TO|o k a t' SO CR TA SC TO|o k t' SO TA TO|a t' AA TO].
  - destruct (Z.eq_dec j k) as [->|NE].
    + rewrite TJ in SC. remember (t k) as st eqn:ES. remember (Working cs) as st' eqn:ES'.
      destruct SC as [k1 i1 c1 cs1 H|k1 i1 c1 cs1 H|k1 i1 u1 cs1 a1 H1 H2 H3 H4|k1 i1 u1 cs1|k1 i1 c1|k1 i1 u1|k1 st H|k1 cs1]; try discriminate ES'.
      * assert (cs1 = cs) by congruence. subst cs1. cbn. exact (K k cs i (eq_sym ES) II).
      * assert (E : i1 :: cs1 = cs) by congruence. subst cs. cbn in SO |- *. assert (k1 = k) by congruence. subst k1. destruct II as [II|II]; [left; congruence|].
        right. exact (K k cs1 i (eq_sym ES) II).
      * assert (cs1 = cs) by congruence. subst cs1. cbn. exact (K k cs i (eq_sym ES) II).
    + rewrite (TO j NE) in TJ. apply MON; [exact (K j cs i TJ II)|]. intros k' E. subst o. cbn in *. congruence.
  - destruct (Z.eq_dec j k) as [->|NE].
    + rewrite TJ in SC. remember (Working []) as st eqn:ES. remember (Working cs) as st' eqn:ES'.
      destruct SC as [k1 i1 c1 cs1 H|k1 i1 c1 cs1 H|k1 i1 u1 cs1 a1 H1 H2 H3 H4|k1 i1 u1 cs1|k1 i1 c1|k1 i1 u1|k1 st H|k1 cs1]; try discriminate ES'.
      * assert (E : cs1 = []) by congruence. assert (E2 : cs1 = cs) by congruence. subst. destruct II.
      * assert (E : i1 :: cs1 = cs) by congruence. assert (E2 : cs1 = []) by congruence. subst cs cs1. cbn in SO |- *. assert (k1 = k) by congruence. subst k1.
        destruct II as [II|[]]. left. congruence.
      * assert (E : cs1 = []) by congruence. assert (E2 : cs1 = cs) by congruence. subst. destruct II.
    + rewrite (TO j NE) in TJ. apply MON; [exact (K j cs i TJ II)|]. intros k' E. subst o. cbn in *. congruence.
  - rewrite (TO j) in TJ. apply MON; [exact (K j cs i TJ II)|]. intros k' E. subst o. cbn in *. congruence.
  - rewrite (TO j) in TJ. apply MON; [exact (K j cs i TJ II)|]. intros k' E. discriminate E.
Qed.

(* every history: answers follow the API; only a query of a broken slot stops it *)
Lemma run_ok d clean : forall ops n own G t seen,
  NI d clean (nd_slots n) (nd_w n) own G t -> Forall valid_op ops -> (clean -> okc d seen ops /\ known d seen t) ->
  (exists l n' own' G' t', node_run d ops n = Ok (l, n') /\ NI d clean (nd_slots n') (nd_w n') own' G' t' /\ api_run d t ops l t') \/
  (exists pre k rst l n' t', ops = pre ++ Query k :: rst /\ node_run d pre n = Ok (l, n') /\ api_run d t pre l t' /\ t' k = Broken /\ node_run d ops n = Panic).
Proof.
  induction ops as [|o ops IH]; intros n own G t seen N VO CL.
  - left. exists [], n, own, G, t. split; [reflexivity|]. split; [exact N|]. constructor.
  - apply Forall_cons_iff in VO as [V1 V2].
    assert (CS : (exists k, o = Query k /\ t k = Broken) \/ (forall k, o = Query k -> t k <> Broken)).
    { destruct o as [k0 i0 c0|k0 i0 u0|k0|k0|]; try (right; intros k E; discriminate E).
      destruct (t k0) eqn:TK; [right|right|left; exists k0; tauto]; intros k E; assert (k = k0) by congruence; subst; rewrite TK; intros X; discriminate X. }
    destruct CS as [[k [E TK]]|CS].
    + right. exists [], k, ops, [], n, t. subst o. split; [reflexivity|]. split; [reflexivity|]. split; [constructor|]. split; [exact TK|].
      cbn [node_run node_step]. unfold get_slot. pose proof (ni_ent _ _ _ _ _ _ _ N k) as EE. rewrite TK in EE.
      destruct (find_slot k (nd_slots n)) as [sl|]; [|destruct EE as [_ EE]; discriminate EE].
      destruct EE as [_ [R [EE _]]]. unfold view in EE. destruct (ns_broken sl) eqn:B; [|discriminate EE].
      destruct R as [_ [[_ [D _]]|[B1 _]]]; [|congruence]. destruct D as [_ [HD _]]. rewrite HD. reflexivity.
    + assert (ON : clean -> d = Rcv -> forall k i u cs, o = Attach k i u -> t k = Working cs -> ~ In i cs).
      { intros C E k i u cs EO TK II. destruct (CL C) as [C1 C2]. rewrite E in C1, C2. subst o. cbn in C1, C2. apply (proj1 C1). exact (C2 k cs i TK II). }
      destruct (step_ok d clean n own G t o N V1 ON CS) as [a [n1 [own1 [G1 [t1 [E1 [N1 [A1 _]]]]]]]].
      assert (CL1 : clean -> okc d (seen_after o seen) ops /\ known d (seen_after o seen) t1).
      { intros C. destruct (CL C) as [C1 C2]. split; [exact (okc_step _ _ _ _ C1)|exact (known_step _ _ _ _ _ _ C2 A1)]. }
      cbn [node_run]. rewrite E1. cbn [Base.bind fst snd].
      destruct (IH n1 own1 G1 t1 _ N1 V2 CL1) as [[l [n' [own' [G' [t' [E2 [N2 A2]]]]]]]|[pre [k [rst [l [n' [t' [E2 [E3 [A2 [TK E4]]]]]]]]]]].
      * left. rewrite E2. cbn [Base.bind fst snd]. do 5 eexists. split; [reflexivity|]. split; [exact N2|]. econstructor; [exact A1|exact A2].
      * right. exists (o :: pre), k, rst, (a :: l), n', t'. split; [cbn; now rewrite <- E2|]. split.
        { cbn [node_run]. rewrite E1. cbn [Base.bind fst snd]. rewrite E3. reflexivity. }
        split; [econstructor; [exact A1|exact A2]|]. split; [exact TK|]. rewrite E4. reflexivity.
Qed.

(* from the invariant to the specification *)
Lemma uid {X} (f : X -> nat) l x y : NoDup (map f l) -> In x l -> In y l -> f x = f y -> x = y.
Proof.
  induction l as [|z l IH]; intros ND Y1 Y2 Y3; [destruct Y1|]. cbn in ND. apply NoDup_cons_iff in ND as [N1 N2]. destruct Y1 as [Y1|Y1]; destruct Y2 as [Y2|Y2].
  - congruence.
  - exfalso. apply N1. subst z. rewrite Y3. now apply in_map.
  - exfalso. apply N1. subst z. rewrite <- Y3. now apply in_map.
  - now apply IH.
Qed.
Lemma rest_holds d sl loc : Loc d (ns_ports sl) (ns_handle sl) loc -> rest d sl loc ->
  match view sl loc with Working cs => slot_holds d cs loc | _ => loc = mkNet [] [] end.
Proof.
  intros [PO ND UN SLO GO] [Len [[B [D E]]|[B [s [eps [HD [SL [NE R]]]]]]]].
  - unfold view. now rewrite B.
  - rewrite (view_working _ _ _ _ B SL). exists s, eps. split; [exact SL|]. split; [reflexivity|]. split; [exact NE|].
    assert (HI : forall p, In p (n_ports loc) -> exists j, hnd (ns_ports sl) j = Some (p_id p)).
    { intros p I. apply PO. now apply in_map. }
    destruct d.
    + destruct R as [R1 [R2 [R3 R4]]]. split; [|split; [|exact R4]].
      * intros p I. destruct (HI p I) as [j J]. destruct (R2 j _ J) as [e [E1 [E2 E3]]]. exists e. tauto.
      * intros e I. destruct (R3 e I) as [j [h [J1 J2]]]. assert (X : In h (map p_id (n_ports loc))) by (apply PO; now exists j).
        apply in_map_iff in X as [p [X1 X2]]. exists p. split; [exact X2|]. congruence.
    + destruct R as [R1 [R2 R3]].
      assert (RP : forall p, In p (n_ports loc) -> exists j, hnd (ns_ports sl) j = Some (p_id p) /\ p_recv p = Some (s, Z.of_nat j) /\ In (Z.of_nat j) (map ep_iface eps)).
      { intros p I. destruct (HI p I) as [j J]. destruct (R1 j _ J) as [Y1 [q [Y2 [Y3 Y4]]]].
        assert (E : q = p) by exact (uid p_id _ _ _ ND Y2 I Y3). subst q. exists j. tauto. }
      split; [|split; [|split]].
      * intros p I. destruct (RP p I) as [j [J1 [J2 J3]]]. exists (Z.of_nat j). tauto.
      * intros i I. destruct (R2 i I) as [Y1 [h Y2]]. destruct (R1 _ _ Y2) as [_ [p [Z1 [Z2 Z3]]]]. exists p. split; [exact Z1|].
        rewrite Z2Nat.id in Z3 by exact Y1. exact Z3.
      * intros p q I1 I2 E. destruct (RP p I1) as [j [J1 [J2 J3]]]. destruct (RP q I2) as [j' [K1 [K2 K3]]].
        assert (EJ : j = j').
        { assert (X : Some (s, Z.of_nat j) = Some (s, Z.of_nat j')) by congruence. assert (X2 : Z.of_nat j = Z.of_nat j') by congruence. lia. }
        subst j'. apply (uid p_id _ _ _ ND I1 I2). congruence.
      * intros e h I E. pose proof (R3 e h I E) as H. destruct (R1 _ _ H) as [_ [p [Z1 [Z2 Z3]]]]. exists p. split; [exact Z1|]. split; [exact Z2|].
        assert (X : In (ep_iface e) (map ep_iface eps)) by now apply in_map. destruct (R2 _ X) as [Y1 _]. now rewrite Z2Nat.id in Z3 by exact Y1.
Qed.
Lemma NI_holds d clean slots w own G t : NI d clean slots w own G t -> clean -> holds d t (w_net w).
Proof.
  intros N C. pose proof (ni_clean _ _ _ _ _ _ _ N C) as NG. split; [apply N|]. split; [apply N|]. exists own.
  split; [|split; [|split; [|split]]].
  - intros p. rewrite (ni_cp _ _ _ _ _ _ _ N). specialize (NG p). tauto.
  - apply N.
  - intros j k p I1 I2. destruct (Z.eq_dec j k) as [E|E]; [exact E|]. exfalso. exact (ni_dp _ _ _ _ _ _ _ N j k p p E I1 I2 eq_refl).
  - intros j k p I1 I2. destruct (Z.eq_dec j k) as [E|E]; [exact E|]. exfalso. exact (ni_ds _ _ _ _ _ _ _ N j k p p E I1 I2 eq_refl).
  - intros k. pose proof (ni_ent _ _ _ _ _ _ _ N k) as EE. destruct (find_slot k slots) as [sl|].
    + destruct EE as [L [R [T _]]]. rewrite T. now apply (rest_holds d sl).
    + destruct EE as [E T]. now rewrite T.
Qed.

Lemma clean_all_ok d clean : forall l w own G t, NI d clean l w own G t ->
  exists w' own' G', clean_all d l w = Ok w' /\ NI d clean [] w' own' G' table0.
Proof.
  induction l as [|sl l IH]; intros w own G t N.
  - exists w, own, G. split; [reflexivity|]. apply (NI_t _ _ _ _ _ _ _ _ N). intros k. pose proof (ni_ent _ _ _ _ _ _ _ N k) as [_ E]. now rewrite E.
  - cbn [clean_all]. assert (F : find_slot (ns_index sl) (sl :: l) = Some sl) by (unfold find_slot; cbn; now rewrite Z.eqb_refl).
    pose proof (NI_LI _ _ _ _ _ _ _ _ _ N F) as L.
    destruct (cleanup_ok d _ _ _ _ (NI_Qok _ _ _ _ _ _ _ _ N) sl _ _ L) as [sl' [w' [E [L2 _]]]]. rewrite E. cbn [Base.bind snd].
    pose proof (ni_idx _ _ _ _ _ _ _ N) as IX. cbn in IX. apply NoDup_cons_iff in IX as [IX1 IX2].
    apply (IH w' (setk own (ns_index sl) (mkNet [] [])) G (setk t (ns_index sl) Absent)).
    refine (NI_update0 _ _ _ _ _ _ _ _ _ _ _ _ _ _ N L2 IX2 _ _).
    + intros j NE. unfold find_slot. cbn. replace (ns_index sl =? j) with false by (symmetry; apply Z.eqb_neq; congruence). reflexivity.
    + assert (X : find_slot (ns_index sl) l = None).
      { destruct (find_slot (ns_index sl) l) as [x|] eqn:FX; [|reflexivity]. exfalso. apply find_index in FX as [X1 X2]. apply IX1. rewrite <- X1. now apply in_map. }
      rewrite X. split; reflexivity.
Qed.
Lemma NI_empty d clean w own G t : NI d clean [] w own G t -> clean -> n_ports (w_net w) = [] /\ n_slots (w_net w) = [].
Proof.
  intros N C. assert (OE : forall k, own k = mkNet [] []) by (intros k; apply (ni_ent _ _ _ _ _ _ _ N k)). split.
  - destruct (n_ports (w_net w)) as [|p l] eqn:E; [reflexivity|]. exfalso. assert (I : In p (n_ports (w_net w))) by (rewrite E; now left).
    apply (ni_cp _ _ _ _ _ _ _ N) in I as [[k I]|I]; [rewrite OE in I; destruct I|exact (ni_clean _ _ _ _ _ _ _ N C p I)].
  - destruct (n_slots (w_net w)) as [|p l] eqn:E; [reflexivity|]. exfalso. assert (I : In p (n_slots (w_net w))) by (rewrite E; now left).
    apply (ni_cs _ _ _ _ _ _ _ N) in I as [k I]. rewrite OE in I. destruct I.
Qed.
