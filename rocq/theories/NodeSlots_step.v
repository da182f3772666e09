(* Proofs about single calls on a slot of a sender or receiver. *)
From Coq Require Import ZArith List Bool Arith Lia.
From Verif Require Import Base NodeSlots_model NodeSlots_spec NodeSlots_proof.
Import ListNotations.
Local Open Scope Z_scope.
Local Open Scope res_scope.

Definition wrt (ps : list nport) (j : nat) : option nat := np_writer (nth j ps np0).
Lemma wrt_upd ps k p j : (k < length ps)%nat -> wrt (upd ps k p) j = if (j =? k)%nat then np_writer p else wrt ps j.
Proof. intros H. unfold wrt. rewrite nth_upd by exact H. now destruct (j =? k)%nat. Qed.

Definition ifs (loc : net) : list Z := match n_slots loc with (_, eps) :: _ => map ep_iface eps | [] => [] end.
Definition view (sl : nslot) (loc : net) : status := if ns_broken sl then Broken else Working (ifs loc).

Definition rest_snd (ps : list nport) (s : nat) (eps : list ep) (loc : net) : Prop :=
  (forall j h, wrt ps j = Some h -> hnd ps j = Some h) /\
  (forall j h, hnd ps j = Some h -> exists e, In e eps /\ ep_iface e = Z.of_nat j /\ ep_out e = Some h) /\
  (forall e, In e eps -> exists j h, hnd ps j = Some h /\ ep_out e = Some h) /\
  (forall p s' i, In p (n_ports loc) -> p_recv p = Some (s', i) -> s' = s /\ In i (map ep_iface eps)).
Definition rest_rcv (ps : list nport) (s : nat) (eps : list ep) (loc : net) : Prop :=
  (forall j h, hnd ps j = Some h -> In (Z.of_nat j) (map ep_iface eps) /\
     exists p, In p (n_ports loc) /\ p_id p = h /\ p_recv p = Some (s, Z.of_nat j)) /\
  (forall i, In i (map ep_iface eps) -> 0 <= i /\ exists h, hnd ps (Z.to_nat i) = Some h) /\
  (forall e h, In e eps -> ep_out e = Some h -> hnd ps (Z.to_nat (ep_iface e)) = Some h).
Definition rest (d : side) (sl : nslot) (loc : net) : Prop :=
  length (ns_ports sl) = 5%nat /\
  (ns_broken sl = true /\ dead sl /\ loc = mkNet [] [] \/
   ns_broken sl = false /\ exists s eps, ns_handle sl = Some s /\ n_slots loc = [(s, eps)] /\ NoDup (map ep_iface eps) /\
     match d with Snd => rest_snd (ns_ports sl) s eps loc | Rcv => rest_rcv (ns_ports sl) s eps loc end).

Lemma rest_broken d sl : dead sl -> rest d sl (mkNet [] []).
Proof. intros D. split; [apply D|]. left. split; [apply D|]. tauto. Qed.
Lemma view_broken sl loc : dead sl -> view sl loc = Broken.
Proof. intros [D _]. unfold view. now rewrite D. Qed.
Lemma view_working sl loc s eps : ns_broken sl = false -> n_slots loc = [(s, eps)] -> view sl loc = Working (map ep_iface eps).
Proof. intros B E. unfold view, ifs. now rewrite B, E. Qed.
Lemma getp_hnd i sl : np_handle (getp i sl) = hnd (ns_ports sl) (Z.to_nat i).
Proof. reflexivity. Qed.
Lemma getp_wrt i sl : np_writer (getp i sl) = wrt (ns_ports sl) (Z.to_nat i).
Proof. reflexivity. Qed.
Lemma getp_setp i p sl : (Z.to_nat i < length (ns_ports sl))%nat -> getp i (setp i p sl) = p.
Proof. intros H. unfold getp, setp. cbn [ns_ports]. rewrite nth_upd by exact H. now rewrite Nat.eqb_refl. Qed.

Section Step.
Variable d : side.
Variable Q : net -> Prop.
Variable oP : port -> Prop.
Variable oS : nat * list ep -> Prop.
Variable seen0 : list net.
Hypothesis Qok : forall n loc, covers n loc oP oS -> good d loc -> Q n.
Let LI := LI d Q oP oS seen0.

Definition post (o : op) (sl : nslot) (loc : net) (r : res (ans * nslot * world)) : Prop :=
  exists a sl' w' loc', r = Ok (a, sl', w') /\ LI (ns_ports sl') (ns_handle sl') w' loc' /\ rest d sl' loc' /\
    ns_index sl' = ns_index sl /\ slot_call d o (view sl loc) a (view sl' loc') /\
    (forall q, a = YesPort q -> exists p s i, (exists k u, o = Attach k i u) /\ In p (n_ports loc') /\ p_recv p = Some (s, i) /\ a_port (p_bind p) = q).

Lemma post_break o sl loc sl1 w loc1 :
  LI (ns_ports sl1) (ns_handle sl1) w loc1 -> length (ns_ports sl1) = 5%nat -> ns_index sl1 = ns_index sl ->
  slot_call d o (view sl loc) No Broken -> post o sl loc (break_slot (cleanup_of d) sl1 w).
Proof.
  intros L Len IX SC. destruct (break_ok d Q oP oS seen0 Qok sl1 w loc1 L Len) as [sl' [w' [E [L2 [I1 D]]]]].
  exists No, sl', w', (mkNet [] []). split; [exact E|]. split; [exact L2|]. split; [now apply rest_broken|].
  split; [congruence|]. rewrite (view_broken _ _ D). split; [exact SC|]. intros q X. discriminate X.
Qed.
Lemma post_dead o sl loc w :
  LI (ns_ports sl) (ns_handle sl) w loc -> rest d sl loc -> ns_broken sl = true ->
  slot_call d o Broken No Broken -> post o sl loc (Ok (No, sl, w)).
Proof.
  intros L R B SC. exists No, sl, w, loc. unfold view. rewrite B.
  repeat (split; [first [assumption|reflexivity]|]). intros q X. discriminate X.
Qed.

Lemma configure_ok sl w loc k i c :
  LI (ns_ports sl) (ns_handle sl) w loc -> rest d sl loc -> 0 <= i < 5 ->
  post (Configure k i c) sl loc (configure_slot (cleanup_of d) sl w i c).
Proof.
  intros L R I. unfold configure_slot. destruct (ns_broken sl) eqn:B.
  { apply post_dead; try assumption. constructor. }
  destruct R as [Len [[B1 _]|[_ [s [eps [HD [SL [ND R]]]]]]]]; [congruence|].
  rewrite getp_hnd. destruct (hnd (ns_ports sl) (Z.to_nat i)) as [h|] eqn:H.
  - apply (post_break _ _ _ _ _ loc); try assumption; [reflexivity|]. rewrite (view_working _ _ _ _ B SL). constructor.
    destruct d.
    + destruct R as [_ [R _]]. destruct (R _ _ H) as [e [E1 [E2 _]]]. apply in_map_iff. exists e. split; [lia|exact E1].
    + destruct R as [R _]. destruct (R _ _ H) as [E1 _]. now rewrite Z2Nat.id in E1 by lia.
  - assert (K : (Z.to_nat i < length (ns_ports sl))%nat) by lia.
    set (p' := mkNp c _ _ _).
    assert (HH : forall j, hnd (ns_ports (setp i p' sl)) j = hnd (ns_ports sl) j).
    { intros j. unfold setp. cbn [ns_ports]. rewrite hnd_upd by exact K. destruct (Nat.eqb_spec j (Z.to_nat i)) as [E|E]; [|reflexivity].
      subst j. unfold p'. cbn [np_handle]. now rewrite H. }
    assert (WW : forall j, wrt (ns_ports (setp i p' sl)) j = wrt (ns_ports sl) j).
    { intros j. unfold setp. cbn [ns_ports]. rewrite wrt_upd by exact K. destruct (Nat.eqb_spec j (Z.to_nat i)) as [E|E]; [|reflexivity].
      subst j. reflexivity. }
    exists Yes, (setp i p' sl), w, loc. split; [reflexivity|]. split; [exact (LI_ps _ _ _ _ _ _ _ _ _ _ L HH)|].
    assert (B' : ns_broken (setp i p' sl) = false) by exact B.
    split.
    + split; [unfold setp; cbn [ns_ports]; now rewrite upd_length|]. right. split; [exact B'|]. exists s, eps. split; [exact HD|]. split; [exact SL|]. split; [exact ND|].
      destruct d.
      * destruct R as [R1 [R2 [R3 R4]]]. split; [intros j h; rewrite WW, HH; apply R1|]. split; [intros j h; rewrite HH; apply R2|]. split; [|exact R4].
        intros e E. destruct (R3 e E) as [j [h [X Y]]]. exists j, h. now rewrite HH.
      * destruct R as [R1 [R2 R3]]. split; [intros j h; rewrite HH; apply R1|]. split; [intros j; rewrite HH; apply R2|]. intros e h; rewrite HH; apply R3.
    + split; [reflexivity|]. rewrite (view_working _ _ _ _ B SL), (view_working _ _ _ _ B' SL). split; [|intros q X; discriminate X].
      constructor. intros D. destruct d; [discriminate D|]. destruct R as [_ [R _]]. intros C. destruct (R _ C) as [_ [h X]]. congruence.
Qed.
End Step.

(* connect *)
Lemma select_range sl i f : 0 <= i < 5 ->
  0 <= select_port sl i f < 5 /\ (select_port sl i f = i \/ exists h, hnd (ns_ports sl) (Z.to_nat (select_port sl i f)) = Some h).
Proof.
  intros I. unfold select_port. destruct (_ && _); [|tauto].
  destruct (find (shareable sl i f) [0; 1; 2; 3; 4]) as [k|] eqn:F; [|tauto].
  apply find_some in F as [F1 F2]. split; [cbn in F1; lia|]. right.
  unfold shareable in F2. rewrite getp_hnd in F2. destruct (hnd (ns_ports sl) (Z.to_nat k)) as [h|]; [now exists h|].
  rewrite andb_false_r in F2. discriminate F2.
Qed.
Lemma setup_same p f p' : setup_port p f = Some p' -> np_handle p' = np_handle p /\ np_writer p' = np_writer p.
Proof.
  unfold setup_port. destruct (c_bind (np_config p)) as [b|]; [destruct (negb (fam_eq (a_fam b) f)); [intros X; discriminate X|]|];
  destruct (np_handle p) eqn:H; intros E; (assert (E' := E); apply (f_equal (fun x => match x with Some y => y | None => np0 end)) in E'; cbn in E'; subst p'); cbn; auto.
Qed.

Section Connect.
Variable Q : net -> Prop.
Variable oP : port -> Prop.
Variable oS : nat * list ep -> Prop.
Variable seen0 : list net.
Hypothesis Qok : forall n loc, covers n loc oP oS -> good Snd loc -> Q n.
Let LI := LI Snd Q oP oS seen0.

Lemma connect_ok used sl w loc k0 i u :
  LI (ns_ports sl) (ns_handle sl) w loc -> rest Snd sl loc -> 0 <= i < 5 ->
  post Snd Q oP oS seen0 (Attach k0 i u) sl loc (connect_slot used sl w i u).
Proof.
  intros L R I. unfold connect_slot. destruct (ns_broken sl) eqn:B.
  { apply post_dead; try assumption. constructor. }
  destruct R as [Len [[B1 _]|[_ [s [eps [HD [SL [ND R]]]]]]]]; [congruence|].
  assert (V : view sl loc = Working (map ep_iface eps)) by exact (view_working _ _ _ _ B SL).
  assert (SC : slot_call Snd (Attach k0 i u) (view sl loc) No Broken) by (rewrite V; constructor).
  assert (BRK : forall sl1 w1 loc1, LI (ns_ports sl1) (ns_handle sl1) w1 loc1 -> length (ns_ports sl1) = 5%nat -> ns_index sl1 = ns_index sl ->
     post Snd Q oP oS seen0 (Attach k0 i u) sl loc (break_slot snd_cleanup sl1 w1)).
  { intros sl1 w1 loc1 L1 Len1 IX. exact (post_break Snd Q oP oS seen0 Qok _ _ _ _ _ loc1 L1 Len1 IX SC). }
  destruct (negb (u_ok u)) eqn:UO; [now apply (BRK _ _ loc)|]. apply negb_false_iff in UO.
  match goal with |- context [if ?b then break_slot _ _ _ else _] => destruct b end; [now apply (BRK _ _ loc)|].
  unfold t_resolve. destruct (ask w) as [a w1] eqn:A. pose proof (LI_ask _ _ _ _ _ _ _ _ _ _ _ L A) as L1. clear A L.
  destruct a as [a|]; [|now apply (BRK _ _ loc)].
  destruct (select_range sl i (a_fam a) I) as [KR KS]. set (k := select_port sl i (a_fam a)) in *. clearbody k.
  destruct (setup_port (getp k sl) (a_fam a)) as [p|] eqn:SU; [|now apply (BRK _ _ loc)].
  destruct (setup_same _ _ _ SU) as [P1 P2]. rewrite getp_hnd in P1. rewrite getp_wrt in P2. clear SU.
  assert (K : (Z.to_nat k < length (ns_ports sl))%nat) by lia.
  set (sl1 := setp k p sl).
  assert (HH : forall j, hnd (ns_ports sl1) j = hnd (ns_ports sl) j).
  { intros j. unfold sl1, setp. cbn [ns_ports]. rewrite hnd_upd by exact K. destruct (Nat.eqb_spec j (Z.to_nat k)) as [E|E]; [|reflexivity]. now subst j. }
  assert (WW : forall j, wrt (ns_ports sl1) j = wrt (ns_ports sl) j).
  { intros j. unfold sl1, setp. cbn [ns_ports]. rewrite wrt_upd by exact K. destruct (Nat.eqb_spec j (Z.to_nat k)) as [E|E]; [|reflexivity]. now subst j. }
  assert (L2 : LI (ns_ports sl1) (Some s) w1 loc). { rewrite HD in L1. exact (LI_ps _ _ _ _ _ _ _ _ _ _ L1 HH). }
  assert (Len1 : length (ns_ports sl1) = 5%nat). { unfold sl1, setp. cbn [ns_ports]. now rewrite upd_length. }
  assert (X1 : ns_index sl1 = ns_index sl /\ ns_handle sl1 = Some s /\ ns_broken sl1 = false) by (split; [reflexivity|split; [exact HD|exact B]]).
  destruct R as [R1 [R2 [R3 R4]]].
  assert (W1 : forall j h, wrt (ns_ports sl1) j = Some h -> hnd (ns_ports sl1) j = Some h) by (intros j h; rewrite WW, HH; apply R1).
  assert (H1 : forall j h, hnd (ns_ports sl1) j = Some h -> exists e, In e eps /\ ep_iface e = Z.of_nat j /\ ep_out e = Some h)
    by (intros j h; rewrite HH; apply R2).
  assert (O1 : forall e, In e eps -> exists j h, hnd (ns_ports sl1) j = Some h /\ ep_out e = Some h).
  { intros e E. destruct (R3 e E) as [j [h [X Y]]]. exists j, h. now rewrite HH. }
  assert (KS1 : k = i \/ exists h, hnd (ns_ports sl1) (Z.to_nat k) = Some h).
  { destruct KS as [KS|[h KS]]; [now left|right; exists h; now rewrite HH]. }
  clearbody sl1. clear HH WW L1 K P1 P2 p R1 R2 R3 KS w.
  (* opening the port *)
  assert (OP : exists r w2, snd_open sl1 w1 k = Ok (r, w2) /\
    (r = None /\ LI (ns_ports sl1) (Some s) w2 loc \/
     exists sl2 loc2 h, r = Some sl2 /\ LI (ns_ports sl2) (Some s) w2 loc2 /\ n_slots loc2 = n_slots loc /\
       (forall q x, In q (n_ports loc2) -> p_recv q = Some x -> In q (n_ports loc)) /\
       length (ns_ports sl2) = 5%nat /\ ns_index sl2 = ns_index sl /\ ns_handle sl2 = Some s /\ ns_broken sl2 = false /\
       hnd (ns_ports sl2) (Z.to_nat k) = Some h /\
       (forall j h, wrt (ns_ports sl2) j = Some h -> hnd (ns_ports sl2) j = Some h) /\
       (forall j h, hnd (ns_ports sl2) j = Some h -> (j = Z.to_nat k /\ k = i) \/ exists e, In e eps /\ ep_iface e = Z.of_nat j /\ ep_out e = Some h) /\
       (forall j h, hnd (ns_ports sl1) j = Some h -> hnd (ns_ports sl2) j = Some h))).
  { unfold snd_open. rewrite getp_hnd. destruct (hnd (ns_ports sl1) (Z.to_nat k)) as [h|] eqn:HK.
    - do 2 eexists. split; [reflexivity|]. right. exists sl1, loc, h. destruct X1 as [X1 [X2 X3]].
      repeat (split; [first [assumption|reflexivity]|]). split; [intros; assumption|]. repeat (split; [first [assumption|reflexivity]|]).
      split; [intros j h' J; right; exact (H1 j h' J)|]. intros; assumption.
    - assert (KI : k = i) by (destruct KS1 as [E|[h E]]; [exact E|congruence]).
      destruct (t_add_port w1 (np_config (getp k sl1))) as [[[h b]|] w2] eqn:T.
      + do 2 eexists. split; [reflexivity|]. right. set (p' := mkNp _ _ _ _). exists (setp k p' sl1), (net_add h b loc), h.
        assert (K : (Z.to_nat k < length (ns_ports sl1))%nat) by lia.
        pose proof (LI_add _ _ _ _ _ Qok _ _ _ _ _ _ _ _ _ p' L2 K HK T eq_refl) as L3.
        split; [reflexivity|]. split; [exact L3|]. split; [reflexivity|].
        split. { intros q x [E|E] Y; [subst q; discriminate Y|exact E]. }
        split. { unfold setp. cbn [ns_ports]. now rewrite upd_length. }
        destruct X1 as [X1 [X2 X3]]. split; [exact X1|]. split; [exact X2|]. split; [exact X3|].
        unfold setp. cbn [ns_ports]. split. { rewrite hnd_upd by exact K. now rewrite Nat.eqb_refl. }
        split.
        { intros j h' J. rewrite wrt_upd in J by exact K. rewrite hnd_upd by exact K.
          destruct (Nat.eqb_spec j (Z.to_nat k)) as [E|E]; [|exact (W1 j h' J)]. exfalso.
          unfold p' in J. cbn [np_writer] in J. rewrite getp_wrt in J. apply W1 in J. congruence. }
        split.
        { intros j h' J. rewrite hnd_upd in J by exact K. destruct (Nat.eqb_spec j (Z.to_nat k)) as [E|E]; [now left|right; exact (H1 j h' J)]. }
        intros j h' J. rewrite hnd_upd by exact K. destruct (Nat.eqb_spec j (Z.to_nat k)) as [E|E]; [congruence|exact J].
      + do 2 eexists. split; [reflexivity|]. left. split; [reflexivity|]. exact (LI_add_none _ _ _ _ _ _ _ _ _ _ _ L2 T). }
  destruct OP as [r [w2 [E2 C2]]]. rewrite E2. cbn [Base.bind]. clear E2.
  destruct C2 as [[ER L3]|[sl2 [loc2 [h [ER [L3 [SL2 [PR2 [Len2 [IX2 [HD2 [BR2 [HK2 [W2 [H2 M2]]]]]]]]]]]]]]].
  { subst r. apply (BRK _ _ loc); [|exact Len1|apply X1]. destruct X1 as [_ [X1 _]]. rewrite X1. exact L3. }
  subst r.
  assert (O2 : forall e, In e eps -> exists j h, hnd (ns_ports sl2) j = Some h /\ ep_out e = Some h).
  { intros e E. destruct (O1 e E) as [j [h' [X Y]]]. exists j, h'. split; [now apply M2|exact Y]. }
  clear O1 H1 W1 M2 L2 X1 Len1 KS1 sl1 w1.
  (* starting to send *)
  assert (ST : exists r w3, snd_start sl2 w2 k = Ok (r, w3) /\ LI (ns_ports sl2) (Some s) w3 loc2 /\
    (r = None \/ exists sl3, r = Some sl3 /\ (forall j, hnd (ns_ports sl3) j = hnd (ns_ports sl2) j) /\
       length (ns_ports sl3) = 5%nat /\ ns_index sl3 = ns_index sl /\ ns_handle sl3 = Some s /\ ns_broken sl3 = false /\
       wrt (ns_ports sl3) (Z.to_nat k) = Some h /\
       (forall j h, wrt (ns_ports sl3) j = Some h -> hnd (ns_ports sl3) j = Some h))).
  { unfold snd_start. rewrite getp_wrt, getp_hnd. destruct (wrt (ns_ports sl2) (Z.to_nat k)) as [h'|] eqn:WK.
    - do 2 eexists. split; [reflexivity|]. split; [exact L3|]. right. exists sl2. pose proof (W2 _ _ WK) as WK2.
      assert (E : h' = h) by congruence. subst h'. repeat (split; [first [assumption|reflexivity]|]). assumption.
    - rewrite HK2. destruct (LI_send _ _ _ _ _ _ _ _ _ _ _ L3 HK2) as [b [w3 [E L4]]]. rewrite E. cbn [Base.bind fst snd].
      do 2 eexists. split; [reflexivity|]. split; [exact L4|]. destruct b; [|now left]. right.
      set (p' := mkNp _ _ _ _). exists (setp k p' sl2). split; [reflexivity|].
      assert (K : (Z.to_nat k < length (ns_ports sl2))%nat) by lia.
      assert (HH : forall j, hnd (ns_ports (setp k p' sl2)) j = hnd (ns_ports sl2) j).
      { intros j. unfold setp. cbn [ns_ports]. rewrite hnd_upd by exact K. destruct (Nat.eqb_spec j (Z.to_nat k)) as [E0|E0]; [|reflexivity]. subst j. now rewrite HK2. }
      split; [exact HH|]. split; [unfold setp; cbn [ns_ports]; now rewrite upd_length|]. split; [exact IX2|]. split; [exact HD2|]. split; [exact BR2|].
      split; [unfold setp; cbn [ns_ports]; rewrite wrt_upd by exact K; now rewrite Nat.eqb_refl|].
      intros j h'. rewrite HH. unfold setp. cbn [ns_ports]. rewrite wrt_upd by exact K. destruct (Nat.eqb_spec j (Z.to_nat k)) as [E0|E0]; [|apply W2].
      subst j. unfold p'. cbn [np_writer]. congruence. }
  destruct ST as [r [w3 [E3 [L4 C3]]]]. rewrite E3. cbn [Base.bind]. clear E3.
  destruct C3 as [ER|[sl3 [ER [HH [Len3 [IX3 [HD3 [BR3 [WK3 W3]]]]]]]]]; subst r.
  { apply (BRK _ _ loc2); [rewrite HD2; exact L4|exact Len2|exact IX2]. }
  pose proof (LI_ps _ _ _ _ _ _ _ _ _ _ L4 HH) as L5.
  rewrite HD3, getp_hnd, getp_wrt, HH, HK2, WK3.
  set (e := mkEp i (u_proto u) (Some h)).
  assert (GD : good Snd (net_ep s e loc2)).
  { intros s' eps' e' h' I1 I2 I3. change (In (s', eps') (map (ep_f s e) (n_slots loc2))) in I1.
    rewrite SL2, SL in I1. cbn in I1. destruct I1 as [I1|[]]. unfold ep_f in I1. cbn in I1. rewrite Nat.eqb_refl in I1.
    assert (E : eps' = e :: eps) by congruence. subst eps'. cbn [n_ports net_ep].
    assert (HP : exists j, hnd (ns_ports sl3) j = Some h').
    { destruct I2 as [I2|I2].
      - subst e'. exists (Z.to_nat k). rewrite HH, HK2. unfold e in I3. cbn in I3. exact I3.
      - destruct (O2 e' I2) as [j [h'' [Y1 Y2]]]. exists j. rewrite HH. congruence. }
    apply (li_ports _ _ _ _ _ _ _ _ _ L5) in HP. apply in_map_iff in HP as [p [Y1 Y2]]. exists p. tauto. }
  destruct (LI_ep Snd Q oP oS seen0 Qok _ s eps _ _ e L5 (eq_trans SL2 SL) GD) as [b [w4 [E4 C4]]]. rewrite E4. cbn [Base.bind]. clear E4.
  destruct C4 as [[Eb L6]|[EI [NI [_ L6]]]].
  { subst b. cbn [negb]. apply (BRK _ _ loc2); [rewrite HD3; exact L6|exact Len3|exact IX3]. }
  destruct b; cbn [negb]; [|apply (BRK _ _ (net_ep s e loc2)); [rewrite HD3; exact L6|exact Len3|exact IX3]].
  cbn [ep_iface e] in EI, NI.
  assert (SL4 : n_slots (net_ep s e loc2) = [(s, e :: eps)]).
  { cbn. rewrite SL2, SL. cbn. now rewrite Nat.eqb_refl. }
  assert (RC : exists ok w5 loc5, snd_recv w4 h s i = Ok (ok, w5) /\ LI (ns_ports sl3) (Some s) w5 loc5 /\ n_slots loc5 = [(s, e :: eps)] /\
     (forall p s' i', In p (n_ports loc5) -> p_recv p = Some (s', i') -> s' = s /\ In i' (map ep_iface (e :: eps)))).
  { assert (PR4 : forall p s' i', In p (n_ports (net_ep s e loc2)) -> p_recv p = Some (s', i') -> s' = s /\ In i' (map ep_iface (e :: eps))).
    { intros p s' i' J1 J2. destruct (R4 p s' i' (PR2 p _ J1 J2) J2) as [Y1 Y2]. split; [exact Y1|now right]. }
    unfold snd_recv. destruct (i =? iface_control).
    - destruct (ask w4) as [a' w5] eqn:A5. pose proof (LI_ask _ _ _ _ _ _ _ _ _ _ _ L6 A5) as L7. destruct a' as [a'|].
      + assert (HK3 : hnd (ns_ports sl3) (Z.to_nat k) = Some h) by now rewrite HH.
        assert (GD7 : good Snd (net_recv h s i (net_ep s e loc2))) by (apply good_recv_snd; exact (li_good _ _ _ _ _ _ _ _ _ L7)).
        destruct (LI_recv _ _ _ _ _ Qok _ _ _ _ _ _ s i L7 HK3 GD7) as [b [w6 [E6 L8]]].
        exists b, w6, (if b then net_recv h s i (net_ep s e loc2) else net_ep s e loc2). split; [exact E6|]. split; [exact L8|].
        split; [now destruct b|]. destruct b; [|exact PR4].
        intros p s' i' J1 J2. change (In p (map (recv_f h s i) (n_ports loc2))) in J1. apply in_map_iff in J1 as [p0 [J0 J1]].
        unfold recv_f in J0. destruct (p_id p0 =? h)%nat.
        * subst p. cbn in J2. assert (s' = s) by congruence. assert (i' = i) by congruence. subst. split; [reflexivity|now left].
        * subst p0. exact (PR4 p s' i' J1 J2).
      + exists true, w5, (net_ep s e loc2). split; [reflexivity|]. split; [exact L7|]. split; [exact SL4|exact PR4].
    - exists true, w4, (net_ep s e loc2). split; [reflexivity|]. split; [exact L6|]. split; [exact SL4|exact PR4]. }
  destruct RC as [ok [w5 [loc5 [E5 [L7 [SL5 PR5]]]]]]. rewrite E5. cbn [Base.bind]. clear E5.
  destruct ok; cbn [negb]; [|apply (BRK _ _ loc5); [rewrite HD3; exact L7|exact Len3|exact IX3]].
  exists Yes, sl3, w5, loc5. split; [reflexivity|]. split; [rewrite HD3; exact L7|]. split.
  - split; [exact Len3|]. right. split; [exact BR3|]. exists s, (e :: eps). split; [exact HD3|]. split; [exact SL5|].
    split; [cbn; constructor; assumption|]. split; [exact W3|]. split.
    + intros j h' J. rewrite HH in J. destruct (H2 j h' J) as [[Y1 Y2]|[e' [Y1 Y2]]].
      * exists e. split; [now left|]. unfold e. cbn. split; [lia|]. subst j. congruence.
      * exists e'. split; [now right|exact Y2].
    + split; [|exact PR5]. intros e' [Y|Y].
      * subst e'. exists (Z.to_nat k), h. rewrite HH. split; [exact HK2|reflexivity].
      * destruct (O2 e' Y) as [j [h' Z1]]. exists j, h'. now rewrite HH.
  - split; [exact IX3|]. split; [|intros q X; discriminate X].
    rewrite V, (view_working _ _ _ _ BR3 SL5). cbn [map ep_iface e]. constructor; try assumption.
    + unfold endpoint_iface in EI. rewrite !orb_true_iff, !Z.eqb_eq in EI. unfold iface_source, iface_repair, iface_control in EI. tauto.
    + left. tauto.
Qed.
End Connect.

(* bind *)
Section Bind.
Variable Q : net -> Prop.
Variable oP : port -> Prop.
Variable oS : nat * list ep -> Prop.
Variable seen0 : list net.
Hypothesis Qok : forall n loc, covers n loc oP oS -> good Rcv loc -> Q n.
Let LI := LI Rcv Q oP oS seen0.

Definition tail (sl : nslot) (w : world) (i : Z) (u : uri) (h : nat) : res (ans * nslot * world) :=
            r <- rcv_send w h i ;;
            match r with
            | (None, w) => break_slot rcv_cleanup sl w
            | (Some out, w) =>
                match ns_handle sl with
                | None => Panic
                | Some s =>
                    r <- t_add_endpoint false w s (mkEp i (u_proto u) out) ;;
                    let '(ok, w) := r in
                    if negb ok then break_slot rcv_cleanup sl w
                    else
                      r <- t_start_recv w h s i ;;
                      let '(ok, w) := r in
                      if negb ok then break_slot rcv_cleanup sl w
                      else a <- report_port u (np_config (getp i sl)) ;; Ok (a, sl, w)
                end
            end.

Lemma tail_ok sl0 loc0 sl w loc k0 i u h b s eps :
  ns_broken sl0 = false -> n_slots loc0 = [(s, eps)] -> ns_index sl = ns_index sl0 ->
  LI (ns_ports sl) (ns_handle sl) w loc -> length (ns_ports sl) = 5%nat -> ns_broken sl = false -> ns_handle sl = Some s ->
  n_slots loc = [(s, eps)] -> NoDup (map ep_iface eps) -> 0 <= i < 5 -> u_ok u = true ->
  hnd (ns_ports sl) (Z.to_nat i) = Some h ->
  c_bind (np_config (getp i sl)) = Some b -> 0 <= a_port b <= 65535 -> In (mkPort h b None) (n_ports loc) ->
  (forall j h, hnd (ns_ports sl) j = Some h -> j <> Z.to_nat i -> In (Z.of_nat j) (map ep_iface eps) /\
     exists p, In p (n_ports loc) /\ p_id p = h /\ p_recv p = Some (s, Z.of_nat j)) ->
  (forall j, In j (map ep_iface eps) -> 0 <= j /\ exists h, hnd (ns_ports sl) (Z.to_nat j) = Some h) ->
  (forall e h, In e eps -> ep_iface e <> i -> ep_out e = Some h -> hnd (ns_ports sl) (Z.to_nat (ep_iface e)) = Some h) ->
  exists a sl' w' loc', tail sl w i u h = Ok (a, sl', w') /\ LI (ns_ports sl') (ns_handle sl') w' loc' /\ rest Rcv sl' loc' /\
    ns_index sl' = ns_index sl0 /\ slot_call Rcv (Attach k0 i u) (view sl0 loc0) a (view sl' loc') /\
    (forall q, a = YesPort q -> exists p s i0, (exists k u0, Attach k0 i u = Attach k i0 u0) /\ In p (n_ports loc') /\ p_recv p = Some (s, i0) /\ a_port (p_bind p) = q).
Proof.
  intros B0 SL0 IX L Len B HD SL ND I UO HI CB PB PN R1 R2 R3.
  assert (V : view sl0 loc0 = Working (map ep_iface eps)) by exact (view_working _ _ _ _ B0 SL0).
  assert (SC : slot_call Rcv (Attach k0 i u) (view sl0 loc0) No Broken) by (rewrite V; constructor).
  assert (BRK : forall w1 loc1, LI (ns_ports sl) (ns_handle sl) w1 loc1 ->
     post Rcv Q oP oS seen0 (Attach k0 i u) sl0 loc0 (break_slot rcv_cleanup sl w1)).
  { intros w1 loc1 L1. exact (post_break Rcv Q oP oS seen0 Qok _ _ _ _ _ loc1 L1 Len IX SC). }
  change (post Rcv Q oP oS seen0 (Attach k0 i u) sl0 loc0 (tail sl w i u h)).
  unfold tail.
  assert (RS : exists r w1, rcv_send w h i = Ok (r, w1) /\ LI (ns_ports sl) (ns_handle sl) w1 loc /\ (forall out h', r = Some out -> out = Some h' -> h' = h)).
  { unfold rcv_send. destruct (i =? iface_control).
    - destruct (LI_send _ _ _ _ _ _ _ _ _ _ _ L HI) as [b1 [w1 [E L1]]]. rewrite E. cbn [Base.bind fst snd]. do 2 eexists. split; [reflexivity|].
      split; [exact L1|]. intros out h' E1 E2. destruct b1; [congruence|discriminate E1].
    - do 2 eexists. split; [reflexivity|]. split; [exact L|]. intros out h' E1 E2. congruence. }
  destruct RS as [r [w1 [E1 [L1 RO]]]]. rewrite E1. cbn [Base.bind]. clear E1 L.
  destruct r as [out|]; [|now apply (BRK _ loc)]. specialize (RO out). rewrite HD in *.
  set (e := mkEp i (u_proto u) out).
  assert (GD : good Rcv (net_ep s e loc)).
  { intros p s' i' J1 J2. destruct (li_good _ _ _ _ _ _ _ _ _ L1 p s' i' J1 J2) as [eps' [e' [Y1 [Y2 Y3]]]].
    rewrite SL in Y1. destruct Y1 as [Y1|[]]. exists (e :: eps), e'.
    assert (E : s' = s) by congruence. assert (E' : eps' = eps) by congruence. subst. split; [|split; [now right|reflexivity]].
    cbn. rewrite SL. cbn. rewrite Nat.eqb_refl. now left. }
  destruct (LI_ep Rcv Q oP oS seen0 Qok _ s eps _ _ e L1 SL GD) as [b4 [w4 [E4 C4]]]. rewrite E4. cbn [Base.bind]. clear E4.
  destruct C4 as [[Eb L6]|[EI [NI [Eb L6]]]].
  { subst b4. cbn [negb]. exact (BRK _ loc L6). }
  rewrite (Eb eq_refl). cbn [negb]. clear Eb b4. cbn [ep_iface e] in EI, NI.
  assert (SL4 : n_slots (net_ep s e loc) = [(s, e :: eps)]). { cbn. rewrite SL. cbn. now rewrite Nat.eqb_refl. }
  assert (GD7 : good Rcv (net_recv h s i (net_ep s e loc))).
  { intros p s' i' J1 J2. change (In p (map (recv_f h s i) (n_ports loc))) in J1. apply in_map_iff in J1 as [p0 [J0 J1]].
    unfold recv_f in J0. destruct (p_id p0 =? h)%nat.
    - subst p. cbn in J2. exists (e :: eps), e. assert (s' = s) by congruence. assert (i' = i) by congruence. subst s' i'.
      split; [|split; [now left|reflexivity]]. change (In (s, e :: eps) (n_slots (net_ep s e loc))). rewrite SL4. now left.
    - subst p0. exact (li_good _ _ _ _ _ _ _ _ _ L6 p s' i' J1 J2). }
  destruct (LI_recv _ _ _ _ _ Qok _ _ _ _ _ _ s i L6 HI GD7) as [b5 [w5 [E5 L8]]]. rewrite E5. cbn [Base.bind]. clear E5.
  destruct b5; cbn [negb]; [|exact (BRK _ _ L8)].
  assert (RP : exists a, report_port u (np_config (getp i sl)) = Ok a /\
     (a = Yes /\ u_port u <> 0 \/ a = YesPort (a_port b) /\ u_port u = 0)).
  { unfold report_port. rewrite CB. destruct (Z.eqb_spec (u_port u) 0) as [E|E].
    - replace ((0 <=? a_port b) && (a_port b <=? 65535)) with true.
      + eexists. split; [reflexivity|]. right. tauto.
      + symmetry. rewrite andb_true_iff, !Z.leb_le. lia.
    - eexists. split; [reflexivity|]. left. tauto. }
  destruct RP as [a [Ea Ca]]. rewrite Ea. cbn [Base.bind].
  set (loc5 := net_recv h s i (net_ep s e loc)) in *.
  assert (SL5 : n_slots loc5 = [(s, e :: eps)]) by exact SL4.
  assert (PN5 : In (mkPort h b (Some (s, i))) (n_ports loc5)).
  { change (In (mkPort h b (Some (s, i))) (map (recv_f h s i) (n_ports loc))). apply in_map_iff. exists (mkPort h b None).
    split; [|exact PN]. unfold recv_f. cbn. now rewrite Nat.eqb_refl. }
  exists a, sl, w5, loc5. split; [reflexivity|]. split; [rewrite HD; exact L8|]. split.
  - split; [exact Len|]. right. split; [exact B|]. exists s, (e :: eps). split; [exact HD|]. split; [exact SL5|].
    split; [cbn; constructor; assumption|]. split; [|split].
    + intros j h' J. destruct (Nat.eq_dec j (Z.to_nat i)) as [EJ|EJ].
      * subst j. rewrite Z2Nat.id by lia. split; [now left|]. exists (mkPort h b (Some (s, i))). cbn.
        split; [exact PN5|]. split; [congruence|reflexivity].
      * destruct (R1 j h' J EJ) as [Y1 [p [Y2 [Y3 Y4]]]]. split; [now right|].
        exists p. split; [|tauto]. change (In p (map (recv_f h s i) (n_ports loc))). apply in_map_iff. exists p. split; [|exact Y2].
        unfold recv_f. destruct (Nat.eqb_spec (p_id p) h) as [E|E]; [|reflexivity]. exfalso. apply EJ.
        apply (li_uni _ _ _ _ _ _ _ _ _ L8 j (Z.to_nat i) h); [congruence|exact HI].
    + intros j [J|J]; [cbn in J; subst j; split; [lia|now exists h]|exact (R2 j J)].
    + intros e' h' [J|J] O1.
      * subst e'. cbn in O1. cbn. rewrite (RO h' eq_refl O1). exact HI.
      * destruct (Z.eq_dec (ep_iface e') i) as [E|E]; [|exact (R3 e' h' J E O1)].
        exfalso. apply NI. apply in_map_iff. exists e'. tauto.
  - split; [exact IX|]. split.
    + rewrite V, (view_working _ _ _ _ B SL5). cbn [map ep_iface e]. constructor; try assumption.
      * unfold endpoint_iface in EI. rewrite !orb_true_iff, !Z.eqb_eq in EI. unfold iface_source, iface_repair, iface_control in EI. tauto.
      * destruct Ca as [[Ca1 Ca2]|[Ca1 Ca2]]; [left; tauto|right]. exists (a_port b). tauto.
    + intros q Eq. exists (mkPort h b (Some (s, i))), s, i. split; [now exists k0, u|]. split; [exact PN5|]. cbn. split; [reflexivity|].
      destruct Ca as [[Ca1 Ca2]|[Ca1 Ca2]]; congruence.
Qed.
End Bind.
