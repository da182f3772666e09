(* C67: slots of senders and receivers: what calls answer, what they hold and release. *)
From Coq Require Import ZArith List Bool Arith Lia.
From Verif Require Import Base NodeSlots_model NodeSlots_spec NodeSlots_proof NodeSlots_step NodeSlots_node NodeSlots_run.
Import ListNotations.
Local Open Scope Z_scope.
Local Open Scope res_scope.

(* For every history of calls and every outcome of what they try, the answers are those
   the API describes: a slot works until a call on it fails, then it is broken and refuses
   everything until it is unlinked; an interface is attached at most once; other slots are
   not affected. The only way to a crash is to query the metrics of a broken slot. *)
Theorem C67_api : forall d env ops, env_ok env -> Forall valid_op ops ->
  (exists l n t, node_run d ops (node_new env) = Ok (l, n) /\ api_run d table0 ops l t) \/
  (exists pre k rst l n t, ops = pre ++ Query k :: rst /\ node_run d pre (node_new env) = Ok (l, n) /\
     api_run d table0 pre l t /\ t k = Broken /\ node_run d ops (node_new env) = Panic).
Proof.
  intros d env ops EV VO.
  destruct (run_ok d False ops (node_new env) _ _ table0 [] (NI_new d False env EV) VO (fun F => False_ind _ F))
    as [[l [n [own [G [t [E [_ A]]]]]]]|H].
  - left. exists l, n, t. tauto.
  - right. exact H.
Qed.

(* At any time what is open is exactly what the working slots need. *)
Theorem C67_no_leak : forall d env ops l n, env_ok env -> Forall valid_op ops -> (d = Rcv -> once [] ops) ->
  node_run d ops (node_new env) = Ok (l, n) ->
  exists t, api_run d table0 ops l t /\ holds d t (w_net (nd_w n)).
Proof.
  intros d env ops l n EV VO ON E.
  assert (CL : True -> okc d [] ops /\ known d [] table0).
  { intros _. destruct d; cbn; [tauto|]. split; [now apply ON|]. intros k cs i T. discriminate T. }
  destruct (run_ok d True ops (node_new env) _ _ table0 [] (NI_new d True env EV) VO CL)
    as [[l' [n' [own [G [t [E' [N A]]]]]]]|[pre [k [rst [l' [n' [t [_ [_ [_ [_ E']]]]]]]]]]]; [|congruence].
  assert (X : l' = l /\ n' = n) by (split; congruence). destruct X as [-> ->].
  exists t. split; [exact A|]. exact (NI_holds _ _ _ _ _ _ _ N I).
Qed.

(* The node can be destroyed at any time, and then nothing is left open. *)
Theorem C67_close : forall d env ops l n, env_ok env -> Forall valid_op ops ->
  node_run d ops (node_new env) = Ok (l, n) ->
  exists w, node_close d n = Ok w /\ n_slots (w_net w) = [] /\ ((d = Rcv -> once [] ops) -> n_ports (w_net w) = []).
Proof.
  intros d env ops l n EV VO E. set (clean := d = Rcv -> once [] ops).
  assert (CL : clean -> okc d [] ops /\ known d [] table0).
  { unfold clean. intros ON. destruct d; cbn; [tauto|]. split; [now apply ON|]. intros k cs i T. discriminate T. }
  destruct (run_ok d clean ops (node_new env) _ _ table0 [] (NI_new d clean env EV) VO CL)
    as [[l' [n' [own [G [t [E' [N A]]]]]]]|[pre [k [rst [l' [n' [t [_ [_ [_ [_ E']]]]]]]]]]]; [|congruence].
  assert (X : l' = l /\ n' = n) by (split; congruence). destruct X as [-> ->].
  destruct (clean_all_ok d clean _ _ _ _ _ N) as [w [own' [G' [E2 N2]]]]. exists w. split; [exact E2|]. split.
  - destruct (n_slots (w_net w)) as [|x r] eqn:ES; [reflexivity|]. exfalso. assert (J : In x (n_slots (w_net w))) by (rewrite ES; now left).
    apply (ni_cs _ _ _ _ _ _ _ N2) in J as [k J]. pose proof (ni_ent _ _ _ _ _ _ _ N2 k) as [OE _]. rewrite OE in J. destruct J.
  - intros C. exact (proj1 (NI_empty _ _ _ _ _ _ N2 C)).
Qed.

(* At every moment, also inside a call and while the node is destroyed: a sender never
   sends to a port that is gone, a receiver never delivers to a slot that is gone. *)
Theorem C67_moments : forall d env ops l n w m, env_ok env -> Forall valid_op ops -> (d = Rcv -> once [] ops) ->
  node_run d ops (node_new env) = Ok (l, n) -> node_close d n = Ok w -> In m (w_seen w) ->
  match d with Snd => sends_open m | Rcv => deliveries_live m end.
Proof.
  intros d env ops l n w m EV VO ON E EW IM.
  assert (CL : True -> okc d [] ops /\ known d [] table0).
  { intros _. destruct d; cbn; [tauto|]. split; [now apply ON|]. intros k cs i T. discriminate T. }
  destruct (run_ok d True ops (node_new env) _ _ table0 [] (NI_new d True env EV) VO CL)
    as [[l' [n' [own [G [t [E' [N A]]]]]]]|[pre [k [rst [l' [n' [t [_ [_ [_ [_ E']]]]]]]]]]]; [|congruence].
  assert (X : l' = l /\ n' = n) by (split; congruence). destruct X as [-> ->].
  destruct (clean_all_ok d True _ _ _ _ _ N) as [w' [own' [G' [E2 N2]]]]. unfold node_close in EW.
  assert (X : w' = w) by congruence. subst w'.
  pose proof (ni_seen _ _ _ _ _ _ _ N2) as S. rewrite Forall_forall in S. exact (S m IM I).
Qed.

(* A port number that bind reports is the one of an open port that receives for the
   interface. *)
Theorem C67_reported_port : forall env ops k i u l q n, env_ok env -> Forall valid_op (ops ++ [Attach k i u]) ->
  node_run Rcv (ops ++ [Attach k i u]) (node_new env) = Ok (l ++ [YesPort q], n) ->
  u_port u = 0 /\ exists p s, In p (n_ports (w_net (nd_w n))) /\ p_recv p = Some (s, i) /\ a_port (p_bind p) = q.
Proof.
  intros env ops k i u l q n EV VO E. apply Forall_app in VO as [V1 V2]. apply Forall_cons_iff in V2 as [V2 _].
  destruct (run_ok Rcv False ops (node_new env) _ _ table0 [] (NI_new Rcv False env EV) V1 (fun F => False_ind _ F))
    as [[l' [n' [own [G [t [E' [N A]]]]]]]|[pre [k' [rst [l' [n' [t [_ [_ [_ [_ E']]]]]]]]]]].
  - rewrite run_app, E' in E. cbn [Base.bind fst snd] in E.
    destruct (step_ok Rcv False n' own G t (Attach k i u) N V2 (fun F => False_ind _ F)) as [a [n1 [own1 [G1 [t1 [E1 [N1 [A1 R1]]]]]]]].
    { intros k' X. discriminate X. }
    cbn [node_run] in E. rewrite E1 in E. cbn [Base.bind fst snd] in E.
    assert (El : l' ++ [a] = l ++ [YesPort q]) by congruence. assert (En : n1 = n) by congruence. subst n1.
    apply app_inj_tail in El as [_ Ea]. split.
    + assert (SC : exists st st', slot_call Rcv (Attach k i u) st a st').
      { remember (Attach k i u) as o eqn:EO. destruct A1 as [o k1 a t1 SO SC TO|o k1 a t1 SO CR TA SC TO|o k1 t1 SO TA TO|a t1 AA TO];
        [do 2 eexists; exact SC|do 2 eexists; exact SC|discriminate Ea|discriminate EO]. }
      destruct SC as [st [st' SC]]. remember (Attach k i u) as o eqn:EO.
      destruct SC as [k1 i1 c1 cs1 H|k1 i1 c1 cs1 H|k1 i1 u1 cs1 a1 H1 H2 H3 H4|k1 i1 u1 cs1|k1 i1 c1|k1 i1 u1|k1 st H|k1 cs1]; try discriminate EO; try discriminate Ea.
      assert (u1 = u) by congruence. subst u1. destruct H4 as [[H4 _]|[p [_ [_ H4]]]]; [congruence|exact H4].
    + destruct (R1 q Ea) as [p [s [i0 [[k1 [u1 EO]] [P1 [P2 P3]]]]]]. assert (i0 = i) by congruence. subst i0. exists p, s. tauto.
  - rewrite run_app, E' in E. cbn [Base.bind] in E. discriminate E.
Qed.

(* All slots use the same protocol for an interface. *)
Lemma break_no c sl w a sl' w' : break_slot c sl w = Ok (a, sl', w') -> a = No.
Proof. unfold break_slot. destruct (c _ w) as [q| |]; cbn [Base.bind]; intros E; [congruence|discriminate E|discriminate E]. Qed.
Lemma attach_used d p sl w i u a sl' w' : attach_of d (Some p) sl w i u = Ok (a, sl', w') -> is_yes a = true -> p = u_proto u.
Proof.
  intros E Y. destruct (Z.eqb_spec p (u_proto u)) as [H|H]; [exact H|]. exfalso.
  assert (X : a = No).
  { destruct d; cbn [attach_of] in E; unfold connect_slot, bind_slot in E;
    (destruct (ns_broken sl); [congruence|]); (destruct (negb (u_ok u)); [exact (break_no _ _ _ _ _ _ E)|]);
    apply Z.eqb_neq in H; rewrite H in E; cbn [negb] in E; exact (break_no _ _ _ _ _ _ E). }
  subst a. discriminate Y.
Qed.
Lemma get_slot_used n k b r n' : get_slot n k b = (r, n') -> nd_used n' = nd_used n.
Proof.
  unfold get_slot. destruct (find_slot k (nd_slots n)); [intros E; congruence|]. destruct b; [|intros E; congruence].
  destruct (t_create_slot (nd_w n)) as [[s|] w]; intros E.
  - assert (X : n' = mkNode (nd_slots n ++ [new_slot k s]) (nd_used n) w) by congruence. now subst n'.
  - assert (X : n' = mkNode (nd_slots n) (nd_used n) w) by congruence. now subst n'.
Qed.
Lemma step_used d o n a n' : node_step d o n = Ok (a, n') -> length (nd_used n) = 5%nat ->
  length (nd_used n') = 5%nat /\
  (forall i p, nth i (nd_used n) None = Some p -> nth i (nd_used n') None = Some p) /\
  (forall k i u, o = Attach k i u -> is_yes a = true ->
     nth (Z.to_nat i) (nd_used n') None = Some (u_proto u)).
Proof.
  intros E Len. destruct o as [k i c|k i u|k|k|]; cbn [node_step] in E.
  - destruct (bad_iface i); [discriminate E|]. destruct (get_slot n k true) as [[sl|] n1] eqn:GS; pose proof (get_slot_used _ _ _ _ _ GS) as GU.
    + destruct (configure_slot (cleanup_of d) sl (nd_w n1) i c) as [[[a1 sl1] w1]| |]; cbn [Base.bind] in E; [|discriminate E|discriminate E].
      assert (X : nd_used n' = nd_used n) by (assert (Y : n' = mkNode (put_slot sl1 (nd_slots n1)) (nd_used n1) w1) by congruence; subst n'; exact GU).
      rewrite X. split; [exact Len|]. split; [tauto|]. intros k0 i0 u0 EO. discriminate EO.
    + assert (X : n' = n1) by congruence. subst n1. rewrite GU. split; [exact Len|]. split; [tauto|]. intros k0 i0 u0 EO. discriminate EO.
  - destruct (bad_iface i) eqn:BI; [discriminate E|]. unfold bad_iface, iface_max in BI. apply orb_false_iff in BI as [B1 B2]. rewrite Z.ltb_ge in B1. rewrite Z.leb_gt in B2.
    destruct (get_slot n k true) as [[sl|] n1] eqn:GS; pose proof (get_slot_used _ _ _ _ _ GS) as GU.
    + destruct (attach_of d _ sl (nd_w n1) i u) as [[[a1 sl1] w1]| |] eqn:AT; cbn [Base.bind] in E; [|discriminate E|discriminate E].
      assert (Ea : a1 = a) by congruence. subst a1.
      assert (Y : n' = mkNode (put_slot sl1 (nd_slots n1)) (if is_yes a then upd (nd_used n1) (Z.to_nat i) (Some (u_proto u)) else nd_used n1) w1) by congruence.
      subst n'. cbn [nd_used]. rewrite GU in *. destruct (is_yes a) eqn:YA.
      * assert (K : (Z.to_nat i < length (nd_used n))%nat) by lia. split; [now rewrite upd_length|]. split.
        -- intros j p J. rewrite nth_upd by exact K. destruct (Nat.eqb_spec j (Z.to_nat i)) as [EJ|EJ]; [|exact J]. subst j. rewrite J in AT.
           now rewrite (attach_used _ _ _ _ _ _ _ _ _ AT YA).
        -- intros k0 i0 u0 EO _. assert (X : i0 = i /\ u0 = u) by (split; congruence). destruct X as [-> ->]. rewrite nth_upd by exact K. now rewrite Nat.eqb_refl.
      * split; [exact Len|]. split; [tauto|]. intros k0 i0 u0 EO YY. discriminate YY.
    + assert (X : n' = n1) by congruence. assert (Xa : a = No) by congruence. subst n1 a. rewrite GU. split; [exact Len|]. split; [tauto|]. intros k0 i0 u0 EO YY. discriminate YY.
  - assert (X : nd_used n' = nd_used n).
    { destruct (get_slot n k false) as [[sl|] n1] eqn:GS; pose proof (get_slot_used _ _ _ _ _ GS) as GU.
      - destruct (cleanup_of d sl (nd_w n1)) as [q| |]; cbn [Base.bind] in E; [|discriminate E|discriminate E].
        assert (Y : n' = mkNode (drop_slot k (nd_slots n1)) (nd_used n1) (snd q)) by congruence. subst n'. exact GU.
      - assert (Y : n' = n1) by congruence. now subst n'. }
    rewrite X. split; [exact Len|]. split; [tauto|]. intros k0 i0 u0 EO. discriminate EO.
  - assert (X : nd_used n' = nd_used n).
    { destruct (get_slot n k false) as [[sl|] n1] eqn:GS; pose proof (get_slot_used _ _ _ _ _ GS) as GU.
      - destruct (ns_handle sl) as [s|]; [|discriminate E]. destruct (is_live (w_net (nd_w n1)) s); [|discriminate E].
        assert (Y : n' = n1) by congruence. now subst n'.
      - assert (Y : n' = n1) by congruence. now subst n'. }
    rewrite X. split; [exact Len|]. split; [tauto|]. intros k0 i0 u0 EO. discriminate EO.
  - assert (Y : n' = n) by congruence. subst n'. split; [exact Len|]. split; [tauto|]. intros k0 i0 u0 EO. discriminate EO.
Qed.
Lemma run_used d : forall ops n l n', node_run d ops n = Ok (l, n') -> length (nd_used n) = 5%nat ->
  (forall i p, nth i (nd_used n) None = Some p -> nth i (nd_used n') None = Some p) /\
  (forall j k i u a, nth_error ops j = Some (Attach k i u) -> nth_error l j = Some a -> is_yes a = true ->
     nth (Z.to_nat i) (nd_used n') None = Some (u_proto u)).
Proof.
  induction ops as [|o ops IH]; intros n l n' E Len; cbn [node_run] in E.
  - assert (n' = n) by congruence. subst n'. split; [tauto|]. intros j k i u a H. destruct j; discriminate H.
  - destruct (node_step d o n) as [[a1 n1]| |] eqn:E1; cbn [Base.bind fst snd] in E; [|discriminate E|discriminate E].
    destruct (node_run d ops n1) as [[l1 n2]| |] eqn:E2; cbn [Base.bind fst snd] in E; [|discriminate E|discriminate E].
    assert (X : l = a1 :: l1 /\ n' = n2) by (split; congruence). destruct X as [-> ->].
    destruct (step_used _ _ _ _ _ E1 Len) as [S1 [S2 S3]]. destruct (IH _ _ _ E2 S1) as [I1 I2]. split.
    + intros i p H. apply I1. now apply S2.
    + intros j k i u a H1 H2 Y. destruct j as [|j]; cbn in H1, H2.
      * apply I1. apply (S3 k); [congruence|]. congruence.
      * exact (I2 j k i u a H1 H2 Y).
Qed.
Theorem C67_one_protocol : forall d env ops l n j j' k k' i u u' a a',
  node_run d ops (node_new env) = Ok (l, n) ->
  nth_error ops j = Some (Attach k i u) -> nth_error l j = Some a -> a <> No ->
  nth_error ops j' = Some (Attach k' i u') -> nth_error l j' = Some a' -> a' <> No ->
  u_proto u = u_proto u'.
Proof.
  intros d env ops l n j j' k k' i u u' a a' E H1 H2 H3 H4 H5 H6.
  destruct (run_used d ops (node_new env) l n E eq_refl) as [_ R].
  assert (Y : is_yes a = true) by (destruct a; [contradiction|reflexivity|reflexivity]).
  assert (Y' : is_yes a' = true) by (destruct a'; [contradiction|reflexivity|reflexivity]).
  pose proof (R _ _ _ _ _ H1 H2 Y) as X1. pose proof (R _ _ _ _ _ H4 H5 Y') as X2. congruence.
Qed.

(* Which port a sender uses for an interface that has none yet: the first open one of
   another interface of the slot that was configured alike and whose address is of the
   same family as the remote one; if there is no such port, one of its own. *)
Theorem C67_sharing : forall sl i f,
  i = 2 \/ i = 3 \/ i = 4 -> np_handle (getp i sl) = None ->
  let fits k := 0 <= k < 5 /\ k <> i /\ np_handle (getp k sl) <> None /\
    np_orig (getp k sl) = np_config (getp i sl) /\
    exists b, c_bind (np_config (getp k sl)) = Some b /\ a_fam b = f in
  (select_port sl i f = i /\ forall k, ~ fits k) \/
  (fits (select_port sl i f) /\ forall k, fits k -> select_port sl i f <= k).
Proof.
  intros sl i f I NH fits.
  assert (FE : forall x y, fam_eq x y = true <-> x = y).
  { intros [] []; cbn; split; intros; congruence. }
  assert (AE : forall x y, addr_eq x y = true <-> x = y).
  { intros [f1 h1 p1] [f2 h2 p2]. unfold addr_eq. cbn [a_fam a_host a_port].
    rewrite !andb_true_iff, FE, !Z.eqb_eq. split; [intros [[-> ->] ->]; reflexivity|].
    intros X. assert (f1 = f2 /\ h1 = h2 /\ p1 = p2) by (repeat split; congruence). tauto. }
  assert (CE : forall x y, config_eq x y = true <-> x = y).
  { intros [[b1|] r1] [[b2|] r2]; unfold config_eq; cbn [c_bind c_rest];
    rewrite ?andb_true_iff, ?AE, ?Z.eqb_eq; split; intros; try congruence;
    try (destruct H; congruence). 1, 2: split; congruence. }
  assert (SH : forall k, 0 <= k < 5 -> (shareable sl i f k = true <-> fits k)).
  { intros k K. unfold shareable, fits. rewrite !andb_true_iff, CE, negb_true_iff, Z.eqb_neq.
    destruct (np_handle (getp k sl)); [|intuition congruence].
    destruct (c_bind (np_config (getp k sl))) as [b|].
    - rewrite FE. split.
      + intros [[[? ?] ?] ?]. repeat split; try lia; try congruence. exists b. auto.
      + intros (? & ? & ? & ? & b' & X & ?). assert (b' = b) by congruence. subst. auto.
    - split; [intros [[[? ?] ?] ?]; discriminate|].
      intros (? & ? & ? & ? & b' & X & ?). discriminate X. }
  assert (EI : endpoint_iface i = true).
  { unfold endpoint_iface, iface_source, iface_repair, iface_control. lia. }
  unfold select_port. rewrite EI, NH. cbn [andb].
  assert (NO : forall k, shareable sl i f k = false -> 0 <= k < 5 -> ~ fits k).
  { intros k X K Y. apply SH in Y; auto. congruence. }
  assert (IN : forall k, fits k -> k = 0 \/ k = 1 \/ k = 2 \/ k = 3 \/ k = 4).
  { intros k (X & _). lia. }
  cbn [find]. destruct (shareable sl i f 0) eqn:E0.
  { right. split; [apply SH; auto; lia|]. intros k X. apply IN in X. lia. }
  destruct (shareable sl i f 1) eqn:E1.
  { right. split; [apply SH; auto; lia|]. intros k X. pose proof (IN k X) as [->|Y]; [|lia].
    exfalso. apply (NO 0); auto; lia. }
  destruct (shareable sl i f 2) eqn:E2.
  { right. split; [apply SH; auto; lia|]. intros k X.
    pose proof (IN k X) as [->|[->|Y]]; [| |lia]; exfalso;
    [apply (NO 0)|apply (NO 1)]; auto; lia. }
  destruct (shareable sl i f 3) eqn:E3.
  { right. split; [apply SH; auto; lia|]. intros k X.
    pose proof (IN k X) as [->|[->|[->|Y]]]; [| | |lia]; exfalso;
    [apply (NO 0)|apply (NO 1)|apply (NO 2)]; auto; lia. }
  destruct (shareable sl i f 4) eqn:E4.
  { right. split; [apply SH; auto; lia|]. intros k X.
    pose proof (IN k X) as [->|[->|[->|[->|Y]]]]; [| | | |lia]; exfalso;
    [apply (NO 0)|apply (NO 1)|apply (NO 2)|apply (NO 3)]; auto; lia. }
  left. split; auto. intros k X.
  pose proof (IN k X) as [->|[->|[->|[->|X4]]]]; [| | | |subst k];
  [apply (NO 0) in X|apply (NO 1) in X|apply (NO 2) in X|apply (NO 3) in X|apply (NO 4) in X];
  auto; lia.
Qed.
(* The local address of an outgoing port that is not open yet: the configured one, which
   must be of the family of the remote address; if none is configured, any address of that
   family with a port number chosen by the system. *)
Theorem C67_outgoing_address : forall p f, np_handle p = None ->
  match c_bind (np_config p) with
  | Some b => (a_fam b = f -> exists q, setup_port p f = Some q /\ np_config q = np_config p /\
                np_orig q = np_config p /\ np_handle q = None) /\
              (a_fam b <> f -> setup_port p f = None)
  | None => exists q, setup_port p f = Some q /\ c_bind (np_config q) = Some (mkAddr f 0 0) /\
              c_rest (np_config q) = c_rest (np_config p) /\
              np_orig q = np_config p /\ np_handle q = None
  end.
Proof.
  intros p f H. unfold setup_port. destruct (c_bind (np_config p)) as [b|].
  - split; intros X.
    + assert (F : fam_eq (a_fam b) f = true) by (rewrite X; destruct f; reflexivity).
      rewrite F, H. cbn [negb]. eexists. split; [reflexivity|]. cbn. auto.
    + assert (F : fam_eq (a_fam b) f = false) by (destruct (a_fam b), f; auto; congruence).
      rewrite F. reflexivity.
  - rewrite H. eexists. split; [reflexivity|]. cbn. auto.
Qed.

(* --- cases --- *)
Definition A (p : Z) : option addr := Some (mkAddr V4 7 p).
Definition U (proto port : Z) : uri := mkUri true proto port.
Definition oks (k : nat) : list (option addr) := repeat (A 5000) k.

Definition ans_of (r : res (list ans * node)) : option (list ans) := match r with Ok (l, _) => Some l | _ => None end.
Definition net_of (r : res (list ans * node)) : net := match r with Ok (_, n) => w_net (nd_w n) | _ => mkNet [] [] end.
Definition run_ans (r : res (list ans * node)) : list ans := match r with Ok (l, _) => l | _ => [] end.
Definition run_node (r : res (list ans * node)) : node := match r with Ok (_, n) => n | _ => node_new [] end.
Definition run_done (r : res (list ans * node)) : bool := match r with Ok _ => true | _ => false end.
Lemma run_eq r : run_done r = true -> r = Ok (run_ans r, run_node r).
Proof. destruct r as [[l n]| |]; [reflexivity|intros H; discriminate H|intros H; discriminate H]. Qed.
Definition world_of (r : res world) : world := match r with Ok w => w | _ => nd_w (node_new []) end.
Definition closed (r : res world) : bool := match r with Ok _ => true | _ => false end.
Lemma close_eq r : closed r = true -> r = Ok (world_of r).
Proof. destruct r as [w| |]; [reflexivity|intros H; discriminate H|intros H; discriminate H]. Qed.
Lemma oks_ok k : env_ok (oks k).
Proof. intros a I. apply repeat_spec in I. assert (E : a = mkAddr V4 7 5000) by (unfold A in I; congruence). subst a. cbn. lia. Qed.

(* A sender with three interfaces that share a port, and a second slot that fails *)
Definition ops_snd : list op :=
  [Attach 0 2 (U 1 10001); Attach 0 3 (U 2 10002); Attach 0 4 (U 3 10003); Query 0; Attach 1 2 (mkUri false 1 0);
   HasBroken; Configure 1 2 cfg0; Unlink 1; HasBroken; Unlink 1].
Example C67_sender_case :
  Forall valid_op ops_snd /\
  ans_of (node_run Snd ops_snd (node_new (oks 40))) = Some [Yes; Yes; Yes; Yes; No; Yes; No; Yes; No; No] /\
  net_of (node_run Snd ops_snd (node_new (oks 40))) =
    mkNet [mkPort 0 (mkAddr V4 0 5000) (Some (0%nat, 4))] [(0%nat, [mkEp 4 3 (Some 0%nat); mkEp 3 2 (Some 0%nat); mkEp 2 1 (Some 0%nat)])].
Proof.
  split; [|split; reflexivity]. unfold ops_snd. repeat (constructor; [cbn; try lia; try exact I|]). constructor.
Qed.
(* A receiver that binds three interfaces, one with a port number that is chosen *)
Definition ops_rcv : list op :=
  [Attach 5 2 (U 1 0); Attach 5 3 (U 2 10002); Attach 5 4 (U 3 10003); Query 5; Attach 6 2 (U 1 10001); Unlink 5; Attach 5 2 (U 1 0)].
Definition rcv_env : list (option addr) :=
  [A 1; A 0; A 5001; A 1; A 1; A 10002; A 1; A 1; A 1; A 10003; A 1; A 1; A 1; A 1; A 1; None; A 1; A 0; A 5002; A 1; A 1].
Example C67_receiver_case :
  Forall valid_op ops_rcv /\ once [] ops_rcv /\ env_ok rcv_env /\
  ans_of (node_run Rcv ops_rcv (node_new rcv_env)) = Some [YesPort 5001; Yes; Yes; Yes; No; Yes; YesPort 5002].
Proof.
  split; [|split; [|split; [|reflexivity]]].
  - unfold ops_rcv. repeat (constructor; [cbn; try lia; try exact I|]). constructor.
  - cbn. repeat split; try (intros H; repeat (destruct H as [H|H]; [discriminate H|]); exact H); tauto.
  - intros a H. unfold rcv_env, A in H. cbn in H.
    repeat (destruct H as [H|H]; [try discriminate H; assert (E : a = a) by reflexivity; revert E; injection H; intros <- _; cbn; lia|]). destruct H.
Qed.

(* --- what does not hold --- *)

(* A second bind of an interface that is bound is refused and breaks the slot, but its
   first port stays open after the slot is unlinked and the receiver destroyed, and goes
   on delivering packets to the endpoint that was deleted. *)
Theorem C67_rebind_refuted : exists env ops l n w p,
  env_ok env /\ Forall valid_op ops /\ node_run Rcv ops (node_new env) = Ok (l, n) /\ l = [Yes; No; Yes] /\
  node_close Rcv n = Ok w /\ n_slots (w_net w) = [] /\ In p (n_ports (w_net w)) /\ p_recv p = Some (0%nat, 2).
Proof.
  set (ops := [Attach 0 2 (U 1 10001); Attach 0 2 (U 1 10001); Unlink 0]).
  set (r := node_run Rcv ops (node_new (oks 20))). set (c := node_close Rcv (run_node r)).
  exists (oks 20), ops, (run_ans r), (run_node r), (world_of c), (mkPort 0 (mkAddr V4 7 5000) (Some (0%nat, 2))).
  split; [apply oks_ok|]. split; [repeat (constructor; [cbn; try lia; try exact I|]); constructor|].
  split; [apply run_eq; vm_compute; reflexivity|]. split; [vm_compute; reflexivity|].
  split; [apply close_eq; vm_compute; reflexivity|]. split; [vm_compute; reflexivity|]. split; [vm_compute; now left|reflexivity].
Qed.
(* Asking a broken slot for its metrics aborts the process, for senders and receivers. *)
Theorem C67_query_refuted : forall d, exists env ops, env_ok env /\ Forall valid_op ops /\
  ops = [Attach 0 2 (mkUri false 1 0); Query 0] /\ node_run d ops (node_new env) = Panic.
Proof.
  intros d. exists (oks 5), [Attach 0 2 (mkUri false 1 0); Query 0].
  split; [apply oks_ok|]. split; [repeat (constructor; [cbn; try lia; try exact I|]); constructor|].
  split; [reflexivity|]. destruct d; reflexivity.
Qed.
(* A sender accepts a configuration for an interface that is connected already, if that
   interface shares the port of another one. *)
Theorem C67_late_configure_refuted : exists env ops l n, env_ok env /\ Forall valid_op ops /\
  ops = [Attach 0 2 (U 1 10001); Attach 0 3 (U 2 10002); Configure 0 3 (mkCfg (Some (mkAddr V4 9 9)) 0)] /\
  node_run Snd ops (node_new env) = Ok (l, n) /\ l = [Yes; Yes; Yes].
Proof.
  set (ops := [Attach 0 2 (U 1 10001); Attach 0 3 (U 2 10002); Configure 0 3 (mkCfg (Some (mkAddr V4 9 9)) 0)]).
  set (r := node_run Snd ops (node_new (oks 20))).
  exists (oks 20), ops, (run_ans r), (run_node r). split; [apply oks_ok|].
  split; [repeat (constructor; [cbn; try lia; try exact I|]); constructor|]. split; [reflexivity|].
  split; [apply run_eq; vm_compute; reflexivity|vm_compute; reflexivity].
Qed.
(* The protocol of an interface stays fixed after everything is unlinked: the last call
   would be accepted if it were the first. *)
Theorem C67_relink_protocol_refuted : forall d, exists env ops l n l1 n1, env_ok env /\ Forall valid_op ops /\
  ops = [Attach 0 2 (U 1 10001); Unlink 0; Attach 0 2 (U 9 10001)] /\
  node_run d ops (node_new env) = Ok (l, n) /\ l = [Yes; Yes; No] /\
  node_run d [Attach 0 2 (U 9 10001)] (node_new env) = Ok (l1, n1) /\ l1 = [Yes].
Proof.
  intros d. set (ops := [Attach 0 2 (U 1 10001); Unlink 0; Attach 0 2 (U 9 10001)]).
  set (r := node_run d ops (node_new (oks 40))). set (r1 := node_run d [Attach 0 2 (U 9 10001)] (node_new (oks 40))).
  exists (oks 40), ops, (run_ans r), (run_node r), (run_ans r1), (run_node r1). split; [apply oks_ok|].
  split; [repeat (constructor; [cbn; try lia; try exact I|]); constructor|]. split; [reflexivity|].
  split; [apply run_eq; destruct d; vm_compute; reflexivity|]. split; [destruct d; vm_compute; reflexivity|].
  split; [apply run_eq; destruct d; vm_compute; reflexivity|destruct d; vm_compute; reflexivity].
Qed.
(* The order of the cleanup protects one direction only. While a sender is cleaned up its
   port can still deliver to the deleted control endpoint; while a receiver is cleaned up
   its control endpoint can still send to a removed port. *)
Theorem C67_cleanup_window_refuted : forall d, exists env ops l n m, env_ok env /\ Forall valid_op ops /\ once [] ops /\
  ops = [Attach 0 4 (U 3 10003); Unlink 0] /\ node_run d ops (node_new env) = Ok (l, n) /\ l = [Yes; Yes] /\
  In m (w_seen (nd_w n)) /\ match d with Snd => ~ deliveries_live m | Rcv => ~ sends_open m end.
Proof.
  intros d. set (ops := [Attach 0 4 (U 3 10003); Unlink 0]). set (r := node_run d ops (node_new (oks 20))).
  exists (oks 20), ops, (run_ans r), (run_node r).
  exists (match d with Snd => mkNet [mkPort 0 (mkAddr V4 0 5000) (Some (0%nat, 4))] [] | Rcv => mkNet [] [(0%nat, [mkEp 4 3 (Some 0%nat)])] end).
  split; [apply oks_ok|]. split; [repeat (constructor; [cbn; try lia; try exact I|]); constructor|].
  split; [cbn; tauto|]. split; [reflexivity|]. split; [apply run_eq; destruct d; vm_compute; reflexivity|].
  split; [destruct d; vm_compute; reflexivity|]. destruct d.
  - split; [vm_compute; right; left; reflexivity|].
    intros H. destruct (H _ _ _ (or_introl eq_refl) eq_refl) as [eps [e [[] _]]].
  - split; [vm_compute; right; left; reflexivity|].
    intros H. destruct (H _ _ _ _ (or_introl eq_refl) (or_introl eq_refl) eq_refl) as [p [[] _]].
Qed.

(* Source is open on a port of the other family, repair on one of the right family with the
   same configuration: control shares the port of repair. *)
Example ex_sharing :
  let sl := mkNs 0 (Some 0%nat) [np0; np0;
    mkNp (mkCfg (Some (mkAddr V6 0 5)) 0) cfg0 (Some 1%nat) (Some 1%nat);
    mkNp (mkCfg (Some (mkAddr V4 0 6)) 0) cfg0 (Some 2%nat) (Some 2%nat); np0] false in
  np_handle (getp 4 sl) = None /\ select_port sl 4 V4 = 3 /\ select_port sl 4 V6 = 2.
Proof. vm_compute. auto. Qed.
Example ex_outgoing :
  let p := mkNp (mkCfg (Some (mkAddr V4 9 7)) 0) cfg0 None None in
  np_handle p = None /\ setup_port p V6 = None /\ setup_port p V4 <> None.
Proof. vm_compute. repeat split; discriminate. Qed.

Print Assumptions C67_api.
Print Assumptions C67_no_leak.
Print Assumptions C67_close.
Print Assumptions C67_moments.
Print Assumptions C67_reported_port.
Print Assumptions C67_one_protocol.
Print Assumptions C67_rebind_refuted.
Print Assumptions C67_query_refuted.
Print Assumptions C67_late_configure_refuted.
Print Assumptions C67_relink_protocol_refuted.
Print Assumptions C67_cleanup_window_refuted.
Print Assumptions C67_sharing.
Print Assumptions C67_outgoing_address.
