(* Proofs about the slots of sender and receiver nodes. *)
From Coq Require Import ZArith List Bool Arith Lia.
From Verif Require Import Base NodeSlots_model NodeSlots_spec.
Import ListNotations.
Local Open Scope Z_scope.
Local Open Scope res_scope.

Lemma upd_length {X} (l : list X) k x : (k < length l)%nat -> length (upd l k x) = length l.
Proof. intros H. unfold upd. rewrite app_length, firstn_length. cbn [length]. rewrite skipn_length. lia. Qed.
Lemma nth_upd {X} (l : list X) k x j (dd : X) : (k < length l)%nat -> nth j (upd l k x) dd = if (j =? k)%nat then x else nth j l dd.
Proof.
  revert k j. induction l as [|y l IH]; intros k j H; cbn in H; [lia|].
  destruct k as [|k].
  - destruct j; reflexivity.
  - destruct j as [|j]; [reflexivity|]. cbn. apply IH. lia.
Qed.
Lemma upd_mid {X} (a : list X) x y b : upd (a ++ x :: b) (length a) y = a ++ y :: b.
Proof. induction a as [|z a IH]; [reflexivity|]. cbn. unfold upd in *. cbn in *. now rewrite IH. Qed.

Definition hnd (ps : list nport) (j : nat) : option nat := np_handle (nth j ps np0).
Lemma hnd_upd ps k p j : (k < length ps)%nat -> hnd (upd ps k p) j = if (j =? k)%nat then np_handle p else hnd ps j.
Proof. intros H. unfold hnd. rewrite nth_upd by exact H. now destruct (j =? k)%nat. Qed.
Lemma hnd_lt ps j h : hnd ps j = Some h -> (j < length ps)%nat.
Proof.
  intros H. destruct (Nat.lt_ge_cases j (length ps)) as [L|L]; [exact L|].
  unfold hnd in H. rewrite nth_overflow in H by exact L. discriminate H.
Qed.

Definition covers (n loc : net) (oP : port -> Prop) (oS : nat * list ep -> Prop) : Prop :=
  (forall p, In p (n_ports n) <-> In p (n_ports loc) \/ oP p) /\
  (forall x, In x (n_slots n) <-> In x (n_slots loc) \/ oS x).
Definition wfn (n : net) (np ns : nat) : Prop :=
  NoDup (map p_id (n_ports n)) /\ (forall p, In p (n_ports n) -> (p_id p < np)%nat) /\
  NoDup (map fst (n_slots n)) /\ (forall x, In x (n_slots n) -> (fst x < ns)%nat).
Definition good (d : side) (n : net) : Prop := match d with Snd => sends_open n | Rcv => deliveries_live n end.

(* net operations *)
Definition recv_f (h s : nat) (i : Z) (p : port) : port := if (p_id p =? h)%nat then mkPort (p_id p) (p_bind p) (Some (s, i)) else p.
Lemma recv_f_id h s i p : p_id (recv_f h s i p) = p_id p.
Proof. unfold recv_f. now destruct (p_id p =? h)%nat. Qed.
Definition ep_f (s : nat) (e : ep) (x : nat * list ep) : nat * list ep := if (fst x =? s)%nat then (fst x, e :: snd x) else x.
Lemma ep_f_id s e x : fst (ep_f s e x) = fst x.
Proof. unfold ep_f. now destruct (fst x =? s)%nat. Qed.
Lemma NoDup_map_filter {X} (f : X -> nat) (g : X -> bool) l : NoDup (map f l) -> NoDup (map f (filter g l)).
Proof.
  induction l as [|x l IH]; intros H; [constructor|]. cbn in *. apply NoDup_cons_iff in H as [H1 H2].
  destruct (g x); [|now apply IH]. cbn. constructor; [|now apply IH].
  intros C. apply H1. apply in_map_iff in C as [y [E C]]. apply filter_In in C as [C _]. apply in_map_iff. exists y. tauto.
Qed.
Lemma is_open_true n h : is_open n h = true <-> exists p, In p (n_ports n) /\ p_id p = h.
Proof.
  unfold is_open. rewrite existsb_exists. split; intros [p [A B]]; exists p; (split; [exact A|]).
  - now apply Nat.eqb_eq. - now apply Nat.eqb_eq.
Qed.
Lemma is_live_true n s : is_live n s = true <-> exists x, In x (n_slots n) /\ fst x = s.
Proof.
  unfold is_live. rewrite existsb_exists. split; intros [p [A B]]; exists p; (split; [exact A|]).
  - now apply Nat.eqb_eq. - now apply Nat.eqb_eq.
Qed.

Section Local.
Variable d : side.
Variable Q : net -> Prop.
Variable oP : port -> Prop.
Variable oS : nat * list ep -> Prop.
Variable seen0 : list net.
Hypothesis Qok : forall n loc, covers n loc oP oS -> good d loc -> Q n.

Record LI (ps : list nport) (hd : option nat) (w : world) (loc : net) : Prop := mkLI {
  li_wf : wfn (w_net w) (w_nport w) (w_nslot w);
  li_cov : covers (w_net w) loc oP oS;
  li_dp : forall p q, In p (n_ports loc) -> oP q -> p_id p <> p_id q;
  li_ds : forall x y, In x (n_slots loc) -> oS y -> fst x <> fst y;
  li_ports : forall h, In h (map p_id (n_ports loc)) <-> exists j, hnd ps j = Some h;
  li_nd : NoDup (map p_id (n_ports loc));
  li_uni : forall i j h, hnd ps i = Some h -> hnd ps j = Some h -> i = j;
  li_slots : map fst (n_slots loc) = match hd with Some s => [s] | None => [] end;
  li_good : good d loc;
  li_env : env_ok (w_env w);
  li_seen : exists new, w_seen w = new ++ seen0 /\ Forall Q new
}.

Lemma LI_ask ps hd w loc a w' : LI ps hd w loc -> ask w = (a, w') -> LI ps hd w' loc.
Proof.
  intros L E. unfold ask in E. destruct (w_env w) as [|b env] eqn:EE; [assert (w' = w) by congruence; subst; exact L|].
  assert (E' : w' = mkWorld (w_net w) (w_nport w) (w_nslot w) env (w_seen w)) by congruence. subst w'.
  assert (F : env_ok env).
  { pose proof (li_env _ _ _ _ L) as V. rewrite EE in V. intros x I. apply V. now right. }
  destruct L. constructor; cbn; assumption.
Qed.
Lemma LI_asked ps hd w loc a w' : LI ps hd w loc -> ask w = (Some a, w') -> 0 <= a_port a <= 65535.
Proof.
  intros L E. pose proof (li_env _ _ _ _ L) as V. unfold ask in E. destruct (w_env w) as [|b env].
  - assert (X : None = Some a) by congruence. discriminate X.
  - apply V. left. congruence.
Qed.
Lemma LI_ps ps ps' hd w loc : LI ps hd w loc -> (forall j, hnd ps' j = hnd ps j) -> LI ps' hd w loc.
Proof.
  intros L E. destruct L. constructor; try assumption.
  - intros h. rewrite li_ports0. split; intros [j J]; exists j; [rewrite E|rewrite <- E]; exact J.
  - intros i j h. rewrite !E. apply li_uni0.
Qed.
Lemma seen_move w n loc : (exists new, w_seen w = new ++ seen0 /\ Forall Q new) -> covers n loc oP oS -> good d loc ->
  exists new, n :: w_seen w = new ++ seen0 /\ Forall Q new.
Proof. intros [new [E F]] C G. exists (n :: new). split; [cbn; now rewrite E|]. constructor; [now apply (Qok n loc)|exact F]. Qed.

Lemma LI_open ps hd w loc j h : LI ps hd w loc -> hnd ps j = Some h -> is_open (w_net w) h = true.
Proof.
  intros L J. apply is_open_true. assert (I : In h (map p_id (n_ports loc))) by (apply (li_ports _ _ _ _ L); now exists j).
  apply in_map_iff in I as [p [E I]]. exists p. split; [|exact E]. apply (proj1 (li_cov _ _ _ _ L)). now left.
Qed.
Lemma LI_live ps s w loc : LI ps (Some s) w loc -> is_live (w_net w) s = true.
Proof.
  intros L. apply is_live_true. assert (I : In s (map fst (n_slots loc))) by (rewrite (li_slots _ _ _ _ L); now left).
  apply in_map_iff in I as [p [E I]]. exists p. split; [|exact E]. apply (proj2 (li_cov _ _ _ _ L)). now left.
Qed.

Lemma LI_add ps hd w loc k c h b w' p' :
  LI ps hd w loc -> (k < length ps)%nat -> hnd ps k = None -> t_add_port w c = (Some (h, b), w') -> np_handle p' = Some h ->
  LI (upd ps k p') hd w' (net_add h b loc).
Proof.
  intros L K N E P. unfold t_add_port in E. destruct (ask w) as [a w1] eqn:A.
  apply (LI_ask _ _ _ _ _ _ L) in A. clear L w.
  destruct a as [a|]; [|assert (X : None = Some (h, b)) by congruence; discriminate X].
  set (b' := match c_bind c with Some b => _ | None => a end) in E.
  assert (Eh : h = w_nport w1) by congruence. assert (Eb : b' = b) by congruence. rewrite Eb in E.
  assert (Ew : w' = move (net_add (w_nport w1) b (w_net w1)) (mkWorld (w_net w1) (S (w_nport w1)) (w_nslot w1) (w_env w1) (w_seen w1))) by congruence.
  subst w' h. clear E Eb b'. destruct A as [[W1 [W2 [W3 W4]]] [C1 C2] DP DS PO ND UN SL GO EN SE].
  assert (FR : forall p, In p (n_ports loc) -> p_id p <> w_nport w1).
  { intros p I. specialize (W2 p (proj2 (C1 p) (or_introl I))). lia. }
  assert (CV : covers (net_add (w_nport w1) b (w_net w1)) (net_add (w_nport w1) b loc) oP oS).
  { split; [|exact C2]. intros p. cbn. rewrite C1. tauto. }
  assert (GD : good d (net_add (w_nport w1) b loc)).
  { destruct d; cbn in *.
    - intros s eps e h I1 I2 I3. destruct (GO s eps e h I1 I2 I3) as [p [J1 J2]]. exists p. split; [now right|exact J2].
    - intros p s i [I|I] R; [subst p; discriminate R|]. exact (GO p s i I R). }
  assert (FH : forall j, hnd ps j <> Some (w_nport w1)).
  { intros j J. assert (I : In (w_nport w1) (map p_id (n_ports loc))) by (apply PO; now exists j).
    apply in_map_iff in I as [p [E I]]. exact (FR p I E). }
  constructor; cbn [w_net w_nport w_nslot w_seen move].
  - repeat split.
    + cbn. constructor; [|exact W1]. intros I. apply in_map_iff in I as [p [E I]]. specialize (W2 p I). lia.
    + intros p [I|I]; [subst p; cbn; lia|]. specialize (W2 p I). lia.
    + exact W3. + exact W4.
  - exact CV.
  - intros p q [I|I] O1; [subst p; cbn|now apply DP]. specialize (W2 q (proj2 (C1 q) (or_intror O1))). lia.
  - exact DS.
  - intros h. cbn. split.
    + intros [E|I].
      * exists k. rewrite hnd_upd by exact K. rewrite Nat.eqb_refl. now rewrite P, E.
      * apply PO in I as [j J]. exists j. rewrite hnd_upd by exact K. destruct (Nat.eqb_spec j k) as [E|E]; [congruence|exact J].
    + intros [j J]. rewrite hnd_upd in J by exact K. destruct (Nat.eqb_spec j k) as [E|E].
      * left. congruence.
      * right. apply PO. now exists j.
  - cbn. constructor; [|exact ND]. intros I. apply in_map_iff in I as [p [E I]]. exact (FR p I E).
  - intros i j h. rewrite !hnd_upd by exact K. destruct (Nat.eqb_spec i k) as [E1|E1]; destruct (Nat.eqb_spec j k) as [E2|E2]; intros H1 H2.
    + congruence.
    + exfalso. apply (FH j). congruence.
    + exfalso. apply (FH i). congruence.
    + exact (UN i j h H1 H2).
  - exact SL.
  - exact GD.
  - exact EN.
  - apply (seen_move (mkWorld (w_net w1) (S (w_nport w1)) (w_nslot w1) (w_env w1) (w_seen w1)) _ _ SE CV GD).
Qed.

Lemma LI_add_none ps hd w loc c w' : LI ps hd w loc -> t_add_port w c = (None, w') -> LI ps hd w' loc.
Proof.
  intros L E. unfold t_add_port in E. destruct (ask w) as [a w1] eqn:A. destruct a as [a|].
  - assert (X : fst (Some (w_nport w1, match c_bind c with Some b => if a_port b =? 0 then mkAddr (a_fam b) (a_host b) (a_port a) else b | None => a end), w1) = None).
    { pose proof (f_equal fst E) as F. exact F. } discriminate X.
  - assert (w' = w1) by congruence. subst w'. exact (LI_ask _ _ _ _ _ _ L A).
Qed.

Lemma LI_send ps hd w loc j h : LI ps hd w loc -> hnd ps j = Some h ->
  exists b w', t_start_send w h = Ok (b, w') /\ LI ps hd w' loc.
Proof.
  intros L J. unfold t_start_send. rewrite (LI_open _ _ _ _ _ _ L J). destruct (ask w) as [a w1] eqn:A.
  do 2 eexists. split; [reflexivity|]. exact (LI_ask _ _ _ _ _ _ L A).
Qed.

Lemma LI_recv ps hd w loc j h s i : LI ps hd w loc -> hnd ps j = Some h -> good d (net_recv h s i loc) ->
  exists b w', t_start_recv w h s i = Ok (b, w') /\ LI ps hd w' (if b then net_recv h s i loc else loc).
Proof.
  intros L J GD. unfold t_start_recv. rewrite (LI_open _ _ _ _ _ _ L J).
  assert (HI : In h (map p_id (n_ports loc))) by (apply (li_ports _ _ _ _ L); now exists j).
  destruct (ask w) as [a w1] eqn:A. apply (LI_ask _ _ _ _ _ _ L) in A. clear L w.
  destruct a as [a|]; [|exists false, w1; split; [reflexivity|exact A]].
  exists true, (move (net_recv h s i (w_net w1)) w1). split; [reflexivity|].
  destruct A as [[W1 [W2 [W3 W4]]] [C1 C2] DP DS PO ND UN SL GO EN SE].
  assert (OH : forall q, oP q -> recv_f h s i q = q).
  { intros q O1. unfold recv_f. destruct (Nat.eqb_spec (p_id q) h) as [E|E]; [|reflexivity].
    apply in_map_iff in HI as [p [E2 I]]. exfalso. exact (DP p q I O1 (eq_trans E2 (eq_sym E))). }
  assert (CV : covers (net_recv h s i (w_net w1)) (net_recv h s i loc) oP oS).
  { split; [|exact C2]. intros p. unfold net_recv. cbn [n_ports]. fold (recv_f h s i). rewrite !in_map_iff. split.
    - intros [q [E I]]. apply C1 in I as [I|I]; [left; now exists q|right]. rewrite (OH q I) in E. now subst q.
    - intros [[q [E I]]|O1]; [exists q; split; [exact E|apply C1; now left]|]. exists p. split; [now apply OH|apply C1; now right]. }
  assert (IDS : forall l, map p_id (map (recv_f h s i) l) = map p_id l).
  { intros l. rewrite map_map. apply map_ext. intros p. apply recv_f_id. }
  constructor; cbn [w_net w_nport w_nslot w_seen move].
  - repeat split.
    + change (NoDup (map p_id (map (recv_f h s i) (n_ports (w_net w1))))). rewrite IDS. exact W1.
    + intros p I. change (In p (map (recv_f h s i) (n_ports (w_net w1)))) in I. apply in_map_iff in I as [q [E I]]. subst p.
      rewrite recv_f_id. exact (W2 q I).
    + exact W3. + exact W4.
  - exact CV.
  - intros p q I O1. change (In p (map (recv_f h s i) (n_ports loc))) in I. apply in_map_iff in I as [p0 [E I]]. subst p.
    rewrite recv_f_id. exact (DP p0 q I O1).
  - exact DS.
  - change (n_ports (net_recv h s i loc)) with (map (recv_f h s i) (n_ports loc)). rewrite IDS. exact PO.
  - change (n_ports (net_recv h s i loc)) with (map (recv_f h s i) (n_ports loc)). rewrite IDS. exact ND.
  - exact UN.
  - exact SL.
  - exact GD.
  - exact EN.
  - exact (seen_move _ _ _ SE CV GD).
Qed.

Lemma good_recv_snd h s i loc : sends_open loc -> sends_open (net_recv h s i loc).
Proof.
  intros G s' eps e h' I1 I2 I3. destruct (G s' eps e h' I1 I2 I3) as [p [J1 J2]]. exists (recv_f h s i p). split.
  - change (In (recv_f h s i p) (map (recv_f h s i) (n_ports loc))). now apply in_map.
  - now rewrite recv_f_id.
Qed.

(* removing the port at position k *)
Lemma LI_remove ps hd w loc k h p' :
  LI ps hd w loc -> hnd ps k = Some h -> np_handle p' = None -> good d (net_remove h loc) ->
  exists w', t_remove_port w h = Ok w' /\ LI (upd ps k p') hd w' (net_remove h loc).
Proof.
  intros L J P GD. unfold t_remove_port. rewrite (LI_open _ _ _ _ _ _ L J).
  exists (move (net_remove h (w_net w)) w). split; [reflexivity|].
  assert (HI : In h (map p_id (n_ports loc))) by (apply (li_ports _ _ _ _ L); now exists k).
  pose proof (hnd_lt _ _ _ J) as K.
  destruct L as [[W1 [W2 [W3 W4]]] [C1 C2] DP DS PO ND UN SL GO EN SE].
  assert (OH : forall q, oP q -> p_id q <> h).
  { intros q O1 E. apply in_map_iff in HI as [p [E2 I]]. exact (DP p q I O1 (eq_trans E2 (eq_sym E))). }
  assert (CV : covers (net_remove h (w_net w)) (net_remove h loc) oP oS).
  { split; [|exact C2]. intros p. cbn. rewrite !filter_In, C1, negb_true_iff, Nat.eqb_neq. specialize (OH p). tauto. }
  constructor; cbn [w_net w_nport w_nslot w_seen move].
  - repeat split.
    + cbn. now apply NoDup_map_filter.
    + intros p I. cbn in I. apply filter_In in I as [I _]. exact (W2 p I).
    + exact W3. + exact W4.
  - exact CV.
  - intros p q I O1. cbn in I. apply filter_In in I as [I _]. exact (DP p q I O1).
  - exact DS.
  - intros h'. split.
    + intros I. cbn in I. apply in_map_iff in I as [p [E I]]. apply filter_In in I as [I N].
      rewrite negb_true_iff, Nat.eqb_neq in N.
      assert (I2 : In h' (map p_id (n_ports loc))) by (apply in_map_iff; now exists p).
      apply PO in I2 as [j J2]. exists j. rewrite hnd_upd by exact K. destruct (Nat.eqb_spec j k) as [E2|E2]; [congruence|exact J2].
    + intros [j J2]. rewrite hnd_upd in J2 by exact K. destruct (Nat.eqb_spec j k) as [E2|E2]; [congruence|].
      assert (I2 : In h' (map p_id (n_ports loc))) by (apply PO; now exists j).
      apply in_map_iff in I2 as [p [E I]]. cbn. apply in_map_iff. exists p. split; [exact E|]. apply filter_In. split; [exact I|].
      rewrite negb_true_iff, Nat.eqb_neq. intros E3. apply E2. apply (UN j k h); [|exact J]. congruence.
  - cbn. now apply NoDup_map_filter.
  - intros i j h'. rewrite !hnd_upd by exact K. destruct (Nat.eqb_spec i k); destruct (Nat.eqb_spec j k); try congruence. apply UN.
  - exact SL.
  - exact GD.
  - exact EN.
  - exact (seen_move _ _ _ SE CV GD).
Qed.

Lemma remove_ports_ok : forall ps pre hd w loc,
  LI (pre ++ ps) hd w loc -> (d = Rcv \/ n_slots loc = []) ->
  exists ps' w' loc', remove_ports ps w = Ok (ps', w') /\ LI (pre ++ ps') hd w' loc' /\ n_slots loc' = n_slots loc /\
    (forall j, hnd ps' j = None) /\ length ps' = length ps.
Proof.
  induction ps as [|p ps IH]; intros pre hd w loc L D.
  - exists [], w, loc. split; [reflexivity|]. split; [exact L|]. split; [reflexivity|]. split; [|reflexivity]. intros j. unfold hnd. now destruct j.
  - cbn [remove_ports].
    assert (HK : hnd (pre ++ p :: ps) (length pre) = np_handle p).
    { unfold hnd. rewrite app_nth2 by lia. now rewrite Nat.sub_diag. }
    destruct (np_handle p) as [h|] eqn:HP.
    + set (p' := mkNp (np_config p) (np_orig p) None (np_writer p)).
      assert (GD : good d (net_remove h loc)).
      { destruct L as [_ _ _ _ _ _ _ _ GO _ _]. destruct d; cbn in *.
        - destruct D as [D|D]; [discriminate D|]. intros s eps e h' I1 I2 I3. cbn in I1. rewrite D in I1. destruct I1.
        - intros q s i I R. cbn in I. apply filter_In in I as [I _]. exact (GO q s i I R). }
      destruct (LI_remove _ _ _ _ _ _ p' L HK eq_refl GD) as [w1 [E1 L1]]. rewrite upd_mid in L1.
      replace (pre ++ p' :: ps) with ((pre ++ [p']) ++ ps) in L1 by now rewrite <- app_assoc.
      destruct (IH _ _ _ _ L1 D) as [ps' [w' [loc' [E2 [L2 [S2 [N2 Len]]]]]]].
      exists (p' :: ps'), w', loc'. rewrite E1. cbn [Base.bind fst snd]. rewrite E2. cbn [Base.bind fst snd].
      split; [reflexivity|]. rewrite <- app_assoc in L2. split; [exact L2|]. split; [exact S2|]. split; [|cbn; lia].
      intros j. destruct j as [|j]; [reflexivity|]. exact (N2 j).
    + replace (pre ++ p :: ps) with ((pre ++ [p]) ++ ps) in L by now rewrite <- app_assoc.
      destruct (IH _ _ _ _ L D) as [ps' [w' [loc' [E2 [L2 [S2 [N2 Len]]]]]]].
      exists (p :: ps'), w', loc'. cbn [Base.bind fst snd]. rewrite E2. cbn [Base.bind fst snd].
      split; [reflexivity|]. rewrite <- app_assoc in L2. split; [exact L2|]. split; [exact S2|]. split; [|cbn; lia].
      intros j. destruct j as [|j]; [exact HP|]. exact (N2 j).
Qed.

Lemma LI_delete ps s w loc : LI ps (Some s) w loc -> good d (net_delete s loc) ->
  exists w', t_delete_slot w s = Ok w' /\ LI ps None w' (net_delete s loc) /\ n_slots (net_delete s loc) = [].
Proof.
  intros L GD. unfold t_delete_slot. rewrite (LI_live _ _ _ _ L).
  exists (move (net_delete s (w_net w)) w). split; [reflexivity|].
  destruct L as [[W1 [W2 [W3 W4]]] [C1 C2] DP DS PO ND UN SL GO EN SE].
  assert (HS : exists eps, n_slots loc = [(s, eps)]).
  { destruct (n_slots loc) as [|[s' eps] [|]]; cbn in SL; try discriminate SL. exists eps. congruence. }
  destruct HS as [eps HS].
  assert (EM : n_slots (net_delete s loc) = []). { cbn. rewrite HS. cbn. now rewrite Nat.eqb_refl. }
  assert (OH : forall q, oS q -> fst q <> s).
  { intros q O1 E. apply (DS (s, eps) q); [rewrite HS; now left|exact O1|cbn; congruence]. }
  assert (CV : covers (net_delete s (w_net w)) (net_delete s loc) oP oS).
  { split; [exact C1|]. intros p. cbn. rewrite !filter_In, C2, negb_true_iff, Nat.eqb_neq. specialize (OH p). tauto. }
  split; [|exact EM].
  constructor; cbn [w_net w_nport w_nslot w_seen move].
  - repeat split.
    + exact W1. + exact W2.
    + cbn. now apply NoDup_map_filter.
    + intros p I. cbn in I. apply filter_In in I as [I _]. exact (W4 p I).
  - exact CV.
  - exact DP.
  - intros x y I. rewrite EM in I. destruct I.
  - exact PO. - exact ND. - exact UN.
  - now rewrite EM.
  - exact GD.
  - exact EN.
  - exact (seen_move _ _ _ SE CV GD).
Qed.

(* cleanup removes all that the slot holds *)
Lemma no_ports ps hd w loc : LI ps hd w loc -> (forall j, hnd ps j = None) -> n_ports loc = [].
Proof.
  intros L N. destruct (n_ports loc) as [|p l] eqn:E; [reflexivity|].
  assert (I : In (p_id p) (map p_id (n_ports loc))) by (rewrite E; now left).
  apply (li_ports _ _ _ _ L) in I as [j J]. rewrite N in J. discriminate J.
Qed.
Lemma cleanup_ok sl w loc :
  LI (ns_ports sl) (ns_handle sl) w loc ->
  exists sl' w', cleanup_of d sl w = Ok (sl', w') /\ LI (ns_ports sl') None w' (mkNet [] []) /\
    ns_index sl' = ns_index sl /\ ns_broken sl' = ns_broken sl /\ ns_handle sl' = None /\ length (ns_ports sl') = length (ns_ports sl) /\
    (forall j, hnd (ns_ports sl') j = None).
Proof.
  intros L. destruct sl as [ix hd ps br]. cbn [ns_ports ns_handle] in L.
  assert (DD : d = Snd \/ d = Rcv) by (destruct d; tauto).
  destruct DD as [D|D]; rewrite D; cbn [cleanup_of].
  - unfold snd_cleanup, clean_pipeline, clean_ports. cbn [ns_ports ns_handle ns_index ns_broken].
    assert (G : forall w loc, n_slots loc = [] -> LI ps None w loc ->
       exists sl' w', (q <- remove_ports ps w ;; Ok (mkNs ix None (fst q) br, snd q)) = Ok (sl', w') /\ LI (ns_ports sl') None w' (mkNet [] []) /\
         ns_index sl' = ix /\ ns_broken sl' = br /\ ns_handle sl' = None /\ length (ns_ports sl') = length ps /\ (forall j, hnd (ns_ports sl') j = None)).
    { intros w1 loc1 E1 L1. destruct (remove_ports_ok ps [] None w1 loc1 L1 (or_intror E1)) as [ps' [w' [loc' [E2 [L2 [S2 [N2 Len]]]]]]].
      rewrite E2. cbn [Base.bind fst snd]. do 2 eexists. split; [reflexivity|]. cbn [ns_ports ns_handle ns_index ns_broken].
      cbn [app] in L2. pose proof (no_ports _ _ _ _ L2 N2) as NP.
      assert (EL : loc' = mkNet [] []). { destruct loc' as [a b]. cbn in NP, S2. rewrite E1 in S2. now subst. }
      rewrite EL in L2. tauto. }
    destruct hd as [s|].
    + assert (GD : good Snd (net_delete s loc)).
      { destruct L as [_ _ _ _ _ _ _ SL _ _ _]. destruct (n_slots loc) as [|[s' eps] [|]] eqn:HS; cbn in SL; try discriminate SL.
        assert (s' = s) by congruence. subst s'. intros s1 eps1 e h I1. cbn in I1. rewrite HS in I1. cbn in I1. rewrite Nat.eqb_refl in I1. destruct I1. }
      rewrite <- D in GD. destruct (LI_delete _ _ _ _ L GD) as [w1 [E1 [L1 S1]]]. rewrite E1. cbn [Base.bind fst snd ns_ports ns_handle ns_index ns_broken].
      exact (G _ _ S1 L1).
    + cbn [Base.bind fst snd ns_ports ns_handle ns_index ns_broken]. apply (G w loc); [|exact L].
      destruct L as [_ _ _ _ _ _ _ SL _ _ _]. destruct (n_slots loc); [reflexivity|discriminate SL].
  - unfold rcv_cleanup, clean_pipeline, clean_ports. cbn [ns_ports ns_handle ns_index ns_broken].
    destruct (remove_ports_ok ps [] hd w loc L (or_introl D)) as [ps' [w' [loc' [E2 [L2 [S2 [N2 Len]]]]]]].
    rewrite E2. cbn [Base.bind fst snd ns_ports ns_handle ns_index ns_broken]. cbn [app] in L2.
    pose proof (no_ports _ _ _ _ L2 N2) as NP.
    destruct hd as [s|].
    + assert (GD : good Rcv (net_delete s loc')). { intros p s' i I. cbn in I. rewrite NP in I. destruct I. }
      rewrite <- D in GD. destruct (LI_delete _ _ _ _ L2 GD) as [w1 [E1 [L1 S1]]]. rewrite E1. cbn [Base.bind].
      do 2 eexists. split; [reflexivity|]. cbn [ns_ports ns_handle ns_index ns_broken].
      assert (EL : net_delete s loc' = mkNet [] []). { unfold net_delete in *. cbn in S1. rewrite S1. now rewrite NP. }
      rewrite EL in L1. tauto.
    + do 2 eexists. split; [reflexivity|]. cbn [ns_ports ns_handle ns_index ns_broken].
      assert (EL : loc' = mkNet [] []).
      { destruct L2 as [_ _ _ _ _ _ _ SL _ _ _]. destruct loc' as [a b]. cbn in *. destruct b; [now subst|discriminate SL]. }
      rewrite EL in L2. tauto.
Qed.

Definition dead (sl : nslot) : Prop := ns_broken sl = true /\ ns_handle sl = None /\ length (ns_ports sl) = 5%nat /\ (forall j, hnd (ns_ports sl) j = None).
Lemma break_ok sl w loc :
  LI (ns_ports sl) (ns_handle sl) w loc -> length (ns_ports sl) = 5%nat ->
  exists sl' w', break_slot (cleanup_of d) sl w = Ok (No, sl', w') /\ LI (ns_ports sl') (ns_handle sl') w' (mkNet [] []) /\
    ns_index sl' = ns_index sl /\ dead sl'.
Proof.
  intros L Len. unfold break_slot.
  destruct (cleanup_ok (mkNs (ns_index sl) (ns_handle sl) (ns_ports sl) true) w loc L) as [sl' [w' [E [L2 [I1 [I2 [I3 [I4 I5]]]]]]]].
  rewrite E. cbn [Base.bind fst snd]. do 2 eexists. split; [reflexivity|]. rewrite I3. split; [exact L2|]. split; [exact I1|].
  unfold dead. cbn in *. repeat split; try assumption. now rewrite I4.
Qed.

(* adding an endpoint *)
Lemma LI_ep ps s eps w loc e : LI ps (Some s) w loc -> n_slots loc = [(s, eps)] -> good d (net_ep s e loc) ->
  exists b w', t_add_endpoint (match d with Snd => true | Rcv => false end) w s e = Ok (b, w') /\
    (b = false /\ LI ps (Some s) w' loc \/
     endpoint_iface (ep_iface e) = true /\ ~ In (ep_iface e) (map ep_iface eps) /\ (d = Rcv -> b = true) /\
     LI ps (Some s) w' (net_ep s e loc)).
Proof.
  intros L HS GD. unfold t_add_endpoint. rewrite (LI_live _ _ _ _ L).
  assert (HE : has_ep (w_net w) s (ep_iface e) = true <-> In (ep_iface e) (map ep_iface eps)).
  { unfold has_ep. rewrite existsb_exists. split.
    - intros [x [I E]]. apply andb_true_iff in E as [E1 E2]. apply Nat.eqb_eq in E1.
      apply (proj2 (li_cov _ _ _ _ L)) in I as [I|I].
      + rewrite HS in I. destruct I as [I|[]]. subst x. cbn in E2. apply existsb_exists in E2 as [e' [I2 E2]].
        apply Z.eqb_eq in E2. apply in_map_iff. exists e'. tauto.
      + exfalso. apply (li_ds _ _ _ _ L (s, eps) x); [rewrite HS; now left|exact I|cbn; congruence].
    - intros I. exists (s, eps). split; [apply (proj2 (li_cov _ _ _ _ L)); left; rewrite HS; now left|].
      cbn. rewrite Nat.eqb_refl. cbn. apply in_map_iff in I as [e' [E I]]. apply existsb_exists. exists e'. split; [exact I|now apply Z.eqb_eq]. }
  destruct (negb (endpoint_iface (ep_iface e)) || has_ep (w_net w) s (ep_iface e)) eqn:C.
  { exists false, w. split; [reflexivity|]. left. tauto. }
  apply orb_false_iff in C as [C1 C2]. apply negb_false_iff in C1.
  assert (NI : ~ In (ep_iface e) (map ep_iface eps)). { intros I. apply HE in I. congruence. }
  clear HE C2. destruct (ask w) as [a w1] eqn:A. apply (LI_ask _ _ _ _ _ _ L) in A. clear L w.
  destruct a as [a|]; [|exists false, w1; split; [reflexivity|]; left; tauto].
  assert (L2 : LI ps (Some s) (move (net_ep s e (w_net w1)) w1) (net_ep s e loc)).
  { destruct A as [[W1 [W2 [W3 W4]]] [C3 C2] DP DS PO ND UN SL GO EN SE].
    assert (OH : forall q, oS q -> ep_f s e q = q).
    { intros q O1. unfold ep_f. destruct (Nat.eqb_spec (fst q) s) as [E|E]; [|reflexivity].
      exfalso. apply (DS (s, eps) q); [rewrite HS; now left|exact O1|cbn; congruence]. }
    assert (CV : covers (net_ep s e (w_net w1)) (net_ep s e loc) oP oS).
    { split; [exact C3|]. intros p. unfold net_ep. cbn [n_slots]. fold (ep_f s e). rewrite !in_map_iff. split.
      - intros [q [E I]]. apply C2 in I as [I|I]; [left; now exists q|right]. rewrite (OH q I) in E. now subst q.
      - intros [[q [E I]]|O1]; [exists q; split; [exact E|apply C2; now left]|]. exists p. split; [now apply OH|apply C2; now right]. }
    assert (IDS : forall l, map fst (map (ep_f s e) l) = map fst l).
    { intros l. rewrite map_map. apply map_ext. intros p. apply ep_f_id. }
    constructor; cbn [w_net w_nport w_nslot w_seen move].
    - repeat split.
      + exact W1. + exact W2.
      + change (NoDup (map fst (map (ep_f s e) (n_slots (w_net w1))))). rewrite IDS. exact W3.
      + intros p I. change (In p (map (ep_f s e) (n_slots (w_net w1)))) in I. apply in_map_iff in I as [q [E I]]. subst p.
        rewrite ep_f_id. exact (W4 q I).
    - exact CV.
    - exact DP.
    - intros p q I O1. change (In p (map (ep_f s e) (n_slots loc))) in I. apply in_map_iff in I as [p0 [E I]]. subst p.
      rewrite ep_f_id. exact (DS p0 q I O1).
    - exact PO. - exact ND. - exact UN.
    - change (n_slots (net_ep s e loc)) with (map (ep_f s e) (n_slots loc)). rewrite IDS. exact SL.
    - exact GD.
    - exact EN.
    - exact (seen_move _ _ _ SE CV GD). }
  assert (DD : d = Snd \/ d = Rcv) by (destruct d; tauto).
  destruct DD as [D|D]; rewrite D.
  - destruct (ask (move (net_ep s e (w_net w1)) w1)) as [a' w2] eqn:A2. apply (LI_ask _ _ _ _ _ _ L2) in A2.
    do 2 eexists. split; [reflexivity|]. right. split; [exact C1|]. split; [exact NI|]. split; [intros X; discriminate X|exact A2].
  - do 2 eexists. split; [reflexivity|]. right. split; [exact C1|]. split; [exact NI|]. split; [reflexivity|exact L2].
Qed.

End Local.
