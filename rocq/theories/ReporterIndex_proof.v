(** Lemmas on the index of reports. *)
From Verif Require Import Base Base_lemmas Reporter_model Reporter_spec Reporter_proof.
From Coq Require Import Permutation Sorted.
Open Scope res_scope.
Local Open Scope Z_scope.

(** *** Addresses *)
Definition later (a b : adr) : Prop := a_last b <= a_last a.
Record iinv (n : Z) (i : idx) (la : list adr) : Prop := {
  ii_key : NoDup (map a_key (i_addrs i));
  ii_perm : Permutation la (i_addrs i);
  ii_lru : i_lru i = map a_key la;
  ii_sort : StronglySorted later la;
  ii_now : Forall (fun a => a_last a <= n) la }.
Definition iok (n : Z) (i : idx) : Prop := exists la, iinv n i la.
Definition view (n : Z) (i : idx) (k : Z) : option (list nat * list nat) :=
  match get_adr i k with Some a => if a_last a =? n then Some (a_send a, a_recv a) else None | None => None end.

Lemma get_adr_in : forall i k a, get_adr i k = Some a -> In a (i_addrs i) /\ a_key a = k.
Proof. intros i k a H; apply find_some in H; destruct H as (H & E); apply Z.eqb_eq in E; auto. Qed.
Lemma get_adr_none : forall i k, get_adr i k = None -> ~ In k (map a_key (i_addrs i)).
Proof. intros i k H Hi; apply in_map_iff in Hi; destruct Hi as (s & <- & Hi); apply (find_none _ _ H) in Hi; rewrite Z.eqb_refl in Hi; discriminate Hi. Qed.
Lemma in_get_adr : forall i a, NoDup (map a_key (i_addrs i)) -> In a (i_addrs i) -> get_adr i (a_key a) = Some a.
Proof. intros i a H Hi; apply (find_nodup a_key); assumption. Qed.
Lemma key_eq : forall i a b, NoDup (map a_key (i_addrs i)) -> In a (i_addrs i) -> In b (i_addrs i) -> a_key a = a_key b -> a = b.
Proof. intros i a b Hn Ha Hb E; pose proof (in_get_adr i a Hn Ha) as H1; pose proof (in_get_adr i b Hn Hb) as H2; rewrite E in H1; congruence. Qed.
Lemma iok_later : forall n n' i, iok n i -> n <= n' -> iok n' i.
Proof. intros n n' i (la & H) Hn; exists la; destruct H; constructor; auto; eapply Forall_impl; [|exact ii_now0]; cbn beta; intros; lia. Qed.
Lemma view_new : forall n n' i k, iok n i -> n < n' -> view n' i k = None.
Proof.
  intros n n' i k (la & H) Hn; unfold view; destruct (get_adr i k) as [a|] eqn:G; [|reflexivity]; apply get_adr_in in G; destruct G as (G & _).
  pose proof (ii_now _ _ _ H) as F; rewrite Forall_forall in F; specialize (F a (Permutation_in _ (Permutation_sym (ii_perm _ _ _ H)) G)).
  replace (a_last a =? n') with false; [reflexivity|]; symmetry; apply Z.eqb_neq; lia.
Qed.
Lemma withoutz_map : forall k l, map a_key (filter (fun a => negb (a_key a =? k)) l) = withoutz k (map a_key l).
Proof. intros k l; unfold withoutz; induction l as [|x l IH]; [reflexivity|]; cbn [filter map]; destruct (negb (a_key x =? k)); cbn [map]; rewrite IH; reflexivity. Qed.
Definition at_key (a x : adr) : adr := if a_key x =? a_key a then a else x.
Lemma at_key_key : forall a x, a_key (at_key a x) = a_key x.
Proof. intros a x; unfold at_key; destruct (a_key x =? a_key a) eqn:E; [apply Z.eqb_eq in E; auto | reflexivity]. Qed.
Lemma set_adr_get : forall i a k, get_adr (set_adr i a) k = if a_key a =? k then option_map (fun _ => a) (get_adr i k) else get_adr i k.
Proof.
  intros i a k; unfold get_adr, set_adr; cbn [i_addrs]; fold (at_key a); induction (i_addrs i) as [|x l IH]; cbn [map find]; [destruct (a_key a =? k); reflexivity|].
  fold (at_key a x); rewrite at_key_key; destruct (a_key x =? k) eqn:E.
  - apply Z.eqb_eq in E; unfold at_key; rewrite E; destruct (k =? a_key a) eqn:F.
    + apply Z.eqb_eq in F; rewrite F, Z.eqb_refl; reflexivity.
    + replace (a_key a =? k) with false by (symmetry; apply Z.eqb_neq; apply Z.eqb_neq in F; congruence); reflexivity.
  - exact IH.
Qed.
Lemma iok_set : forall n i a b, iok n i -> get_adr i (a_key b) = Some a -> a_last b = a_last a -> iok n (set_adr i b).
Proof.
  intros n i a b (la & H) G E; destruct (get_adr_in _ _ _ G) as (Gi & Gk); exists (map (at_key b) la); pose proof (ii_key _ _ _ H) as Hn.
  assert (Hl : forall x, In x la -> a_last (at_key b x) = a_last x).
  { intros x Hx; unfold at_key; destruct (a_key x =? a_key b) eqn:F; [|reflexivity]; apply Z.eqb_eq in F.
    assert (x = a) by (eapply (key_eq i); eauto; [eapply Permutation_in; [apply (ii_perm _ _ _ H) | exact Hx] | congruence]); subst x; exact E. }
  destruct H; constructor; unfold set_adr; cbn [i_addrs i_lru].
  - fold (at_key b); rewrite map_map, (map_ext _ a_key) by apply at_key_key; assumption.
  - fold (at_key b); apply Permutation_map; assumption.
  - rewrite map_map, (map_ext _ a_key) by apply at_key_key; assumption.
  - clear - ii_sort0 Hl; induction ii_sort0 as [|x l S0 IH F]; cbn [map]; constructor.
    + apply IH; intros y Hy; apply Hl; right; exact Hy.
    + rewrite Forall_forall in *; intros y Hy; apply in_map_iff in Hy; destruct Hy as (z & <- & Hz); specialize (F z Hz); unfold later in *.
      rewrite (Hl x (or_introl eq_refl)), (Hl z (or_intror Hz)); exact F.
  - rewrite Forall_forall in *; intros y Hy; apply in_map_iff in Hy; destruct Hy as (z & <- & Hz); rewrite (Hl z Hz); apply ii_now0; exact Hz.
Qed.
Definition seen (v : option (list nat * list nat)) : list nat * list nat := match v with Some x => x | None => ([], []) end.
Lemma rebuild_address_spec : forall n i k, iok n i -> let i' := rebuild_address n i k in
  iok n i' /\ i_index i' = i_index i /\ forall x, view n i' x = if k =? x then Some (seen (view n i k)) else view n i x.
Proof.
  intros n i k Hk i'; unfold i', rebuild_address; destruct (get_adr i k) as [a|] eqn:G.
  - destruct (get_adr_in _ _ _ G) as (Gi & Gk); destruct (a_last a =? n) eqn:E.
    + splits; auto; intros x; destruct (k =? x) eqn:F; [|reflexivity]; apply Z.eqb_eq in F; subst x; unfold view; rewrite G, E; reflexivity.
    + splits; [|reflexivity|].
      * destruct Hk as (la & H); exists (mkA k [] [] n :: filter (fun a => negb (a_key a =? k)) la); pose proof (ii_key _ _ _ H) as Hn.
        destruct H; constructor; unfold set_adr; cbn [i_addrs i_lru].
        -- fold (at_key (mkA k [] [] n)); rewrite map_map, (map_ext _ a_key) by apply at_key_key; assumption.
        -- fold (at_key (mkA k [] [] n)); eapply Permutation_trans; [|apply Permutation_map; exact ii_perm0].
           assert (Hd : NoDup (map a_key la)) by (eapply Permutation_NoDup; [apply Permutation_map, Permutation_sym; exact ii_perm0 | exact Hn]).
           assert (Hi : In a la) by (eapply Permutation_in; [apply Permutation_sym; exact ii_perm0 | exact Gi]).
           apply in_split in Hi; destruct Hi as (l1 & l2 & ->); rewrite map_app in Hd; cbn [map] in Hd; apply NoDup_remove_2 in Hd; rewrite <- map_app, Gk in Hd.
           assert (Hm : forall x, In x (l1 ++ l2) -> a_key x =? k = false) by (intros x Hx; apply Z.eqb_neq; intros C; apply Hd; rewrite <- C; apply in_map; exact Hx).
           rewrite filter_app; cbn [filter]; rewrite Gk, Z.eqb_refl; cbn [negb]; rewrite <- filter_app, filter_all by (apply Forall_forall; intros x Hx; rewrite (Hm x Hx); reflexivity).
           rewrite map_app; cbn [map]; unfold at_key at 2; cbn [a_key]; rewrite Gk, Z.eqb_refl; apply Permutation_cons_app; rewrite <- map_app.
           rewrite (map_ext_in _ (fun x => x)); [rewrite map_id; apply Permutation_refl|]; intros x Hx; unfold at_key; cbn [a_key]; rewrite (Hm x Hx); reflexivity.
        -- cbn [map a_key]; rewrite withoutz_map, ii_lru0; reflexivity.
        -- constructor; [apply sorted_filter; assumption|]; rewrite Forall_forall in *; intros x Hx; apply filter_In in Hx; apply ii_now0; tauto.
        -- constructor; [cbn; lia|]; rewrite Forall_forall in *; intros x Hx; apply filter_In in Hx; apply ii_now0; tauto.
      * intros x; unfold view.
        change (get_adr (mkI (i_addrs (set_adr i (mkA k [] [] n))) (k :: withoutz k (i_lru (set_adr i (mkA k [] [] n)))) (i_index (set_adr i (mkA k [] [] n)))) x) with (get_adr (set_adr i (mkA k [] [] n)) x).
        rewrite set_adr_get; cbn [a_key]; destruct (k =? x) eqn:F; [|reflexivity]; apply Z.eqb_eq in F; subst x; rewrite G; cbn [option_map a_last]; rewrite Z.eqb_refl, E; reflexivity.
  - pose proof (get_adr_none _ _ G) as Hn; assert (Hg : forall x, get_adr (mkI (i_addrs i ++ [mkA k [] [] n]) (k :: i_lru i) (i_index i)) x = if k =? x then Some (mkA k [] [] n) else get_adr i x).
    { intros x; unfold get_adr; cbn [i_addrs]; destruct (k =? x) eqn:E.
      - apply Z.eqb_eq in E; subst x; revert Hn; clear; induction (i_addrs i) as [|y l IH]; intros Hn; cbn [app find a_key]; [rewrite Z.eqb_refl; reflexivity|].
        cbn [map In] in Hn; replace (a_key y =? k) with false; [apply IH; tauto|]; symmetry; apply Z.eqb_neq; tauto.
      - clear - E; induction (i_addrs i) as [|y l IH]; cbn [app find a_key]; [rewrite E; reflexivity|]; destruct (a_key y =? x); [reflexivity | exact IH]. }
    splits; [|reflexivity|].
    + destruct Hk as (la & H); exists (mkA k [] [] n :: la); destruct H; constructor; cbn [i_addrs i_lru].
      * rewrite map_app; apply nodup_snoc_z; assumption.
      * eapply Permutation_trans; [apply perm_skip; exact ii_perm0 | apply Permutation_cons_append].
      * cbn [map a_key]; rewrite ii_lru0; reflexivity.
      * constructor; assumption.
      * constructor; [cbn; lia | assumption].
    + intros x; unfold view; rewrite Hg; destruct (k =? x) eqn:E; [|reflexivity]; cbn [a_last a_send a_recv]; rewrite Z.eqb_refl, G; reflexivity.
Qed.

(** *** Items of the index *)
Inductive kind := KTouch | KSend (u : nat) | KRecv (u : nat).
Definition pick_s (k : Z) (l : list (Z * kind)) : list nat := flat_map (fun x => if fst x =? k then match snd x with KSend u => [u] | _ => [] end else []) l.
Definition pick_r (k : Z) (l : list (Z * kind)) : list nat := flat_map (fun x => if fst x =? k then match snd x with KRecv u => [u] | _ => [] end else []) l.
Definition vf (l : list (Z * kind)) (k : Z) : option (list nat * list nat) := if existsb (fun x => fst x =? k) l then Some (pick_s k l, pick_r k l) else None.
Definition add (n : Z) (i : idx) (x : Z * kind) : idx :=
  let i := rebuild_address n i (fst x) in match snd x with KTouch => i | KSend u => push_send i (fst x) u | KRecv u => push_recv i (fst x) u end.
Lemma pick_s_snoc : forall k l x, pick_s k (l ++ [x]) = pick_s k l ++ (if fst x =? k then match snd x with KSend u => [u] | _ => [] end else []).
Proof. intros; unfold pick_s; rewrite flat_map_app; cbn [flat_map]; rewrite app_nil_r; reflexivity. Qed.
Lemma pick_r_snoc : forall k l x, pick_r k (l ++ [x]) = pick_r k l ++ (if fst x =? k then match snd x with KRecv u => [u] | _ => [] end else []).
Proof. intros; unfold pick_r; rewrite flat_map_app; cbn [flat_map]; rewrite app_nil_r; reflexivity. Qed.
Lemma vf_snoc : forall l x k, vf (l ++ [x]) k =
  if fst x =? k then let v := seen (vf l k) in Some (fst v ++ match snd x with KSend u => [u] | _ => [] end, snd v ++ match snd x with KRecv u => [u] | _ => [] end) else vf l k.
Proof.
  intros l x k; unfold vf; rewrite existsb_app; cbn [existsb]; rewrite orb_false_r, pick_s_snoc, pick_r_snoc.
  destruct (fst x =? k) eqn:E; [rewrite orb_true_r | rewrite orb_false_r, !app_nil_r; reflexivity].
  destruct (existsb (fun x => fst x =? k) l) eqn:F; [reflexivity|]; cbn [seen fst snd].
  assert (Hf : forall y, In y l -> fst y =? k = false).
  { intros y Hy; destruct (fst y =? k) eqn:G; [|reflexivity]; exfalso; assert (existsb (fun x => fst x =? k) l = true) by (apply existsb_exists; eauto); congruence. }
  replace (pick_s k l) with (@nil nat); [replace (pick_r k l) with (@nil nat); [reflexivity|]|]; symmetry; unfold pick_s, pick_r;
    clear - Hf; induction l as [|y l IH]; [reflexivity| |reflexivity|]; cbn [flat_map]; rewrite (Hf y (or_introl eq_refl)); cbn [app]; apply IH; intros z Hz; apply Hf; right; exact Hz.
Qed.
Lemma add_spec : forall n i x l, iok n i -> (forall k, view n i k = vf l k) -> let i' := add n i x in
  iok n i' /\ i_index i' = i_index i /\ forall k, view n i' k = vf (l ++ [x]) k.
Proof.
  intros n i [k kd] l Hk Hv i'; unfold i', add; cbn [fst snd]; destruct (rebuild_address_spec n i k Hk) as (K1 & X1 & V1); cbn zeta in *; set (i1 := rebuild_address n i k) in *.
  assert (Hg : exists a, get_adr i1 k = Some a /\ a_last a = n /\ (a_send a, a_recv a) = seen (vf l k)).
  { pose proof (V1 k) as Vk; rewrite Z.eqb_refl, Hv in Vk; unfold view in Vk; destruct (get_adr i1 k) as [a|]; [|discriminate Vk].
    destruct (a_last a =? n) eqn:E; [|discriminate Vk]; exists a; apply Z.eqb_eq in E; splits; auto; injection Vk as Vk; exact Vk. }
  destruct Hg as (a & G & L & S0); destruct (get_adr_in _ _ _ G) as (_ & Gk).
  assert (Hset : forall b, a_key b = k -> a_last b = n -> (a_send b, a_recv b) = (fst (seen (vf l k)) ++ match kd with KSend u => [u] | _ => [] end, snd (seen (vf l k)) ++ match kd with KRecv u => [u] | _ => [] end) ->
            iok n (set_adr i1 b) /\ i_index (set_adr i1 b) = i_index i /\ forall x, view n (set_adr i1 b) x = vf (l ++ [(k, kd)]) x).
  { intros b Bk Bl Bv; splits; [apply (iok_set n i1 a b K1); congruence | exact X1|].
    intros x; rewrite vf_snoc; cbn [fst snd]; unfold view at 1; rewrite set_adr_get, Bk; destruct (k =? x) eqn:E.
    - apply Z.eqb_eq in E; subst x; rewrite G; cbn [option_map]; rewrite Bl, Z.eqb_refl, Bv; reflexivity.
    - pose proof (V1 x) as Vx; rewrite E, Hv in Vx; exact Vx. }
  destruct kd as [|u|u].
  - splits; [exact K1 | exact X1|]; intros x; rewrite V1, vf_snoc; cbn [fst snd]; rewrite !app_nil_r, <- surjective_pairing; destruct (k =? x) eqn:E; [|apply Hv].
    apply Z.eqb_eq in E; subst x; rewrite Hv; reflexivity.
  - unfold push_send; rewrite G; apply Hset; [reflexivity | exact L|]; cbn [a_send a_recv]; rewrite <- S0; cbn [fst snd]; rewrite app_nil_r; reflexivity.
  - unfold push_recv; rewrite G; apply Hset; [reflexivity | exact L|]; cbn [a_send a_recv]; rewrite <- S0; cbn [fst snd]; rewrite app_nil_r; reflexivity.
Qed.
Definition send_items (c : rcfg) (sending : bool) (l : list strm) : list (Z * kind) :=
  if sending then (match rc_mode c with ToAddress => [(rc_addr c, KTouch)] | ReportBack => [] end) ++ map (fun s => (dest_of c s, KSend (s_uid s))) (filter send_due l) else [].
Definition recv_items (c : rcfg) (l : list strm) (ids : list Z) : list (Z * kind) :=
  flat_map (fun id => match find (fun s => s_id s =? id) l with Some s => if recv_due c s then [(dest_of c s, KRecv (s_uid s))] else [] | None => [] end) ids.
Lemma dest_is : forall c s, dest c s = dest_of c s.
Proof. reflexivity. Qed.
Lemma sends_spec : forall c n t i, iok n i -> (forall k, view n i k = None) -> let i' := rebuild_sends c n t i in
  iok n i' /\ i_index i' = i_index i /\ forall k, view n i' k = vf (send_items c true (t_streams t)) k.
Proof.
  intros c n t i Hk Hv i'; unfold i', rebuild_sends, send_items.
  set (l0 := match rc_mode c with ToAddress => [(rc_addr c, KTouch)] | ReportBack => [] end); set (i0 := match rc_mode c with ToAddress => rebuild_address n i (rc_addr c) | ReportBack => i end).
  assert (H0 : iok n i0 /\ i_index i0 = i_index i /\ forall k, view n i0 k = vf l0 k).
  { unfold i0, l0; destruct (rc_mode c); [|splits; auto; intros k; rewrite Hv; reflexivity].
    apply (add_spec n i (rc_addr c, KTouch) [] Hk); intros k; rewrite Hv; reflexivity. }
  clearbody i0 l0; clear Hk Hv; revert i0 l0 H0; induction (t_streams t) as [|s l IH]; intros i0 l0 (K & X & V); cbn [fold_left filter map]; [rewrite app_nil_r; auto|].
  assert (E : s_loop s || negb (s_hasr s) || (s_rts s =? 0) = negb (send_due s)) by (unfold send_due; destruct (s_loop s), (s_hasr s), (s_rts s =? 0); reflexivity).
  rewrite E; destruct (send_due s) eqn:D; cbn [negb map].
  - destruct (add_spec n i0 (dest c s, KSend (s_uid s)) l0 K V) as (K1 & X1 & V1); change (add n i0 (dest c s, KSend (s_uid s))) with (push_send (rebuild_address n i0 (dest c s)) (dest c s) (s_uid s)) in *.
    destruct (IH _ _ (conj K1 (conj (eq_trans X1 X) V1))) as (K2 & X2 & V2); splits; auto; intros k; rewrite V2, <- app_assoc; reflexivity.
  - apply IH; auto.
Qed.
Lemma find_forget : forall t t' id s, (exists s', get t' id = Some s' /\ forget s' = forget s) -> get t id = Some s -> exists s', get t' id = Some s' /\ forget s' = forget s.
Proof. auto. Qed.
Lemma recv_due_forget : forall c a b, forget a = forget b -> recv_due c a = recv_due c b /\ dest_of c a = dest_of c b /\ s_uid a = s_uid b /\ send_due a = send_due b /\ s_id a = s_id b.
Proof.
  intros c a b E; apply forget_eq in E; destruct E as (E1 & E2 & _ & E3 & E4 & E5 & E6 & E7 & _ & E8).
  unfold recv_due, dest_of, send_due; rewrite E1, E2, E3, E4, E5, E6, E7, E8; auto.
Qed.
Lemma recvs_view : forall m c n ids p t i t' i' l, tok m n t -> NoDup ids -> rebuild_recvs c n p ids t i = (t', i') -> iok n i -> (forall k, view n i k = vf l k) ->
  iok n i' /\ i_index i' = i_index i /\ (forall k, view n i' k = vf (l ++ recv_items c (t_streams t') ids) k) /\
  (forall id, ~ In id ids -> get t' id = get t id) /\
  (forall j id, nth_error ids j = Some id -> exists s, get t' id = Some s /\ (recv_due c s = true -> s_lrr s = Some (p + j)%nat)).
Proof.
  intros m c n; induction ids as [|id ids IH]; intros p t i t' i' l Hk Hn H K V; cbn [rebuild_recvs] in H.
  - injection H as <- <-; splits; auto; [intros k; rewrite app_nil_r; apply V | intros [|j] x Hx; discriminate Hx].
  - destruct (find_create true n t id) as [t1 o] eqn:F; destruct (find_create_spec m _ _ _ _ _ _ Hk F) as (Hk1 & Ho1 & Hg1 & Hc1).
    destruct o as [s|]; [|destruct Hc1 as [(_ & C & _) | [(C & _ & C') | (_ & _ & _ & C & _)]]; congruence].
    inversion Hn as [|? ? N1 N2]; subst.
    assert (E : (s_loop s || (match rc_mode c with ReportBack => negb (s_hass s) || (s_sts s =? 0) | ToAddress => false end)) = negb (recv_due c s)).
    { unfold recv_due; destruct (s_loop s), (rc_mode c), (s_hass s), (s_sts s =? 0); reflexivity. }
    rewrite E in H; destruct (recv_due c s) eqn:D; cbn [negb] in H.
    + assert (Hf : same_key (set_lrr p)) by (intros x; auto); assert (Hu : same_upd (set_lrr p)) by (intros x; auto).
      destruct (get_in _ _ _ Hg1) as (Gi & Gd); pose proof (tok_modify _ _ _ (s_uid s) _ Hf Hu Hk1) as Hk2.
      destruct (add_spec n i (dest c s, KRecv (s_uid s)) l K V) as (K1 & X1 & V1).
      destruct (recvs_spec m _ _ _ _ _ _ _ _ Hk2 H) as (Hk3 & Gr).
      destruct (IH (S p) _ _ _ _ _ Hk2 N2 H K1 V1) as (K2 & X2 & V2 & O2 & L2).
      assert (G2 : get (modify t1 (s_uid s) (set_lrr p)) id = Some (set_lrr p s)) by (rewrite (modify_get _ _ _ _ _ id Hk1 Hf Gi), Gd, Z.eqb_refl; reflexivity).
      assert (G3 : get t' id = Some (set_lrr p s)) by (rewrite O2 by exact N1; exact G2).
      splits; [exact K2 | rewrite X2; exact X1 | | |].
      * intros k; rewrite V2; unfold recv_items; cbn [flat_map]; fold (get t' id); rewrite G3.
        replace (recv_due c (set_lrr p s)) with true by (symmetry; exact D); rewrite <- app_assoc; reflexivity.
      * intros x Hx; cbn [In] in Hx; rewrite O2 by tauto; rewrite (modify_get _ _ _ _ _ x Hk1 Hf Gi), Gd; destruct (id =? x) eqn:Ex; [apply Z.eqb_eq in Ex; tauto|].
        apply Ho1; intros C; subst x; tauto.
      * intros [|j] x Hx; cbn [nth_error] in Hx; [injection Hx as <-; exists (set_lrr p s); split; [exact G3|]; intros _; cbn; f_equal; lia|].
        destruct (L2 j x Hx) as (sx & Gx & Lx); exists sx; split; [exact Gx|]; intros Dx; rewrite (Lx Dx); f_equal; lia.
    + destruct (IH (S p) _ _ _ _ _ Hk1 N2 H K V) as (K2 & X2 & V2 & O2 & L2).
      assert (G3 : get t' id = Some s) by (rewrite O2 by exact N1; exact Hg1).
      splits; auto.
      * intros k; rewrite V2; unfold recv_items; cbn [flat_map]; fold (get t' id); rewrite G3, D; reflexivity.
      * intros x Hx; cbn [In] in Hx; rewrite O2 by tauto; apply Ho1; intros C; subst x; tauto.
      * intros [|j] x Hx; cbn [nth_error] in Hx; [injection Hx as <-; exists s; split; [exact G3 | congruence]|].
        destruct (L2 j x Hx) as (sx & Gx & Lx); exists sx; split; [exact Gx|]; intros Dx; rewrite (Lx Dx); f_equal; lia.
Qed.
Lemma drop_spec : forall n la i, iinv n i la -> let i' := drop_stale n (map a_key (rev la)) i in
  iok n i' /\ i_addrs i' = filter (fun a => a_last a =? n) (i_addrs i) /\ i_index i' = i_index i.
Proof.
  intros n la; induction la as [|a la IH] using rev_ind; intros i H.
  - cbn [rev map drop_stale]; assert (i_addrs i = []) as E by (apply Permutation_nil, (ii_perm _ _ _ H)); cbn zeta; rewrite E; splits; auto; exists []; exact H.
  - rewrite rev_unit; cbn [map drop_stale].
    assert (Gi : In a (i_addrs i)) by (eapply Permutation_in; [apply (ii_perm _ _ _ H) | apply in_or_app; right; left; reflexivity]).
    rewrite (in_get_adr i a (ii_key _ _ _ H) Gi); destruct (a_last a =? n) eqn:E; cbn zeta.
    + splits; [exists (la ++ [a]); exact H | | reflexivity]; symmetry; apply filter_all, Forall_forall; intros x Hx; apply Z.eqb_eq in E; apply Z.eqb_eq.
      pose proof (Permutation_in _ (Permutation_sym (ii_perm _ _ _ H)) Hx) as Hl; pose proof (ii_now _ _ _ H) as Hn; rewrite Forall_forall in Hn; specialize (Hn x Hl).
      apply in_app_or in Hl; destruct Hl as [Hl | [<- | []]]; [|exact E]; pose proof (sorted_snoc _ _ _ (ii_sort _ _ _ H)) as Hs; rewrite Forall_forall in Hs; specialize (Hs x Hl); unfold later in Hs; lia.
    + set (i1 := mkI (filter (fun x => negb (a_key x =? a_key a)) (i_addrs i)) (withoutz (a_key a) (i_lru i)) (i_index i)).
      assert (Hf : filter (fun x => negb (a_key x =? a_key a)) (la ++ [a]) = la).
      { assert (Hd : NoDup (map a_key (la ++ [a]))) by (eapply Permutation_NoDup; [apply Permutation_map, Permutation_sym, (ii_perm _ _ _ H) | apply (ii_key _ _ _ H)]).
        rewrite map_app in Hd; cbn [map] in Hd; apply NoDup_remove_2 in Hd; rewrite app_nil_r in Hd.
        rewrite filter_app; cbn [filter]; rewrite Z.eqb_refl; cbn [negb]; rewrite app_nil_r; apply filter_all, Forall_forall; intros x Hx.
        apply negb_true_iff, Z.eqb_neq; intros C; apply Hd; rewrite <- C; apply in_map; exact Hx. }
      assert (H1 : iinv n i1 la).
      { destruct H; constructor; unfold i1; cbn [i_addrs i_lru].
        - apply nodup_filter; assumption.
        - rewrite <- Hf; apply perm_filter; assumption.
        - rewrite ii_lru0, <- withoutz_map, Hf; reflexivity.
        - rewrite <- Hf; apply sorted_filter; assumption.
        - rewrite Forall_forall in *; intros x Hx; apply ii_now0, in_or_app; left; exact Hx. }
      destruct (IH i1 H1) as (K & A & X); splits; [exact K | | exact X]; rewrite A; unfold i1; cbn [i_addrs].
      assert (Hx : forall x, In x (i_addrs i) -> a_key x = a_key a -> a_last x =? n = false) by (intros x Hx C; assert (x = a) by (eapply key_eq; eauto; apply (ii_key _ _ _ H)); subst x; exact E).
      clear - Hx; induction (i_addrs i) as [|x l IH]; [reflexivity|]; cbn [filter]; destruct (a_key x =? a_key a) eqn:F; cbn [negb filter].
      * apply Z.eqb_eq in F; rewrite (Hx x (or_introl eq_refl) F); apply IH; intros y Hy; apply Hx; right; exact Hy.
      * destruct (a_last x =? n); rewrite IH; auto; intros y Hy; apply Hx; right; exact Hy.
Qed.

(** *** The index says what it should *)
Definition items (c : rcfg) (sending : bool) (recv : list Z) (l : list strm) : list (Z * kind) := send_items c sending l ++ recv_items c l recv.
Record exact (c : rcfg) (sending : bool) (recv : list Z) (t : tab) (i : idx) : Prop := {
  ex_index : i_index i = map a_key (i_addrs i);
  ex_view : forall k, option_map (fun a => (a_send a, a_recv a)) (get_adr i k) = vf (items c sending recv (t_streams t)) k;
  ex_lrr : forall j id, nth_error recv j = Some id -> exists s, get t id = Some s /\ (recv_due c s = true -> s_lrr s = Some j) }.
Lemma find_filter_key : forall (p : adr -> bool) l k, NoDup (map a_key l) ->
  find (fun a => a_key a =? k) (filter p l) = match find (fun a => a_key a =? k) l with Some a => if p a then Some a else None | None => None end.
Proof.
  intros p l k; induction l as [|x l IH]; intros Hn; [reflexivity|]; cbn [map] in Hn; inversion Hn as [|? ? N1 N2]; subst; cbn [filter find].
  destruct (a_key x =? k) eqn:E.
  - destruct (p x) eqn:P; cbn [find]; [rewrite E; reflexivity|]; rewrite IH by exact N2; destruct (find _ l) as [y|] eqn:F; [|reflexivity].
    exfalso; apply find_some in F; destruct F as (F1 & F2); apply Z.eqb_eq in E, F2; apply N1; rewrite E, <- F2; apply in_map; exact F1.
  - destruct (p x); cbn [find]; [rewrite E|]; apply IH; exact N2.
Qed.
Lemma rebuild_exact : forall m c r n0, tok m (r_time r) (r_tab r) -> iok n0 (r_idx r) -> n0 < r_time r -> NoDup (r_recv r) -> let r' := rebuild_index c r in
  iok (r_time r') (r_idx r') /\ exact c (r_send r') (r_recv r') (r_tab r') (r_idx r').
Proof.
  intros m c r n0 Hk K0 Hn Hd r'; unfold r', rebuild_index.
  set (i0 := mkI (i_addrs (r_idx r)) (i_lru (r_idx r)) []); assert (K1 : iok (r_time r) i0).
  { apply (iok_later n0); [|lia]; destruct K0 as (la & H); exists la; destruct H; constructor; assumption. }
  assert (V1 : forall k, view (r_time r) i0 k = None) by (intros k; exact (view_new n0 (r_time r) (r_idx r) k K0 Hn)).
  set (i1 := if r_send r then rebuild_sends c (r_time r) (r_tab r) i0 else i0).
  assert (H1 : iok (r_time r) i1 /\ i_index i1 = [] /\ forall k, view (r_time r) i1 k = vf (send_items c (r_send r) (t_streams (r_tab r))) k).
  { unfold i1; destruct (r_send r); [destruct (sends_spec c _ (r_tab r) i0 K1 V1) as (A & B & C); splits; auto|]; splits; auto; intros k; rewrite V1; reflexivity. }
  destruct H1 as (K2 & X2 & V2); clearbody i1.
  destruct (rebuild_recvs c (r_time r) 0 (r_recv r) (r_tab r) i1) as [t i] eqn:R.
  destruct (recvs_spec m _ _ _ _ _ _ _ _ Hk R) as (Hk3 & Gr).
  destruct (recvs_view m _ _ _ _ _ _ _ _ _ Hk Hd R K2 V2) as (K3 & X3 & V3 & O3 & L3).
  destruct K3 as (la & Hla); replace (rev (i_lru i)) with (map a_key (rev la)) by (rewrite (ii_lru _ _ _ Hla), map_rev; reflexivity).
  destruct (drop_spec _ _ _ Hla) as (K4 & A4 & X4); set (i4 := drop_stale (r_time r) (map a_key (rev la)) i) in *.
  cbn [r_time r_idx r_send r_recv r_tab]; split.
  - destruct K4 as (lb & H); exists lb; destruct H; constructor; assumption.
  - assert (Es : send_items c (r_send r) (t_streams t) = send_items c (r_send r) (t_streams (r_tab r))).
    { assert (Hss : map (fun s => (dest_of c s, KSend (s_uid s))) (filter send_due (t_streams t)) = map (fun s => (dest_of c s, KSend (s_uid s))) (filter send_due (t_streams (r_tab r)))).
      { clear - R Hk. revert R; generalize O at 1 as p; generalize i1 as j; revert t i; generalize dependent (r_tab r); induction (r_recv r) as [|id ids IH]; intros t0 Hk t i j p R; cbn [rebuild_recvs] in R.
        - injection R as <- <-; reflexivity.
        - destruct (find_create true (r_time r) t0 id) as [t1 o] eqn:F; destruct (find_create_spec m _ _ _ _ _ _ Hk F) as (Hk1 & _ & Hg1 & Hc1).
          assert (E1 : map (fun s => (dest_of c s, KSend (s_uid s))) (filter send_due (t_streams t1)) = map (fun s => (dest_of c s, KSend (s_uid s))) (filter send_due (t_streams t0))).
          { destruct Hc1 as [(_ & C & _) | [(_ & -> & _) | (_ & _ & _ & _ & ->)]]; [discriminate C | reflexivity|]; rewrite filter_app; cbn [filter]; unfold send_due at 2; cbn; rewrite app_nil_r; reflexivity. }
          destruct o as [s|]; [|injection R as <- <-; exact E1]; rewrite <- E1; destruct (s_loop s || _); [eapply IH; eauto|].
          rewrite (IH _ (tok_modify m _ _ (s_uid s) (set_lrr p) (fun x => conj eq_refl eq_refl) (fun x => eq_refl) Hk1) _ _ _ _ R), modify_streams.
          clear; induction (t_streams t1) as [|x l IH]; [reflexivity|]; cbn [map filter]; unfold at_uid at 1 2; destruct (Nat.eqb (s_uid x) (s_uid s)).
          + change (send_due (set_lrr p x)) with (send_due x); destruct (send_due x); cbn [map]; rewrite IH; reflexivity.
          + destruct (send_due x); cbn [map]; rewrite IH; reflexivity. }
      unfold send_items; destruct (r_send r); [rewrite Hss|]; reflexivity. }
    constructor; cbn [i_index i_addrs t_streams].
    + reflexivity.
    + intros k; unfold items; rewrite Es, <- V3; unfold view, get_adr; cbn [i_addrs]; rewrite A4, find_filter_key by apply (ii_key _ _ _ Hla).
      destruct (find (fun a => a_key a =? k) (i_addrs i)) as [a|]; [|reflexivity]; destruct (a_last a =? r_time r); reflexivity.
    + intros j id Hj; destruct (L3 j id Hj) as (s & G & L); exists s; split; [exact G | intros D; rewrite (L D); reflexivity].
Qed.

(** *** Blocks *)
Definition id_of (t : tab) (u : nat) : Z := match get_uid t u with Some s => s_id s | None => 0 end.
Definition evs (t : tab) (x : Z * kind) : list evt :=
  match snd x with KTouch => [] | KSend u => [Dlrr (fst x) (id_of t u)] | KRecv u => [Reception (fst x) (id_of t u) (id_of t u)] end.
Definition group (t : tab) (l : list (Z * kind)) (k : Z) : list evt :=
  map (fun u => Dlrr k (id_of t u)) (pick_s k l) ++ map (fun u => Reception k (id_of t u) (id_of t u)) (pick_r k l).
Lemma group_cons : forall t x l k, Permutation (group t (x :: l) k) ((if fst x =? k then evs t x else []) ++ group t l k).
Proof.
  intros t [kx kd] l k; unfold group, pick_s, pick_r, evs; cbn [flat_map fst snd]; destruct (kx =? k) eqn:E; [|apply Permutation_refl].
  apply Z.eqb_eq in E; subst kx; destruct kd; cbn [app map]; try apply Permutation_refl; apply Permutation_sym, Permutation_middle.
Qed.
Lemma groups_perm : forall t l keys, NoDup keys -> (forall x, In x l -> In (fst x) keys) -> Permutation (flat_map (group t l) keys) (flat_map (evs t) l).
Proof.
  intros t l keys Hn; induction l as [|x l IH]; intros Hi.
  - clear; induction keys as [|k keys IH]; [constructor | exact IH].
  - cbn [flat_map]; eapply Permutation_trans; [|apply Permutation_app_head, IH; intros y Hy; apply Hi; right; exact Hy].
    specialize (Hi x (or_introl eq_refl)); clear IH; revert Hn Hi; induction keys as [|k keys IH]; intros Hn Hi; [destruct Hi|].
    cbn [flat_map]; inversion Hn as [|? ? N1 N2]; subst; destruct (Z.eq_dec (fst x) k) as [E | E].
    + assert (Hno : flat_map (group t (x :: l)) keys = flat_map (group t l) keys).
      { assert (Hx : ~ In (fst x) keys) by (rewrite E; exact N1); clear - Hx; induction keys as [|y keys IH]; [reflexivity|]; cbn [flat_map In] in *; rewrite IH by tauto; f_equal.
        unfold group, pick_s, pick_r; cbn [flat_map]; replace (fst x =? y) with false; [reflexivity|]; symmetry; apply Z.eqb_neq; intros C; apply Hx; left; congruence. }
      rewrite Hno; eapply Permutation_trans; [apply Permutation_app_tail, group_cons|]; rewrite (proj2 (Z.eqb_eq _ _) E), <- app_assoc; apply Permutation_refl.
    + destruct Hi as [C | Hi]; [congruence|]; eapply Permutation_trans; [apply Permutation_app; [apply group_cons | apply IH; assumption]|].
      replace (fst x =? k) with false by (symmetry; apply Z.eqb_neq; exact E); cbn [app]; rewrite !app_assoc; apply Permutation_app_tail, Permutation_app_comm.
Qed.
Lemma all_ok_app : forall {A} (a b : list (res A)) x y, all_ok a = Ok x -> all_ok b = Ok y -> all_ok (a ++ b) = Ok (x ++ y).
Proof.
  intros A a; induction a as [|r a IH]; intros b x y Ha Hb; cbn [app all_ok] in *; [injection Ha as <-; exact Hb|].
  destruct r as [v| |]; cbn [bind] in *; try discriminate Ha; destruct (all_ok a) as [w| |]; cbn [bind] in *; try discriminate Ha; injection Ha as <-.
  rewrite (IH b w y eq_refl Hb); reflexivity.
Qed.
Lemma all_ok_map : forall {A B} (f : A -> res B) (g : A -> B) l, (forall x, In x l -> f x = Ok (g x)) -> all_ok (map f l) = Ok (map g l).
Proof.
  intros A B f g l; induction l as [|x l IH]; intros H; [reflexivity|]; cbn [map all_ok]; rewrite (H x (or_introl eq_refl)); cbn [bind]; rewrite IH; [reflexivity|].
  intros y Hy; apply H; right; exact Hy.
Qed.
Lemma all_ok_concat : forall {A} (l : list nat) (f : nat -> list (res A)) (g : nat -> list A), (forall x, In x l -> all_ok (f x) = Ok (g x)) -> all_ok (concat (map f l)) = Ok (flat_map g l).
Proof.
  intros A l f g; induction l as [|x l IH]; intros H; [reflexivity|]; cbn [map concat flat_map]; apply all_ok_app; [apply H; left; reflexivity | apply IH; intros y Hy; apply H; right; exact Hy].
Qed.
Lemma seq_nth : forall {A B} (f : A -> B) (l : list A) (g : nat -> B), (forall j x, nth_error l j = Some x -> g j = f x) -> map g (seq 0 (length l)) = map f l.
Proof.
  intros A B f l g H; assert (forall k, (forall j x, nth_error l j = Some x -> g (k + j)%nat = f x) -> map g (seq k (length l)) = map f l) as G.
  { clear; induction l as [|x l IH]; intros k H; [reflexivity|]; cbn [length seq map]; rewrite <- (H 0%nat x eq_refl), Nat.add_0_r; f_equal; apply IH.
    intros j y Hj; rewrite <- (H (S j) y Hj); f_equal; lia. }
  apply G; exact H.
Qed.
Lemma seq_flat : forall {A B} (f : A -> list B) (l : list A) (g : nat -> list B), (forall j x, nth_error l j = Some x -> g j = f x) -> flat_map g (seq 0 (length l)) = flat_map f l.
Proof. intros A B f l g H; rewrite !flat_map_concat_map; f_equal; apply seq_nth; exact H. Qed.
Lemma vf_some : forall l k v, vf l k = Some v -> v = (pick_s k l, pick_r k l).
Proof. intros l k v H; unfold vf in H; destruct (existsb _ l); [injection H as <-; reflexivity | discriminate H]. Qed.
Lemma pick_s_in : forall k l u, In u (pick_s k l) <-> In (k, KSend u) l.
Proof.
  intros k l u; unfold pick_s; rewrite in_flat_map; split.
  - intros ((kx & kd) & Hi & Hu); cbn [fst snd] in Hu; destruct (kx =? k) eqn:E; [|destruct Hu]; apply Z.eqb_eq in E; subst kx; destruct kd; try destruct Hu as [<- | []]; try destruct Hu; exact Hi.
  - intros H; exists (k, KSend u); split; [exact H|]; cbn [fst snd]; rewrite Z.eqb_refl; left; reflexivity.
Qed.
Lemma pick_r_in : forall k l u, In u (pick_r k l) <-> In (k, KRecv u) l.
Proof.
  intros k l u; unfold pick_r; rewrite in_flat_map; split.
  - intros ((kx & kd) & Hi & Hu); cbn [fst snd] in Hu; destruct (kx =? k) eqn:E; [|destruct Hu]; apply Z.eqb_eq in E; subst kx; destruct kd; try destruct Hu as [<- | []]; try destruct Hu; exact Hi.
  - intros H; exists (k, KRecv u); split; [exact H|]; cbn [fst snd]; rewrite Z.eqb_refl; left; reflexivity.
Qed.
Lemma gen_exact : forall m n r c, tok m n (r_tab r) -> iok n (r_idx r) -> exact c (r_send r) (r_recv r) (r_tab r) (r_idx r) ->
  exists l, gen_all r = Ok l /\ Permutation l (flat_map (evs (r_tab r)) (items c (r_send r) (r_recv r) (t_streams (r_tab r)))).
Proof.
  intros m n r c Hk (la & Hla) Hx; set (l := items c (r_send r) (r_recv r) (t_streams (r_tab r))); pose proof (ii_key _ _ _ Hla) as Hd.
  assert (Hsend : forall k u, In (k, KSend u) l -> r_send r = true /\ exists s, get_uid (r_tab r) u = Some s).
  { intros k u Hi; unfold l, items in Hi; apply in_app_or in Hi; destruct Hi as [Hi | Hi].
    - unfold send_items in Hi; destruct (r_send r); [|destruct Hi]; split; [reflexivity|]; apply in_app_or in Hi; destruct Hi as [Hi | Hi].
      + destruct (rc_mode c); [destruct Hi as [C | []]; discriminate C | destruct Hi].
      + apply in_map_iff in Hi; destruct Hi as (s & E & Hi); injection E as <- <-; apply filter_In in Hi; exists s; eapply in_get_uid; [exact Hk | tauto].
    - exfalso; unfold recv_items in Hi; apply in_flat_map in Hi; destruct Hi as (id & _ & Hi); destruct (find _ _) as [s|]; [|destruct Hi]; destruct (recv_due c s); [destruct Hi as [C | []]; discriminate C | destruct Hi]. }
  assert (Hrecv : forall k u, In (k, KRecv u) l -> r_recv r <> [] /\ exists s j, get_uid (r_tab r) u = Some s /\ s_lrr s = Some j /\ nth_error (r_recv r) j = Some (s_id s)).
  { intros k u Hi; unfold l, items in Hi; apply in_app_or in Hi; destruct Hi as [Hi | Hi].
    - exfalso; unfold send_items in Hi; destruct (r_send r); [|destruct Hi]; apply in_app_or in Hi; destruct Hi as [Hi | Hi].
      + destruct (rc_mode c); [destruct Hi as [C | []]; discriminate C | destruct Hi].
      + apply in_map_iff in Hi; destruct Hi as (s & E & Hi); discriminate E.
    - unfold recv_items in Hi; apply in_flat_map in Hi; destruct Hi as (id & Hid & Hi); fold (get (r_tab r) id) in Hi; destruct (get (r_tab r) id) as [s|] eqn:G; [|destruct Hi].
      destruct (recv_due c s) eqn:D; [|destruct Hi]; destruct Hi as [E | []]; injection E as _ <-; destruct (get_in _ _ _ G) as (Gi & Gd).
      split; [intros C; rewrite C in Hid; destruct Hid|]; apply In_nth_error in Hid; destruct Hid as (j & Hj); destruct (ex_lrr _ _ _ _ _ Hx j id Hj) as (s1 & G1 & L1).
      assert (s1 = s) by congruence; subst s1; exists s, j; splits; [eapply in_get_uid; eauto | apply L1; exact D | rewrite Gd; exact Hj]. }
  exists (flat_map (group (r_tab r) l) (map a_key (i_addrs (r_idx r)))); split.
  - unfold gen_all; rewrite (ex_index _ _ _ _ _ Hx), map_length.
    rewrite (all_ok_concat _ _ (fun a => match nth_error (i_addrs (r_idx r)) a with Some x => group (r_tab r) l (a_key x) | None => [] end)).
    + f_equal; transitivity (flat_map (fun x => group (r_tab r) l (a_key x)) (i_addrs (r_idx r))).
      * apply seq_flat; intros j x Hj; rewrite Hj; reflexivity.
      * clear; induction (i_addrs (r_idx r)) as [|x xs IH]; [reflexivity|]; cbn [map flat_map]; rewrite IH; reflexivity.
    + intros a Ha; apply in_seq in Ha; destruct (nth_error (i_addrs (r_idx r)) a) as [x|] eqn:E; [|apply nth_error_None in E; lia].
      assert (Hi : In x (i_addrs (r_idx r))) by (eapply nth_error_In; exact E).
      assert (Hna : nth_adr r a = Some x).
      { unfold nth_adr; rewrite (ex_index _ _ _ _ _ Hx), (map_nth_error _ _ _ E); apply in_get_adr; assumption. }
      pose proof (ex_view _ _ _ _ _ Hx (a_key x)) as Hv; rewrite (in_get_adr _ _ Hd Hi) in Hv; cbn [option_map] in Hv; fold l in Hv; symmetry in Hv; apply vf_some in Hv.
      injection Hv as V1 V2; unfold gen_addr; rewrite Hna; unfold group; rewrite <- V1, <- V2; apply all_ok_app.
      * destruct (r_send r) eqn:Es.
        -- rewrite (all_ok_map _ (fun j => match nth_error (a_send x) j with Some u => Dlrr (a_key x) (id_of (r_tab r) u) | None => Dlrr 0 0 end)).
           ++ f_equal; apply seq_nth; intros j u Hj; rewrite Hj; reflexivity.
           ++ intros j Hj; apply in_seq in Hj; unfold gen_dlrr; rewrite Hna; destruct (nth_error (a_send x) j) as [u|] eqn:Eu; [|apply nth_error_None in Eu; lia].
              assert (Hu : In u (a_send x)) by (eapply nth_error_In; exact Eu); rewrite V1 in Hu; apply pick_s_in in Hu; destruct (Hsend _ _ Hu) as (_ & s & Gs).
              unfold id_of; rewrite Gs; reflexivity.
        -- destruct (a_send x) as [|u us] eqn:Eu; [reflexivity|]; exfalso; assert (Hu : In u (pick_s (a_key x) l)) by (rewrite <- V1; left; reflexivity); apply pick_s_in in Hu; destruct (Hsend _ _ Hu) as (C & _); discriminate C.
      * assert (Hr : all_ok (map (gen_reception r a) (seq 0 (length (a_recv x)))) = Ok (map (fun u => Reception (a_key x) (id_of (r_tab r) u) (id_of (r_tab r) u)) (a_recv x))).
        { rewrite (all_ok_map _ (fun j => match nth_error (a_recv x) j with Some u => Reception (a_key x) (id_of (r_tab r) u) (id_of (r_tab r) u) | None => Dlrr 0 0 end)).
          - f_equal; apply seq_nth; intros j u Hj; rewrite Hj; reflexivity.
          - intros j Hj; apply in_seq in Hj; unfold gen_reception; rewrite Hna; destruct (nth_error (a_recv x) j) as [u|] eqn:Eu; [|apply nth_error_None in Eu; lia].
            assert (Hu : In u (a_recv x)) by (eapply nth_error_In; exact Eu); rewrite V2 in Hu; apply pick_r_in in Hu; destruct (Hrecv _ _ Hu) as (_ & s & p & Gs & Ls & Ns).
            unfold id_of; rewrite Gs, Ls, Ns; reflexivity. }
        destruct (r_recv r) as [|z zs] eqn:Ez; [|exact Hr].
        destruct (a_recv x) as [|u us] eqn:Eu; [reflexivity|]; exfalso; assert (Hu : In u (pick_r (a_key x) l)) by (rewrite <- V2; left; reflexivity); apply pick_r_in in Hu; destruct (Hrecv _ _ Hu) as (C & _); congruence.
  - apply groups_perm; [exact Hd|]; intros x Hi; pose proof (ex_view _ _ _ _ _ Hx (fst x)) as Hv; fold l in Hv; unfold vf in Hv.
    replace (existsb (fun y => fst y =? fst x) l) with true in Hv by (symmetry; apply existsb_exists; exists x; split; [exact Hi | apply Z.eqb_refl]).
    destruct (get_adr (r_idx r) (fst x)) as [a|] eqn:G; [|discriminate Hv]; apply get_adr_in in G; destruct G as (G & <-); apply in_map; exact G.
Qed.
Lemma evs_items : forall m n t c sending recv, tok m n t ->
  flat_map (evs t) (items c sending recv (t_streams t)) = dlrrs_due c sending (t_streams t) ++ receptions_due c recv (t_streams t).
Proof.
  intros m n t c sending recv Hk; unfold items; rewrite flat_map_app; f_equal.
  - unfold send_items, dlrrs_due; destruct sending; [|reflexivity]; rewrite flat_map_app; replace (flat_map (evs t) _) with (@nil evt) by (destruct (rc_mode c); reflexivity); cbn [app].
    assert (H : forall s, In s (filter send_due (t_streams t)) -> get_uid t (s_uid s) = Some s) by (intros s Hs; apply filter_In in Hs; eapply in_get_uid; [exact Hk | tauto]).
    induction (filter send_due (t_streams t)) as [|s l IH]; [reflexivity|]; cbn [map flat_map]; unfold evs at 1; cbn [snd fst app]; unfold id_of; rewrite (H s (or_introl eq_refl)); f_equal; apply IH; intros x Hx; apply H; right; exact Hx.
  - unfold recv_items, receptions_due; induction recv as [|id recv IH]; [reflexivity|]; cbn [flat_map]; rewrite flat_map_app, IH; f_equal; fold (get t id); destruct (get t id) as [s|] eqn:G; [|reflexivity].
    destruct (get_in _ _ _ G) as (Gi & Gd); destruct (recv_due c s); [|reflexivity]; cbn [flat_map evs snd fst app]; unfold id_of; rewrite (in_get_uid _ _ _ _ Hk Gi), Gd; reflexivity.
Qed.
Lemma dests_exact : forall m n r c, tok m n (r_tab r) -> iok n (r_idx r) -> exact c (r_send r) (r_recv r) (r_tab r) (r_idx r) ->
  NoDup (i_index (r_idx r)) /\ forall k, In k (i_index (r_idx r)) <-> dests_due c (r_send r) (r_recv r) (t_streams (r_tab r)) k.
Proof.
  intros m n r c Hk (la & Hla) Hx; rewrite (ex_index _ _ _ _ _ Hx); split; [apply (ii_key _ _ _ Hla)|]; intros k.
  pose proof (ex_view _ _ _ _ _ Hx k) as Hv; unfold vf in Hv.
  assert (H1 : In k (map a_key (i_addrs (r_idx r))) <-> existsb (fun x => fst x =? k) (items c (r_send r) (r_recv r) (t_streams (r_tab r))) = true).
  { destruct (existsb _ _).
    - split; [reflexivity|]; intros _; destruct (get_adr (r_idx r) k) as [a|] eqn:G; [|discriminate Hv]; apply get_adr_in in G; destruct G as (G & <-); apply in_map; exact G.
    - split; [|discriminate]; intros Hi; exfalso; destruct (get_adr (r_idx r) k) as [a|] eqn:G; [discriminate Hv|]; exact (get_adr_none _ _ G Hi). }
  rewrite H1, existsb_exists; unfold items, dests_due; split.
  - intros ((kx & kd) & Hi & E); cbn [fst] in E; apply Z.eqb_eq in E; subst kx; apply in_app_or in Hi; destruct Hi as [Hi | Hi].
    + unfold send_items in Hi; destruct (r_send r); [|destruct Hi]; apply in_app_or in Hi; destruct Hi as [Hi | Hi].
      * destruct (rc_mode c) eqn:Em; [|destruct Hi]; destruct Hi as [E | []]; injection E as <- _; left; auto.
      * apply in_map_iff in Hi; destruct Hi as (s & E & Hi); injection E as <- <-; apply filter_In in Hi; destruct Hi as (Hi & Hs); right; left; split; [reflexivity|]; exists s; auto.
    + unfold recv_items in Hi; apply in_flat_map in Hi; destruct Hi as (id & Hid & Hi); fold (get (r_tab r) id) in Hi; destruct (get (r_tab r) id) as [s|] eqn:G; [|destruct Hi].
      destruct (recv_due c s) eqn:D; [|destruct Hi]; destruct Hi as [E | []]; injection E as <- _; destruct (get_in _ _ _ G) as (Gi & Gd); right; right; exists s; rewrite Gd; auto.
  - intros [(Hs & Hm & ->) | [(Hs & s & Hi & Hd & <-) | (s & Hi & Hr & Hd & <-)]].
    + exists (rc_addr c, KTouch); split; [|apply Z.eqb_refl]; apply in_or_app; left; unfold send_items; rewrite Hs, Hm; left; reflexivity.
    + exists (dest_of c s, KSend (s_uid s)); split; [|apply Z.eqb_refl]; apply in_or_app; left; unfold send_items; rewrite Hs; apply in_or_app; right; apply (in_map (fun s => (dest_of c s, KSend (s_uid s)))), filter_In; auto.
    + exists (dest_of c s, KRecv (s_uid s)); split; [|apply Z.eqb_refl]; apply in_or_app; right; unfold recv_items; apply in_flat_map; exists (s_id s); split; [exact Hr|].
      fold (get (r_tab r) (s_id s)); rewrite (in_get _ _ _ _ Hk Hi), Hd; left; reflexivity.
Qed.
