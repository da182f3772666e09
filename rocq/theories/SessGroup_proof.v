From Coq Require Import ZArith List Bool Lia.
From Verif Require Import Base Base_lemmas SessRouter_model SessRouter_spec SessRouter_proof SessRouterRef_proof SessGroup_model SessGroup_spec.
From Verif Require Reporter_model Reporter_spec Reporter_proof.
Import ListNotations.
Local Open Scope Z_scope.

(* ---- Lists of sessions ---- *)

Lemma mem_in x l : mem x l = true <-> In x l.
Proof.
  unfold mem. rewrite existsb_exists. split.
  - intros (y & H & E). apply Nat.eqb_eq in E. subst; auto.
  - intro H. exists x. split; auto. apply Nat.eqb_refl.
Qed.

Lemma in_del x y l : In y (del x l) <-> In y l /\ y <> x.
Proof.
  unfold del. rewrite filter_In, negb_true_iff, Nat.eqb_neq. intuition congruence.
Qed.

Lemma nodup_del x l : NoDup l -> NoDup (del x l).
Proof. apply NoDup_filter. Qed.

Lemma length_del x l : NoDup l -> In x l -> Z.of_nat (length (del x l)) = Z.of_nat (length l) - 1.
Proof.
  intros N H. induction l as [| y l IH]; [destruct H |]. inversion N as [| ? ? N1 N2]; subst.
  cbn [del filter]. destruct H as [-> | H].
  - rewrite Nat.eqb_refl. cbn [negb length].
    replace (filter _ l) with l; [lia |]. symmetry.
    clear -N1. induction l as [| z l IH]; auto. cbn. destruct (Nat.eqb x z) eqn:E.
    + apply Nat.eqb_eq in E. subst. exfalso. apply N1. left; auto.
    + cbn. f_equal. apply IH. intro H. apply N1. right; auto.
  - assert (x <> y) by (intros ->; auto). apply Nat.eqb_neq in H0. rewrite H0. cbn [negb length].
    unfold del in IH. specialize (IH N2 H). lia.
Qed.

Lemma nodup_push x (l : list nat) : NoDup l -> ~ In x l -> NoDup (l ++ [x]).
Proof.
  intros N H. apply NoDup_rev in N. rewrite <- (rev_involutive (l ++ [x])). apply NoDup_rev.
  rewrite rev_app_distr. cbn. constructor; auto. rewrite <- in_rev. auto.
Qed.

(* ---- Invariant ---- *)

Record ginv (g : group) : Prop := {
  gi_router : inv (g_router g);
  gi_nodup : NoDup (g_sess g);
  gi_mix : g_mix g = g_sess g;
  gi_active : g_active g = Z.of_nat (length (g_sess g));
  gi_next : forall x, In x (g_sess g) -> (x < g_next g)%nat;
  gi_in : forall r x, In r (st_routes (g_router g)) -> r_sess r = Some x -> In x (g_sess g)
}.

(* What is known about the SSRCs of the routes with a CNAME. *)
Definition holds (P : Z -> list Z -> Prop) (g : group) : Prop :=
  forall r s, In r (st_routes (g_router g)) -> In s (r_srcs r) -> r_cname r <> [] -> P s (r_cname r).

Lemma ginv_new oom : ginv (g_new oom).
Proof. split; cbn; auto using inv_new; try tauto; try constructor. Qed.

Lemma remove_ok g x : ginv g -> In x (g_sess g) ->
  exists g', remove_session_ g x = Ok g' /\ ginv g' /\ g_sess g' = del x (g_sess g) /\
    g_next g' = g_next g /\ incl (st_routes (g_router g')) (st_routes (g_router g)) /\
    (forall r, In r (st_routes (g_router g)) -> r_sess r <> Some x -> In r (st_routes (g_router g'))).
Proof.
  intros G H. unfold remove_session_, unlist. rewrite (gi_mix g G).
  rewrite (proj2 (mem_in x (g_sess g)) H). cbn [bind].
  destruct (remove_run (g_router g) x (gi_router g G)) as (st & E & I & _ & D1 & D2).
  rewrite E. cbn [bind]. unfold add_active. rewrite (gi_active g G).
  assert (L : (1 <= length (g_sess g))%nat) by (destruct (g_sess g); [destruct H | cbn; lia]).
  destruct (Z.of_nat (length (g_sess g)) + -1 <? 0) eqn:B; [apply Z.ltb_lt in B; lia |].
  cbn [bind]. eexists. splits; [reflexivity | | reflexivity | reflexivity | |]; cbn [g_router g_sess].
  - split; cbn [g_router g_sess g_mix g_active g_next]; auto.
    + apply nodup_del, G.
    + rewrite length_del; auto. apply G.
    + intros y Hy. apply in_del in Hy. apply G. tauto.
    + intros r y Hr Hy. apply in_del.
      destruct (by_sess (st_routes (g_router g)) (Some x)) as [q |] eqn:Eq.
      * rewrite (D1 q eq_refl) in Hr. apply in_others in Hr. destruct Hr as [Hr Hn].
        split; [eapply G; eauto |]. intros ->. apply Hn.
        apply by_sess_iff in Eq; [| apply G]. apply (i_uniq _ (gi_router g G)); try tauto.
        right; right; right. destruct Eq. split; congruence.
      * rewrite D2 in Hr by auto. split; [eapply G; eauto |]. intros ->.
        exact (proj1 (by_sess_none _ (gi_router g G) x) Eq r Hr Hy).
  - intros r Hr. destruct (by_sess (st_routes (g_router g)) (Some x)) as [q |] eqn:Eq.
    + rewrite (D1 q eq_refl) in Hr. apply in_others in Hr. tauto.
    + rewrite D2 in Hr by auto. auto.
  - intros r Hr Hn. destruct (by_sess (st_routes (g_router g)) (Some x)) as [q |] eqn:Eq.
    + rewrite (D1 q eq_refl). apply in_others. split; auto. intro X.
      apply by_sess_iff in Eq; [| apply G].
      assert (r = q) by (eapply id_eq; [apply (i_ids _ (gi_router g G)) | | |]; tauto).
      subst. tauto.
    + rewrite D2; auto.
Qed.

Lemma holds_incl P g g' : incl (st_routes (g_router g')) (st_routes (g_router g)) -> holds P g -> holds P g'.
Proof. intros H K r s Hr. apply K. auto. Qed.

(* ---- Transport packets ---- *)

Lemma find_live g : ginv g ->
  (forall s x, find_by_source (g_router g) s = Some x -> In x (g_sess g)) /\
  (forall a x, find_by_address (g_router g) a = Some x -> In x (g_sess g)).
Proof.
  intro G. split; intros k x H.
  - apply (fs_iff _ (gi_router g G)) in H. destruct H as (r & H1 & _ & H2). eapply G; eauto.
  - apply (fa_iff _ (gi_router g G)) in H. destruct H as (r & H1 & _ & H2). eapply G; eauto.
Qed.

Lemma fresh_ok g : ginv g -> ~ In (g_next g) (g_sess g).
Proof. intros G H. apply G in H. lia. Qed.

Definition made_ok (g : group) (p : pkt) (f : fate) (g' : group) : Prop :=
  match f with
  | Created x =>
      exists s a, k_rtp p = Some s /\ k_addr p = Some a /\
      x = g_next g /\ g_sess g' = g_sess g ++ [x] /\
      find_by_source (g_router g') s = Some x /\ find_by_address (g_router g') a = Some x
  | Delivered _ => False
  | _ => g_sess g' = g_sess g
  end.

Lemma create_session_ok made took g p :
  ginv g ->
  exists f g', create_session_ made took g p = Ok (f, g') /\ ginv g' /\
    (forall P, holds P g -> holds P g') /\ made_ok g p f g' /\ (g_next g <= g_next g')%nat.
Proof.
  intro G. unfold create_session_.
  destruct (k_rtp p) as [s |] eqn:Es; [| exists Ignored, g; cbn; auto 10].
  destruct (k_addr p) as [a |] eqn:Ea; [| exists Ignored, g; cbn; auto 10].
  destruct (negb made); [exists (Failed None), g; cbn; auto 10 |].
  set (x := g_next g). set (g1 := mkG _ _ _ _ _).
  assert (G1 : ginv g1).
  { split; try apply G. cbn. intros y Hy. apply G in Hy. lia. }
  destruct (negb took).
  { exists (Failed None), g1. splits; auto; cbn; auto. }
  destruct (add_run (g_router g1) x s a (gi_router g1 G1)) as (k & st & E & I & PV & SV & D).
  change (g_router g1) with (g_router g) in *. rewrite E. cbn [bind fst snd].
  assert (K : forall P, holds P g -> holds P (set_router g1 st)).
  { intros P H r t Hr Ht Hn. cbn in Hr. destruct (PV r t Hr Ht Hn) as [[-> X] | (q & Hq & Hqt & X)]; [congruence |].
    rewrite <- X. apply H; auto. congruence. }
  destruct k.
  - unfold push. change (g_mix g1) with (g_mix g). change (g_sess g1) with (g_sess g).
    rewrite (gi_mix g G).
    destruct (mem x (g_sess g)) eqn:M; [exfalso; apply mem_in in M; exact (fresh_ok g G M) |].
    cbn [bind]. unfold add_active. change (g_active g1) with (g_active g). rewrite (gi_active g G).
    destruct (Z.of_nat (length (g_sess g)) + 1 <? 0) eqn:B; [apply Z.ltb_lt in B; lia |].
    cbn [bind]. exists (Created x). eexists. splits; [reflexivity | | | |].
    + split; cbn [g_router g_sess g_mix g_active g_next g1]; auto.
      * apply nodup_push; [apply G | exact (fresh_ok g G)].
      * rewrite app_length. cbn [length]. lia.
      * intros y Hy. apply in_app_iff in Hy. destruct Hy as [Hy | [<- | []]].
        -- apply G in Hy. lia.
        -- unfold x. lia.
      * intros r y Hr Hy. apply in_app_iff. destruct (SV r y Hr Hy) as [[_ ->] | (q & Hq & X)].
        -- right. left. auto.
        -- left. eapply G; eauto.
    + intros P H. apply (K P H).
    + cbn [made_ok]. exists s, a. cbn [g_sess g_router].
      destruct D as [[D _] | (D1 & D2 & [[_ D] | D])]; [discriminate D | | discriminate D].
      assert (X : exists r, In r (st_routes st) /\ In s (r_srcs r) /\ r_addr r = Some a /\ r_sess r = Some x).
      { inversion D as [r H1 H2 H3 H4 ER | st1 H1 H2 ER].
        - exists (fill x a r). splits; auto. apply in_on. exists r. split; auto.
          rewrite Nat.eqb_refl. auto.
        - exists (new_route (st_next (g_router g)) s (Some a) None (Some x)).
          splits; cbn; auto. apply in_app_iff. right. left. auto. }
      destruct X as (r & X1 & X2 & X3 & X4). splits; auto.
      * apply (fs_iff _ I). eauto.
      * apply (fa_iff _ I). eauto.
    + cbn. lia.
  - exists (Failed (Some StConflict)), (set_router g1 st). splits; auto; try solve [cbn; auto].
    split; try apply G1; cbn; auto.
    intros r y Hr Hy. destruct (SV r y Hr Hy) as [[X _] | (q & Hq & X)]; [discriminate X | eapply G; eauto].
  - exists (Failed (Some StNoMem)), (set_router g1 st). splits; auto; try solve [cbn; auto].
    split; try apply G1; cbn; auto.
    intros r y Hr Hy. destruct (SV r y Hr Hy) as [[X _] | (q & Hq & X)]; [discriminate X | eapply G; eauto].
Qed.

Definition few (routing : bool) (g : group) : Prop := routing = false -> (length (g_sess g) <= 1)%nat.

Lemma route_ok routing made took g p :
  ginv g -> few routing g ->
  exists f g', route_transport routing made took g p = Ok (f, g') /\ ginv g' /\ few routing g' /\
    (forall P, holds P g -> holds P g') /\
    match f with
    | Delivered x => In x (g_sess g) /\ g' = g
    | Created x => made_ok g p f g' /\ session_for routing g p = Ok None
    | _ => g_sess g' = g_sess g
    end /\ (g_next g <= g_next g')%nat.
Proof.
  intros G F. unfold route_transport.
  assert (X : exists f, session_for routing g p = Ok f /\ (forall x, f = Some x -> In x (g_sess g)) /\
    (routing = false -> f = None -> g_sess g = [])).
  { unfold session_for. destruct (find_live g G) as [L1 L2]. destruct routing.
    - eexists. splits; [reflexivity | | congruence]. intros x H.
      destruct (k_rtp p) as [s |].
      + destruct (find_by_source (g_router g) s) eqn:E.
        * assert (n = x) by congruence. subst. eauto.
        * destruct (k_addr p); [eauto | discriminate H].
      + destruct (k_addr p); [eauto | discriminate H].
    - specialize (F eq_refl). destruct (g_sess g) as [| x [| y l]].
      + exists None. splits; auto. congruence.
      + exists (Some x). splits; auto; [| congruence]. intros y H. assert (x = y) by congruence. left; auto.
      + cbn in F. lia. }
  destruct X as (f & E & H & H0). rewrite E. cbn [bind]. destruct f as [x |].
  - exists (Delivered x), g. splits; auto.
  - destruct (k_repair p).
    + exists Ignored, g. splits; auto.
    + destruct (create_session_ok made took g p G) as (f & g' & E' & G' & K & M & N).
      exists f, g'. splits; auto.
      * intro R. specialize (H0 R eq_refl). destruct f; cbn [made_ok] in M; try (rewrite M, H0; cbn; lia); try tauto.
        destruct M as (s & a & _ & _ & _ & M & _). rewrite M, H0. cbn. lia.
      * destruct f; auto. cbn in M. tauto.
Qed.

(* ---- Ends of sessions ---- *)

Lemma refresh_ok alive l : forall next g, ginv g -> NoDup l -> incl l (g_sess g) ->
  exists d g', refresh_loop alive l next g = Ok (d, g') /\ ginv g' /\
    (forall x, In x (g_sess g') <-> In x (g_sess g) /\ ~ (In x l /\ alive x = None)) /\
    g_next g' = g_next g /\ incl (st_routes (g_router g')) (st_routes (g_router g)) /\
    (length (g_sess g') <= length (g_sess g))%nat /\
    (forall r x, In r (st_routes (g_router g)) -> r_sess r = Some x -> alive x <> None ->
       In r (st_routes (g_router g'))) /\
    (forall r, In r (st_routes (g_router g)) -> r_sess r = None -> In r (st_routes (g_router g'))) /\
    d = fold_left earlier (flat_map (fun x => match alive x with Some e => [e] | None => [] end) l) next.
Proof.
  induction l as [| x l IH]; intros next g G N H; cbn [refresh_loop].
  - exists next, g. splits; auto; cbn; try tauto. apply incl_refl.
  - inversion N as [| ? ? N1 N2]; subst. destruct (alive x) as [e |] eqn:E.
    + destruct (IH (earlier next e) g G N2) as (d & g' & E' & G' & M & X1 & X2 & X3 & X4 & X5 & X6).
      { intros y Hy. apply H. right; auto. }
      exists d, g'. splits; auto.
      * intro y. rewrite M. cbn. split; intros [Y1 Y2]; split; auto; intros [Y3 Y4]; apply Y2; split; auto.
        destruct Y3 as [<- | Y3]; auto. congruence.
      * cbn [flat_map]. rewrite E. cbn [app fold_left]. auto.
    + destruct (remove_ok g x G (H x (or_introl eq_refl))) as (g1 & E1 & G1 & S1 & N1' & I1 & K1).
      rewrite E1. cbn [bind].
      destruct (IH next g1 G1 N2) as (d & g' & E' & G' & M & X1 & X2 & X3 & X4 & X5 & X6).
      { intros y Hy. rewrite S1. apply in_del. split; [apply H; right; auto |]. intros ->. auto. }
      exists d, g'. splits; auto; try congruence.
      * intro y. rewrite M, S1, in_del. cbn. split.
        -- intros [[Y1 Y2] Y3]. split; auto. intros [[Y4 | Y4] Y5]; [congruence |]. apply Y3; auto.
        -- intros [Y1 Y2]. splits; auto; try tauto. intros ->. apply Y2. auto.
      * eapply incl_tran; eauto.
      * rewrite S1 in X3. unfold del in X3. pose proof (filter_len (fun y => negb (Nat.eqb x y)) (g_sess g)). lia.
      * intros r y Hr Hy Ha. eapply X4; eauto. apply K1; auto. congruence.
      * intros r Hr Hn. apply X5; auto. apply K1; auto. congruence.
      * cbn [flat_map]. rewrite E. auto.
Qed.

Lemma reclock_refresh alive l : forall g next,
  reclock_loop alive l g =
  match refresh_loop (fun x => if alive x then Some 0 else None) l next g with
  | Ok q => Ok (snd q) | Panic => Panic | UB => UB
  end.
Proof.
  induction l as [| x l IH]; intros g next; cbn [reclock_loop refresh_loop]; auto.
  destruct (alive x); [apply IH |].
  destruct (remove_session_ g x); cbn [bind]; auto.
Qed.

Lemma remove_all_fine n : forall g, ginv g -> (length (g_sess g) < n)%nat ->
  exists g', remove_all_sessions n g = Ok (Some g') /\ ginv g' /\ g_sess g' = [].
Proof.
  induction n as [| n IH]; intros g G L; [lia |]. cbn [remove_all_sessions].
  destruct (rev (g_sess g)) as [| x l] eqn:E.
  - exists g. splits; auto. apply (f_equal (@rev _)) in E. rewrite rev_involutive in E. auto.
  - assert (H : In x (g_sess g)) by (apply in_rev; rewrite E; left; auto).
    destruct (remove_ok g x G H) as (g1 & E1 & G1 & S1 & _). rewrite E1. cbn [bind].
    apply IH; auto. assert (Y := length_del x (g_sess g) (gi_nodup g G) H). rewrite S1. lia.
Qed.

(* ---- Reports ---- *)

Lemma drop_ok P g old : ginv g -> holds P g -> (forall x, old = Some x -> In x (g_sess g)) ->
  exists g', drop_lost g old = Ok g' /\ ginv g' /\ holds P g' /\
    incl (st_routes (g_router g')) (st_routes (g_router g)) /\ (length (g_sess g') <= length (g_sess g))%nat /\
    (forall r, In r (st_routes (g_router g)) -> In r (st_routes (g_router g'))) /\
    (forall x, In x (g_sess g') <->
       In x (g_sess g) /\ (old = Some x -> has_session (g_router g) x = true)).
Proof.
  intros G H Ho. unfold drop_lost. destruct old as [x |].
  2: { exists g. splits; auto; try apply incl_refl. intro x. split; [| tauto]. intro K. split; auto. congruence. }
  destruct (has_session (g_router g) x) eqn:E.
  - exists g. splits; auto; try apply incl_refl. intro y. split; [| tauto]. intro K. split; auto. congruence.
  - destruct (remove_ok g x G (Ho x eq_refl)) as (g1 & E1 & G1 & S1 & _ & I1 & K1).
    assert (KK : forall r, In r (st_routes (g_router g)) -> r_sess r <> Some x).
    { intros r Hr X. assert (Y : has_session (g_router g) x = true) by (apply (hs_iff _ (gi_router g G)); eauto). congruence. }
    exists g1. splits; auto.
    + eapply holds_incl; eauto.
    + rewrite S1. apply filter_len.
    + intro y. rewrite S1, in_del. split; intros [Y1 Y2]; split; auto.
      * congruence.
      * intros ->. specialize (Y2 eq_refl). congruence.
Qed.

(* After a goodbye nothing is known about [s], and the rest is as before. *)
Lemma halt_ok (P : Z -> list Z -> Prop) g s : ginv g -> holds P g ->
  exists g', halt_recv g s = Ok g' /\ ginv g' /\ holds (fun t c => t <> s /\ P t c) g' /\
    (length (g_sess g') <= length (g_sess g))%nat.
Proof.
  intros G H. unfold halt_recv.
  destruct (unlink_ok (g_router g) s (gi_router g G)) as (st & E & EN & E1 & E2). rewrite E. cbn [bind].
  assert (I : inv st) by (eapply unlink_inv; eauto; apply G).
  assert (SUB := unlink_sub (g_router g) s st (gi_router g G) E).
  assert (GONE : forall r, In r (st_routes st) -> ~ In s (r_srcs r)).
  { intros r Hr Hs. destruct (by_src (st_routes (g_router g)) s) as [q |] eqn:Eq.
    - rewrite (E1 q eq_refl) in Hr. apply by_src_iff in Eq; [| apply G].
      destruct (Nat.eqb _ 0) in Hr.
      + apply in_others in Hr. destruct Hr as [Hr Hn]. apply Hn.
        apply (i_uniq _ (gi_router g G)); try tauto. left. exists s. tauto.
      + apply in_on in Hr. destruct Hr as (q' & Hq' & ->). destruct (Nat.eqb (r_id q) (r_id q')) eqn:Ei.
        * rewrite srcs_cut in Hs. apply filter_In in Hs. rewrite Z.eqb_refl in Hs. cbn in Hs. destruct Hs; congruence.
        * apply Nat.eqb_neq in Ei. apply Ei. apply (i_uniq _ (gi_router g G)); try tauto. left. exists s. tauto.
    - rewrite E2 in Hr by auto. exact (proj1 (by_src_none _ (gi_router g G) s) Eq r Hr Hs). }
  set (g1 := set_router g st).
  assert (G1 : ginv g1).
  { split; try apply G; cbn; auto. intros r x Hr Hx. destruct (SUB r Hr) as (q & Hq & _ & _ & X & _).
    eapply G; eauto. congruence. }
  assert (H1 : holds (fun t c => t <> s /\ P t c) g1).
  { intros r t Hr Ht Hn. cbn in Hr. split; [intros ->; exact (GONE r Hr Ht) |].
    destruct (SUB r Hr) as (q & Hq & _ & _ & _ & X & Y). rewrite X. apply H; auto. congruence. }
  destruct (drop_ok _ g1 (find_by_source (g_router g) s) G1 H1) as (g' & E' & G' & H' & _ & L & _).
  { intros x Hx. apply (proj1 (find_live g G)) in Hx. auto. }
  exists g'. splits; auto.
Qed.

Lemma notify_ok (P : Z -> list Z -> Prop) g s c : ginv g -> holds P g -> c <> [] ->
  (forall d, P s d -> d = c) ->
  exists k x g', notify_recv g s c = Ok (k, x, g') /\ ginv g' /\
    holds (fun t d => P t d \/ (t = s /\ d = c)) g' /\ (length (g_sess g') <= length (g_sess g))%nat /\
    (k = StOK -> x = find_by_source (g_router g') s).
Proof.
  intros G H Hc Hs. unfold notify_recv.
  destruct (link_run (g_router g) s c (gi_router g G) Hc) as (k & st & E & I & PV & SV & D).
  { intros r Hr Hsr. destruct (r_cname r) eqn:Ec; auto. right. apply Hs. rewrite <- Ec. apply H; auto. congruence. }
  rewrite E. cbn [bind fst snd]. set (g1 := set_router g st).
  assert (G1 : ginv g1).
  { split; try apply G; cbn; auto. intros r x Hr Hx. destruct (SV r x Hr Hx) as (q & Hq & X). eapply G; eauto. }
  assert (H1 : holds (fun t d => P t d \/ (t = s /\ d = c)) g1).
  { intros r t Hr Ht Hn. cbn in Hr. destruct (PV r t Hr Ht Hn) as [X | (q & Hq & Hqt & X)]; auto.
    left. rewrite <- X. apply H; auto. congruence. }
  destruct k.
  - destruct (drop_ok _ g1 (find_by_source (g_router g) s) G1 H1) as (g' & E' & G' & H' & _ & L & _).
    { intros x Hx. apply (proj1 (find_live g G)) in Hx. auto. }
    change (set_router g st) with g1. rewrite E'. cbn [bind].
    exists StOK. eexists. exists g'. splits; auto.
  - exists StConflict, None, g1. splits; auto. congruence.
  - exists StNoMem, None, g1. splits; auto. congruence.
Qed.
