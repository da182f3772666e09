(** Lemmas on the table of remote streams. *)
From Verif Require Import Base Base_lemmas Reporter_model Reporter_spec.
From Coq Require Import Permutation Sorted.
Open Scope res_scope.
Local Open Scope Z_scope.

Ltac splits := repeat match goal with |- _ /\ _ => split end.
(** *** Lists *)
Lemma find_nodup : forall {A} (k : A -> Z) l s, NoDup (map k l) -> In s l -> find (fun x => k x =? k s) l = Some s.
Proof.
  intros A k l s; induction l as [|x l IH]; intros Hn Hi; [destruct Hi|].
  cbn [map] in Hn; inversion Hn as [|? ? H1 H2]; subst; cbn [find].
  destruct (k x =? k s) eqn:E.
  - apply Z.eqb_eq in E; destruct Hi as [-> | Hi]; [reflexivity|].
    exfalso; apply H1; rewrite E; apply in_map; exact Hi.
  - destruct Hi as [-> | Hi]; [rewrite Z.eqb_refl in E; discriminate E | apply IH; assumption].
Qed.
Lemma findn_nodup : forall {A} (k : A -> nat) l s, NoDup (map k l) -> In s l -> find (fun x => Nat.eqb (k x) (k s)) l = Some s.
Proof.
  intros A k l s; induction l as [|x l IH]; intros Hn Hi; [destruct Hi|].
  cbn [map] in Hn; inversion Hn as [|? ? H1 H2]; subst; cbn [find].
  destruct (Nat.eqb (k x) (k s)) eqn:E.
  - apply Nat.eqb_eq in E; destruct Hi as [-> | Hi]; [reflexivity|].
    exfalso; apply H1; rewrite E; apply in_map; exact Hi.
  - destruct Hi as [-> | Hi]; [rewrite Nat.eqb_refl in E; discriminate E | apply IH; assumption].
Qed.
Lemma perm_filter : forall {A} (f : A -> bool) l l', Permutation l l' -> Permutation (filter f l) (filter f l').
Proof.
  intros A f l l' H; induction H; cbn [filter].
  - constructor.
  - destruct (f x); [constructor|]; assumption.
  - destruct (f x), (f y); try constructor; apply Permutation_refl.
  - eapply Permutation_trans; eassumption.
Qed.
Lemma filter_map_nat : forall {A} (k : A -> nat) u l, map k (filter (fun s => negb (Nat.eqb (k s) u)) l) = without u (map k l).
Proof.
  intros A k u l; induction l as [|x l IH]; [reflexivity|]; cbn [filter map without].
  unfold without in *; destruct (negb (Nat.eqb (k x) u)); cbn [map]; rewrite IH; reflexivity.
Qed.
Lemma nodup_filter : forall {A B} (k : A -> B) f l, NoDup (map k l) -> NoDup (map k (filter f l)).
Proof.
  intros A B k f l; induction l as [|x l IH]; intros H; [exact H|]; cbn [map] in H; inversion H as [|? ? H1 H2]; subst.
  cbn [filter]; destruct (f x); [|apply IH; exact H2]; cbn [map]; constructor; [|apply IH; exact H2].
  intros H3; apply H1; apply in_map_iff in H3; destruct H3 as (y & <- & H3); apply filter_In in H3; apply in_map; tauto.
Qed.
Lemma filter_all : forall {A} (f : A -> bool) l, Forall (fun x => f x = true) l -> filter f l = l.
Proof. intros A f l H; induction H; [reflexivity|]; cbn [filter]; rewrite H, IHForall; reflexivity. Qed.
Lemma filter_none : forall {A} (f : A -> bool) l, Forall (fun x => f x = false) l -> filter f l = [].
Proof. intros A f l H; induction H; [reflexivity|]; cbn [filter]; rewrite H; exact IHForall. Qed.
Lemma sorted_filter : forall {A} (R : A -> A -> Prop) f l, StronglySorted R l -> StronglySorted R (filter f l).
Proof.
  intros A R f l H; induction H; cbn [filter]; [constructor|]; destruct (f a); [|exact IHStronglySorted]; constructor; [exact IHStronglySorted|].
  rewrite Forall_forall in *; intros x Hx; apply H0; apply filter_In in Hx; tauto.
Qed.
Lemma sorted_map : forall {A} (R : A -> A -> Prop) f l, (forall a b, R a b -> R (f a) (f b)) -> StronglySorted R l -> StronglySorted R (map f l).
Proof.
  intros A R f l Hf H; induction H; cbn [map]; [constructor|]; constructor; [exact IHStronglySorted|].
  rewrite Forall_forall in *; intros x Hx; apply in_map_iff in Hx; destruct Hx as (y & <- & Hx); auto.
Qed.
Lemma sorted_snoc : forall {A} (R : A -> A -> Prop) l x, StronglySorted R (l ++ [x]) -> Forall (fun y => R y x) l.
Proof.
  intros A R l x; induction l as [|y l IH]; intros H; [constructor|]; cbn [app] in H; inversion H as [|? ? H1 H2]; subst.
  constructor; [|apply IH; exact H1]; rewrite Forall_forall in H2; apply H2, in_or_app; right; left; reflexivity.
Qed.

(** *** The invariant *)
Definition newer (a b : strm) : Prop := s_upd b <= s_upd a.
Record tinv (mono : Prop) (now : Z) (t : tab) (ls : list strm) : Prop := {
  ti_uid : NoDup (map s_uid (t_streams t));
  ti_id : NoDup (map s_id (t_streams t));
  ti_new : Forall (fun s => (s_uid s < t_uid t)%nat) (t_streams t);
  ti_perm : Permutation ls (t_streams t);
  ti_lru : t_lru t = map s_uid ls;
  ti_sort : mono -> StronglySorted newer ls;
  ti_now : mono -> Forall (fun s => s_upd s <= now) ls }.
Definition tok (mono : Prop) (now : Z) (t : tab) : Prop := exists ls, tinv mono now t ls.

Lemma tinv_nodup_ls : forall m n t ls, tinv m n t ls -> NoDup (map s_uid ls).
Proof. intros m n t ls H; eapply Permutation_NoDup; [apply Permutation_map, Permutation_sym, (ti_perm _ _ _ _ H) | apply (ti_uid _ _ _ _ H)]. Qed.
Lemma tinv_in : forall m n t ls s, tinv m n t ls -> In s ls <-> In s (t_streams t).
Proof. intros m n t ls s H; split; apply Permutation_in; [|apply Permutation_sym]; apply (ti_perm _ _ _ _ H). Qed.
Lemma get_in : forall t id s, get t id = Some s -> In s (t_streams t) /\ s_id s = id.
Proof. intros t id s H; apply find_some in H; destruct H as (H & E); apply Z.eqb_eq in E; auto. Qed.
Lemma get_uid_in : forall t u s, get_uid t u = Some s -> In s (t_streams t) /\ s_uid s = u.
Proof. intros t u s H; apply find_some in H; destruct H as (H & E); apply Nat.eqb_eq in E; auto. Qed.
Lemma get_none : forall t id, get t id = None -> ~ In id (map s_id (t_streams t)).
Proof.
  intros t id H Hi; apply in_map_iff in Hi; destruct Hi as (s & <- & Hi); apply (find_none _ _ H) in Hi.
  rewrite Z.eqb_refl in Hi; discriminate Hi.
Qed.
Lemma in_get : forall m n t s, tok m n t -> In s (t_streams t) -> get t (s_id s) = Some s.
Proof. intros m n t s (ls & H) Hi; apply (find_nodup s_id); [apply (ti_id _ _ _ _ H) | exact Hi]. Qed.
Lemma in_get_uid : forall m n t s, tok m n t -> In s (t_streams t) -> get_uid t (s_uid s) = Some s.
Proof. intros m n t s (ls & H) Hi; apply (findn_nodup s_uid); [apply (ti_uid _ _ _ _ H) | exact Hi]. Qed.
Lemma uid_eq : forall m n t a b, tok m n t -> In a (t_streams t) -> In b (t_streams t) -> s_uid a = s_uid b -> a = b.
Proof.
  intros m n t a b Hk Ha Hb E; pose proof (in_get_uid _ _ _ _ Hk Ha) as H1; pose proof (in_get_uid _ _ _ _ Hk Hb) as H2.
  rewrite E in H1; congruence.
Qed.
Lemma id_eq : forall m n t a b, tok m n t -> In a (t_streams t) -> In b (t_streams t) -> s_id a = s_id b -> a = b.
Proof.
  intros m n t a b Hk Ha Hb E; pose proof (in_get _ _ _ _ Hk Ha) as H1; pose proof (in_get _ _ _ _ Hk Hb) as H2.
  rewrite E in H1; congruence.
Qed.

(** Operations *)
Lemma tok_later : forall m n n' t, tok m n t -> (m -> n <= n') -> tok m n' t.
Proof.
  intros m n n' t (ls & H) Hn; exists ls; destruct H; constructor; auto.
  intros Hm; specialize (ti_now0 Hm); specialize (Hn Hm); eapply Forall_impl; [|exact ti_now0]; cbn; intros; lia.
Qed.
Lemma tok_need : forall m n t, tok m n t -> tok m n (set_need t).
Proof. intros m n t (ls & H); exists ls; destruct H; constructor; assumption. Qed.
Lemma tok_need_if : forall m n b t, tok m n t -> tok m n (need_if b t).
Proof. intros m n [] t H; [apply tok_need|]; exact H. Qed.
Lemma tok_noneed : forall m n t b, tok m n t -> tok m n (mkT (t_streams t) (t_lru t) (t_uid t) b).
Proof. intros m n t b (ls & H); exists ls; destruct H; constructor; assumption. Qed.

Definition same_key (f : strm -> strm) : Prop := forall s, s_uid (f s) = s_uid s /\ s_id (f s) = s_id s.
Definition same_upd (f : strm -> strm) : Prop := forall s, s_upd (f s) = s_upd s.
Definition at_uid (u : nat) (f : strm -> strm) (s : strm) : strm := if Nat.eqb (s_uid s) u then f s else s.
Lemma at_uid_key : forall u f, same_key f -> same_key (at_uid u f).
Proof. intros u f H s; unfold at_uid; destruct (Nat.eqb (s_uid s) u); [apply H | auto]. Qed.
Lemma map_key : forall {B} (k : strm -> B) f l, (forall s, k (f s) = k s) -> map k (map f l) = map k l.
Proof. intros B k f l H; rewrite map_map; apply map_ext; exact H. Qed.
Lemma modify_streams : forall t u f, t_streams (modify t u f) = map (at_uid u f) (t_streams t).
Proof. reflexivity. Qed.
Lemma tok_modify : forall m n t u f, same_key f -> same_upd f -> tok m n t -> tok m n (modify t u f).
Proof.
  intros m n t u f Hk Hu (ls & H); exists (map (at_uid u f) ls); pose proof (at_uid_key u f Hk) as Ha.
  assert (Hu' : forall s, s_upd (at_uid u f s) = s_upd s) by (intros s; unfold at_uid; destruct (Nat.eqb (s_uid s) u); auto).
  destruct H; constructor.
  - rewrite modify_streams, (map_key s_uid); [exact ti_uid0 | apply Ha].
  - rewrite modify_streams, (map_key s_id); [exact ti_id0 | apply Ha].
  - rewrite modify_streams; apply Forall_map; eapply Forall_impl; [|exact ti_new0]; cbn beta; intros s Hs; rewrite (proj1 (Ha s)); exact Hs.
  - rewrite modify_streams; apply Permutation_map; exact ti_perm0.
  - cbn [modify t_lru]; rewrite (map_key s_uid); [exact ti_lru0 | apply Ha].
  - intros Hm; apply sorted_map; [|auto]; unfold newer; intros a b; rewrite !Hu'; auto.
  - intros Hm; apply Forall_map; eapply Forall_impl; [|exact (ti_now0 Hm)]; cbn beta; intros s; rewrite Hu'; auto.
Qed.
Lemma get_modify : forall t u f id, same_key f -> get (modify t u f) id = option_map (at_uid u f) (get t id).
Proof.
  intros t u f id Hk; unfold get; rewrite modify_streams; pose proof (at_uid_key u f Hk) as Ha.
  induction (t_streams t) as [|s l IH]; [reflexivity|]; cbn [map find]; rewrite (proj2 (Ha s)).
  destruct (s_id s =? id); [reflexivity | exact IH].
Qed.
Lemma get_uid_modify : forall t u f v, same_key f -> get_uid (modify t u f) v = option_map (at_uid u f) (get_uid t v).
Proof.
  intros t u f v Hk; unfold get_uid; rewrite modify_streams; pose proof (at_uid_key u f Hk) as Ha.
  induction (t_streams t) as [|s l IH]; [reflexivity|]; cbn [map find]; rewrite (proj1 (Ha s)).
  destruct (Nat.eqb (s_uid s) v); [reflexivity | exact IH].
Qed.
Lemma tok_remove : forall m n t u, tok m n t -> tok m n (remove_stream t u).
Proof.
  intros m n t u (ls & H); exists (filter (fun s => negb (Nat.eqb (s_uid s) u)) ls); destruct H; constructor; cbn [remove_stream t_streams t_lru t_uid].
  - apply nodup_filter; assumption.
  - apply nodup_filter; assumption.
  - rewrite Forall_forall in *; intros s Hs; apply ti_new0; apply filter_In in Hs; tauto.
  - apply perm_filter; assumption.
  - rewrite filter_map_nat, ti_lru0; reflexivity.
  - intros Hm; apply sorted_filter; auto.
  - intros Hm; specialize (ti_now0 Hm); rewrite Forall_forall in *; intros s Hs; apply ti_now0; apply filter_In in Hs; tauto.
Qed.
Lemma get_remove : forall m n t s id, tok m n t -> In s (t_streams t) -> get (remove_stream t (s_uid s)) id = if s_id s =? id then None else get t id.
Proof.
  intros m n t s id Hk Hi; unfold get; cbn [remove_stream t_streams].
  destruct (s_id s =? id) eqn:E.
  - apply Z.eqb_eq in E; apply not_true_is_false in E || idtac.
    destruct (find _ _) as [x|] eqn:F; [|reflexivity]; exfalso; apply find_some in F; destruct F as (F & Fx).
    apply filter_In in F; destruct F as (F & Fu); apply Z.eqb_eq in Fx.
    assert (x = s) by (eapply id_eq; eauto; congruence); subst x; rewrite Nat.eqb_refl in Fu; discriminate Fu.
  - assert (Hn : forall x, In x (t_streams t) -> s_id x = id -> negb (Nat.eqb (s_uid x) (s_uid s)) = true).
    { intros x Hx Ex; destruct (Nat.eqb (s_uid x) (s_uid s)) eqn:F; [|reflexivity].
      apply Nat.eqb_eq in F; assert (x = s) by (eapply uid_eq; eauto); subst x; rewrite Ex, Z.eqb_refl in E; discriminate E. }
    revert Hn; clear; induction (t_streams t) as [|x l IH]; intros Hn; [reflexivity|]; cbn [filter find].
    destruct (s_id x =? id) eqn:E.
    + apply Z.eqb_eq in E; rewrite (Hn x (or_introl eq_refl) E); cbn [find]; rewrite (proj2 (Z.eqb_eq _ _) E); reflexivity.
    + destruct (negb (Nat.eqb (s_uid x) (s_uid s))); cbn [find]; [rewrite E|]; apply IH; intros y Hy; apply Hn; right; exact Hy.
Qed.
Lemma nodup_snoc_z : forall {B} (l : list B) x, NoDup l -> ~ In x l -> NoDup (l ++ [x]).
Proof. intros B l x Hn Hx; eapply Permutation_NoDup; [apply Permutation_cons_append | constructor; assumption]. Qed.
Lemma find_create_spec : forall m n ok t id t' o, tok m n t -> find_create ok n t id = (t', o) ->
  tok m n t' /\ (forall id', id' <> id -> get t' id' = get t id') /\ get t' id = o /\
  (get t id = None /\ ok = false /\ o = None /\ t' = t \/ get t id <> None /\ t' = t /\ o = get t id \/
   get t id = None /\ ok = true /\ t_need t' = true /\
   let s := mkS (t_uid t) id 0 false 0 false 0 None 0 n false in o = Some s /\ t_streams t' = t_streams t ++ [s]).
Proof.
  intros m n ok t id t' o Hk H; unfold find_create in H; destruct (get t id) as [s|] eqn:G.
  - injection H as <- <-; splits; auto; right; left; splits; auto; discriminate.
  - destruct ok; [|injection H as <- <-; splits; auto].
    remember (mkS (t_uid t) id 0 false 0 false 0 None 0 n false) as s eqn:Es.
    assert (Hu : s_uid s = t_uid t /\ s_id s = id /\ s_upd s = n) by (subst s; auto); destruct Hu as (Hu & Hid & Hup).
    injection H as <- <-; pose proof (get_none _ _ G) as Hn.
    assert (Hg : forall id', get (mkT (t_streams t ++ [s]) (t_uid t :: t_lru t) (S (t_uid t)) true) id' = if id =? id' then Some s else get t id').
    { intros id'; unfold get; cbn [t_streams]; destruct (id =? id') eqn:E.
      - apply Z.eqb_eq in E; subst id'; revert Hn; clear - Hid; induction (t_streams t) as [|x l IH]; intros Hn; cbn [app find].
        + rewrite Hid, Z.eqb_refl; reflexivity.
        + cbn [map] in Hn; replace (s_id x =? id) with false; [apply IH; intros H; apply Hn; right; exact H|].
          symmetry; apply Z.eqb_neq; intros E; apply Hn; left; exact E.
      - clear - Hid E; induction (t_streams t) as [|x l IH]; cbn [app find]; [rewrite Hid, E; reflexivity|].
        destruct (s_id x =? id'); [reflexivity | exact IH]. }
    splits.
    + destruct Hk as (ls & H); exists (s :: ls); destruct H; constructor; cbn [t_streams t_lru t_uid].
      * rewrite map_app; apply nodup_snoc_z; [assumption|]; cbn [map]; rewrite Hu; intros Hi; apply in_map_iff in Hi.
        destruct Hi as (x & Hx & Hi); rewrite Forall_forall in ti_new0; specialize (ti_new0 x Hi); lia.
      * rewrite map_app; apply nodup_snoc_z; [assumption|]; rewrite Hid; exact Hn.
      * apply Forall_app; split; [eapply Forall_impl; [|exact ti_new0]; cbn beta; intros; lia | constructor; [lia | constructor]].
      * eapply Permutation_trans; [apply perm_skip; exact ti_perm0 | apply Permutation_cons_append].
      * cbn [map]; rewrite Hu, ti_lru0; reflexivity.
      * intros Hm; constructor; [auto|]; specialize (ti_now0 Hm); eapply Forall_impl; [|exact ti_now0]; unfold newer; cbn beta; intros; lia.
      * intros Hm; constructor; [lia | auto].
    + intros id' Hne; rewrite Hg; destruct (id =? id') eqn:E; [apply Z.eqb_eq in E; congruence | reflexivity].
    + rewrite Hg, Z.eqb_refl; reflexivity.
    + right; right; splits; auto.
Qed.
Lemma update_spec : forall m n t s, tok m n t -> In s (t_streams t) -> 
  tok m n (update_stream n t (s_uid s)) /\ t_streams (update_stream n t (s_uid s)) = map (at_uid (s_uid s) (set_upd n)) (t_streams t) /\
  t_need (update_stream n t (s_uid s)) = t_need t.
Proof.
  intros m n t s Hk Hi; unfold update_stream; rewrite (in_get_uid _ _ _ _ Hk Hi); destruct (s_upd s =? n) eqn:E.
  - splits; auto; apply Z.eqb_eq in E.
    assert (forall x, In x (t_streams t) -> at_uid (s_uid s) (set_upd n) x = x).
    { intros x Hx; unfold at_uid; destruct (Nat.eqb (s_uid x) (s_uid s)) eqn:F; [|reflexivity]; apply Nat.eqb_eq in F.
      assert (x = s) by (eapply uid_eq; eauto); subst x; subst n; destruct s; reflexivity. }
    clear - H; induction (t_streams t) as [|x l IH]; [reflexivity|]; cbn [map]; rewrite H by (left; reflexivity); f_equal; apply IH; intros y Hy; apply H; right; exact Hy.
  - clear E; splits; auto; destruct Hk as (ls & H); pose proof (proj2 (tinv_in _ _ _ _ s H) Hi) as Hl.
    set (ls' := set_upd n s :: filter (fun x => negb (Nat.eqb (s_uid x) (s_uid s))) ls); exists ls'.
    assert (Hf : same_key (set_upd n)) by (intros x; auto); pose proof (at_uid_key (s_uid s) _ Hf) as Ha.
    pose proof (tinv_nodup_ls _ _ _ _ H) as Hd; destruct H; constructor; cbn [modify t_streams t_lru t_uid].
    + change (fun s0 : strm => if Nat.eqb (s_uid s0) (s_uid s) then set_upd n s0 else s0) with (at_uid (s_uid s) (set_upd n)).
      rewrite (map_key s_uid); [assumption | apply Ha].
    + change (fun s0 : strm => if Nat.eqb (s_uid s0) (s_uid s) then set_upd n s0 else s0) with (at_uid (s_uid s) (set_upd n)).
      rewrite (map_key s_id); [assumption | apply Ha].
    + change (fun s0 : strm => if Nat.eqb (s_uid s0) (s_uid s) then set_upd n s0 else s0) with (at_uid (s_uid s) (set_upd n)).
      apply Forall_map; eapply Forall_impl; [|exact ti_new0]; cbn beta; intros x Hx; rewrite (proj1 (Ha x)); exact Hx.
    + change (fun s0 : strm => if Nat.eqb (s_uid s0) (s_uid s) then set_upd n s0 else s0) with (at_uid (s_uid s) (set_upd n)).
      eapply Permutation_trans; [|apply Permutation_map; exact ti_perm0].
      apply in_split in Hl; destruct Hl as (l1 & l2 & ->); unfold ls'.
      rewrite map_app in Hd; cbn [map] in Hd; apply NoDup_remove_2 in Hd.
      assert (Hm1 : forall x, In x (l1 ++ l2) -> Nat.eqb (s_uid x) (s_uid s) = false).
      { intros x Hx; apply Nat.eqb_neq; intros E; apply Hd; rewrite <- map_app, <- E; apply in_map; exact Hx. }
      rewrite filter_app; cbn [filter]; rewrite Nat.eqb_refl; cbn [negb]; rewrite <- filter_app, filter_all.
      * rewrite map_app; cbn [map]; unfold at_uid at 2; rewrite Nat.eqb_refl.
        apply Permutation_cons_app; rewrite <- map_app; rewrite (map_ext_in _ (fun x => x)); [rewrite map_id; apply Permutation_refl|].
        intros x Hx; unfold at_uid; rewrite (Hm1 x Hx); reflexivity.
      * apply Forall_forall; intros x Hx; rewrite (Hm1 x Hx); reflexivity.
    + unfold ls'; cbn [map]; rewrite filter_map_nat, ti_lru0; reflexivity.
    + intros Hm; unfold ls'; constructor; [apply sorted_filter; auto|].
      specialize (ti_now0 Hm); rewrite Forall_forall in *; intros x Hx; apply filter_In in Hx; apply ti_now0; tauto.
    + intros Hm; unfold ls'; constructor; [cbn; lia|]; specialize (ti_now0 Hm); rewrite Forall_forall in *; intros x Hx; apply filter_In in Hx; apply ti_now0; tauto.
Qed.
Lemma update_get : forall m n t s id, tok m n t -> In s (t_streams t) ->
  get (update_stream n t (s_uid s)) id = if s_id s =? id then Some (set_upd n s) else get t id.
Proof.
  intros m n t s id Hk Hi; destruct (update_spec m n t s Hk Hi) as (_ & E & _).
  assert (Hf : same_key (set_upd n)) by (intros x; auto).
  transitivity (get (modify t (s_uid s) (set_upd n)) id); [unfold get; rewrite E; reflexivity|].
  rewrite get_modify by exact Hf; destruct (s_id s =? id) eqn:F.
  - apply Z.eqb_eq in F; subst id; rewrite (in_get _ _ _ _ Hk Hi); cbn [option_map]; unfold at_uid; rewrite Nat.eqb_refl; reflexivity.
  - destruct (get t id) as [x|] eqn:G; [|reflexivity]; cbn [option_map]; unfold at_uid.
    destruct (Nat.eqb (s_uid x) (s_uid s)) eqn:E'; [|reflexivity]; apply Nat.eqb_eq in E'.
    apply get_in in G; destruct G as (G1 & G2); assert (x = s) by (eapply uid_eq; eauto); subst x; rewrite G2, Z.eqb_refl in F; discriminate F.
Qed.
Lemma modify_get : forall m n t s f id, tok m n t -> same_key f -> In s (t_streams t) ->
  get (modify t (s_uid s) f) id = if s_id s =? id then Some (f s) else get t id.
Proof.
  intros m n t s f id Hk Hf Hi; rewrite get_modify by exact Hf; destruct (s_id s =? id) eqn:F.
  - apply Z.eqb_eq in F; subst id; rewrite (in_get _ _ _ _ Hk Hi); cbn [option_map]; unfold at_uid; rewrite Nat.eqb_refl; reflexivity.
  - destruct (get t id) as [x|] eqn:G; [|reflexivity]; cbn [option_map]; unfold at_uid.
    destruct (Nat.eqb (s_uid x) (s_uid s)) eqn:E'; [|reflexivity]; apply Nat.eqb_eq in E'.
    apply get_in in G; destruct G as (G1 & G2); assert (x = s) by (eapply uid_eq; eauto); subst x; rewrite G2, Z.eqb_refl in F; discriminate F.
Qed.

(** *** Timeouts *)
Definition fate (timeout now : Z) (s : strm) : list strm := if expired timeout now s then [] else [restarted timeout now s].
Lemma after_fate : forall d n l, after_timeouts d n l = flat_map (fate d n) l.
Proof.
  intros d n l; unfold after_timeouts; induction l as [|s l IH]; [reflexivity|]; cbn [filter flat_map]; unfold fate at 1.
  destruct (expired d n s); cbn [negb app map]; [exact IH | rewrite IH; reflexivity].
Qed.
Lemma after_fresh : forall d n l, Forall (fun s => n - d < s_upd s) l -> after_timeouts d n l = l.
Proof.
  intros d n l H; rewrite after_fate; induction H; [reflexivity|]; cbn [flat_map]; rewrite IHForall; unfold fate, expired, restarted, silent.
  rewrite (proj2 (Z.leb_gt _ _)) by lia; rewrite andb_false_r; reflexivity.
Qed.
Definition stale (d n : Z) (l : list strm) : nat := length (filter (silent d n) l).
Lemma stale_cons : forall d n s l, stale d n (s :: l) = ((if silent d n s then 1 else 0) + stale d n l)%nat.
Proof. intros; unfold stale; cbn [filter]; destruct (silent d n s); reflexivity. Qed.
Lemma stale_app : forall d n a b, stale d n (a ++ b) = (stale d n a + stale d n b)%nat.
Proof. intros; unfold stale; rewrite filter_app, app_length; reflexivity. Qed.
Lemma at_uid_other : forall u f l, ~ In u (map s_uid l) -> map (at_uid u f) l = l.
Proof.
  intros u f l; induction l as [|x l IH]; intros H; [reflexivity|]; cbn [map In] in *; rewrite IH by tauto; f_equal.
  unfold at_uid; replace (Nat.eqb (s_uid x) u) with false; [reflexivity|]; symmetry; apply Nat.eqb_neq; tauto.
Qed.
Lemma without_other : forall u l, ~ In u (map s_uid l) -> filter (fun s => negb (Nat.eqb (s_uid s) u)) l = l.
Proof.
  intros u l H; apply filter_all, Forall_forall; intros x Hx; apply negb_true_iff, Nat.eqb_neq; intros E; apply H; rewrite <- E; apply in_map; exact Hx.
Qed.
Lemma split_stream : forall m n t s, tok m n t -> In s (t_streams t) ->
  exists l1 l2, t_streams t = l1 ++ s :: l2 /\ (forall f, map (at_uid (s_uid s) f) (t_streams t) = l1 ++ f s :: l2) /\
                filter (fun x => negb (Nat.eqb (s_uid x) (s_uid s))) (t_streams t) = l1 ++ l2.
Proof.
  intros m n t s (ls & H) Hi; pose proof (ti_uid _ _ _ _ H) as Hd; apply in_split in Hi; destruct Hi as (l1 & l2 & E); exists l1, l2.
  rewrite E in Hd |- *; rewrite map_app in Hd; cbn [map] in Hd; apply NoDup_remove_2 in Hd.
  assert (~ In (s_uid s) (map s_uid l1) /\ ~ In (s_uid s) (map s_uid l2)) as (H1 & H2) by (split; intros Hx; apply Hd; apply in_or_app; [left | right]; exact Hx).
  splits; [reflexivity | |].
  - intros f; rewrite map_app; cbn [map]; rewrite !at_uid_other by assumption; unfold at_uid; rewrite Nat.eqb_refl; reflexivity.
  - rewrite filter_app; cbn [filter]; rewrite Nat.eqb_refl; cbn [negb]; rewrite !without_other by assumption; reflexivity.
Qed.
Lemma rev_cons : forall {A} (l : list A), l = [] \/ exists l' x, l = l' ++ [x] /\ rev l = x :: rev l'.
Proof.
  intros A l; destruct l as [|x l] using rev_ind; [left; reflexivity | right; exists l, x; split; [reflexivity | apply rev_unit]].
Qed.
Lemma upd_restarted : forall d n s, reported s = false -> silent d n s = true -> 0 < d -> restarted d n (set_upd n s) = restarted d n s.
Proof.
  intros d n s Hr Hs Hd; unfold restarted; rewrite Hs; unfold silent; cbn [set_upd s_upd].
  rewrite (proj2 (Z.leb_gt _ _)) by lia; reflexivity.
Qed.
Definition halts (d n : Z) (l : list strm) : list evt := map (fun s => Halt (s_id s)) (filter (expired d n) l).
Lemma timeouts_spec : forall fuel d n t, tok True n t -> 0 < d ->
  match detect_timeouts fuel d n t with
  | Ok (Some (t', ev)) => t_streams t' = after_timeouts d n (t_streams t) /\ Permutation ev (halts d n (t_streams t)) /\ tok True n t' /\
                          (t_need t' = false -> t_need t = false /\ filter (expired d n) (t_streams t) = [])
  | Ok None => (fuel <= stale d n (t_streams t))%nat
  | _ => False
  end.
Proof.
  induction fuel as [|fuel IH]; intros d n t Hk Hd; [cbn; lia|].
  cbn [detect_timeouts]; destruct Hk as (ls & H); pose proof (ex_intro (fun l => tinv True n t l) ls H : tok True n t) as Hk.
  destruct (rev_cons ls) as [E | (l' & s & E & Er)].
  - rewrite (ti_lru _ _ _ _ H), E; cbn [map rev].
    assert (t_streams t = []) as Es by (apply Permutation_nil; rewrite <- E; apply (ti_perm _ _ _ _ H)).
    unfold halts; rewrite Es; splits; [reflexivity | constructor | exact Hk | auto].
  - rewrite (ti_lru _ _ _ _ H), <- map_rev, Er; cbn [map].
    assert (Hi : In s (t_streams t)) by (apply (tinv_in _ _ _ _ s H); rewrite E; apply in_or_app; right; left; reflexivity).
    rewrite (in_get_uid _ _ _ _ Hk Hi); destruct (n - d <? s_upd s) eqn:F.
    + apply Z.ltb_lt in F; assert (Hf : Forall (fun s => n - d < s_upd s) (t_streams t)).
      { apply Forall_forall; intros x Hx; apply (tinv_in _ _ _ _ x H) in Hx; rewrite E in Hx; apply in_app_or in Hx.
        destruct Hx as [Hx | [<- | []]]; [|exact F]; pose proof (ti_sort _ _ _ _ H I) as Hs; rewrite E in Hs; apply sorted_snoc in Hs.
        rewrite Forall_forall in Hs; specialize (Hs x Hx); unfold newer in Hs; lia. }
      assert (He : filter (expired d n) (t_streams t) = []).
      { apply filter_none; eapply Forall_impl; [|exact Hf]; cbn beta; intros x Hx; unfold expired, silent; rewrite (proj2 (Z.leb_gt _ _)) by lia; apply andb_false_r. }
      splits; [symmetry; apply after_fresh; exact Hf | unfold halts; rewrite He; constructor | exact Hk | auto].
    + apply Z.ltb_ge in F; assert (Hsil : silent d n s = true) by (apply Z.leb_le; exact F).
      destruct (split_stream _ _ _ _ Hk Hi) as (l1 & l2 & E0 & E1 & E2).
      destruct (negb (s_hasr s) && negb (s_hass s)) eqn:G.
      * assert (Hr : reported s = false) by (unfold reported; destruct (s_hasr s), (s_hass s); try discriminate G; reflexivity).
        destruct (update_spec _ _ _ _ Hk Hi) as (Hk' & Es & En); rewrite E1 in Es; specialize (IH d n _ Hk' Hd).
        destruct (detect_timeouts fuel d n (update_stream n t (s_uid s))) as [[[t' ev]|]| |]; try contradiction.
        -- destruct IH as (I1 & I2 & I3 & I4); rewrite Es in I1, I2, I4; rewrite E0.
           assert (Hx : expired d n s = false /\ expired d n (set_upd n s) = false) by (unfold expired, reported in *; cbn [set_upd s_hasr s_hass]; rewrite Hr; auto).
           destruct Hx as (X1 & X2).
           assert (Hfe : filter (expired d n) (l1 ++ set_upd n s :: l2) = filter (expired d n) (l1 ++ s :: l2)).
           { rewrite !filter_app; cbn [filter]; rewrite X1, X2; reflexivity. }
           splits; [| | exact I3 |].
           ++ rewrite I1, !after_fate, !flat_map_app; cbn [flat_map]; unfold fate at 2 5; rewrite X1, X2; rewrite upd_restarted by assumption; reflexivity.
           ++ unfold halts in I2 |- *; rewrite Hfe in I2; exact I2.
           ++ rewrite Hfe in I4; rewrite En in I4; exact I4.
        -- rewrite Es in IH; rewrite E0; rewrite stale_app, stale_cons in *; rewrite Hsil.
           replace (silent d n (set_upd n s)) with false in IH; [lia|]; symmetry; apply Z.leb_gt; cbn [set_upd s_upd]; lia.
      * assert (Hr : reported s = true) by (unfold reported; destruct (s_hasr s), (s_hass s); try discriminate G; reflexivity).
        pose proof (tok_remove _ _ _ (s_uid s) Hk) as Hk'; specialize (IH d n _ Hk' Hd).
        assert (Es : t_streams (remove_stream t (s_uid s)) = l1 ++ l2) by exact E2.
        assert (X : expired d n s = true) by (unfold expired; rewrite Hr, Hsil; reflexivity).
        destruct (detect_timeouts fuel d n (remove_stream t (s_uid s))) as [[[t' ev]|]| |]; try contradiction; cbn [bind].
        -- destruct IH as (I1 & I2 & I3 & I4); rewrite Es in I1, I2, I4; rewrite E0; splits; [| | exact I3 |].
           ++ rewrite I1, !after_fate, !flat_map_app; cbn [flat_map]; unfold fate at 4; rewrite X; reflexivity.
           ++ unfold halts in *; rewrite filter_app in *; cbn [filter]; rewrite X, map_app in *; cbn [map]; apply Permutation_cons_app; exact I2.
           ++ intros Hn; specialize (I4 Hn); destruct I4 as (I4 & _); discriminate I4.
        -- rewrite Es in IH; rewrite E0; rewrite stale_app, stale_cons in *; rewrite Hsil; lia.
Qed.

(** *** Notifications *)
Definition fresh (n : Z) (s : strm) : bool := s_upd s =? n.
Lemma notify_ls : forall m n t sending ls, tok m n t -> (forall s, In s ls -> In s (t_streams t)) -> StronglySorted newer ls -> Forall (fun s => s_upd s <= n) ls ->
  notify t sending n (map s_uid ls) = Ok (flat_map (news sending) (filter (fresh n) ls)).
Proof.
  intros m n t sending ls Hk; induction ls as [|s ls IH]; intros Hi Hs Hn; [reflexivity|].
  cbn [map notify]; rewrite (in_get_uid _ _ _ _ Hk (Hi s (or_introl eq_refl))); inversion Hs as [|? ? S1 S2]; subst; inversion Hn as [|? ? N1 N2]; subst.
  cbn [filter]; unfold fresh at 1; destruct (s_upd s =? n) eqn:E; cbn [negb].
  - rewrite IH by (try assumption; intros x Hx; apply Hi; right; exact Hx); cbn [bind flat_map].
    change (news sending s) with (if s_loop s then [] else (if s_hasr s && sending then [NotifySend (s_id s)] else []) ++ (if s_hass s then [NotifyRecv (s_id s)] else [])); destruct (s_loop s); [reflexivity|]; rewrite <- app_assoc; reflexivity.
  - rewrite filter_none; [reflexivity|]; apply Z.eqb_neq in E; eapply Forall_impl; [|exact S2]; unfold newer, fresh; cbn beta; intros x Hx; apply Z.eqb_neq; lia.
Qed.
Lemma notify_spec : forall n t sending, tok True n t ->
  exists ev, notify t sending n (t_lru t) = Ok ev /\ Permutation ev (flat_map (news sending) (filter (fresh n) (t_streams t))).
Proof.
  intros n t sending (ls & H); eexists; split.
  - rewrite (ti_lru _ _ _ _ H); apply (notify_ls True); [exists ls; exact H | intros s; apply (tinv_in _ _ _ _ s H) | apply (ti_sort _ _ _ _ H I) | apply (ti_now _ _ _ _ H I)].
  - apply Permutation_flat_map, perm_filter, (ti_perm _ _ _ _ H).
Qed.

(** *** Processing *)
Definition rok (m : Prop) (r : rep) : Prop := tok m (r_time r) (r_tab r).
Definition frame (r r' : rep) : Prop :=
  r_st r' = r_st r /\ r_time r' = r_time r /\ r_from r' = r_from r /\ r_local r' = r_local r /\ r_send r' = r_send r /\ r_recv r' = r_recv r /\ r_idx r' = r_idx r.
Lemma frame_refl : forall r, frame r r.
Proof. intros r; repeat split. Qed.
Lemma frame_tab : forall r t, frame r (with_tab r t).
Proof. intros r t; repeat split. Qed.
Lemma frame_trans : forall a b c, frame a b -> frame b c -> frame a c.
Proof. unfold frame; intuition congruence. Qed.
Lemma collision_spec : forall m c r id, rok m r -> let r' := detect_collision c r id in
  rok m r' /\ frame r r' /\ t_need (r_tab r') = t_need (r_tab r) /\ (forall id', id' <> id -> get (r_tab r') id' = get (r_tab r) id') /\
  (r_tab r' = r_tab r \/ exists s, get (r_tab r) id = Some s /\ s_loop s = false /\ s_cname s = rc_cname c /\ id = r_local r /\ r_coll r = false /\
     r_tab r' = modify (r_tab r) (s_uid s) set_loop /\ get (r_tab r') id = Some (set_loop s)).
Proof.
  intros m c r id Hk r'; unfold r', detect_collision.
  destruct (r_coll r) eqn:Ec; [splits; auto using frame_refl|]; destruct (id =? r_local r) eqn:Ei; cbn [negb]; [|splits; auto using frame_refl].
  assert (Hh : rok m (mkR (r_st r) (r_time r) (r_from r) (r_local r) (r_send r) (r_recv r) true false (r_tab r) (r_idx r))) by exact Hk.
  destruct (get (r_tab r) id) as [s|] eqn:G; [|splits; auto; repeat split].
  destruct (s_loop s) eqn:El; [splits; auto using frame_refl|].
  destruct (s_cname s =? rc_cname c) eqn:En; [|splits; auto; repeat split].
  destruct (get_in _ _ _ G) as (Gi & Gd); apply Z.eqb_eq in En, Ei.
  assert (Hf : same_key set_loop) by (intros x; auto); assert (Hu : same_upd set_loop) by (intros x; auto).
  assert (Hg : forall id', get (modify (r_tab r) (s_uid s) set_loop) id' = if s_id s =? id' then Some (set_loop s) else get (r_tab r) id')
    by (intros id'; eapply modify_get; eauto).
  splits; [apply tok_modify; auto | apply frame_tab | reflexivity | |].
  - intros id' Hne; cbn [with_tab r_tab]; rewrite Hg; destruct (s_id s =? id') eqn:F; [apply Z.eqb_eq in F; congruence | reflexivity].
  - right; exists s; splits; auto; cbn [with_tab r_tab]; rewrite Hg, Gd, Z.eqb_refl; reflexivity.
Qed.

(** What a report does to the entry of its stream, [a] before and [b] after *)
Definition effect (r : rep) (o : rop) (a b : option strm) : Prop :=
  let acc := accepted (r_send r) (r_local r) a o in
  (acc = true -> (mem_ok o = true \/ exists s, a = Some s /\ ~ farewell s o) -> exists s, b = Some s /\ s_upd s = r_time r) /\
  (acc = false -> option_map (fun s => (s_uid s, s_upd s)) b = option_map (fun s => (s_uid s, s_upd s)) a) /\
  (forall s, a = Some s -> ~ farewell s o -> exists s', b = Some s' /\ s_uid s' = s_uid s /\ (reported s = true -> reported s' = true)) /\
  (a = None -> acc = true -> mem_ok o = false -> b = None).
Definition does (m : Prop) (r : rep) (o : rop) (id : Z) (r' : rep) (ev : list evt) : Prop :=
  rok m r' /\ frame r r' /\ (forall id', id' <> id -> get (r_tab r') id' = get (r_tab r) id') /\
  effect r o (get (r_tab r) id) (get (r_tab r') id) /\
  (ev = [] \/ ev = [Halt id] /\ exists s, get (r_tab r) id = Some s /\ farewell s o).
(** The same after collision detection *)
Lemma collision_pair : forall m c r id, rok m r -> let r' := detect_collision c r id in
  option_map (fun s => (s_uid s, s_upd s)) (get (r_tab r') id) = option_map (fun s => (s_uid s, s_upd s)) (get (r_tab r) id) /\
  (get (r_tab r) id = None -> get (r_tab r') id = None) /\
  forall s, get (r_tab r) id = Some s -> exists s', get (r_tab r') id = Some s' /\ s_uid s' = s_uid s /\ s_id s' = s_id s /\ s_upd s' = s_upd s /\ s_hasr s' = s_hasr s /\ s_hass s' = s_hass s /\ s_cname s' = s_cname s /\ s_rts s' = s_rts s /\ s_addr s' = s_addr s.
Proof.
  intros m c r id Hk r'; destruct (collision_spec m c r id Hk) as (_ & _ & _ & _ & [E | (s & G & _ & _ & _ & _ & _ & E)]); fold r' in E.
  - rewrite E; splits; auto; intros s Hs; exists s; splits; auto.
  - rewrite E, G; splits; auto; [discriminate|]; intros x Hx; injection Hx as <-; exists (set_loop s); splits; auto.
Qed.
(** Modify an entry and update it *)
Lemma touch_spec : forall m t now id s f b, tok m now t -> get t id = Some s -> same_key f -> same_upd f ->
  let t' := update_stream now (need_if b (modify t (s_uid s) f)) (s_uid s) in
  tok m now t' /\ (forall id', id' <> id -> get t' id' = get t id') /\ get t' id = Some (set_upd now (f s)) /\
  t_need t' = b || t_need t /\ t_streams t' = map (at_uid (s_uid s) (fun s => set_upd now (f s))) (t_streams t).
Proof.
  intros m t now id s f b Hk G Hf Hu t'; destruct (get_in _ _ _ G) as (Gi & Gd).
  pose proof (tok_need_if _ _ b _ (tok_modify _ _ _ (s_uid s) f Hf Hu Hk)) as Hk1.
  assert (Hg1 : forall id', get (need_if b (modify t (s_uid s) f)) id' = if s_id s =? id' then Some (f s) else get t id').
  { intros id'; transitivity (get (modify t (s_uid s) f) id'); [destruct b; reflexivity | eapply modify_get; eauto]. }
  assert (Hi1 : In (f s) (t_streams (need_if b (modify t (s_uid s) f)))).
  { eapply (proj1 (get_in _ id _ _)). Unshelve. rewrite Hg1, Gd, Z.eqb_refl; reflexivity. }
  assert (Eu : s_uid (f s) = s_uid s) by apply Hf; assert (Ed : s_id (f s) = s_id s) by apply Hf.
  destruct (update_spec _ _ _ _ Hk1 Hi1) as (Hk2 & Es & En); pose proof (update_get _ _ _ _ id Hk1 Hi1) as Hg2.
  rewrite Eu in *; splits.
  - exact Hk2.
  - intros id' Hne; unfold t'; pose proof (update_get _ _ _ _ id' Hk1 Hi1) as Hg3; rewrite Eu in Hg3; rewrite Hg3, Hg1, Ed.
    destruct (s_id s =? id') eqn:F; [apply Z.eqb_eq in F; congruence | reflexivity].
  - unfold t'; rewrite Hg2, Ed, Gd, Z.eqb_refl; reflexivity.
  - unfold t'; rewrite En; destruct b; reflexivity.
  - unfold t'; rewrite Es; replace (t_streams (need_if b (modify t (s_uid s) f))) with (map (at_uid (s_uid s) f) (t_streams t)) by (destruct b; reflexivity).
    rewrite map_map; apply map_ext; intros x; unfold at_uid; destruct (Nat.eqb (s_uid x) (s_uid s)) eqn:F; [rewrite (proj1 (Hf x)), F; reflexivity | rewrite F; reflexivity].
Qed.
Lemma touch_id : forall m t now id s, tok m now t -> get t id = Some s ->
  let t' := update_stream now t (s_uid s) in
  tok m now t' /\ (forall id', id' <> id -> get t' id' = get t id') /\ get t' id = Some (set_upd now s) /\ t_need t' = t_need t /\
  t_streams t' = map (at_uid (s_uid s) (set_upd now)) (t_streams t).
Proof.
  intros m t now id s Hk G t'; destruct (get_in _ _ _ G) as (Gi & Gd); destruct (update_spec _ _ _ _ Hk Gi) as (Hk2 & Es & En).
  splits; auto.
  - intros id' Hne; unfold t'; rewrite (update_get _ _ _ _ id' Hk Gi); destruct (s_id s =? id') eqn:F; [apply Z.eqb_eq in F; congruence | reflexivity].
  - unfold t'; rewrite (update_get _ _ _ _ id Hk Gi), Gd, Z.eqb_refl; reflexivity.
Qed.
Lemma not_farewell : forall s o, (forall id, o <> RBye id) -> (forall ok id name, o <> RCname ok id name) -> ~ farewell s o.
Proof. intros s o H1 H2 [E | (ok & name & E & _)]; [eapply H1 | eapply H2]; exact E. Qed.
Ltac nof := apply not_farewell; intros; discriminate.

Lemma does_sr : forall m c r ok id ts, rok m r -> does m r (RSr ok id ts) id (process_sr c r ok id ts) [].
Proof.
  intros m c r ok id ts Hk; unfold process_sr.
  destruct (collision_spec m c r id Hk) as (Hk1 & Hf1 & _ & Ho1 & _); destruct (collision_pair m c r id Hk) as (_ & Hn1 & Hs1).
  set (r1 := detect_collision c r id) in *; assert (Et : r_time r1 = r_time r) by apply Hf1.
  destruct (find_create ok (r_time r1) (r_tab r1) id) as [t o] eqn:F.
  destruct (find_create_spec m _ _ _ _ _ _ Hk1 F) as (Hk2 & Ho2 & Hg2 & Hc2); unfold does, effect.
  destruct o as [s|].
  - destruct (touch_spec m t (r_time r1) id s (set_sr ts (r_from r1)) (negb (s_hass s) || negb (s_addr s =? r_from r1)) Hk2 Hg2) as (Hk3 & Ho3 & Hg3 & _ & _);
      [intros x; auto | intros x; auto|].
    splits.
    + exact Hk3.
    + eapply frame_trans; [exact Hf1 | apply frame_tab].
    + intros id' Hne; cbn [with_tab r_tab]; rewrite Ho3, Ho2, Ho1 by exact Hne; reflexivity.
    + intros _ _; eexists; split; [exact Hg3|]; cbn [set_upd s_upd]; exact Et.
    + discriminate.
    + intros x Hx _; eexists; split; [exact Hg3|]; destruct (Hs1 x Hx) as (x' & Gx & Ux & _).
      destruct Hc2 as [(C & _) | [(_ & Ht & Hs) | (C & _)]]; [congruence | | congruence].
      assert (s = x') by congruence; subst x'; split; [exact Ux|]; intros _; unfold reported; cbn [set_upd set_sr s_hasr s_hass]; apply orb_true_r.
    + intros Hx _ Hm; cbn [mem_ok] in Hm; destruct Hc2 as [(_ & _ & C & _) | [(C & _) | (_ & C & _)]]; [congruence | | congruence].
      elim C; apply Hn1; exact Hx.
    + left; reflexivity.
  - splits.
    + exact Hk2.
    + eapply frame_trans; [exact Hf1 | apply frame_tab].
    + intros id' Hne; cbn [with_tab r_tab]; rewrite Ho2, Ho1 by exact Hne; reflexivity.
    + intros _ Hm; exfalso; destruct Hc2 as [(C & Ok & _) | [(C & _ & C') | (_ & _ & _ & C & _)]]; [| congruence | discriminate C].
      cbn [mem_ok] in Hm; destruct Hm as [Hm | (s & Hs & _)]; [congruence|]; destruct (Hs1 s Hs) as (x' & Gx & _); congruence.
    + discriminate.
    + intros x Hx _; exfalso; destruct (Hs1 x Hx) as (x' & Gx & _); destruct Hc2 as [(C & _) | [(C & _ & C') | (C & _)]]; congruence.
    + intros _ _ _; exact Hg2.
    + left; reflexivity.
Qed.
Lemma does_reception : forall m c r ok id about, rok m r -> does m r (RReception ok id about) id (process_reception c r ok id about) [].
Proof.
  intros m c r ok id about Hk; unfold process_reception.
  destruct (collision_spec m c r id Hk) as (Hk1 & Hf1 & _ & Ho1 & _); destruct (collision_pair m c r id Hk) as (Hp1 & Hn1 & Hs1).
  set (r1 := detect_collision c r id) in *; assert (Et : r_time r1 = r_time r) by apply Hf1.
  assert (Ea : negb (r_send r1) || negb (about =? r_local r1) = negb (r_send r && (about =? r_local r))).
  { destruct Hf1 as (_ & _ & _ & -> & -> & _); destruct (r_send r), (about =? r_local r); reflexivity. }
  rewrite Ea; unfold does, effect; assert (Ecom : forall a : option strm, accepted (r_send r) (r_local r) a (RReception ok id about) = r_send r && (about =? r_local r)) by (intros [|]; reflexivity).
  destruct (r_send r && (about =? r_local r)) eqn:Eb; cbn [negb].
  2: { rewrite Ecom; splits; auto; try discriminate.
       intros x Hx _; destruct (Hs1 x Hx) as (x' & Gx & Ux & _ & _ & R1 & R2 & _); exists x'; splits; auto; unfold reported; rewrite R1, R2; auto. }
  rewrite Ecom; destruct (find_create ok (r_time r1) (r_tab r1) id) as [t o] eqn:F.
  destruct (find_create_spec m _ _ _ _ _ _ Hk1 F) as (Hk2 & Ho2 & Hg2 & Hc2).
  destruct o as [s|].
  - destruct (touch_spec m t (r_time r1) id s (set_rr (r_from r1)) (negb (s_hasr s) || negb (s_addr s =? r_from r1)) Hk2 Hg2) as (Hk3 & Ho3 & Hg3 & _ & _);
      [intros x; auto | intros x; auto|].
    splits.
    + exact Hk3.
    + eapply frame_trans; [exact Hf1 | apply frame_tab].
    + intros id' Hne; cbn [with_tab r_tab]; rewrite Ho3, Ho2, Ho1 by exact Hne; reflexivity.
    + intros _ _; eexists; split; [exact Hg3|]; cbn [set_upd s_upd]; exact Et.
    + discriminate.
    + intros x Hx _; eexists; split; [exact Hg3|]; destruct (Hs1 x Hx) as (x' & Gx & Ux & _).
      destruct Hc2 as [(C & _) | [(_ & Ht & Hs) | (C & _)]]; [congruence | | congruence].
      assert (s = x') by congruence; subst x'; split; [exact Ux|]; intros _; reflexivity.
    + intros Hx _ Hm; cbn [mem_ok] in Hm; destruct Hc2 as [(_ & _ & C & _) | [(C & _) | (_ & C & _)]]; [congruence | | congruence].
      elim C; apply Hn1; exact Hx.
    + left; reflexivity.
  - splits.
    + exact Hk2.
    + eapply frame_trans; [exact Hf1 | apply frame_tab].
    + intros id' Hne; cbn [with_tab r_tab]; rewrite Ho2, Ho1 by exact Hne; reflexivity.
    + intros _ Hm; exfalso; destruct Hc2 as [(C & Ok & _) | [(C & _ & C') | (_ & _ & _ & C & _)]]; [| congruence | discriminate C].
      cbn [mem_ok] in Hm; destruct Hm as [Hm | (s & Hs & _)]; [congruence|]; destruct (Hs1 s Hs) as (x' & Gx & _); congruence.
    + discriminate.
    + intros x Hx _; exfalso; destruct (Hs1 x Hx) as (x' & Gx & _); destruct Hc2 as [(C & _) | [(C & _ & C') | (C & _)]]; congruence.
    + intros _ _ _; exact Hg2.
    + left; reflexivity.
Qed.
(** Reports on known streams only *)
Lemma does_known : forall m c r o id (b : bool) (q : strm -> bool) f, rok m r -> same_key f -> same_upd f ->
  (forall s, reported (f s) = reported s) -> (forall s a, q (set_upd a s) = q s /\ q (set_loop s) = q s) ->
  (forall s, accepted (r_send r) (r_local r) (Some s) o = b && q s) -> accepted (r_send r) (r_local r) None o = false ->
  (forall id, o <> RBye id) -> (forall ok id name, o <> RCname ok id name) ->
  forall r', r' = (let r := detect_collision c r id in
                   if negb b then r else match get (r_tab r) id with
                                         | Some s => if q s then with_tab r (update_stream (r_time r) (modify (r_tab r) (s_uid s) f) (s_uid s)) else r
                                         | None => r end) ->
  does m r o id r' [].
Proof.
  intros m c r o id b q f Hk Hf Hu Hrep Hq Hacc Hnone H1 H2 r' ->.
  destruct (collision_spec m c r id Hk) as (Hk1 & Hf1 & _ & Ho1 & Hcase); destruct (collision_pair m c r id Hk) as (Hp1 & Hn1 & Hs1).
  set (r1 := detect_collision c r id) in *; assert (Et : r_time r1 = r_time r) by apply Hf1; unfold does, effect.
  assert (Hsame : forall s', get (r_tab r1) id = Some s' -> exists s, get (r_tab r) id = Some s /\ q s' = q s /\ s_uid s' = s_uid s /\ (reported s' = reported s)).
  { intros s' G'; destruct Hcase as [E | (s & G & _ & _ & _ & _ & _ & E)]; [rewrite E in G'; exists s'; auto|].
    exists s; rewrite G' in E; injection E as ->; splits; auto; apply (Hq s 0). }
  assert (Hkeep : forall x, get (r_tab r) id = Some x -> exists s', get (r_tab r1) id = Some s' /\ s_uid s' = s_uid x /\ (reported x = true -> reported s' = true)).
  { intros x Hx; destruct (Hs1 x Hx) as (x' & Gx & Ux & _ & _ & R1 & R2 & _); exists x'; splits; auto; unfold reported; rewrite R1, R2; auto. }
  destruct b; cbn [negb andb] in *.
  2: { assert (Hno : accepted (r_send r) (r_local r) (get (r_tab r) id) o = true -> False)
         by (intros C; destruct (get (r_tab r) id); [rewrite Hacc in C | rewrite Hnone in C]; discriminate C).
       splits; auto; intros; exfalso; auto. }
  destruct (get (r_tab r1) id) as [s'|] eqn:G'.
  2: { assert (Gn : get (r_tab r) id = None) by (destruct (get (r_tab r) id) as [x|] eqn:Gx; [destruct (Hkeep x eq_refl) as (? & ? & _); congruence | reflexivity]).
       rewrite Gn, G'; splits; auto; [rewrite Hnone; discriminate | discriminate]. }
  destruct (Hsame s' eq_refl) as (s & G & Eq & Eu & Er); rewrite G in *; rewrite Hacc, <- Eq.
  destruct (q s') eqn:Eqs.
  - destruct (touch_spec m (r_tab r1) (r_time r1) id s' f false Hk1 G' Hf Hu) as (Hk3 & Ho3 & Hg3 & _ & _); cbn [need_if] in *.
    splits; [exact Hk3 | ..].
    + eapply frame_trans; [exact Hf1 | apply frame_tab].
    + intros id' Hne; cbn [with_tab r_tab]; rewrite Ho3, Ho1 by exact Hne; reflexivity.
    + intros _ _; eexists; split; [exact Hg3|]; cbn [set_upd s_upd]; exact Et.
    + discriminate.
    + intros x Hx _; injection Hx as <-; eexists; split; [exact Hg3|]; cbn [set_upd s_uid]; split; [rewrite (proj1 (Hf s')); exact Eu|].
      intros R; change (reported (set_upd (r_time r1) (f s'))) with (reported (f s')); rewrite Hrep, Er; exact R.
    + discriminate.
    + auto.
  - rewrite G'; splits; auto; discriminate.
Qed.
Lemma modify_same : forall t u, modify t u (fun s => s) = t.
Proof. intros t u; unfold modify; rewrite (map_ext _ (fun s => s)); [rewrite map_id; destruct t; reflexivity|]; intros s; destruct (Nat.eqb (s_uid s) u); reflexivity. Qed.
Lemma does_dlrr : forall m c r id about, rok m r -> does m r (RDlrr id about) id (process_dlrr c r id about) [].
Proof.
  intros m c r id about Hk; apply (does_known m c r _ id (about =? r_local r) s_hass (fun s => s)); try discriminate; auto; try (intros s; repeat split).
  unfold process_dlrr; cbn zeta; replace (r_local (detect_collision c r id)) with (r_local r) by (symmetry; apply (collision_spec m c r id Hk)).
  destruct (negb (about =? r_local r)); [reflexivity|]; destruct (get (r_tab (detect_collision c r id)) id); [|reflexivity]; rewrite modify_same; reflexivity.
Qed.
Lemma does_metrics : forall m c r id about, rok m r -> does m r (RMetrics id about) id (process_metrics c r id about) [].
Proof.
  intros m c r id about Hk; apply (does_known m c r _ id (about =? r_local r) s_hasr (fun s => s)); try discriminate; auto; try (intros s; repeat split).
  unfold process_metrics; cbn zeta; replace (r_local (detect_collision c r id)) with (r_local r) by (symmetry; apply (collision_spec m c r id Hk)).
  destruct (negb (about =? r_local r)); [reflexivity|]; destruct (get (r_tab (detect_collision c r id)) id); [|reflexivity]; rewrite modify_same; reflexivity.
Qed.
Lemma does_rrtr : forall m c r id ts, rok m r -> does m r (RRrtr id ts) id (process_rrtr c r id ts) [].
Proof.
  intros m c r id ts Hk; apply (does_known m c r _ id true s_hasr (set_rrtr ts)); try discriminate; auto; try (intros s; repeat split).
Qed.
Lemma bye_spec : forall m r id, rok m r -> let r' := fst (process_goodbye r id) in
  rok m r' /\ frame r r' /\ (forall id', id' <> id -> get (r_tab r') id' = get (r_tab r) id') /\ get (r_tab r') id = None.
Proof.
  intros m r id Hk r'; unfold r', process_goodbye; cbn [fst]; destruct (get (r_tab r) id) as [s|] eqn:G; [|splits; auto using frame_refl].
  destruct (get_in _ _ _ G) as (Gi & Gd); splits; [apply tok_remove; exact Hk | apply frame_tab | |].
  - intros id' Hne; cbn [with_tab r_tab]; rewrite (get_remove _ _ _ _ id' Hk Gi); destruct (s_id s =? id') eqn:F; [apply Z.eqb_eq in F; congruence | reflexivity].
  - cbn [with_tab r_tab]; rewrite (get_remove _ _ _ _ id Hk Gi), Gd, Z.eqb_refl; reflexivity.
Qed.
Lemma rename_spec : forall m c r t id s name, tok m (r_time r) t -> get t id = Some s -> name <> 0 ->
  let r1 := detect_collision c (with_tab r (set_need (modify t (s_uid s) (set_cname name)))) id in
  let r' := with_tab r1 (update_stream (r_time r1) (r_tab r1) (s_uid s)) in
  rok m r' /\ frame r r' /\ (forall id', id' <> id -> get (r_tab r') id' = get t id') /\ t_need (r_tab r') = true /\
  exists s', get (r_tab r') id = Some s' /\ s_uid s' = s_uid s /\ s_upd s' = r_time r /\ s_hasr s' = s_hasr s /\ s_hass s' = s_hass s /\ s_cname s' = name.
Proof.
  intros m c r t id s name Hk G Hn r1 r'; assert (Hf : same_key (set_cname name)) by (intros x; auto); assert (Hu : same_upd (set_cname name)) by (intros x; auto).
  destruct (get_in _ _ _ G) as (Gi & Gd); set (t1 := set_need (modify t (s_uid s) (set_cname name))) in *.
  assert (Hk1 : tok m (r_time r) t1) by (apply tok_need, tok_modify; assumption).
  assert (Hg1 : forall id', get t1 id' = if s_id s =? id' then Some (set_cname name s) else get t id').
  { intros id'; transitivity (get (modify t (s_uid s) (set_cname name)) id'); [reflexivity | eapply modify_get; eauto]. }
  assert (G1 : get t1 id = Some (set_cname name s)) by (rewrite Hg1, Gd, Z.eqb_refl; reflexivity).
  destruct (collision_spec m c (with_tab r t1) id Hk1) as (Hk2 & Hf2 & Hn2 & Ho2 & _); destruct (collision_pair m c (with_tab r t1) id Hk1) as (_ & _ & Hs2).
  fold r1 in Hk2, Hf2, Hn2, Ho2, Hs2; destruct (Hs2 _ G1) as (s2 & G2 & U2 & D2 & P2 & R2 & S2 & N2 & _ & _); cbn [set_cname s_uid s_id s_upd s_hasr s_hass s_cname] in *.
  destruct (touch_id m (r_tab r1) (r_time r1) id s2 Hk2 G2) as (Hk3 & Ho3 & Hg3 & Hn3 & _); rewrite U2 in *.
  splits; [exact Hk3 | | | |].
  - eapply frame_trans; [apply (frame_tab r t1)|]; eapply frame_trans; [exact Hf2 | apply frame_tab].
  - intros id' Hne; unfold r'; cbn [with_tab r_tab]; rewrite Ho3, Ho2 by exact Hne; cbn [with_tab r_tab]; rewrite Hg1.
    destruct (s_id s =? id') eqn:F; [apply Z.eqb_eq in F; congruence | reflexivity].
  - unfold r'; cbn [with_tab r_tab]; rewrite Hn3, Hn2; reflexivity.
  - exists (set_upd (r_time r1) s2); unfold r'; cbn [with_tab r_tab set_upd s_uid s_upd s_hasr s_hass s_cname]; splits; auto.
    destruct Hf2 as (_ & -> & _); reflexivity.
Qed.
Lemma does_cname : forall m c r ok id name r' ev, rok m r -> process_cname c r ok id name = (r', ev) -> does m r (RCname ok id name) id r' ev.
Proof.
  intros m c r ok id name r' ev Hk H; unfold process_cname in H; unfold does, effect.
  destruct (name =? 0) eqn:En.
  { injection H as <- <-; assert (Ha : forall a, accepted (r_send r) (r_local r) a (RCname ok id name) = false) by (intros [|]; cbn [accepted]; rewrite En; reflexivity).
    rewrite Ha; splits; auto using frame_refl; try discriminate; intros s Hs _; exists s; auto. }
  destruct (find_create ok (r_time r) (r_tab r) id) as [t o] eqn:F.
  destruct (find_create_spec m _ _ _ _ _ _ Hk F) as (Hk2 & Ho2 & Hg2 & Hc2); pose proof En as En'; apply Z.eqb_neq in En'.
  destruct o as [s|].
  2: { injection H as <- <-; destruct Hc2 as [(C & Ok & _ & Et) | [(C & _ & C') | (_ & _ & _ & C & _)]]; [| congruence | discriminate C].
       rewrite C; subst t; cbn [with_tab r_tab]; rewrite Hg2; splits; auto using frame_tab; try discriminate.
       cbn [mem_ok]; intros _ [Hm | (x & Hx & _)]; congruence. }
  destruct (s_cname s =? name) eqn:Es.
  { injection H as <- <-; destruct Hc2 as [(_ & _ & C & _) | [(C & Et & Eo) | (_ & _ & _ & C & _)]]; [discriminate C | |].
    - rewrite <- Eo; subst t; cbn [accepted with_tab r_tab]; rewrite Es, En; cbn [negb andb]; rewrite Hg2; splits; auto using frame_tab; try discriminate.
      intros x Hx _; exists x; auto.
    - exfalso; injection C as ->; cbn [s_cname] in Es; apply Z.eqb_eq in Es; congruence. }
  destruct (negb (s_cname s =? 0)) eqn:E0.
  - assert (Go : get (r_tab r) id = Some s /\ t = r_tab r).
    { destruct Hc2 as [(_ & _ & C & _) | [(C & Et & Eo) | (_ & _ & _ & C & _)]]; [discriminate C | auto|].
      exfalso; injection C as ->; cbn [s_cname] in E0; discriminate E0. }
    destruct Go as (Go & ->); destruct (get_in _ _ _ Go) as (Gi & Gd).
    assert (Hfw : farewell s (RCname ok id name)).
    { right; exists ok, name; rewrite Gd; splits; auto; [apply negb_true_iff, Z.eqb_neq in E0; exact E0 | apply Z.eqb_neq; exact Es]. }
    destruct (find_create ok (r_time r) (remove_stream (r_tab r) (s_uid s)) id) as [t3 o3] eqn:F3.
    pose proof (tok_remove _ _ _ (s_uid s) Hk) as Hk3.
    destruct (find_create_spec m _ _ _ _ _ _ Hk3 F3) as (Hk4 & Ho4 & Hg4 & Hc4); cbn [fst snd] in H.
    assert (Hrm : forall id', id' <> id -> get (remove_stream (r_tab r) (s_uid s)) id' = get (r_tab r) id').
    { intros id' Hne; rewrite (get_remove _ _ _ _ id' Hk Gi); destruct (s_id s =? id') eqn:Fd; [apply Z.eqb_eq in Fd; congruence | reflexivity]. }
    assert (Hrn : get (remove_stream (r_tab r) (s_uid s)) id = None) by (rewrite (get_remove _ _ _ _ id Hk Gi), Gd, Z.eqb_refl; reflexivity).
    rewrite Go; destruct o3 as [s3|].
    + destruct (rename_spec m c r t3 id s3 name Hk4 Hg4 En') as (K5 & F5 & O5 & _ & (s' & G5 & _ & P5 & _)).
      injection H as <- <-; splits; auto.
      * intros id' Hne; rewrite O5, Ho4, Hrm by exact Hne; reflexivity.
      * intros _ _; exists s'; auto.
      * cbn [accepted]; rewrite Es, En; discriminate.
      * intros x Hx Hnf; injection Hx as <-; contradiction.
      * discriminate.
      * right; split; [reflexivity|]; exists s; auto.
    + destruct Hc4 as [(C & Ok & _ & Et) | [(C & _ & C') | (_ & _ & _ & C & _)]]; [| congruence | discriminate C].
      injection H as <- <-; splits; auto using frame_tab.
      * intros id' Hne; cbn [with_tab r_tab]; rewrite Ho4, Hrm by exact Hne; reflexivity.
      * cbn [mem_ok]; intros _ [Hm | (x & Hx & Hnf)]; [congruence | injection Hx as <-; contradiction].
      * cbn [accepted]; rewrite Es, En; discriminate.
      * intros x Hx Hnf; injection Hx as <-; contradiction.
      * right; split; [reflexivity|]; exists s; auto.
  - destruct (rename_spec m c r t id s name Hk2 Hg2 En') as (K5 & F5 & O5 & _ & (s' & G5 & U5 & P5 & R5 & S5 & _)).
    injection H as <- <-; splits; auto.
    + intros id' Hne; rewrite O5, Ho2 by exact Hne; reflexivity.
    + intros _ _; exists s'; auto.
    + destruct (get (r_tab r) id) as [x|] eqn:Gx; cbn [accepted]; rewrite En; [|discriminate].
      destruct Hc2 as [(C & _) | [(C & Et & Eo) | (C & _)]]; [discriminate C | | discriminate C].
      injection Eo as ->; rewrite Es; discriminate.
    + intros x Hx Hnf; exists s'; splits; auto.
      * destruct Hc2 as [(C & _) | [(C & Et & Eo) | (C & _)]]; congruence.
      * destruct Hc2 as [(C & _) | [(C & Et & Eo) | (C & _)]]; try congruence; assert (x = s) by congruence; subst x; unfold reported; rewrite R5, S5; auto.
    + intros Hx _ Hm; cbn [mem_ok] in Hm; destruct Hc2 as [(_ & _ & C & _) | [(C & _) | (_ & C & _)]]; congruence.
Qed.

(** *** Beginning of a session *)
Definition forget (s : strm) : strm := mkS (s_uid s) (s_id s) (s_cname s) (s_hasr s) (s_rts s) (s_hass s) (s_sts s) None (s_addr s) (s_upd s) (s_loop s).
Definition blank (now : Z) (s : strm) : Prop := s_cname s = 0 /\ s_hasr s = false /\ s_hass s = false /\ s_upd s = now /\ s_loop s = false.
(** Known streams stay, streams the participant receives are added *)
Definition grown (now : Z) (ids : list Z) (t t' : tab) : Prop :=
  forall id, match get t id with
             | Some s => exists s', get t' id = Some s' /\ forget s' = forget s
             | None => match get t' id with Some s' => In id ids /\ blank now s' | None => ~ In id ids end
             end.
Lemma blank_forget : forall n s s', forget s' = forget s -> blank n s -> blank n s'.
Proof. intros n [? ? ? ? ? ? ? ? ? ? ?] [? ? ? ? ? ? ? ? ? ? ?] E H; unfold blank, forget in *; cbn in *; injection E; intros; subst; exact H. Qed.
Lemma recvs_spec : forall m c now ids n t i t' i', tok m now t -> rebuild_recvs c now n ids t i = (t', i') -> tok m now t' /\ grown now ids t t'.
Proof.
  intros m c now; induction ids as [|id ids IH]; intros n t i t' i' Hk H; cbn [rebuild_recvs] in H.
  - injection H as <- <-; split; [exact Hk|]; intros id; destruct (get t id) as [s|]; [exists s; auto | intros []].
  - destruct (find_create true now t id) as [t1 o] eqn:F; destruct (find_create_spec m _ _ _ _ _ _ Hk F) as (Hk1 & Ho1 & Hg1 & Hc1).
    destruct o as [s|].
    2: { destruct Hc1 as [(_ & C & _) | [(C & _ & C') | (_ & _ & _ & C & _)]]; congruence. }
    assert (Hgo : forall t2 n2 i2, tok m now t2 -> rebuild_recvs c now n2 ids t2 i2 = (t', i') -> (forall id', id' <> id -> get t2 id' = get t1 id') ->
                  (exists s2, get t2 id = Some s2 /\ forget s2 = forget s) -> tok m now t' /\ grown now (id :: ids) t t').
    { intros t2 n2 i2 K2 R2 O2 (s2 & G2 & E2); destruct (IH _ _ _ _ _ K2 R2) as (K3 & G3); split; [exact K3|]; intros x; specialize (G3 x).
      destruct (Z.eq_dec x id) as [-> | Hne].
      - rewrite G2 in G3; destruct G3 as (s3 & G3 & E3).
        destruct Hc1 as [(_ & C & _) | [(C & _ & Eo) | (Gn & _ & _ & Es & _)]]; [discriminate C | |].
        + rewrite <- Eo; exists s3; split; [exact G3 | congruence].
        + rewrite Gn, G3; split; [left; reflexivity|]; eapply blank_forget; [rewrite E3, E2; reflexivity|]; injection Es as ->; repeat split.
      - rewrite O2, Ho1 in G3 by exact Hne; destruct (get t x) as [sx|]; [exact G3|]; destruct (get t' x); cbn [In]; intuition. }
    destruct (s_loop s || _).
    + eapply Hgo; [exact Hk1 | exact H | reflexivity | exists s; auto].
    + assert (Hf : same_key (set_lrr n)) by (intros x; auto); assert (Hu : same_upd (set_lrr n)) by (intros x; auto).
      destruct (get_in _ _ _ Hg1) as (Gi & Gd); eapply Hgo; [apply tok_modify; [exact Hf | exact Hu | exact Hk1] | exact H | |].
      * intros id' Hne; rewrite (modify_get _ _ _ _ _ id' Hk1 Hf Gi); destruct (s_id s =? id') eqn:Fd; [apply Z.eqb_eq in Fd; congruence | reflexivity].
      * exists (set_lrr n s); split; [rewrite (modify_get _ _ _ _ _ id Hk1 Hf Gi), Gd, Z.eqb_refl; reflexivity | reflexivity].
Qed.
Definition begun (st : rst) (from now : Z) (r : rep) : rep := mkR st (next_time (r_time r) now) from (r_local r) (r_send r) (r_recv r) (r_coll r) (r_crep r) (r_tab r) (r_idx r).
Lemma grown_need : forall now b t, grown now [] t (need_if b t).
Proof. intros now b t id; replace (get (need_if b t) id) with (get t id) by (destruct b; reflexivity); destruct (get t id) as [s|]; [exists s; auto | intros []]. Qed.
Lemma begin_spec : forall m c st from now r p r', tok m (next_time (r_time r) now) (r_tab r) -> begin_ c st from now r p = Ok r' ->
  rok m r' /\ r_st r' = st /\ r_time r' = next_time (r_time r) now /\ r_from r' = from /\ r_local r' = r_local r /\ r_send r' = p_send p /\ r_recv r' = p_recv p /\
  r_st r = RIdle /\ 0 < now /\ r_coll r' = r_coll r /\ r_crep r' = r_crep r /\ t_need (r_tab r') = false /\
  (grown (r_time r') (p_recv p) (r_tab r) (r_tab r') \/ t_streams (r_tab r') = t_streams (r_tab r) /\ Forall (fun id => get (r_tab r) id <> None) (p_recv p)).
Proof.
  intros m c st from now r p r' Hk H; unfold begin_ in H; destruct (r_st r) eqn:Es; try discriminate H.
  destruct (now <=? 0) eqn:En; [discriminate H|]; apply Z.leb_gt in En; fold (begun st from now r) in H; injection H as <-; unfold refresh.
  set (r1 := query (begun st from now r) p).
  assert (K1 : tok m (next_time (r_time r) now) (r_tab r1)) by (apply tok_need_if; exact Hk).
  destruct (t_need (r_tab r1)) eqn:En1.
  - unfold rebuild_index.
    destruct (rebuild_recvs c (r_time r1) 0 (r_recv r1) (r_tab r1) _) as [t i] eqn:R.
    destruct (recvs_spec m _ _ _ _ _ _ _ _ K1 R) as (K2 & G2).
    splits; auto; [apply tok_noneed; exact K2|]; left; cbn [r_time r_tab]; intros id; specialize (G2 id).
    change (r_time r1) with (next_time (r_time r) now) in G2; change (r_recv r1) with (p_recv p) in G2.
    replace (get (r_tab r1) id) with (get (r_tab r) id) in G2; [exact G2|]; unfold r1, query, need_if; cbn [r_tab]; destruct (_ || _); reflexivity.
  - splits; auto; right; unfold r1, query in En1 |- *; cbn [r_tab] in *; set (b := _ || _) in *; destruct b eqn:Eb; [discriminate En1|].
    split; [reflexivity|]; unfold b in Eb; apply orb_false_iff in Eb; destruct Eb as (_ & Eb); apply Forall_forall; intros id Hi C.
    assert (existsb (fun id => match get (r_tab (begun st from now r)) id with None => true | Some _ => false end) (p_recv p) = true).
    { apply existsb_exists; exists id; split; [exact Hi|]; change (r_tab (begun st from now r)) with (r_tab r); rewrite C; reflexivity. }
    congruence.
Qed.
Lemma begin_grown : forall m c st from now r p r', tok m (next_time (r_time r) now) (r_tab r) -> begin_ c st from now r p = Ok r' ->
  grown (r_time r') (p_recv p) (r_tab r) (r_tab r').
Proof.
  intros m c st from now r p r' Hk H; destruct (begin_spec _ _ _ _ _ _ _ _ Hk H) as (_ & _ & _ & _ & _ & _ & _ & _ & _ & _ & _ & _ & [G | (E & F)]); [exact G|].
  intros id; unfold get; rewrite E; fold (get (r_tab r) id); destruct (get (r_tab r) id) as [s|] eqn:G; [exists s; auto|].
  intros Hi; rewrite Forall_forall in F; exact (F id Hi G).
Qed.

(** *** Steps and runs *)
Lemma detect_tok : forall m fuel d n t t' ev, tok m n t -> detect_timeouts fuel d n t = Ok (Some (t', ev)) -> tok m n t'.
Proof.
  intros m; induction fuel as [|fuel IH]; intros d n t t' ev Hk H; [discriminate H|]; cbn [detect_timeouts] in H.
  destruct (rev (t_lru t)) as [|u l]; [injection H as <- <-; exact Hk|].
  destruct (get_uid t u) as [s|] eqn:G; [|discriminate H]; destruct (get_uid_in _ _ _ G) as (Gi & <-).
  destruct (n - d <? s_upd s); [injection H as <- <-; exact Hk|].
  destruct (negb (s_hasr s) && negb (s_hass s)).
  - eapply IH; [|exact H]; apply update_spec; assumption.
  - destruct (detect_timeouts fuel d n (remove_stream t (s_uid s))) as [[[t1 e1]|]| |] eqn:D; try discriminate H.
    cbn [bind] in H; injection H as <- <-; eapply IH; [|exact D]; apply tok_remove; exact Hk.
Qed.
Definition times (m : Prop) (r : rep) (o : rop) : Prop := match o with RBeginP _ now _ | RBeginG now _ => m -> r_time r <= now | _ => True end.
Lemma in_st_eq : forall r s, in_st r s = true -> r_st r = s.
Proof. intros r s; unfold in_st; destruct (r_st r), s; intros H; try discriminate H; reflexivity. Qed.
Lemma next_later : forall last now, last <= now -> last < next_time last now /\ next_time last now = Z.max now (last + 1).
Proof. intros last now H; unfold next_time; destruct (now =? last) eqn:E; [apply Z.eqb_eq in E | apply Z.eqb_neq in E]; lia. Qed.
Lemma step_ok : forall m fuel c r o r' ev, rok m r -> times m r o -> r_step fuel c r o = Ok (Some (r', ev)) -> rok m r'.
Proof.
  intros m fuel c r o r' ev Hk Ht H; destruct o; cbn [r_step times] in *.
  1, 10: destruct (begin_ _ _ _ _ _ _) as [q| |] eqn:B; try discriminate H; cbn [bind] in H; unfold lift in H; injection H as <- <-;
    eapply begin_spec; [|exact B]; eapply tok_later; [exact Hk|]; intros Hm; specialize (Ht Hm); apply next_later in Ht; lia.
  all: destruct (in_st r _) eqn:S0; try discriminate H; unfold lift in H.
  - destruct (process_cname c r ok id name) as [q e] eqn:P; injection H as <- <-; eapply does_cname; eauto.
  - injection H as <- <-; apply does_sr; exact Hk.
  - injection H as <- <-; apply does_reception; exact Hk.
  - injection H as <- <-; apply does_dlrr; exact Hk.
  - injection H as <- <-; apply does_rrtr; exact Hk.
  - injection H as <- <-; apply does_metrics; exact Hk.
  - injection H as <- <-; apply (bye_spec m r id Hk).
  - unfold end_processing in H; destruct (detect_timeouts _ _ _ _) as [[[t e]|]| |] eqn:D; cbn [bind] in H; try discriminate H.
    destruct (if r_time r =? 0 then _ else _) as [n| |]; cbn [bind] in H; try discriminate H; injection H as <- <-; eapply detect_tok; [exact Hk | exact D].
  - destruct (gen_all r) as [l| |]; cbn [bind] in H; try discriminate H; injection H as <- <-; exact Hk.
  - unfold end_generation in H; destruct (resolve_collision (idle r) ids) as [[q|]| |] eqn:C; cbn [bind] in H; try discriminate H.
    assert (E : r_time q = r_time r /\ r_tab q = r_tab r).
    { unfold resolve_collision in C; cbn [idle r_coll r_crep] in C; destruct (r_coll r); cbn [negb] in C; [|injection C as <-; auto].
      destruct (r_crep r); cbn [negb] in C; [|discriminate C]; destruct (pick _ ids); [|discriminate C]; injection C as <-; auto. }
    destruct (detect_timeouts _ _ _ _) as [[[t e]|]| |] eqn:D; cbn [bind] in H; try discriminate H; injection H as <- <-; destruct E as (E1 & E2).
    rewrite E2 in D; unfold rok; cbn [with_tab r_tab r_time]; rewrite E1 in D |- *; eapply detect_tok; [exact Hk | exact D].
Qed.
Lemma proc_does : forall m fuel c r o id r' ev, rok m r -> speaker o = Some id -> o <> RBye id -> r_step fuel c r o = Ok (Some (r', ev)) ->
  r_st r = RProc /\ does m r o id r' ev.
Proof.
  intros m fuel c r o id r' ev Hk Hs Hb H; destruct o; cbn [speaker] in Hs; try discriminate Hs; injection Hs as ->; cbn [r_step] in H;
    destruct (in_st r _) eqn:S0; try discriminate H; apply in_st_eq in S0; unfold lift in H; (split; [exact S0|]).
  - destruct (process_cname c r ok id name) as [q e] eqn:P; injection H as <- <-; eapply does_cname; eauto.
  - injection H as <- <-; apply does_sr; exact Hk.
  - injection H as <- <-; apply does_reception; exact Hk.
  - injection H as <- <-; apply does_dlrr; exact Hk.
  - injection H as <- <-; apply does_rrtr; exact Hk.
  - injection H as <- <-; apply does_metrics; exact Hk.
  - contradiction.
Qed.
Lemma bye_step : forall m fuel c r id r' ev, rok m r -> r_step fuel c r (RBye id) = Ok (Some (r', ev)) ->
  r_st r = RProc /\ ev = [Halt id] /\ frame r r' /\ (forall id', id' <> id -> get (r_tab r') id' = get (r_tab r) id') /\ get (r_tab r') id = None.
Proof.
  intros m fuel c r id r' ev Hk H; cbn [r_step] in H; destruct (in_st r _) eqn:S0; try discriminate H; apply in_st_eq in S0; unfold lift in H; injection H as <- <-.
  destruct (bye_spec m r id Hk) as (_ & F & O & G); splits; auto.
Qed.
Definition begins (o : rop) : option (Z * part) := match o with RBeginP _ now p | RBeginG now p => Some (now, p) | _ => None end.
Lemma begin_step : forall fuel c r o now p r' ev, begins o = Some (now, p) -> r_step fuel c r o = Ok (Some (r', ev)) ->
  ev = [] /\ exists st from, begin_ c st from now r p = Ok r'.
Proof.
  intros fuel c r o now p r' ev Hb H; destruct o; cbn [begins] in Hb; try discriminate Hb; injection Hb as -> ->; cbn [r_step] in H;
    destruct (begin_ _ _ _ _ _ _) as [q| |] eqn:B; try discriminate H; cbn [bind] in H; unfold lift in H; injection H as <- <-; eauto.
Qed.
Definition ends (o : rop) : bool := match o with REndP | REndG _ => true | _ => false end.
Lemma end_step : forall fuel c r o r' ev, ends o = true -> r_step fuel c r o = Ok (Some (r', ev)) ->
  exists e1 e2, detect_timeouts fuel (rc_timeout c) (r_time r) (r_tab r) = Ok (Some (r_tab r', e1)) /\ ev = e1 ++ e2 /\
    r_st r' = RIdle /\ r_time r' = r_time r /\ r_send r' = r_send r /\ r_recv r' = r_recv r /\ r_idx r' = r_idx r /\
    match o with REndP => r_local r' = r_local r /\ r_coll r' = r_coll r /\ r_st r = RProc /\ (if r_time r =? 0 then Ok [] else notify (r_tab r') (r_send r) (r_time r) (t_lru (r_tab r'))) = Ok e2
               | _ => e2 = [] /\ (r_coll r = false /\ r_local r' = r_local r /\ r_coll r' = false \/ r_coll r = true /\ get (r_tab r) (r_local r') = None /\ r_coll r' = false) end.
Proof.
  intros fuel c r o r' ev He H; destruct o; try discriminate He; cbn [r_step] in H; destruct (in_st r _) eqn:S0; try discriminate H; apply in_st_eq in S0.
  - unfold end_processing in H; destruct (detect_timeouts _ _ _ _) as [[[t e]|]| |] eqn:D; cbn [bind] in H; try discriminate H.
    destruct (if r_time r =? 0 then _ else _) as [n| |] eqn:N; cbn [bind] in H; try discriminate H; injection H as <- <-.
    exists e, n; cbn [idle with_tab r_tab r_time r_st r_local r_coll r_send r_recv r_idx]; splits; auto.
  - unfold end_generation in H; destruct (resolve_collision (idle r) ids) as [[q|]| |] eqn:C; cbn [bind] in H; try discriminate H.
    assert (E : r_time q = r_time r /\ r_tab q = r_tab r /\ r_st q = RIdle /\ r_send q = r_send r /\ r_recv q = r_recv r /\ r_idx q = r_idx r /\
      (r_coll r = false /\ r_local q = r_local r /\ r_coll q = false \/ r_coll r = true /\ get (r_tab r) (r_local q) = None /\ r_coll q = false)).
    { unfold resolve_collision in C; cbn [idle r_coll r_crep] in C; destruct (r_coll r) eqn:Ec; cbn [negb] in C; [|injection C as <-; splits; auto].
      destruct (r_crep r); cbn [negb] in C; [|discriminate C]; destruct (pick _ ids) eqn:P; [|discriminate C]; injection C as <-; splits; auto.
      right; splits; auto; cbn [r_local]; clear - P; cbn [idle r_tab] in P; induction ids as [|x ids IH]; [discriminate P|]; cbn [pick] in P.
      destruct (get (r_tab r) x) eqn:G; [apply IH; exact P | injection P as <-; exact G]. }
    destruct (detect_timeouts _ _ _ _) as [[[t e]|]| |] eqn:D; cbn [bind] in H; try discriminate H; injection H as <- <-.
    destruct E as (E1 & E2 & E3 & E4 & E5 & E6 & E7); rewrite E1, E2 in D; exists e, []; cbn [with_tab r_tab r_time r_st r_local r_coll r_send r_recv r_idx].
    rewrite app_nil_r; splits; auto.
Qed.
Lemma op_cases : forall o, (exists now p, begins o = Some (now, p)) \/ ends o = true \/ (exists b, o = RBlocks b) \/ (exists id, o = RBye id) \/
  exists id, speaker o = Some id /\ o <> RBye id.
Proof. intros []; cbn; eauto 8; right; right; right; right; eexists; split; try reflexivity; discriminate. Qed.
Lemma blocks_step : forall fuel c r b r' ev, r_step fuel c r (RBlocks b) = Ok (Some (r', ev)) ->
  gen_all r = Ok ev /\ r_st r = RGen /\ r' = mkR (r_st r) (r_time r) (r_from r) (r_local r) (r_send r) (r_recv r) (r_coll r) (r_crep r || (b && r_coll r)) (r_tab r) (r_idx r).
Proof.
  intros fuel c r b r' ev H; cbn [r_step] in H; destruct (in_st r _) eqn:S0; try discriminate H; apply in_st_eq in S0.
  destruct (gen_all r) as [l| |]; cbn [bind] in H; try discriminate H; unfold lift in H; injection H as <- <-; auto.
Qed.
Lemma step_time : forall m fuel c r o r' ev, rok m r -> r_step fuel c r o = Ok (Some (r', ev)) ->
  r_time r' = match begins o with Some (now, _) => next_time (r_time r) now | None => r_time r end.
Proof.
  intros m fuel c r o r' ev Hk H; destruct (op_cases o) as [(now & p & Hb) | [He | [(b & ->) | [(id & ->) | (id & Hs & Hb)]]]].
  - rewrite Hb; destruct (begin_step _ _ _ _ _ _ _ _ Hb H) as (_ & st & from & B); unfold begin_ in B; destruct (r_st r); try discriminate B; destruct (now <=? 0); [discriminate B|].
    injection B as <-; unfold refresh; destruct (t_need _); [|reflexivity]; unfold rebuild_index; destruct (rebuild_recvs _ _ _ _ _ _) as [t i]; reflexivity.
  - replace (begins o) with (@None (Z * part)) by (destruct o; try discriminate He; reflexivity).
    destruct (end_step _ _ _ _ _ _ He H) as (? & ? & _ & _ & _ & E & _); exact E.
  - apply blocks_step in H; destruct H as (_ & _ & ->); reflexivity.
  - destruct (bye_step _ _ _ _ _ _ _ Hk H) as (_ & _ & F & _); apply F.
  - replace (begins o) with (@None (Z * part)) by (destruct o; try discriminate Hs; reflexivity).
    destruct (proc_does _ _ _ _ _ _ _ _ Hk Hs Hb H) as (_ & _ & F & _); apply F.
Qed.
Lemma run_cons : forall fuel c r o l r2 ev, r_run fuel c r (o :: l) = Ok (Some (r2, ev)) ->
  exists r1 e1 e2, r_step fuel c r o = Ok (Some (r1, e1)) /\ r_run fuel c r1 l = Ok (Some (r2, e2)) /\ ev = e1 ++ e2.
Proof.
  intros fuel c r o l r2 ev H; cbn [r_run] in H; destruct (r_step fuel c r o) as [[[r1 e1]|]| |]; cbn [bind] in H; try discriminate H.
  destruct (r_run fuel c r1 l) as [[[r3 e3]|]| |] eqn:R; cbn [bind] in H; try discriminate H; injection H as <- <-; exists r1, e1, e3; auto.
Qed.
Lemma run_app : forall fuel c l1 l2 r r2 ev, r_run fuel c r (l1 ++ l2) = Ok (Some (r2, ev)) ->
  exists r1 e1 e2, r_run fuel c r l1 = Ok (Some (r1, e1)) /\ r_run fuel c r1 l2 = Ok (Some (r2, e2)) /\ ev = e1 ++ e2.
Proof.
  intros fuel c; induction l1 as [|o l1 IH]; intros l2 r r2 ev H; [exists r, [], ev; auto|].
  cbn [app] in H; apply run_cons in H; destruct H as (r1 & e1 & e2 & H1 & H2 & ->); apply IH in H2; destruct H2 as (r3 & e3 & e4 & H3 & H4 & ->).
  exists r3, (e1 ++ e3), e4; splits; [|exact H4 | apply app_assoc]; cbn [r_run]; rewrite H1; cbn [bind]; rewrite H3; reflexivity.
Qed.
Lemma on_time_cons : forall last o l, on_time last (o :: l) ->
  match begins o with Some (now, _) => last <= now /\ on_time (next_time last now) l | None => on_time last l end.
Proof.
  intros last o l H; destruct o; cbn [begins on_time] in *; try exact H; destruct H as (H1 & H2); (split; [exact H1|]); rewrite (proj2 (next_later _ _ H1)); exact H2.
Qed.
Lemma run_ok : forall fuel c l m r r' ev, rok m r -> (m -> on_time (r_time r) l) -> r_run fuel c r l = Ok (Some (r', ev)) -> rok m r'.
Proof.
  intros fuel c; induction l as [|o l IH]; intros m r r' ev Hk Ht H; [cbn in H; injection H as <- <-; exact Hk|].
  apply run_cons in H; destruct H as (r1 & e1 & e2 & H1 & H2 & ->).
  pose proof (step_time _ _ _ _ _ _ _ Hk H1) as Et; assert (T1 : times m r o).
  { destruct o; cbn [times]; auto; intros Hm; specialize (Ht Hm); apply on_time_cons in Ht; cbn [begins] in Ht; tauto. }
  eapply IH; [eapply step_ok; eauto | | exact H2]; intros Hm; rewrite Et; specialize (Ht Hm); apply on_time_cons in Ht; destruct (begins o) as [[now p]|]; tauto.
Qed.
Lemma on_time_app : forall fuel c l1 l2 r r1 e1, rok True r -> on_time (r_time r) (l1 ++ l2) -> r_run fuel c r l1 = Ok (Some (r1, e1)) -> on_time (r_time r) l1 /\ on_time (r_time r1) l2.
Proof.
  intros fuel c; induction l1 as [|o l1 IH]; intros l2 r r1 e1 Hk Ht H; [cbn in H; injection H as <- <-; split; [exact I | exact Ht]|].
  apply run_cons in H; destruct H as (r2 & e2 & e3 & H1 & H2 & ->).
  assert (Hk2 : rok True r2).
  { eapply step_ok; [exact Hk | | exact H1]; destruct o; cbn [times]; auto; intros _; cbn [app] in Ht; apply on_time_cons in Ht; cbn [begins] in Ht; tauto. }
  cbn [app] in Ht; pose proof (step_time _ _ _ _ _ _ _ Hk H1) as Et; apply on_time_cons in Ht.
  assert (Ht2 : on_time (r_time r2) (l1 ++ l2)) by (rewrite Et; destruct (begins o) as [[now p]|]; tauto).
  destruct (IH _ _ _ _ Hk2 Ht2 H2) as (T1 & T2); split; [|exact T2].
  rewrite Et in T1; destruct o; cbn [begins] in *; cbn [on_time]; try exact T1; destruct Ht as (Ht & _); (split; [exact Ht|]); rewrite <- (proj2 (next_later _ _ Ht)); exact T1.
Qed.
Lemma new_ok : forall m local, rok m (r_new local).
Proof. intros m local; exists []; constructor; cbn; try constructor. Qed.
Lemma get_after : forall m n d t t' id, tok m n t -> t_streams t' = after_timeouts d n (t_streams t) ->
  get t' id = match get t id with Some s => if expired d n s then None else Some (restarted d n s) | None => None end.
Proof.
  intros m n d t t' id (ls & H) E; unfold get; rewrite E; pose proof (ti_id _ _ _ _ H) as Hd; clear - Hd.
  assert (Hr : forall s, s_id (restarted d n s) = s_id s) by (intros s; unfold restarted; destruct (silent d n s); reflexivity).
  rewrite after_fate; induction (t_streams t) as [|s l IH]; [reflexivity|]; cbn [map] in Hd; inversion Hd as [|? ? H1 H2]; subst.
  cbn [flat_map find]; unfold fate at 1; destruct (expired d n s) eqn:X; cbn [app find]; [|rewrite Hr].
  - destruct (s_id s =? id) eqn:E; [|apply IH; exact H2]; rewrite IH by exact H2; rewrite X.
    destruct (find _ l) as [y|] eqn:F; [|reflexivity]; exfalso; apply find_some in F; destruct F as (F1 & F2); apply Z.eqb_eq in E, F2.
    apply H1; rewrite E, <- F2; apply in_map; exact F1.
  - destruct (s_id s =? id) eqn:E; [rewrite X; reflexivity | apply IH; exact H2].
Qed.
(** After the end of a session *)
Lemma end_get : forall fuel c r o r' ev, rok True r -> 0 < rc_timeout c -> ends o = true -> r_step fuel c r o = Ok (Some (r', ev)) ->
  t_streams (r_tab r') = after_timeouts (rc_timeout c) (r_time r) (t_streams (r_tab r)) /\
  (forall id, get (r_tab r') id = match get (r_tab r) id with Some s => if expired (rc_timeout c) (r_time r) s then None else Some (restarted (rc_timeout c) (r_time r) s) | None => None end) /\
  (forall s, In s (t_streams (r_tab r)) -> expired (rc_timeout c) (r_time r) s = true -> In (Halt (s_id s)) ev).
Proof.
  intros fuel c r o r' ev Hk Hd He H; destruct (end_step _ _ _ _ _ _ He H) as (e1 & e2 & D & -> & _).
  pose proof (timeouts_spec fuel (rc_timeout c) (r_time r) (r_tab r) Hk Hd) as T; rewrite D in T; destruct T as (T1 & T2 & _).
  splits; [exact T1 | intros id; eapply get_after; eauto|]; intros s Hs X; apply in_or_app; left; eapply Permutation_in; [apply Permutation_sym; exact T2|].
  unfold halts; apply (in_map (fun s => Halt (s_id s))); apply filter_In; auto.
Qed.
Lemma time_later : forall fuel c l r r' ev, rok True r -> on_time (r_time r) l -> r_run fuel c r l = Ok (Some (r', ev)) -> r_time r <= r_time r'.
Proof.
  intros fuel c; induction l as [|o l IH]; intros r r' ev Hk Ht H; [cbn in H; injection H as <- <-; lia|].
  apply run_cons in H; destruct H as (r1 & e1 & e2 & H1 & H2 & ->).
  pose proof (step_time _ _ _ _ _ _ _ Hk H1) as Et.
  assert (T1 : times True r o). { destruct o; cbn [times]; auto; intros _; apply on_time_cons in Ht; cbn [begins] in Ht; tauto. }
  assert (Hk1 : rok True r1) by (eapply step_ok; eauto).
  apply on_time_cons in Ht; assert (on_time (r_time r1) l) as Ht' by (rewrite Et; destruct (begins o) as [[now p]|]; tauto).
  specialize (IH _ _ _ Hk1 Ht' H2); destruct (begins o) as [[now p]|]; [destruct Ht as (Ht & _); apply next_later in Ht; lia | lia].
Qed.
Lemma forget_eq : forall a b, forget a = forget b -> s_uid a = s_uid b /\ s_id a = s_id b /\ s_cname a = s_cname b /\ s_hasr a = s_hasr b /\ s_rts a = s_rts b /\ s_hass a = s_hass b /\ s_sts a = s_sts b /\ s_addr a = s_addr b /\ s_upd a = s_upd b /\ s_loop a = s_loop b.
Proof. intros [? ? ? ? ? ? ? ? ? ? ?] [? ? ? ? ? ? ? ? ? ? ?] E; unfold forget in E; cbn in E; injection E; intros; subst; cbn; splits; auto. Qed.
Lemma begin_get : forall fuel c r o now p r' ev, rok True r -> r_time r <= now -> begins o = Some (now, p) -> r_step fuel c r o = Ok (Some (r', ev)) ->
  grown (r_time r') (p_recv p) (r_tab r) (r_tab r').
Proof.
  intros fuel c r o now p r' ev Hk Ht Hb H; destruct (begin_step _ _ _ _ _ _ _ _ Hb H) as (_ & st & from & B).
  eapply begin_grown; [|exact B]; eapply tok_later; [exact Hk|]; intros _; apply next_later in Ht; lia.
Qed.
Lemma alive : forall fuel c id T l r r' ev, rok True r -> 0 < rc_timeout c -> on_time (r_time r) l -> r_run fuel c r l = Ok (Some (r', ev)) ->
  Forall (stays id) l -> T <= r_time r -> r_time r' < T + rc_timeout c ->
  (exists s, get (r_tab r) id = Some s /\ T <= s_upd s) -> exists s, get (r_tab r') id = Some s /\ T <= s_upd s.
Proof.
  intros fuel c id T; induction l as [|o l IH]; intros r r' ev Hk Hd Ht H Hl HT Hlt (s & G & U); [cbn in H; injection H as <- <-; eauto|].
  apply run_cons in H; destruct H as (r1 & e1 & e2 & H1 & H2 & ->); inversion Hl as [|? ? L1 L2]; subst.
  pose proof (step_time _ _ _ _ _ _ _ Hk H1) as Et.
  assert (T1 : times True r o). { destruct o; cbn [times]; auto; intros _; apply on_time_cons in Ht; cbn [begins] in Ht; tauto. }
  assert (Hk1 : rok True r1) by (eapply step_ok; eauto).
  apply on_time_cons in Ht; assert (on_time (r_time r1) l) as Ht' by (rewrite Et; destruct (begins o) as [[now p]|]; tauto).
  assert (HT1 : T <= r_time r1) by (destruct (begins o) as [[now p]|]; [destruct Ht as (Ht & _); apply next_later in Ht; lia | lia]).
  eapply IH; eauto; pose proof (time_later _ _ _ _ _ _ Hk1 Ht' H2) as Hlast.
  destruct (op_cases o) as [(now & p & Hb) | [He | [(b & ->) | [(x & ->) | (x & Hs & Hb)]]]].
  - rewrite Hb in Ht; pose proof (begin_get _ _ _ _ _ _ _ _ Hk (proj1 Ht) Hb H1 id) as Gr; rewrite G in Gr; destruct Gr as (s' & G' & E').
    exists s'; split; [exact G'|]; apply forget_eq in E'; destruct E' as (_ & _ & _ & _ & _ & _ & _ & _ & -> & _); exact U.
  - destruct (end_get _ _ _ _ _ _ Hk Hd He H1) as (_ & Gr & _); rewrite (Gr id), G.
    assert (Hs : silent (rc_timeout c) (r_time r) s = false).
    { apply Z.leb_gt; destruct (end_step _ _ _ _ _ _ He H1) as (? & ? & _ & _ & _ & Et' & _); lia. }
    unfold expired, restarted; rewrite Hs, andb_false_r; eauto.
  - apply blocks_step in H1; destruct H1 as (_ & _ & ->); eauto.
  - destruct (bye_step _ _ _ _ _ _ _ Hk H1) as (_ & _ & _ & O & _); cbn [stays] in L1; rewrite O by congruence; eauto.
  - destruct (proc_does _ _ _ _ _ _ _ _ Hk Hs Hb H1) as (_ & _ & _ & O & Ef & _); destruct (Z.eq_dec x id) as [-> | Hne]; [|rewrite O by congruence; eauto].
    destruct Ef as (E1 & E2 & E3 & _).
    assert (Hnf : ~ farewell s o).
    { intros [-> | (ok & name & -> & _)]; cbn [stays speaker] in *; injection Hs as Hs; congruence. }
    destruct (accepted (r_send r) (r_local r) (get (r_tab r) id) o) eqn:A.
    + destruct (E1 eq_refl) as (s' & G' & U'); [right; exists s; auto|]; exists s'; split; [exact G' | lia].
    + specialize (E2 eq_refl); rewrite G in E2; destruct (get (r_tab r1) id) as [s'|]; [|discriminate E2]; cbn [option_map] in E2; injection E2 as _ E2; exists s'; split; [reflexivity | lia].
Qed.
Definition gone (id : Z) (ev : list evt) (r : rep) : Prop := In (Halt id) ev /\ forall s, get (r_tab r) id = Some s -> reported s = false.
Lemma unreported_step : forall fuel c r o r' ev id, rok True r -> 0 < rc_timeout c -> times True r o -> r_step fuel c r o = Ok (Some (r', ev)) -> mute id o ->
  (forall s, get (r_tab r) id = Some s -> reported s = false) -> forall s, get (r_tab r') id = Some s -> reported s = false.
Proof.
  intros fuel c r o r' ev id Hk Hd Ht H Hm Hr s' G'.
  destruct (op_cases o) as [(now & p & Hb) | [He | [(b & ->) | [(x & ->) | (x & Hs & Hb)]]]].
  - assert (r_time r <= now) as Hn by (destruct o; cbn [begins times] in *; try discriminate Hb; injection Hb as -> ->; auto).
    pose proof (begin_get _ _ _ _ _ _ _ _ Hk Hn Hb H id) as Gr; destruct (get (r_tab r) id) as [s|].
    + destruct Gr as (s1 & G1 & E1); apply forget_eq in E1; destruct E1 as (_ & _ & _ & E1 & _ & E2 & _); rewrite G' in G1; injection G1 as ->.
      unfold reported; rewrite E1, E2; apply Hr; reflexivity.
    + rewrite G' in Gr; destruct Gr as (_ & B); unfold reported; destruct B as (_ & -> & -> & _); reflexivity.
  - destruct (end_get _ _ _ _ _ _ Hk Hd He H) as (_ & Gr & _); rewrite (Gr id) in G'; destruct (get (r_tab r) id) as [s|]; [|discriminate G'].
    specialize (Hr s eq_refl); destruct (expired _ _ s); [discriminate G'|]; injection G' as <-; unfold restarted; destruct (silent _ _ s); exact Hr.
  - apply blocks_step in H; destruct H as (_ & _ & ->); apply Hr; exact G'.
  - destruct (bye_step _ _ _ _ _ _ _ Hk H) as (_ & _ & _ & O & _); unfold mute in Hm; cbn [speaker] in Hm; rewrite O in G' by congruence; apply Hr; exact G'.
  - destruct (proc_does _ _ _ _ _ _ _ _ Hk Hs Hb H) as (_ & _ & _ & O & _); unfold mute in Hm; rewrite O in G' by congruence; apply Hr; exact G'.
Qed.
Lemma forgotten : forall fuel c id U l r r' ev, rok True r -> 0 < rc_timeout c -> on_time (r_time r) l -> r_run fuel c r l = Ok (Some (r', ev)) ->
  Forall (mute id) l -> (exists s, get (r_tab r) id = Some s /\ reported s = true /\ s_upd s = U) ->
  (exists s, get (r_tab r') id = Some s /\ reported s = true /\ s_upd s = U) \/ gone id ev r'.
Proof.
  intros fuel c id U; induction l as [|o l IH]; intros r r' ev Hk Hd Ht H Hl HG; [cbn in H; injection H as <- <-; left; exact HG|].
  apply run_cons in H; destruct H as (r1 & e1 & e2 & H1 & H2 & ->); inversion Hl as [|? ? L1 L2]; subst.
  pose proof (step_time _ _ _ _ _ _ _ Hk H1) as Et.
  assert (T1 : times True r o). { destruct o; cbn [times]; auto; intros _; apply on_time_cons in Ht; cbn [begins] in Ht; tauto. }
  assert (Hk1 : rok True r1) by (eapply step_ok; eauto).
  apply on_time_cons in Ht; assert (on_time (r_time r1) l) as Ht' by (rewrite Et; destruct (begins o) as [[now p]|]; tauto).
  assert (Hg : (exists s, get (r_tab r1) id = Some s /\ reported s = true /\ s_upd s = U) \/ gone id e1 r1).
  { destruct HG as (s & G & R & Eu); destruct (op_cases o) as [(now & p & Hb) | [He | [(b & ->) | [(x & ->) | (x & Hs & Hb)]]]].
    - rewrite Hb in Ht; pose proof (begin_get _ _ _ _ _ _ _ _ Hk (proj1 Ht) Hb H1 id) as Gr; rewrite G in Gr; destruct Gr as (s' & G' & E').
      left; exists s'; split; [exact G'|]; apply forget_eq in E'; destruct E' as (_ & _ & _ & E1 & _ & E2 & _ & _ & E3 & _).
      unfold reported; rewrite E1, E2, E3; auto.
    - destruct (end_get _ _ _ _ _ _ Hk Hd He H1) as (_ & Gr & Hh); pose proof (Gr id) as Gi; rewrite G in Gi.
      destruct (get_in _ _ _ G) as (Gin & Gd); destruct (expired (rc_timeout c) (r_time r) s) eqn:X.
      + right; split; [rewrite <- Gd; apply Hh; assumption | intros s' Gs; congruence].
      + left; exists s; rewrite Gi; unfold restarted; unfold expired in X; rewrite R in X; cbn [andb] in X; rewrite X; auto.
    - apply blocks_step in H1; destruct H1 as (_ & _ & ->); left; eauto.
    - destruct (bye_step _ _ _ _ _ _ _ Hk H1) as (_ & _ & _ & O & _); unfold mute in L1; cbn [speaker] in L1; left; rewrite O by congruence; eauto.
    - destruct (proc_does _ _ _ _ _ _ _ _ Hk Hs Hb H1) as (_ & _ & _ & O & _); unfold mute in L1; left; rewrite O by congruence; eauto. }
  destruct Hg as [Hg | (Hh & Hr)].
  - destruct (IH _ _ _ Hk1 Hd Ht' H2 L2 Hg) as [A | (A & B)]; [left; exact A | right; split; [apply in_or_app; right; exact A | exact B]].
  - right; split; [apply in_or_app; left; exact Hh|]; clear - Hr Hk1 Hd Ht' H2 L2; revert r1 r' e2 Hr Hk1 Ht' H2 L2; induction l as [|o l IH]; intros r1 r' e2 Hr Hk1 Ht' H2 L2.
    + cbn in H2; injection H2 as <- <-; exact Hr.
    + apply run_cons in H2; destruct H2 as (r2 & f1 & f2 & H1 & H2 & ->); inversion L2; subst.
      pose proof (step_time _ _ _ _ _ _ _ Hk1 H1) as Et.
      assert (T1 : times True r1 o). { destruct o; cbn [times]; auto; intros _; apply on_time_cons in Ht'; cbn [begins] in Ht'; tauto. }
      apply on_time_cons in Ht'; assert (on_time (r_time r2) l) as Ht2 by (rewrite Et; destruct (begins o) as [[now p]|]; tauto).
      eapply (IH r2); eauto; [eapply unreported_step; eauto | eapply step_ok; eauto].
Qed.
