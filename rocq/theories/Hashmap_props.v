(** C22: hashmap. *)
From Verif Require Import Base Hashmap_model Hashmap_spec Hashmap_proof.
Open Scope res_scope.

Section T.
Variable keyof : nat -> Z.
Variable hash : Z -> Z.
Variable other : nat -> bool.

(** Nodes as the user hands them over: free, or members of another hashmap. *)
Definition fresh (nodes0 : nat -> hnode) : Prop :=
  forall n, if other n then exists j, hn_bucket (nodes0 n) = Some (-1, j) else hn_bucket (nodes0 n) = None.

(** What the map shows to its user is exactly [m]. *)
Definition shows (s : hm) (m : list nat) : Prop :=
  hm_size s = Z.of_nat (length m) /\
  (forall k, hm_find keyof hash s k = lookup keyof k m) /\
  (forall n, hm_contains s n = true <-> In n m) /\
  hm_front s = hd_error m /\ hm_back s = hd_error (rev m) /\
  (forall u n v, m = u ++ n :: v -> hm_nextof s n = Ok (hd_error v) /\ hm_prevof s n = Ok (hd_error (rev u))) /\
  (forall n, ~ In n m -> hm_nextof s n = Panic /\ hm_prevof s n = Panic).

Lemma after_mid u n v : ~ In n u -> after n (u ++ n :: v) = hd_error v.
Proof.
  induction u as [|x u IH]; cbn; intros H; [rewrite Nat.eqb_refl; reflexivity|]. destruct (Nat.eqb_spec x n); [tauto|]. apply IH. tauto.
Qed.

Lemma hinv_shows s m nr : hinv keyof hash other s m nr -> shows s m.
Proof.
  intros I. pose proof (find_spec keyof hash other s m nr) as F. destruct I as [C Ea Es ND NK Ec Ek Hp Hb Hf Hr].
  assert (Cs : forall n, hm_contains s n = true <-> In n m) by (intros n; apply (contains_spec keyof hash other s _ n C)).
  split; [exact Es|]. split; [intros k; apply F; constructor; assumption|]. split; [exact Cs|].
  split; [unfold hm_front; rewrite Ea, Es; destruct m; reflexivity|].
  split; [unfold hm_back; rewrite Ea, Es; destruct m; reflexivity|]. split.
  - intros u n v E. unfold hm_nextof, hm_prevof. rewrite (proj2 (Cs n)) by (rewrite E; apply in_or_app; right; left; reflexivity).
    rewrite Ea, E. rewrite E in ND. pose proof (NoDup_remove_2 _ _ _ ND) as Hn. rewrite in_app_iff in Hn.
    rewrite rev_app_distr. cbn [rev]. rewrite <- app_assoc. cbn [app].
    split; f_equal; apply after_mid; [tauto|]. rewrite <- in_rev. tauto.
  - intros n Hn. unfold hm_nextof, hm_prevof. replace (hm_contains s n) with false; [auto|].
    symmetry. apply not_true_iff_false. rewrite Cs. exact Hn.
Qed.

Definition is_removal (o : hop) : bool := match o with HRemove _ => true | _ => false end.

Lemma run_sound : forall ops s m nr, hinv keyof hash other s m nr ->
  match hm_run keyof hash s ops with
  | Ok (bs, s') => exists m', map_run keyof other m ops bs = Some m' /\ shows s' m'
  | Panic => exists pre o post bs s' m', ops = pre ++ o :: post /\ hm_run keyof hash s pre = Ok (bs, s') /\
      map_run keyof other m pre bs = Some m' /\ hm_step keyof hash s' o = Panic /\
      (misuse keyof other m' o \/
       (is_removal o = false /\ hm_size s' = hm_capacity s' /\ (nr = true -> existsb is_removal pre = true)))
  | UB => False
  end.
Proof.
  induction ops as [|o ops IH]; intros s m nr I; cbn [hm_run].
  { exists m. split; [reflexivity|]. apply (hinv_shows _ _ _ I). }
  assert (S : (hm_step keyof hash s o = Panic /\ (misuse keyof other m o \/ is_removal o = false /\ hm_size s = hm_capacity s /\ nr = false)) \/
    exists b s' m' nr', hm_step keyof hash s o = Ok (b, s') /\ map_step keyof other m o b = Some m' /\ hinv keyof hash other s' m' nr' /\
      (nr = true -> is_removal o = false -> nr' = true)).
  { destruct o as [n ok|n|ok]; cbn [hm_step is_removal].
    - destruct (insert_sound keyof hash other s m nr n ok I) as [(E & H)|(b & s' & m' & E & H & I')].
      + left. split; [exact E|]. tauto.
      + right. exists b, s', m', nr. auto.
    - destruct (remove_sound keyof hash other s m nr n I) as [(E & H)|(s' & E & H & I')].
      + left. rewrite E. split; [reflexivity|]. auto.
      + right. exists true, s', (rem n m), false. rewrite E. split; [reflexivity|]. split; [|split; [exact I'|discriminate]].
        cbn [map_step]. replace (mem n m) with true by (symmetry; apply mem_spec; exact H). reflexivity.
    - destruct (grow_sound keyof hash other s m nr ok I) as [(E & H1 & H2)|(b & s' & E & I' & H & _)].
      + left. split; [exact E|]. auto.
      + right. exists b, s', m, nr. split; [exact E|]. split; [|split; [exact I'|auto]]. cbn. destruct b; [reflexivity|]. destruct ok; [discriminate (H eq_refl)|reflexivity]. }
  destruct S as [(E & H)|(b & s' & m' & nr' & E & Hm & I' & Hnr)]; rewrite E; cbn [bind].
  - exists [], o, ops, [], s, m. split; [reflexivity|]. split; [reflexivity|]. split; [reflexivity|]. split; [exact E|].
    destruct H as [H|(H1 & H2 & H3)]; [left; exact H|right]. split; [exact H1|]. split; [exact H2|]. congruence.
  - cbn [snd fst]. specialize (IH s' m' nr' I'). destruct (hm_run keyof hash s' ops) as [[bs s'']| |] eqn:Er; cbn [bind fst snd].
    + cbn [map_run]. rewrite Hm. exact IH.
    + destruct IH as (pre & o' & post & bs & s2 & m2 & -> & E2 & M2 & E3 & H). exists (o :: pre), o', post, (b :: bs), s2, m2.
      split; [reflexivity|]. cbn [hm_run map_run]. rewrite E. cbn [bind snd fst]. rewrite E2, Hm. cbn [bind fst snd].
      split; [reflexivity|]. split; [exact M2|]. split; [exact E3|]. destruct H as [H|(H1 & H2 & H3)]; [left; exact H|right].
      split; [exact H1|]. split; [exact H2|]. intros Hn. cbn [existsb]. destruct (is_removal o) eqn:Eo; [reflexivity|]. cbn. auto.
    + exact IH.
Qed.

(** For every history of insertions, removals and explicit growth, with any
    hash function, any embedded capacity and any allocation failures:
    - nothing undefined happens;
    - if all operations return, the map shows exactly the elements inserted and
      not removed, in insertion order, an insertion fails only if the allocator
      failed, and operations against the contract did not return;
    - a panic comes from an operation against the contract, or from growing a
      full table after some element was removed. *)
Theorem C22_map (prealloc : Z) (nodes0 : nat -> hnode) (ops : list hop) :
  fresh nodes0 ->
  match hm_run keyof hash (hm_new prealloc nodes0) ops with
  | Ok (bs, s) => exists m, map_run keyof other [] ops bs = Some m /\ shows s m
  | Panic =>
      exists pre o post bs s m, ops = pre ++ o :: post /\
        hm_run keyof hash (hm_new prealloc nodes0) pre = Ok (bs, s) /\ map_run keyof other [] pre bs = Some m /\
        hm_step keyof hash s o = Panic /\
        (misuse keyof other m o \/
         (is_removal o = false /\ hm_size s = hm_capacity s /\ existsb is_removal pre = true))
  | UB => False
  end.
Proof.
  intros F. pose proof (run_sound ops (hm_new prealloc nodes0) [] true) as R.
  assert (I0 : hinv keyof hash other (hm_new prealloc nodes0) [] true).
  { constructor; cbn; auto using NoDup_nil; try lia.
    - constructor; cbn; auto.
      + intros [|j] b n H; discriminate.
      + intros [|j] b n H; discriminate.
      + intros n [].
      + intros n _. apply F.
      + intros n [].
      + split; [lia|]. split; congruence.
      + intros [|j] b H; discriminate.
      + intros [|j] b H; discriminate.
    - intros j b H. cbn in H. lia. }
  specialize (R I0). destruct (hm_run keyof hash (hm_new prealloc nodes0) ops) as [[bs s]| |]; auto.
  destruct R as (pre & o & post & bs & s & m & H1 & H2 & H3 & H4 & H5). exists pre, o, post, bs, s, m. intuition.
Qed.
End T.
Print Assumptions C22_map.

(** The panic after removals does happen: removing the last element that waits
    for migration leaves the rehashing position behind, and the next growth
    panics, although every operation respects the contract. *)
Definition c22_ins (a n : nat) : list hop := map (fun i => HInsert i true) (seq a n).
Definition c22_ops : list hop := c22_ins 0 33 ++ map HRemove (rev (seq 1 31)) ++ c22_ins 33 147.
Definition is_okb {A} (r : res A) : bool := match r with Ok _ => true | _ => false end.
Definition c22_run (ops : list hop) :=
  hm_run Z.of_nat (fun k => k * 5 + 1) (hm_new 6 (fun _ => mkHn 0 None)) ops.

Lemma c22_ok : is_okb (c22_run c22_ops) = true.
Proof. vm_compute. reflexivity. Qed.
Lemma c22_absent : match c22_run c22_ops with Ok (_, s) => hm_find Z.of_nat (fun k => k * 5 + 1) s 180 | _ => Some 0%nat end = None.
Proof. vm_compute. reflexivity. Qed.
Lemma c22_panics : c22_run (c22_ops ++ [HInsert 180 true]) = Panic.
Proof. vm_compute. reflexivity. Qed.
Lemma c22_legal ops : is_okb (c22_run ops) = true ->
  match c22_run ops with Ok (_, s) => hm_find Z.of_nat (fun k => k * 5 + 1) s 180 | _ => Some 0%nat end = None ->
  exists bs s m, c22_run ops = Ok (bs, s) /\ map_run Z.of_nat (fun _ => false) [] ops bs = Some m /\
     ~ misuse Z.of_nat (fun _ => false) m (HInsert 180 true).
Proof.
  intros X0 X1. unfold c22_run in *.
  pose proof (C22_map Z.of_nat (fun k => k * 5 + 1) (fun _ => false) 6 (fun _ => mkHn 0 None) ops ltac:(intros n; reflexivity)) as T.
  destruct (hm_run Z.of_nat (fun k => k * 5 + 1) (hm_new 6 (fun _ => mkHn 0 None)) ops) as [[bs s]| |]; [|discriminate X0|discriminate X0].
  destruct T as (m & Hm & Hs). exists bs, s, m. split; [reflexivity|]. split; [exact Hm|].
  destruct Hs as (_ & Hf & Hc & _). rewrite Hf in X1. apply (lookup_none Z.of_nat (fun k => k) (fun _ => false)) in X1.
  intros [H|[H|(x & Hx & H)]]; [|discriminate|].
  - apply X1. apply in_map_iff. exists 180%nat. split; [reflexivity|exact H].
  - apply X1. apply in_map_iff. exists x. split; [rewrite H; reflexivity|exact Hx].
Qed.
Theorem C22_grow_after_remove_refuted :
  (exists bs s m, c22_run c22_ops = Ok (bs, s) /\ map_run Z.of_nat (fun _ => false) [] c22_ops bs = Some m /\
     ~ misuse Z.of_nat (fun _ => false) m (HInsert 180 true)) /\
  c22_run (c22_ops ++ [HInsert 180 true]) = Panic.
Proof. exact (conj (c22_legal c22_ops c22_ok c22_absent) c22_panics). Qed.
Print Assumptions C22_grow_after_remove_refuted.

Example C22_ex :
  exists bs s, c22_run (c22_ins 0 40 ++ [HRemove 3; HRemove 7; HInsert 50 false; HGrow true]) = Ok (bs, s) /\
    hm_size s = 39 /\ hm_find Z.of_nat (fun k => k * 5 + 1) s 50 = Some 50%nat /\ hm_find Z.of_nat (fun k => k * 5 + 1) s 7 = None.
Proof.
  assert (X0 : is_okb (c22_run (c22_ins 0 40 ++ [HRemove 3; HRemove 7; HInsert 50 false; HGrow true])) = true) by (vm_compute; reflexivity).
  assert (X : match c22_run (c22_ins 0 40 ++ [HRemove 3; HRemove 7; HInsert 50 false; HGrow true]) with
    Ok (_, s) => (hm_size s, hm_find Z.of_nat (fun k => k * 5 + 1) s 50, hm_find Z.of_nat (fun k => k * 5 + 1) s 7) | _ => (0, None, None) end = (39, Some 50%nat, None)) by (vm_compute; reflexivity).
  destruct (c22_run (c22_ins 0 40 ++ [HRemove 3; HRemove 7; HInsert 50 false; HGrow true])) as [[bs s]| |]; [|discriminate X0|discriminate X0].
  exists bs, s. split; [reflexivity|]. injection X as X1 X2 X3. auto.
Qed.
