(** Invariant of the dynamic array and what each loop does. *)
From Verif Require Import Base DynArray_model DynArray_spec.
Local Open Scope res_scope.

Set Implicit Arguments.

Section Proof.
Variable V : Type.
Variable dflt : V.
Variable E : nat.
Variable sz : Z.

Notation st := (arr V).

Definition filled (l : list V) (n : nat) : block V :=
  map Some l ++ repeat None (n - length l).

Definition bump (s : st) (m g k : Z) : st :=
  MkArr (emb s) (hp s) (data s) (size s) (cap s) (made s + m) (gone s + g) (copies s + k).

Lemma arr_ext : forall (a b : st),
  emb a = emb b -> hp a = hp b -> data a = data b -> size a = size b -> cap a = cap b ->
  made a = made b -> gone a = gone b -> copies a = copies b -> a = b.
Proof. intros [] []; cbn; intros; congruence. Qed.

Lemma upd_upd : forall A (l : list A) i x y, upd (upd l i x) i y = upd l i y.
Proof. induction l; destruct i; cbn; intros; auto. f_equal. auto. Qed.

Lemma upd_same : forall A (l : list A) i x, nth_error l i = Some x -> upd l i x = l.
Proof.
  induction l; destruct i; cbn; intros; try congruence. f_equal. auto.
Qed.

Lemma nth_upd_same : forall A (l : list A) i x,
  (i < length l)%nat -> nth_error (upd l i x) i = Some x.
Proof. induction l; destruct i; cbn; intros; try lia; auto. apply IHl. lia. Qed.

Lemma nth_upd_other : forall A (l : list A) i j x,
  i <> j -> nth_error (upd l i x) j = nth_error l j.
Proof.
  induction l; destruct i, j; cbn; intros; auto; try congruence.
Qed.

Lemma nth_lt : forall A (l : list A) i x, nth_error l i = Some x -> (i < length l)%nat.
Proof. intros. apply nth_error_Some. congruence. Qed.

Lemma cells_heap : forall (s : st) n b,
  cells s (PHeap n) = Some b <-> nth_error (hp s) n = Some (Some b).
Proof.
  intros. cbn. destruct (nth_error (hp s) n) as [[?|]|]; split; intros; congruence.
Qed.

Lemma cells_set_same : forall (s : st) p b b',
  cells s p = Some b -> cells (set_cells s p b') p = Some b'.
Proof.
  intros s [|n] b b' H; auto. apply cells_heap in H. apply cells_heap. cbn [hp set_cells].
  apply nth_upd_same. eapply nth_lt; eauto.
Qed.

Lemma cells_set_other : forall (s : st) p q b',
  p <> q -> cells (set_cells s p b') q = cells s q.
Proof.
  intros s [|n] [|k] b' H; auto; try congruence. cbn.
  rewrite nth_upd_other by congruence. auto.
Qed.

Lemma set_set : forall (s : st) p b b', set_cells (set_cells s p b) p b' = set_cells s p b'.
Proof. intros s [|n] b b'; cbn; auto. rewrite upd_upd. auto. Qed.

Lemma set_same : forall (s : st) p b, cells s p = Some b -> set_cells s p b = s.
Proof.
  intros s [|n] b H. { cbn in *. destruct s; cbn in *. congruence. }
  apply cells_heap in H. cbn. rewrite upd_same; auto. destruct s; auto.
Qed.

Lemma cells_bump : forall (s : st) p m g k, cells (bump s m g k) p = cells s p.
Proof. destruct p; auto. Qed.

Lemma set_bump : forall (s : st) p b m g k,
  set_cells (bump s m g k) p b = bump (set_cells s p b) m g k.
Proof. destruct p; auto. Qed.

Lemma bump_bump : forall (s : st) m g k m' g' k',
  bump (bump s m g k) m' g' k' = bump s (m + m') (g + g') (k + k').
Proof. intros. unfold bump; cbn. f_equal; lia. Qed.

Lemma bump_0 : forall (s : st), bump s 0 0 0 = s.
Proof. intros []. unfold bump; cbn. f_equal; lia. Qed.

Lemma data_set : forall (s : st) p b, data (set_cells s p b) = data s.
Proof. destruct p; auto. Qed.
Lemma size_set : forall (s : st) p b, size (set_cells s p b) = size s.
Proof. destruct p; auto. Qed.
Lemma cap_set : forall (s : st) p b, cap (set_cells s p b) = cap s.
Proof. destruct p; auto. Qed.
Lemma made_set : forall (s : st) p b, made (set_cells s p b) = made s.
Proof. destruct p; auto. Qed.
Lemma gone_set : forall (s : st) p b, gone (set_cells s p b) = gone s.
Proof. destruct p; auto. Qed.
Lemma copies_set : forall (s : st) p b, copies (set_cells s p b) = copies s.
Proof. destruct p; auto. Qed.

Lemma nth_filled_in : forall l n i v,
  nth_error l i = Some v -> nth_error (filled l n) i = Some (Some v).
Proof.
  intros. unfold filled. rewrite nth_error_app1.
  - rewrite nth_error_map, H. auto.
  - rewrite map_length. eapply nth_lt; eauto.
Qed.

Lemma nth_filled_end : forall l n,
  (length l < n)%nat -> nth_error (filled l n) (length l) = Some None.
Proof.
  intros. unfold filled. rewrite nth_error_app2 by (rewrite map_length; lia).
  rewrite map_length, Nat.sub_diag. destruct (n - length l)%nat eqn:X; [lia|]. auto.
Qed.

Lemma upd_app2 : forall A (a b : list A) x y,
  upd (a ++ x :: b) (length a) y = a ++ y :: b.
Proof. induction a; cbn; intros; auto. f_equal. auto. Qed.

Lemma filled_snoc : forall l n v,
  (length l < n)%nat -> upd (filled l n) (length l) (Some v) = filled (l ++ [v]) n.
Proof.
  intros. unfold filled. rewrite app_length. cbn [length].
  destruct (n - length l)%nat eqn:X; [lia|]. cbn [repeat].
  rewrite <- (map_length (@Some V) l) at 1. rewrite upd_app2, map_app, <- app_assoc. cbn.
  repeat f_equal. lia.
Qed.

Lemma filled_unsnoc : forall l n v,
  (length l < n)%nat -> upd (filled (l ++ [v]) n) (length l) None = filled l n.
Proof.
  intros. unfold filled. rewrite app_length, map_app, <- app_assoc. cbn [length map app].
  rewrite <- (map_length (@Some V) l) at 2. rewrite upd_app2.
  destruct (n - length l)%nat eqn:X; [lia|]. cbn [repeat]. do 3 f_equal. lia.
Qed.

Lemma len_filled : forall l n, (length l <= n)%nat -> length (filled l n) = n.
Proof. intros. unfold filled. rewrite app_length, map_length, repeat_length. lia. Qed.

Lemma wr_ok : forall A (l : list A) i x, (i < length l)%nat -> wr l i x = Ok (upd l i x).
Proof.
  intros. unfold wr. destruct (nth_error l i) eqn:X.
  - destruct (i <? length l)%nat eqn:Y; auto; lia.
  - apply nth_error_None in X. lia.
Qed.

Lemma cell_ok : forall (s : st) p b i,
  cells s p = Some b -> (i < length b)%nat ->
  exists c, nth_error b i = Some c /\ cell s p (Z.of_nat i) = Ok c.
Proof.
  intros. destruct (nth_error b i) eqn:X.
  - exists o. split; auto. unfold cell. rewrite H.
    replace (Z.of_nat i <? 0) with false by lia. unfold rd. rewrite Nat2Z.id, X. auto.
  - apply nth_error_None in X. lia.
Qed.

Lemma put_ok : forall (s : st) p b i c,
  cells s p = Some b -> (i < length b)%nat ->
  put s p (Z.of_nat i) c = Ok (set_cells s p (upd b i c)).
Proof.
  intros. unfold put. rewrite H. replace (Z.of_nat i <? 0) with false by lia.
  rewrite Nat2Z.id, wr_ok by auto. auto.
Qed.

Lemma get_ok : forall (s : st) p l n i v,
  cells s p = Some (filled l n) -> nth_error l i = Some v ->
  get_at s p (Z.of_nat i) = Ok v.
Proof.
  intros. unfold get_at. pose proof (nth_filled_in l n i H0) as N.
  destruct (@cell_ok s p (filled l n) i H (nth_lt _ _ N)) as [c [C D]].
  rewrite D. cbn [bind]. assert (X : c = Some v) by congruence. rewrite X. auto.
Qed.

Lemma construct_ok : forall (s : st) p l n v,
  cells s p = Some (filled l n) -> (length l < n)%nat ->
  construct s p (Z.of_nat (length l)) v =
  Ok (bump (set_cells s p (filled (l ++ [v]) n)) 1 0 0).
Proof.
  intros. unfold construct. pose proof (nth_filled_end l H0) as N.
  destruct (@cell_ok s p (filled l n) (length l) H (nth_lt _ _ N)) as [c [C D]].
  rewrite D. cbn [bind]. assert (X : c = None) by congruence. rewrite X.
  rewrite (@put_ok s p (filled l n)) by (auto; rewrite len_filled; lia).
  cbn [bind]. rewrite filled_snoc by auto. unfold bump. do 2 f_equal; lia.
Qed.

Lemma destruct_ok : forall (s : st) p l n v,
  cells s p = Some (filled (l ++ [v]) n) -> (length l < n)%nat ->
  destruct_at s p (Z.of_nat (length l)) =
  Ok (bump (set_cells s p (filled l n)) 0 1 0).
Proof.
  intros. unfold destruct_at.
  assert (N : nth_error (filled (l ++ [v]) n) (length l) = Some (Some v)).
  { apply nth_filled_in. rewrite nth_error_app2, Nat.sub_diag by lia. auto. }
  destruct (@cell_ok s p _ (length l) H (nth_lt _ _ N)) as [c [C D]].
  rewrite D. cbn [bind]. assert (X : c = Some v) by congruence. rewrite X.
  rewrite (@put_ok s p (filled (l ++ [v]) n)) by (auto; eapply nth_lt; eauto).
  cbn [bind]. rewrite filled_unsnoc by auto. unfold bump. do 2 f_equal; lia.
Qed.

Lemma make_more_ok : forall k (s : st) p l n,
  data s = Some p -> cells s p = Some (filled l n) -> (length l + k <= n)%nat ->
  make_more dflt k (Z.of_nat (length l)) s =
  Ok (bump (set_cells s p (filled (l ++ repeat dflt k) n)) (Z.of_nat k) 0 0).
Proof.
  induction k; intros s p l n D C L.
  - cbn [make_more repeat]. rewrite app_nil_r, set_same by auto.
    change (Z.of_nat 0) with 0. rewrite bump_0. auto.
  - cbn [make_more]. rewrite D. cbn [deref bind].
    rewrite (@construct_ok s p l n) by (auto; lia). cbn [bind].
    replace (Z.of_nat (length l) + 1) with (Z.of_nat (length (l ++ [dflt])))
      by (rewrite app_length; cbn [length]; lia).
    rewrite (IHk _ p (l ++ [dflt]) n).
    + rewrite set_bump, set_set, bump_bump, <- app_assoc. cbn [app repeat].
      do 2 f_equal; lia.
    + cbn [data bump]. rewrite data_set. auto.
    + rewrite cells_bump. eapply cells_set_same; eauto.
    + rewrite app_length. cbn [length]. lia.
Qed.

Lemma destroy_down_ok : forall l2 (s : st) p l1 n,
  data s = Some p -> cells s p = Some (filled (l1 ++ l2) n) ->
  (length l1 + length l2 <= n)%nat ->
  destroy_down (length l2) (Z.of_nat (length l1)) s =
  Ok (bump (set_cells s p (filled l1 n)) 0 (Z.of_nat (length l2)) 0).
Proof.
  induction l2 as [|x l2 IH] using rev_ind; intros s p l1 n D C L.
  - cbn [length destroy_down]. rewrite app_nil_r in C. rewrite set_same by auto.
    change (Z.of_nat 0) with 0. rewrite bump_0. auto.
  - rewrite app_length in *. cbn [length] in *. rewrite Nat.add_1_r. cbn [destroy_down].
    rewrite D. cbn [deref bind].
    replace (Z.of_nat (length l1) + Z.of_nat (length l2))
      with (Z.of_nat (length (l1 ++ l2))) by (rewrite app_length; lia).
    rewrite app_assoc in C.
    rewrite (@destruct_ok s p (l1 ++ l2) n x) by (auto; rewrite app_length; lia).
    cbn [bind]. rewrite (IH _ p l1 n).
    + rewrite set_bump, set_set, bump_bump. do 2 f_equal; lia.
    + cbn [data bump]. rewrite data_set. auto.
    + rewrite cells_bump. eapply cells_set_same; eauto.
    + lia.
Qed.

Lemma copy_up_ok : forall l2 (s : st) p np l1 n m,
  data s = Some p -> p <> np -> cells s p = Some (filled (l1 ++ l2) n) ->
  cells s np = Some (filled l1 m) -> (length l1 + length l2 <= m)%nat ->
  copy_up (length l2) (Z.of_nat (length l1)) np s =
  Ok (bump (set_cells s np (filled (l1 ++ l2) m)) (Z.of_nat (length l2)) 0
           (Z.of_nat (length l2))).
Proof.
  induction l2 as [|x l2 IH]; intros s p np l1 n m D NE C C' L.
  - cbn [length copy_up]. rewrite app_nil_r. rewrite set_same by auto.
    change (Z.of_nat 0) with 0. rewrite bump_0. auto.
  - cbn [length copy_up] in *. rewrite D. cbn [deref bind].
    rewrite (@get_ok s p (l1 ++ x :: l2) n (length l1) x); auto.
    2:{ rewrite nth_error_app2, Nat.sub_diag by lia. auto. }
    cbn [bind]. rewrite (@construct_ok s np l1 m x) by (auto; lia). cbn [bind].
    replace (Z.of_nat (length l1) + 1) with (Z.of_nat (length (l1 ++ [x])))
      by (rewrite app_length; cbn [length]; lia).
    assert (X : MkArr (emb (bump (set_cells s np (filled (l1 ++ [x]) m)) 1 0 0))
      (hp (bump (set_cells s np (filled (l1 ++ [x]) m)) 1 0 0))
      (data (bump (set_cells s np (filled (l1 ++ [x]) m)) 1 0 0))
      (size (bump (set_cells s np (filled (l1 ++ [x]) m)) 1 0 0))
      (cap (bump (set_cells s np (filled (l1 ++ [x]) m)) 1 0 0))
      (made (bump (set_cells s np (filled (l1 ++ [x]) m)) 1 0 0))
      (gone (bump (set_cells s np (filled (l1 ++ [x]) m)) 1 0 0))
      (copies (bump (set_cells s np (filled (l1 ++ [x]) m)) 1 0 0) + 1) =
      bump (set_cells s np (filled (l1 ++ [x]) m)) 1 0 1).
    { unfold bump; cbn. f_equal. lia. }
    rewrite X. clear X. rewrite (IH _ p np (l1 ++ [x]) n m).
    + rewrite set_bump, set_set, bump_bump, <- app_assoc. cbn [app]. do 2 f_equal; lia.
    + cbn [data bump]. rewrite data_set. auto.
    + auto.
    + rewrite cells_bump, cells_set_other by auto. rewrite <- app_assoc. auto.
    + rewrite cells_bump. eapply cells_set_same; eauto.
    + rewrite app_length. cbn [length]. lia.
Qed.

(** Where the elements are. *)
Definition INV (s : st) (l : list V) (c : Z) : Prop :=
  size s = Z.of_nat (length l) /\ cap s = c /\ Z.of_nat (length l) <= c /\
  made s - gone s = Z.of_nat (length l) /\
  match data s with
  | None => c = 0 /\ emb s = repeat None E /\ hp s = []
  | Some PEmb => 0 < c <= Z.of_nat E /\ emb s = filled l E /\ hp s = []
  | Some (PHeap n) =>
      Z.of_nat E < c /\ c * sz <= 2 ^ 62 /\ emb s = repeat None E /\
      hp s = repeat None n ++ [Some (filled l (Z.to_nat c))]
  end.

Definition room_of (s : st) : nat :=
  match data s with Some (PHeap _) => Z.to_nat (cap s) | _ => E end.

Lemma nth_last : forall A n (x y : A), nth_error (repeat x n ++ [y]) n = Some y.
Proof. induction n; cbn; auto. Qed.

Lemma upd_last : forall A n (x y z : A), upd (repeat x n ++ [y]) n z = repeat x n ++ [z].
Proof. induction n; cbn; intros; auto. f_equal. auto. Qed.

Lemma INV_cells : forall s l c p, INV s l c -> data s = Some p ->
  cells s p = Some (filled l (room_of s)) /\ (Z.to_nat c <= room_of s)%nat /\
  (length l <= Z.to_nat c)%nat.
Proof.
  intros s l c p (A & B & C & G & D) P. unfold room_of. rewrite P in *. destruct p as [|n].
  - destruct D as (D1 & D2 & D3). cbn. rewrite D2. split; auto. split; lia.
  - destruct D as (D1 & D2 & D3 & D4). rewrite cells_heap, D4, nth_last, B.
    split; auto. split; lia.
Qed.

(** Changing the elements in place keeps the invariant. *)
Lemma INV_set : forall s l c p l' m g,
  INV s l c -> data s = Some p -> Z.of_nat (length l') <= c ->
  m - g = Z.of_nat (length l') - Z.of_nat (length l) ->
  INV (set_size (bump (set_cells s p (filled l' (room_of s))) m g 0)
         (Z.of_nat (length l'))) l' c.
Proof.
  intros s l c p l' m g (A & B & C & G & D) P L M. unfold INV. cbn [size set_size cap].
  split; [auto|]. split. { cbn. rewrite cap_set. auto. } split; [auto|].
  split. { cbn. rewrite made_set, gone_set. lia. }
  cbn [set_size bump data]. rewrite data_set, P. rewrite P in D. unfold room_of. rewrite P.
  destruct p as [|n]; cbn [emb hp set_size bump set_cells].
  - destruct D as (D1 & D2 & D3). auto.
  - destruct D as (D1 & D2 & D3 & D4). rewrite D4, upd_last, B. auto.
Qed.

End Proof.
