(** Whole programs of calls to the dynamic array. *)
From Verif Require Import Base DynArray_model DynArray_spec DynArray_proof DynArray_step.
Local Open Scope res_scope.

Set Implicit Arguments.

Section Run.
Variable V : Type.
Variable dflt : V.
Variable E : nat.
Variable sz : Z.
Hypothesis SZ : 0 < sz <= 2 ^ 32.
Hypothesis ES : Z.of_nat E * sz <= 2 ^ 62.

Notation st := (arr V).
Notation INV := (@INV V E sz).
Notation can_have := (can_have E sz).

Lemma run_ok : forall cs s l c, INV s l c -> allowed dflt E sz l c cs ->
  exists as_ s' l' c', run dflt E sz s cs = Ok (as_, s') /\
    steps dflt E sz l c cs as_ l' c' /\ INV s' l' c'.
Proof.
  induction cs as [|x t IH]; intros s l c I AL.
  - exists [], s, l, c. split; auto. split; auto. constructor.
  - inversion AL as [|l0 c0 x0 t0 A1 A2 A3 A4]; subst.
    destruct (@call_ok V dflt E sz SZ ES s l c x I A1 A2 A3) as (a & s1 & l1 & c1 & C1 & C2 & C3).
    destruct (IH s1 l1 c1 C3 (A4 _ _ _ C2)) as (b & s2 & l2 & c2 & R1 & R2 & R3).
    exists (a :: b), s2, l2, c2. cbn [run]. rewrite C1. cbn [bind snd]. rewrite R1.
    split; auto. split; auto. econstructor; eauto.
Qed.

Lemma ff_det : forall c0 m c w w', first_fit c0 m c w -> first_fit c0 m c w' -> w = w'.
Proof.
  clear SZ ES.
  intros c0 m c w w' A. induction A; intros B; inversion B; subst; auto; lia.
Qed.

Lemma room_det : forall ok c m w b b' r r',
  room E sz ok c m w b r -> room E sz ok c m w b' r' -> b = b' /\ r = r'.
Proof.
  clear SZ ES.
  intros ok c m w b b' r r' A B. inversion A; subst; inversion B; subst; auto; try lia;
  contradiction.
Qed.

Lemma push_det : forall l c v ok a a' l1 l2 c1 c2,
  step dflt E sz l c (Push v ok) a l1 c1 -> step dflt E sz l c (Push v ok) a' l2 c2 ->
  a = a' /\ l1 = l2 /\ c1 = c2.
Proof.
  clear SZ ES.
  intros l c v ok a a' l1 l2 c1 c2 A B. inversion A; subst; inversion B; subst;
  match goal with
  | F : first_fit _ _ _ ?w, F' : first_fit _ _ _ ?w' |- _ =>
      assert (w = w') by (eapply ff_det; eauto)
  end; subst;
  match goal with
  | F : room _ _ _ _ _ _ ?b _, F' : room _ _ _ _ _ _ ?b' _ |- _ =>
      destruct (room_det F F'); try discriminate
  end; subst; auto.
Qed.

Lemma step_det : forall l c x a a' l1 l2 c1 c2,
  step dflt E sz l c x a l1 c1 -> step dflt E sz l c x a' l2 c2 ->
  a = a' /\ l1 = l2 /\ c1 = c2.
Proof.
  clear SZ ES.
  intros l c x a a' l1 l2 c1 c2 A B. destruct x.
  - eapply push_det; eauto.
  - inversion A; subst; inversion B; subst.
    assert (VV : v = v0) by congruence. subst v0.
    eapply push_det; eauto.
  - inversion A; subst; inversion B; subst.
    match goal with H : _ ++ _ = _ ++ _ |- _ => apply app_inj_tail in H; destruct H end.
    subst. auto.
  - inversion A; subst; inversion B; subst;
    match goal with
    | F : room _ _ _ _ _ _ ?b _, F' : room _ _ _ _ _ _ ?b' _ |- _ =>
      destruct (room_det F F'); try discriminate
    end; subst; auto.
  - inversion A; subst; inversion B; subst; auto.
  - inversion A; subst; inversion B; subst;
    match goal with
    | F : room _ _ _ _ _ _ ?b _, F' : room _ _ _ _ _ _ ?b' _ |- _ =>
      destruct (room_det F F')
    end; subst; auto.
  - inversion A; subst; inversion B; subst;
    match goal with
    | F : first_fit _ _ _ ?w, F' : first_fit _ _ _ ?w' |- _ =>
      assert (w = w') by (eapply ff_det; eauto)
    end; subst;
    match goal with
    | F : room _ _ _ _ _ _ ?b _, F' : room _ _ _ _ _ _ ?b' _ |- _ =>
      destruct (room_det F F')
    end; subst; auto.
  - inversion A; subst; inversion B; subst. assert (v = v0) by congruence. subst. auto.
  - inversion A; subst; inversion B; subst. auto.
  - inversion A; subst; inversion B; subst. assert (v = v0) by congruence. subst. auto.
  - inversion A; subst; inversion B; subst.
    match goal with H : _ ++ _ = _ ++ _ |- _ => apply app_inj_tail in H; destruct H end.
    subst. auto.
  - inversion A; subst; inversion B; subst. auto.
  - inversion A; subst; inversion B; subst. split; auto. f_equal.
    destruct b, b0; auto; intuition congruence.
  - inversion A; subst; inversion B; subst. auto.
Qed.

Lemma steps_det : forall cs l c a a' l1 l2 c1 c2,
  steps dflt E sz l c cs a l1 c1 -> steps dflt E sz l c cs a' l2 c2 ->
  a = a' /\ l1 = l2 /\ c1 = c2.
Proof.
  clear SZ ES.
  induction cs as [|x t IH]; intros l c a a' l1 l2 c1 c2 A B;
  inversion A; subst; inversion B; subst; auto.
  match goal with
  | F : step _ _ _ _ _ _ _ _ _, F' : step _ _ _ _ _ _ _ _ _ |- _ =>
      destruct (step_det F F') as (-> & -> & ->)
  end.
  match goal with
  | F : steps _ _ _ _ _ _ _ _ _, F' : steps _ _ _ _ _ _ _ _ _ |- _ =>
      destruct (IH _ _ _ _ _ _ _ _ F F') as (-> & -> & ->)
  end. auto.
Qed.

Lemma run_app : forall cs s x as_ s', run dflt E sz s cs = Ok (as_, s') ->
  do_call dflt E sz s' x = Panic -> run dflt E sz s (cs ++ [x]) = Panic.
Proof.
  induction cs as [|y t IH]; intros s x as_ s' R P; cbn [run app] in *.
  - assert (s = s') by congruence. subst. rewrite P. auto.
  - destruct (do_call dflt E sz s y) as [[b s1]| |]; cbn [bind snd fst] in *; try discriminate R.
    destruct (run dflt E sz s1 t) as [[b2 s2]| |] eqn:X; cbn [bind snd fst] in *;
      try discriminate R.
    rewrite (IH s1 x b2 s2); auto. congruence.
Qed.

(** Copies made, when only appending. *)
Definition CI (s : st) (l : list V) (c : Z) (n : Z) : Prop :=
  INV s l c /\ Z.of_nat (length l) <= n /\ c <= 2 * n /\ copies s <= 5 * c.

Lemma ff_one : forall c w, 0 <= c -> first_fit c (c + 1) c w -> w = next_size c c.
Proof.
  clear SZ ES.
  intros c w C F. inversion F; subst; [lia|].
  assert (G : c + 1 <= next_size c c).
  { unfold next_size. destruct (Z.ltb_spec c 1024); lia. }
  inversion H0; subst; auto. lia.
Qed.

Lemma push_CI : forall ok s l c v a n, CI s l c n ->
  (a = Lit v \/ (exists p i, data s = Some p /\ a = Ref _ p (Z.of_nat i) /\
     nth_error l i = Some v /\ Z.of_nat (length l) < c)) ->
  exists b l' c' s', push_back E sz ok s a = Ok (b, s') /\ CI s' l' c' (n + 1) /\
    step dflt E sz l c (Push v ok) (ABool b) l' c'.
Proof.
  intros ok s l c v a n (I & L & C & K) HA. pose proof I as (_ & _ & LC & _).
  destruct (push_ok SZ ES ok I HA) as (w & FF & b & c' & s' & P1 & P2 & P3 & P4).
  exists b, (if b then l ++ [v] else l), c', s'. split; auto. split.
  - split; auto. split. { destruct b; try rewrite app_length; cbn [length]; lia. }
    inversion P2; subst.
    + destruct (Z.eqb_spec c' c'); lia.
    + assert (EQ : Z.of_nat (length l) = c) by lia. rewrite EQ in FF.
      assert (c0 : 0 <= c) by lia.
      pose proof (ff_one c0 FF) as W. unfold next_size in W.
      destruct (Z.eqb_spec c' c); [lia|].
      destruct (Z.ltb_spec c 1024); lia.
    + destruct (Z.eqb_spec c' c'); lia.
  - destruct b; econstructor; eauto.
Qed.

Lemma call_CI : forall s l c x n, CI s l c n -> sane sz x -> ~ misuse l x ->
  ~ moves_itself l c x -> appending x ->
  exists a s' l' c', do_call dflt E sz s x = Ok (a, s') /\
    step dflt E sz l c x a l' c' /\ CI s' l' c' (n + appends [x]).
Proof.
  intros s l c x n H SA MU MO AP. pose proof H as (I & L & C & K).
  destruct x as [v ok|i ok| |m ok| |m ok|m ok|i|i v| | | | |];
    cbn [appending] in AP; try contradiction.
  - destruct (@push_CI ok s l c v (Lit v) n H) as (b & l' & c' & s' & P1 & P2 & P3); auto.
    cbn [do_call]. rewrite P1. cbn [bind fst snd appends]. do 4 eexists.
    split; [reflexivity|]. split; eauto.
  - cbn [sane misuse moves_itself] in *.
    destruct (elem_dec E l SA) as [|[v EV]]; [lia|].
    destruct (@at_ok V E sz s l c i v I EV) as (p & k & A1 & A2 & A3 & A4 & A5).
    cbn [do_call]. rewrite A4. cbn [bind fst snd].
    destruct (@push_CI ok s l c v (Ref _ p i) n H) as (b & l' & c' & s' & P1 & P2 & P3).
    { right. exists p, k. rewrite A2. repeat split; auto. lia. }
    rewrite P1. cbn [bind fst snd appends]. do 4 eexists.
    split; [reflexivity|]. split; eauto. econstructor; eauto.
  - cbn [misuse] in MU. destruct (split_last MU) as (t & v & X). rewrite X in I.
    destruct (@pop_ok V E sz s t v c I) as (s' & P1 & P2 & P3). cbn [do_call]. rewrite P1.
    cbn [bind appends]. do 4 eexists. split; [reflexivity|]. split; [econstructor; eauto|].
    split; eauto. rewrite X, app_length in L. cbn [length] in L. lia.
  - destruct (clear_ok dflt SZ ES I) as (s' & R1 & R2). cbn [do_call]. rewrite R1.
    assert (KC : copies s' = copies s).
    { clear - R1 I SZ ES. unfold clear, resize, grow in R1.
      pose proof I as (A & B & C & G & D). rewrite B in R1.
      destruct (Z.leb_spec 0 c); [|lia]. cbn [bind negb] in R1.
      destruct (@resize_tail V dflt E sz s l c 0 I) as (s'' & T1 & T2 & T3); [lia|].
      rewrite T1 in R1. cbn [bind snd] in R1. congruence. }
    cbn [bind appends]. do 4 eexists. split; [reflexivity|].
    split; [econstructor; eauto|]. split; eauto. cbn [length]. lia.
  - cbn [sane misuse] in *. destruct (elem_dec E l SA) as [|[v EV]]; [lia|].
    destruct (@at_ok V E sz s l c i v I EV) as (p & k & A1 & A2 & A3 & A4 & A5).
    cbn [do_call]. rewrite A4. cbn [bind fst snd]. rewrite A5. cbn [bind appends].
    do 4 eexists. split; [reflexivity|]. split; [econstructor; eauto|].
    rewrite Z.add_0_r. auto.
  - cbn [sane misuse] in *. destruct (elem_dec E l SA) as [|[w EV]]; [lia|].
    destruct (@at_ok V E sz s l c i w I EV) as (p & k & A1 & A2 & A3 & A4 & A5).
    cbn [do_call]. rewrite A4. cbn [bind fst snd]. rewrite A5. cbn [bind appends].
    destruct (@put_elem_ok V E sz s l c k v w p I A1 A3) as (s' & P1 & P2 & P3).
    rewrite <- A2 in P1. rewrite P1. cbn [bind]. do 4 eexists. split; [reflexivity|].
    split; [econstructor; eauto|]. rewrite A2, Nat2Z.id. split; auto.
    pose proof (nth_lt _ _ A3).
    rewrite app_length, firstn_length. cbn [length]. rewrite skipn_length. lia.
  - destruct (@call_ok V dflt E sz SZ ES s l c Front I SA MU MO) as (a & s' & l' & c' & R1 & R2 & R3).
    exists a, s', l', c'. split; auto. split; auto. cbn [appends]. rewrite Z.add_0_r.
    cbn [do_call] in R1. destruct (front s); cbn [bind] in R1; try discriminate R1.
    destruct (get_at s (fst a0) (snd a0)); cbn [bind] in R1; try discriminate R1.
    assert (s' = s) by congruence. inversion R2; subst. auto.
  - destruct (@call_ok V dflt E sz SZ ES s l c Back I SA MU MO) as (a & s' & l' & c' & R1 & R2 & R3).
    exists a, s', l', c'. split; auto. split; auto. cbn [appends]. rewrite Z.add_0_r.
    cbn [do_call] in R1. destruct (back s); cbn [bind] in R1; try discriminate R1.
    destruct (get_at s (fst a0) (snd a0)); cbn [bind] in R1; try discriminate R1.
    assert (s' = s) by congruence. inversion R2; subst. auto.
  - destruct (@call_ok V dflt E sz SZ ES s l c Size I SA MU MO) as (a & s' & l' & c' & R1 & R2 & R3).
    exists a, s', l', c'. split; auto. split; auto. cbn [appends]. rewrite Z.add_0_r.
    cbn [do_call] in R1. assert (s' = s) by congruence. inversion R2; subst. auto.
  - destruct (@call_ok V dflt E sz SZ ES s l c IsEmpty I SA MU MO) as (a & s' & l' & c' & R1 & R2 & R3).
    exists a, s', l', c'. split; auto. split; auto. cbn [appends]. rewrite Z.add_0_r.
    cbn [do_call] in R1. assert (s' = s) by congruence. inversion R2; subst. auto.
  - destruct (@call_ok V dflt E sz SZ ES s l c Capacity I SA MU MO) as (a & s' & l' & c' & R1 & R2 & R3).
    exists a, s', l', c'. split; auto. split; auto. cbn [appends]. rewrite Z.add_0_r.
    cbn [do_call] in R1. assert (s' = s) by congruence. inversion R2; subst. auto.
Qed.

Lemma appends_cons : forall (x : call V) t, appends (x :: t) = appends [x] + appends t.
Proof. destruct x; cbn [appends]; lia. Qed.

Lemma run_CI : forall cs s l c n, CI s l c n -> allowed dflt E sz l c cs ->
  Forall (@appending V) cs ->
  exists as_ s' l' c', run dflt E sz s cs = Ok (as_, s') /\ CI s' l' c' (n + appends cs).
Proof.
  induction cs as [|x t IH]; intros s l c n I AL AP.
  - exists [], s, l, c. split; auto. cbn [appends]. rewrite Z.add_0_r. auto.
  - inversion AL as [|l0 c0 x0 t0 A1 A2 A3 A4]; subst. inversion AP; subst.
    destruct (@call_CI s l c x n I A1 A2 A3 H1) as (a & s1 & l1 & c1 & C1 & C2 & C3).
    destruct (IH s1 l1 c1 _ C3 (A4 _ _ _ C2) H2) as (b & s2 & l2 & c2 & R1 & R2).
    exists (a :: b), s2, l2, c2. cbn [run]. rewrite C1. cbn [bind snd]. rewrite R1.
    split; auto. rewrite appends_cons, Z.add_assoc. auto.
Qed.

(** What does not move the elements. *)
Definition still (s s' : st) : Prop := data s' = data s /\ cap s' = cap s.

Lemma still_put : forall s p i c s', put s p i c = Ok s' -> still s s'.
Proof.
  intros s p i c s' H. unfold put in H. destruct (cells s p) as [b|]; try discriminate H.
  destruct (i <? 0); try discriminate H.
  destruct (wr b (Z.to_nat i) c); cbn [bind] in H; try discriminate H.
  assert (s' = set_cells s p a) by congruence. subst. destruct p; split; auto.
Qed.

Lemma still_construct : forall s p i v s', construct s p i v = Ok s' -> still s s'.
Proof.
  intros s p i v s' H. unfold construct in H.
  destruct (cell s p i) as [[?|]| |]; cbn [bind] in H; try discriminate H.
  destruct (put s p i (Some v)) as [s1| |] eqn:P; cbn [bind] in H; try discriminate H.
  apply still_put in P. destruct P.
  assert (X : s' = MkArr (emb s1) (hp s1) (data s1) (size s1) (cap s1) (made s1 + 1)
     (gone s1) (copies s1)) by congruence.
  subst s'. split; auto.
Qed.

Lemma still_destruct : forall s p i s', destruct_at s p i = Ok s' -> still s s'.
Proof.
  intros s p i s' H. unfold destruct_at in H.
  destruct (cell s p i) as [[?|]| |]; cbn [bind] in H; try discriminate H.
  destruct (put s p i None) as [s1| |] eqn:P; cbn [bind] in H; try discriminate H.
  apply still_put in P. destruct P.
  assert (X : s' = MkArr (emb s1) (hp s1) (data s1) (size s1) (cap s1) (made s1)
     (gone s1 + 1) (copies s1)) by congruence.
  subst s'. split; auto.
Qed.

Lemma still_trans : forall a b c, still a b -> still b c -> still a c.
Proof. intros a b c [] []. split; congruence. Qed.

Lemma still_make : forall k n s s', make_more dflt k n s = Ok s' -> still s s'.
Proof.
  induction k; cbn [make_more]; intros n s s' H.
  - assert (s = s') by congruence. subst. split; auto.
  - destruct (deref (data s)) as [p| |]; cbn [bind] in H; try discriminate H.
    destruct (construct s p n dflt) as [s1| |] eqn:P; cbn [bind] in H; try discriminate H.
    eapply still_trans; [eapply still_construct; eauto|eauto].
Qed.

Lemma still_destroy : forall k n s s', destroy_down k n s = Ok s' -> still s s'.
Proof.
  induction k; cbn [destroy_down]; intros n s s' H.
  - assert (s = s') by congruence. subst. split; auto.
  - destruct (deref (data s)) as [p| |]; cbn [bind] in H; try discriminate H.
    destruct (destruct_at s p (n + Z.of_nat k)) as [s1| |] eqn:P; cbn [bind] in H;
      try discriminate H.
    eapply still_trans; [eapply still_destruct; eauto|eauto].
Qed.

Lemma grow_still : forall ok (s : st) m b s', grow E sz ok s m = Ok (b, s') ->
  s' = s \/ cap s < cap s'.
Proof.
  intros ok s m b s' H. unfold grow in H. destruct (Z.leb_spec m (cap s)).
  { left. congruence. }
  destruct (allocate E sz ok s m) as [[np s1]|]; [|left; congruence].
  match type of H with bind ?r _ = _ => destruct r as [s4| |] end;
    cbn [bind] in H; try discriminate H.
  right. assert (X : s' = set_cap s4 m) by congruence. subst. cbn. auto.
Qed.

Lemma grow_exp_still : forall ok (s : st) m b s', grow_exp E sz ok s m = Ok (b, s') ->
  s' = s \/ cap s < cap s'.
Proof.
  intros ok s m b s' H. unfold grow_exp in H. destruct (m <=? cap s).
  { left. congruence. }
  destruct (next_capacity _ _ _ _); try discriminate H. eapply grow_still; eauto.
Qed.

Lemma push_still : forall ok (s : st) a b s', push_back E sz ok s a = Ok (b, s') ->
  still s s' \/ cap s < cap s'.
Proof.
  intros ok s a b s' H. unfold push_back in H.
  destruct (grow_exp E sz ok s (u64 (size s + 1))) as [[b1 s1]| |] eqn:G; cbn [bind] in H;
    try discriminate H.
  apply grow_exp_still in G.
  assert (K : still s1 s').
  { destruct b1; cbn [negb] in H.
    - destruct (deref (data s1)) as [p| |]; cbn [bind] in H; try discriminate H.
      match type of H with bind ?r _ = _ => destruct r as [v| |] end;
        cbn [bind] in H; try discriminate H.
      destruct (construct s1 p (size s1) v) as [s2| |] eqn:C; cbn [bind] in H;
        try discriminate H.
      apply still_construct in C. assert (X : s' = set_size s2 (size s2 + 1)) by congruence.
      subst. exact C.
    - assert (s1 = s') by congruence. subst. split; auto. }
  destruct G as [->|G]; auto. right. destruct K. lia.
Qed.

Lemma resize_still : forall ok s n b s', resize dflt E sz ok s n = Ok (b, s') ->
  still s s' \/ cap s < cap s'.
Proof.
  intros ok s n b s' H. unfold resize in H.
  destruct (grow E sz ok s n) as [[b1 s1]| |] eqn:G; cbn [bind] in H; try discriminate H.
  apply grow_still in G.
  assert (K : still s1 s').
  { destruct b1; cbn [negb] in H.
    - destruct (make_more dflt (Z.to_nat (n - size s1)) (size s1) s1) as [s2| |] eqn:M;
        cbn [bind] in H; try discriminate H.
      destruct (destroy_down (Z.to_nat (size s1 - n)) n s2) as [s3| |] eqn:D;
        cbn [bind] in H; try discriminate H.
      assert (X : s' = set_size s3 n) by congruence. subst.
      apply still_make in M. apply still_destroy in D.
      exact (still_trans M D).
    - assert (s1 = s') by congruence. subst. split; auto. }
  destruct G as [->|G]; auto. right. destruct K. lia.
Qed.

Lemma call_still : forall s x a s', do_call dflt E sz s x = Ok (a, s') ->
  still s s' \/ cap s < cap s'.
Proof.
  intros s x a s' H. destruct x; cbn [do_call] in H;
    try (assert (s' = s) by congruence; subst; left; split; auto; fail).
  - destruct (push_back E sz ok s (Lit v)) as [[b s1]| |] eqn:P; cbn [bind fst snd] in H;
      try discriminate H. assert (s' = s1) by congruence. subst. eapply push_still; eauto.
  - destruct (at_ s i) as [q| |]; cbn [bind] in H; try discriminate H.
    destruct (push_back E sz ok s (Ref V (fst q) (snd q))) as [[b s1]| |] eqn:P;
      cbn [bind fst snd] in H;
      try discriminate H. assert (s' = s1) by congruence. subst. eapply push_still; eauto.
  - unfold pop_back in H. destruct (size s =? 0); cbn [bind] in H; try discriminate H.
    destruct (deref (data s)) as [p| |]; cbn [bind] in H; try discriminate H.
    destruct (destruct_at s p (size s - 1)) as [s1| |] eqn:D; cbn [bind] in H;
      try discriminate H.
    apply still_destruct in D.
    assert (X : s' = set_size s1 (size s1 - 1)) by congruence. subst. left. exact D.
  - destruct (resize dflt E sz ok s n) as [[b s1]| |] eqn:P; cbn [bind fst snd] in H;
      try discriminate H. assert (s' = s1) by congruence. subst. eapply resize_still; eauto.
  - unfold clear in H.
    destruct (resize dflt E sz true s 0) as [[b s1]| |] eqn:P; cbn [bind fst snd] in H;
      try discriminate H. assert (s' = s1) by congruence. subst. eapply resize_still; eauto.
  - destruct (grow E sz ok s n) as [[b s1]| |] eqn:P; cbn [bind fst snd] in H;
      try discriminate H. assert (s' = s1) by congruence. subst.
    apply grow_still in P. destruct P as [->|]; auto. left. split; auto.
  - destruct (grow_exp E sz ok s n) as [[b s1]| |] eqn:P; cbn [bind fst snd] in H;
      try discriminate H. assert (s' = s1) by congruence. subst.
    apply grow_exp_still in P. destruct P as [->|]; auto. left. split; auto.
  - destruct (at_ s i) as [q| |]; cbn [bind] in H; try discriminate H.
    destruct (get_at s (fst q) (snd q)) as [v| |]; cbn [bind] in H; try discriminate H.
    assert (s' = s) by congruence. subst. left. split; auto.
  - destruct (at_ s i) as [q| |]; cbn [bind] in H; try discriminate H.
    destruct (get_at s (fst q) (snd q)) as [w| |]; cbn [bind] in H; try discriminate H.
    destruct (put s (fst q) (snd q) (Some v)) as [s1| |] eqn:P; cbn [bind] in H;
      try discriminate H.
    assert (s' = s1) by congruence. subst. left. eapply still_put; eauto.
  - destruct (front s) as [q| |]; cbn [bind] in H; try discriminate H.
    destruct (get_at s (fst q) (snd q)) as [v| |]; cbn [bind] in H; try discriminate H.
    assert (s' = s) by congruence. subst. left. split; auto.
  - destruct (back s) as [q| |]; cbn [bind] in H; try discriminate H.
    destruct (get_at s (fst q) (snd q)) as [v| |]; cbn [bind] in H; try discriminate H.
    assert (s' = s) by congruence. subst. left. split; auto.
Qed.

Lemma run_still : forall cs s as_ s', run dflt E sz s cs = Ok (as_, s') ->
  cap s <= cap s' /\ (cap s' = cap s -> data s' = data s).
Proof.
  induction cs as [|x t IH]; cbn [run]; intros s as_ s' H.
  - assert (s = s') by congruence. subst. split; auto. lia.
  - destruct (do_call dflt E sz s x) as [[a s1]| |] eqn:C; cbn [bind snd] in H;
      try discriminate H.
    destruct (run dflt E sz s1 t) as [[b s2]| |] eqn:X; cbn [bind snd fst] in H;
      try discriminate H.
    assert (s2 = s') by congruence. subst. apply IH in X. destruct X as [X1 X2].
    apply call_still in C. destruct C as [[C1 C2]|C].
    + split; [lia|]. intros Y. rewrite X2 by lia. auto.
    + split; [lia|]. intros. lia.
Qed.

End Run.

Lemma endless : forall f c, (c = 0 \/ exists k, 1 <= k <= 63 /\ c = 2 ^ k) ->
  next_capacity f 0 (2 ^ 63 + 1) c = None.
Proof.
  induction f; intros c H.
  - cbn [next_capacity]. destruct (Z.leb_spec (2 ^ 63 + 1) c); auto.
    destruct H as [->|(k & K & ->)]; [lia|].
    assert (2 ^ k <= 2 ^ 63) by (apply Z.pow_le_mono_r; lia). lia.
  - cbn [next_capacity]. destruct (Z.leb_spec (2 ^ 63 + 1) c).
    + destruct H as [->|(k & K & ->)]; [lia|].
      assert (2 ^ k <= 2 ^ 63) by (apply Z.pow_le_mono_r; lia). lia.
    + apply IHf. unfold enlarge. change (0 <? 1024) with true. cbv iota.
      destruct H as [->|(k & K & ->)].
      * right. exists 1. split; [lia|]. auto.
      * assert (P : 0 < 2 ^ k) by (apply Z.pow_pos_nonneg; lia).
        destruct (Z.eqb_spec (2 ^ k) 0); [lia|].
        replace (2 ^ k * 2) with (2 ^ (k + 1)) by (rewrite Z.pow_add_r by lia; lia).
        unfold u64, wrapu. destruct (Z.eqb_spec k 63).
        -- subst k. left. reflexivity.
        -- right. exists (k + 1). split; [lia|].
           assert (2 ^ (k + 1) < 2 ^ 64) by (apply Z.pow_lt_mono_r; lia).
           assert (0 < 2 ^ (k + 1)) by (apply Z.pow_pos_nonneg; lia).
           apply Z.mod_small. lia.
Qed.
