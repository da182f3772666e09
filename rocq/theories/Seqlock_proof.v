From Coq Require Import Lia.
From Verif Require Import Base Base_lemmas Seqlock_model Seqlock_spec.

Lemma q32 : 2 ^ 32 = 4294967296. Proof. reflexivity. Qed.
Ltac u32s := unfold u32, wrapu in *; rewrite ?q32 in *.

Lemma sput_eq : forall s t x, sl_th (sput s t x) t = x.
Proof. intros; cbn; now rewrite Nat.eqb_refl. Qed.
Lemma sput_neq : forall s t x u, u <> t -> sl_th (sput s t x) u = sl_th s u.
Proof. intros s t x u H; cbn; now destruct (Nat.eqb_spec u t). Qed.

(** Who may store: [None]: nobody uses exclusive_store; [Some w]: only [w]. *)
Definition allowed (m : option nat) (l : sllabel) : Prop :=
  match m with
  | None => forall t v, l <> LExcl t v
  | Some w => forall t, writer_of l = Some t -> t = w
  end.
Lemma permitted_allowed : forall ls, permitted ls -> exists m, Forall (allowed m) ls.
Proof.
  intros ls [H|[w H]]; [exists None|exists (Some w)]; apply Forall_forall; intros l Hl; cbn.
  - intros t v E; subst; eapply H; eauto.
  - intros t E; eauto.
Qed.

Definition writing (x : sth) : Prop := match x with TTry _ _ | TExcl _ _ | TCopy _ _ _ => True | _ => False end.

Record inv (n : nat) (m : option nat) (v0 : list Z) (outs : list slout) (s : sl) : Prop := {
  i_len : length (sl_val s) = n;
  i_ver : 0 <= sl_ver s < 2 ^ 32;
  i_copy : forall t v ver0 i, sl_th s t = TCopy v ver0 i ->
    length v = n /\ (i <= n)%nat /\ firstn i (sl_val s) = firstn i v /\ 0 <= ver0 < 2 ^ 32 /\ Z.even ver0 = true /\ sl_ver s = ver0 + 1;
  i_uniq : forall t u v v' a a' i i', sl_th s t = TCopy v a i -> sl_th s u = TCopy v' a' i' -> t = u;
  i_odd : Z.odd (sl_ver s) = true -> exists t v a i, sl_th s t = TCopy v a i;
  i_even : Z.even (sl_ver s) = true -> sl_val s = committed v0 outs;
  i_try : forall t v a, sl_th s t = TTry v a -> length v = n /\ 0 <= a < 2 ^ 32 /\ Z.even a = true;
  i_excl : forall t v a, sl_th s t = TExcl v a -> length v = n /\ a = sl_ver s /\ m = Some t;
  i_mode : forall w t, m = Some w -> writing (sl_th s t) -> t = w;
  i_load : forall t a buf, sl_th s t = TLoad a buf -> (length buf <= n)%nat /\ 0 <= a < 2 ^ 32;
  i_count : sl_ver s = u32 (2 * stores outs + Z.b2z (Z.odd (sl_ver s))) }.

Lemma committed_app : forall o1 o2 v0, committed v0 (o1 ++ o2) = committed (committed v0 o1) o2.
Proof. induction o1 as [|[] o1 IH]; cbn; auto. Qed.
Lemma stores_app : forall o1 o2, stores (o1 ++ o2) = stores o1 + stores o2.
Proof. intros; unfold stores; rewrite filter_app, app_length; lia. Qed.
Lemma stores_nonneg : forall o, 0 <= stores o. Proof. intros; unfold stores; lia. Qed.

Lemma inv0 : forall m v0, inv (length v0) m v0 [] (sl_new v0).
Proof.
  intros; constructor; cbn; try discriminate; try tauto; auto.
  lia.
Qed.

Lemma even_odd : forall x, Z.even x = negb (Z.odd x). Proof. intros; rewrite <- Z.negb_odd; reflexivity. Qed.
Lemma odd_succ_even : forall x, Z.even x = true -> Z.odd (x + 1) = true.
Proof. intros x H. rewrite Z.add_1_r, Z.odd_succ. auto. Qed.
Lemma even_lt : forall x, 0 <= x < 2 ^ 32 -> Z.even x = true -> x + 1 < 2 ^ 32.
Proof.
  intros x H E. apply Z.even_spec in E. destruct E as [k E]. rewrite q32 in *. lia.
Qed.
Lemma even_u32 : forall x, Z.even (u32 x) = Z.even x.
Proof.
  intros x. unfold u32, wrapu. rewrite Z.mod_eq by (rewrite q32; lia).
  rewrite Z.even_sub, Z.even_mul. change (Z.even (2 ^ 32)) with true. cbn.
  now destruct (Z.even x).
Qed.

Lemma firstn_upd : forall {A} (l : list A) i b, (i < length l)%nat -> firstn (S i) (upd l i b) = firstn i l ++ [b].
Proof.
  induction l as [|x l IH]; cbn; intros i b H; [lia|].
  destruct i; cbn; [now destruct l|].
  f_equal. apply IH; lia.
Qed.
Lemma firstn_nth : forall {A} (l : list A) i b, nth_error l i = Some b -> firstn (S i) l = firstn i l ++ [b].
Proof.
  induction l as [|x l IH]; intros [|i] b H; cbn in *; try discriminate.
  - congruence.
  - f_equal; now apply IH.
Qed.

Ltac th u t := destruct (Nat.eq_dec u t) as [->|]; [rewrite ?sput_eq in *|rewrite ?sput_neq in * by assumption].

Lemma step_inv : forall n m v0 outs s l o s',
  inv n m v0 outs s -> allowed m l -> sl_step s l = Some (o, s') -> inv n m v0 (outs ++ [o]) s'.
Proof.
  intros n m v0 outs s l o s' I Hm H.
  assert (QUIET : forall t x o, (forall t' v' w, o <> SStored t' v' w) ->
     (forall v a i, x <> TCopy v a i) -> (forall v a i, sl_th s t <> TCopy v a i) ->
     (forall v a, x = TTry v a -> length v = n /\ 0 <= a < 2 ^ 32 /\ Z.even a = true) ->
     (forall v a, x = TExcl v a -> length v = n /\ a = sl_ver s /\ m = Some t) ->
     (forall w, m = Some w -> writing x -> t = w) ->
     (forall a buf, x = TLoad a buf -> (length buf <= n)%nat /\ 0 <= a < 2 ^ 32) ->
     inv n m v0 (outs ++ [o]) (sput s t x)).
  { clear H o s' Hm. intros t x o Ho Hx Ht H1 H2 H3 H4.
    assert (ST : stores (outs ++ [o]) = stores outs).
    { rewrite stores_app. destruct o; cbn; try lia. exfalso; eapply Ho; eauto. }
    assert (CM : committed v0 (outs ++ [o]) = committed v0 outs).
    { rewrite committed_app. destruct o; cbn; auto. exfalso; eapply Ho; eauto. }
    constructor; rewrite ?ST, ?CM; try (cbn; apply I).
    - intros u v a i E. th u t; [exfalso; eapply Hx; eauto|]. eapply i_copy in E; eauto.
    - intros u w v v' a a' i i' E1 E2. th u t; [exfalso; eapply Hx; eauto|]. th w t; [exfalso; eapply Hx; eauto|]. eapply i_uniq; eauto.
    - cbn. intros E. destruct (i_odd _ _ _ _ _ I E) as (u & v & a & i & E').
      exists u, v, a, i. cbn. destruct (Nat.eqb_spec u t); auto. subst. exfalso; eapply Ht; eauto.
    - intros u v a E. th u t; eauto. eapply i_try; eauto.
    - intros u v a E. th u t; eauto. eapply i_excl in E; eauto.
    - intros w u E W. th u t; eauto. eapply i_mode; eauto.
    - intros u a b E. th u t; eauto. eapply i_load; eauto. }
  destruct l as [t v|t v|t|t]; cbn [sl_step] in H.
  - destruct (sl_th s t) eqn:Et; try discriminate.
    destruct (Nat.eqb_spec (length v) (length (sl_val s))) as [L|]; try discriminate.
    destruct (Z.odd (sl_ver s)) eqn:Eo; inversion H; subst; clear H.
    + assert (ST : stores (outs ++ [SStoreFailed t]) = stores outs) by (rewrite stores_app; cbn; lia).
      assert (CM : committed v0 (outs ++ [SStoreFailed t]) = committed v0 outs) by (rewrite committed_app; reflexivity).
      constructor; rewrite ?ST, ?CM; apply I.
    + apply QUIET; try discriminate; try congruence; try (rewrite Et; discriminate).
      * intros ? ? E; inversion E; subst. rewrite even_odd, Eo. split; [rewrite L; apply I|split; [apply I|reflexivity]].
      * intros w Ew _. destruct m as [w'|]; [|discriminate]. cbn in Hm. inversion Ew; subst. now apply Hm.
  - destruct (sl_th s t) eqn:Et; try discriminate.
    destruct (Nat.eqb_spec (length v) (length (sl_val s))) as [L|]; try discriminate.
    inversion H; subst; clear H.
    assert (M : m = Some t).
    { destruct m as [w|]; cbn in Hm; [f_equal; symmetry; now apply Hm|exfalso; eapply Hm; eauto]. }
    apply QUIET; try discriminate; try congruence; try (rewrite Et; discriminate).
    + intros ? ? E; inversion E; subst. repeat split; auto. rewrite L; apply I.
  - destruct (sl_th s t) eqn:Et; try discriminate. inversion H; subst; clear H.
    apply QUIET; try discriminate; try (cbn; tauto); try (rewrite Et; discriminate).
    + intros ? ? E; inversion E; subst. cbn; split; [lia|apply I].
  - destruct (sl_th s t) as [|v a|v a|v a i|a buf] eqn:Et; try discriminate.
    + destruct (Z.eqb_spec (sl_ver s) a) as [Ev|Ev]; inversion H; subst; clear H.
      * destruct (i_try _ _ _ _ _ I _ _ _ Et) as (L & A & E).
        pose proof (even_lt _ A E) as A1.
        assert (NC : forall u v' a' i', sl_th s u <> TCopy v' a' i').
        { intros u v' a' i' Eu. apply (i_copy _ _ _ _ _ I) in Eu. destruct Eu as (_ & _ & _ & _ & E' & E'').
          apply odd_succ_even in E'. rewrite <- E'' in E'. rewrite even_odd, E' in E. discriminate. }
        assert (U : u32 (sl_ver s + 1) = sl_ver s + 1) by (u32s; lia).
        rewrite U.
        assert (ST : stores (outs ++ [SNone]) = stores outs) by (rewrite stores_app; cbn; lia).
        assert (CM : committed v0 (outs ++ [SNone]) = committed v0 outs) by (rewrite committed_app; reflexivity).
        constructor; rewrite ?ST, ?CM.
        -- apply I.
        -- cbn; lia.
        -- intros u v' a' i' Eu. th u t.
           ++ inversion Eu; subst. repeat split; auto; try lia.
           ++ exfalso; eapply NC; eauto.
        -- intros u w v1 v2 a1 a2 i1 i2 E1 E2. th u t; th w t; auto; exfalso; eapply NC; eauto.
        -- intros _. exists t, v, (sl_ver s), O. apply sput_eq.
        -- cbn [sl_ver sput]. intros E'. rewrite even_odd, odd_succ_even in E' by auto. discriminate.
        -- intros u v' a' Eu. th u t; [discriminate|]. eapply i_try; eauto.
        -- intros u v' a' Eu. th u t; [discriminate|].
           exfalso. pose proof (i_excl _ _ _ _ _ I _ _ _ Eu) as (_ & _ & M).
           assert (t = u) by (eapply i_mode; eauto; now rewrite Et). congruence.
        -- intros w u Ew W. th u t.
           ++ eapply i_mode; eauto. now rewrite Et.
           ++ eapply i_mode; eauto.
        -- intros u a' b' Eu. th u t; [discriminate|]. eapply i_load; eauto.
        -- cbn [sl_ver sput]. rewrite odd_succ_even by auto. pose proof (i_count _ _ _ _ _ I) as C.
           rewrite even_odd in E. apply Bool.negb_true_iff in E. rewrite E in C. cbn [Z.b2z] in *.
           u32s. lia.
      * apply QUIET; try discriminate; try (cbn; tauto). rewrite Et; discriminate.
    + destruct (i_excl _ _ _ _ _ I _ _ _ Et) as (L & A & M). subst a.
      inversion H; subst; clear H.
      assert (NC : forall u v' a' i', sl_th s u <> TCopy v' a' i').
      { intros u v' a' i' Eu. assert (u = t) by (eapply i_mode; eauto; now rewrite Eu). congruence. }
      assert (E : Z.even (sl_ver s) = true).
      { rewrite even_odd. destruct (Z.odd (sl_ver s)) eqn:Eo; auto.
        destruct (i_odd _ _ _ _ _ I Eo) as (u & v' & a' & i' & Eu). exfalso; eapply NC; eauto. }
      pose proof (even_lt _ (i_ver _ _ _ _ _ I) E) as A1.
      pose proof (i_ver _ _ _ _ _ I) as A0.
      assert (U : u32 (sl_ver s + 1) = sl_ver s + 1) by (u32s; lia).
      rewrite U.
      assert (ST : stores (outs ++ [SNone]) = stores outs) by (rewrite stores_app; cbn; lia).
      assert (CM : committed v0 (outs ++ [SNone]) = committed v0 outs) by (rewrite committed_app; reflexivity).
      constructor; rewrite ?ST, ?CM.
      -- apply I.
      -- cbn; lia.
      -- intros u v' a' i' Eu. th u t.
         ++ inversion Eu; subst. repeat split; auto; try lia.
         ++ exfalso; eapply NC; eauto.
      -- intros u w v1 v2 a1 a2 i1 i2 E1 E2. th u t; th w t; auto; exfalso; eapply NC; eauto.
      -- intros _. exists t, v, (sl_ver s), O. apply sput_eq.
      -- cbn [sl_ver sput]. intros E'. rewrite even_odd, odd_succ_even in E' by auto. discriminate.
      -- intros u v' a' Eu. th u t; [discriminate|]. eapply i_try; eauto.
      -- intros u v' a' Eu. th u t; [discriminate|]. pose proof (i_excl _ _ _ _ _ I _ _ _ Eu) as (_ & _ & M'). congruence.
      -- intros w u Ew W. th u t; [congruence|]. eapply i_mode; eauto.
      -- intros u a' b' Eu. th u t; [discriminate|]. eapply i_load; eauto.
      -- cbn [sl_ver sput]. rewrite odd_succ_even by auto. pose proof (i_count _ _ _ _ _ I) as C.
         rewrite even_odd in E. apply Bool.negb_true_iff in E. rewrite E in C. cbn [Z.b2z] in *.
         u32s. lia.
    + destruct (i_copy _ _ _ _ _ I _ _ _ _ Et) as (L & Hi & P & A & E & V).
      assert (X : forall u, u <> t -> forall v' a' i', sl_th s u <> TCopy v' a' i').
      { intros u Hu v' a' i' Eu. apply Hu. eapply i_uniq; eauto. }
      assert (EX : forall u v' a', sl_th s u <> TExcl v' a').
      { intros u v' a' Eu. pose proof (i_excl _ _ _ _ _ I _ _ _ Eu) as (_ & _ & M).
        assert (t = u) by (eapply i_mode; eauto; now rewrite Et). congruence. }
      destruct (nth_error v i) as [b|] eqn:Eb; inversion H; subst; clear H.
      * assert (Hl : (i < length v)%nat) by (apply nth_error_Some; congruence).
        assert (ST : stores (outs ++ [SNone]) = stores outs) by (rewrite stores_app; cbn; lia).
        assert (CM : committed v0 (outs ++ [SNone]) = committed v0 outs) by (rewrite committed_app; reflexivity).
        constructor; rewrite ?ST, ?CM.
        -- cbn. rewrite length_upd. apply I.
        -- apply I.
        -- intros u v' a' i' Eu. th u t; [|exfalso; eapply X; eauto].
           inversion Eu; subst. cbn [sl_val sput]. repeat split; auto; try lia.
           rewrite firstn_upd, P by (rewrite (i_len _ _ _ _ _ I); auto). symmetry; now apply firstn_nth.
        -- intros u w v1 v2 a1 a2 i1 i2 E1 E2. th u t; th w t; auto; exfalso; eapply X; eauto.
        -- intros _. exists t, v, a, (S i). apply sput_eq.
        -- cbn [sl_ver sput]. rewrite V. intros E'. rewrite even_odd, odd_succ_even in E' by auto. discriminate.
        -- intros u v' a' Eu. th u t; [discriminate|]. eapply i_try; eauto.
        -- intros u v' a' Eu. th u t; [discriminate|]. exfalso; eapply EX; eauto.
        -- intros w u Ew W. th u t; eapply i_mode; eauto. now rewrite Et.
        -- intros u a' b' Eu. th u t; [discriminate|]. eapply i_load; eauto.
        -- apply I.
      * apply nth_error_None in Eb. assert (i = length v) by lia. subst i.
        assert (VV : sl_val s = v).
        { rewrite <- (firstn_all v), <- P. rewrite <- (i_len _ _ _ _ _ I) at 1. now rewrite firstn_all. }
        pose proof (even_lt _ A E) as A1.
        assert (ST : stores (outs ++ [SStored t v (u32 (a + 2))]) = stores outs + 1) by (rewrite stores_app; reflexivity).
        assert (CM : committed v0 (outs ++ [SStored t v (u32 (a + 2))]) = v) by (rewrite committed_app; reflexivity).
        assert (EV : Z.even (u32 (a + 2)) = true).
        { rewrite even_u32, Z.even_add, E. reflexivity. }
        constructor; rewrite ?ST, ?CM.
        -- apply I.
        -- cbn [sl_ver sput]. u32s; lia.
        -- intros u v' a' i' Eu. th u t; [discriminate|exfalso; eapply X; eauto].
        -- intros u w v1 v2 a1 a2 i1 i2 E1 E2. th u t; [discriminate|]. exfalso; eapply X; eauto.
        -- cbn [sl_ver sput]. intros E'. rewrite even_odd, E' in EV. discriminate.
        -- intros _. apply VV.
        -- intros u v' a' Eu. th u t; [discriminate|]. eapply i_try; eauto.
        -- intros u v' a' Eu. th u t; [discriminate|]. exfalso; eapply EX; eauto.
        -- intros w u Ew W. th u t; [destruct W|]; eapply i_mode; eauto.
        -- intros u a' b' Eu. th u t; [discriminate|]. eapply i_load; eauto.
        -- cbn [sl_ver sput]. pose proof (i_count _ _ _ _ _ I) as C.
           rewrite V, odd_succ_even in C by auto. rewrite even_odd in EV. apply Bool.negb_true_iff in EV. rewrite EV.
           cbn [Z.b2z] in *. u32s. lia.
    + destruct (i_load _ _ _ _ _ I _ _ _ Et) as (B & A).
      destruct (nth_error (sl_val s) (length buf)) as [b|] eqn:Eb; inversion H; subst; clear H.
      * assert (length buf < n)%nat by (rewrite <- (i_len _ _ _ _ _ I); apply nth_error_Some; congruence).
        apply QUIET; try discriminate; try (cbn; tauto); try (rewrite Et; discriminate).
        intros ? ? E; inversion E; subst. rewrite app_length; cbn. lia.
      * apply QUIET; try discriminate; try (cbn; tauto); try (rewrite Et; discriminate).
        destruct (_ && _); discriminate.
Qed.

Lemma run_cons : forall s l ls, sl_run s (l :: ls) =
  match sl_step s l with None => sl_run s ls | Some (o, s1) => (o :: fst (sl_run s1 ls), snd (sl_run s1 ls)) end.
Proof. intros; cbn. destruct (sl_step s l) as [[o s1]|]; auto. now destruct (sl_run s1 ls). Qed.

Lemma run_inv : forall ls n m v0 outs s, inv n m v0 outs s -> Forall (allowed m) ls ->
  inv n m v0 (outs ++ fst (sl_run s ls)) (snd (sl_run s ls)).
Proof.
  induction ls as [|l ls IH]; intros n m v0 outs s I F.
  - cbn. now rewrite app_nil_r.
  - rewrite run_cons. inversion F; subst. destruct (sl_step s l) as [[o s1]|] eqn:E; auto.
    cbn [fst snd]. change (o :: fst (sl_run s1 ls)) with ([o] ++ fst (sl_run s1 ls)). rewrite app_assoc.
    apply IH; auto. eapply step_inv; eauto.
Qed.

(** A load that started when the version was [V]. *)

Record during (t : nat) (V : Z) (vB : list Z) (outs : list slout) (s : sl) : Prop := {
  d_ver : sl_ver s = u32 (V + 2 * stores outs + Z.b2z (Z.odd (sl_ver s)));
  d_buf : exists buf, sl_th s t = TLoad V buf /\ (stores outs = 0 -> Z.even (sl_ver s) = true -> buf = firstn (length buf) vB);
  d_val : stores outs = 0 -> Z.even (sl_ver s) = true -> sl_val s = vB }.

Lemma step_during : forall n m v0 outs t V vB os s l o s', Z.even V = true ->
  inv n m v0 outs s -> allowed m l -> during t V vB os s -> sl_step s l = Some (o, s') -> ~ ends_load t o ->
  during t V vB (os ++ [o]) s'.
Proof.
  intros n m v0 outs t V vB os s l o s' HV I Hm [D1 (buf & D2 & D3) D4] H NE.
  assert (NC : Z.even (sl_ver s) = true -> forall u v' a' i', sl_th s u <> TCopy v' a' i').
  { intros E u v' a' i' Eu. apply (i_copy _ _ _ _ _ I) in Eu. destruct Eu as (_ & _ & _ & _ & E' & E'').
    apply odd_succ_even in E'. rewrite <- E'' in E'. rewrite even_odd, E' in E. discriminate. }
  assert (QUIET : forall u x o, u <> t -> (forall t' v' w, o <> SStored t' v' w) -> during t V vB (os ++ [o]) (sput s u x)).
  { clear H o s' NE. intros u x o Hu Ho.
    assert (ST : stores (os ++ [o]) = stores os).
    { rewrite stores_app. destruct o; cbn; try lia. exfalso; eapply Ho; eauto. }
    constructor; rewrite ?ST; auto. exists buf. rewrite sput_neq by auto. auto. }
  destruct l as [u v|u v|u|u]; cbn [sl_step] in H.
  - destruct (sl_th s u) eqn:Eu; try discriminate. assert (u <> t) by congruence.
    destruct (Nat.eqb_spec (length v) (length (sl_val s))); try discriminate.
    remember (Z.odd (sl_ver s)) as od eqn:Eod. destruct od; inversion H; subst; clear H; rewrite Eod in D1.
    + assert (ST : stores (os ++ [SStoreFailed u]) = stores os) by (rewrite stores_app; cbn; lia).
      constructor; rewrite ?ST; auto. exists buf; auto.
    + apply QUIET; auto; discriminate.
  - destruct (sl_th s u) eqn:Eu; try discriminate. assert (u <> t) by congruence.
    destruct (Nat.eqb_spec (length v) (length (sl_val s))); try discriminate.
    inversion H; subst; clear H. apply QUIET; auto; discriminate.
  - destruct (sl_th s u) eqn:Eu; try discriminate. assert (u <> t) by congruence.
    inversion H; subst; clear H. apply QUIET; auto; discriminate.
  - assert (BUMP : forall v a, a = sl_ver s -> Z.even (sl_ver s) = true -> u <> t -> 
       during t V vB (os ++ [SNone]) (sput (mkSl (u32 (a + 1)) (sl_val s) (sl_th s)) u (TCopy v a 0))).
    { clear H NE. intros v a -> E Hu. pose proof (i_ver _ _ _ _ _ I) as A0. pose proof (even_lt _ A0 E) as A1.
      assert (U : u32 (sl_ver s + 1) = sl_ver s + 1) by (u32s; lia). rewrite U.
      assert (ST : stores (os ++ [SNone]) = stores os) by (rewrite stores_app; cbn; lia).
      constructor; rewrite ?ST; cbn [sl_ver sput].
      - rewrite odd_succ_even by auto. rewrite even_odd in E. apply Bool.negb_true_iff in E. rewrite E in D1. cbn [Z.b2z] in *. u32s; lia.
      - exists buf. split; [now rewrite sput_neq by auto|]. intros _ E'. rewrite even_odd, odd_succ_even in E' by auto; discriminate.
      - intros _ E'. rewrite even_odd, odd_succ_even in E' by auto; discriminate. }
    destruct (sl_th s u) as [|v a|v a|v a i|a buf'] eqn:Et; try discriminate.
    + assert (u <> t) by congruence.
      destruct (Z.eqb_spec (sl_ver s) a) as [Ev|Ev]; inversion H; subst; clear H.
      * apply BUMP; auto. eapply i_try; eauto.
      * apply QUIET; auto; discriminate.
    + assert (u <> t) by congruence.
      destruct (i_excl _ _ _ _ _ I _ _ _ Et) as (L & A & M). inversion H; subst o s'; clear H.
      apply BUMP; auto. rewrite even_odd. destruct (Z.odd (sl_ver s)) eqn:Eo; auto.
      destruct (i_odd _ _ _ _ _ I Eo) as (w & v' & a' & i' & Eu).
      assert (w = u) by (eapply i_mode; eauto; now rewrite Eu). congruence.
    + assert (u <> t) by congruence.
      destruct (i_copy _ _ _ _ _ I _ _ _ _ Et) as (L & Hi & P & A & E & VV).
      destruct (nth_error v i) as [b|] eqn:Eb; inversion H; subst; clear H.
      * assert (ST : stores (os ++ [SNone]) = stores os) by (rewrite stores_app; cbn; lia).
        assert (EV : Z.even (sl_ver s) = true -> False).
        { intros E'. eapply NC; eauto. }
        constructor; rewrite ?ST; cbn [sl_ver sput]; auto; try tauto.
        exists buf. rewrite sput_neq by auto. cbn. tauto.
      * assert (ST : stores (os ++ [SStored u v (u32 (a + 2))]) = stores os + 1) by (rewrite stores_app; reflexivity).
        pose proof (stores_nonneg os).
        pose proof (even_lt _ A E) as A1.
        assert (EV : Z.even (u32 (a + 2)) = true).
        { rewrite even_u32, Z.even_add, E. reflexivity. }
        constructor; rewrite ?ST; cbn [sl_ver sput]; try lia.
        -- rewrite VV, odd_succ_even in D1 by auto. rewrite even_odd in EV. apply Bool.negb_true_iff in EV. rewrite EV. cbn [Z.b2z] in *. u32s; lia.
        -- exists buf. rewrite sput_neq by auto. split; auto; lia.
    + destruct (Nat.eq_dec u t) as [->|Hu].
      * rewrite D2 in Et. inversion Et; subst a buf'.
        destruct (nth_error (sl_val s) (length buf)) as [b|] eqn:Eb; inversion H; subst; clear H.
        -- assert (ST : stores (os ++ [SNone]) = stores os) by (rewrite stores_app; cbn; lia).
           constructor; rewrite ?ST; auto.
           exists (buf ++ [b]). rewrite sput_eq. split; auto. intros S0 E.
           rewrite app_length; cbn [length]. rewrite Nat.add_1_r. cbn [sl_ver sput] in E.
           rewrite (firstn_nth vB (length buf) b) by (rewrite <- (D4 S0 E); auto). f_equal. now apply D3.
        -- exfalso. apply NE. destruct (_ && _); cbn; auto.
      * destruct (nth_error (sl_val s) (length buf')) as [b|] eqn:Eb; inversion H; subst; clear H.
        -- apply QUIET; auto; discriminate.
        -- apply QUIET; auto. destruct (_ && _); discriminate.
Qed.

Lemma run_during : forall ls n m v0 outs t V vB os s, Z.even V = true ->
  inv n m v0 outs s -> Forall (allowed m) ls -> during t V vB os s ->
  Forall (fun o => ~ ends_load t o) (fst (sl_run s ls)) ->
  during t V vB (os ++ fst (sl_run s ls)) (snd (sl_run s ls)).
Proof.
  induction ls as [|l ls IH]; intros n m v0 outs t V vB os s HV I F D NE.
  - cbn. now rewrite app_nil_r.
  - rewrite run_cons in *. inversion F; subst. destruct (sl_step s l) as [[o s1]|] eqn:E; [|eapply IH; eauto].
    cbn [fst snd] in *. inversion NE; subst.
    change (o :: fst (sl_run s1 ls)) with ([o] ++ fst (sl_run s1 ls)). rewrite app_assoc.
    eapply IH; eauto; [eapply step_inv; eauto|eapply step_during; eauto].
Qed.

Lemma load_exact : forall ls1 ls2 v0 o1 s1 t o2 s2 v ver s3,
  permitted (ls1 ++ ls2) ->
  sl_run (sl_new v0) ls1 = (o1, s1) -> sl_th s1 t = TIdle ->
  sl_run s1 (LBegin t :: ls2) = (o2, s2) -> Forall (fun o => ~ ends_load t o) o2 ->
  stores o2 < 2 ^ 31 ->
  sl_step s2 (LStep t) = Some (SLoaded t v ver, s3) ->
  v = committed v0 o1 /\ stores o2 = 0 /\ ver = u32 (2 * stores o1).
Proof.
  intros ls1 ls2 v0 o1 s1 t o2 s2 v ver s3 P R1 T1 R2 NE SC H.
  destruct (permitted_allowed _ P) as (m & F). apply Forall_app in F. destruct F as [F1 F2].
  pose proof (run_inv ls1 _ m v0 [] _ (inv0 m v0) F1) as I1. rewrite R1 in I1. cbn [fst snd app] in I1.
  assert (B : sl_step s1 (LBegin t) = Some (SNone, sput s1 t (TLoad (sl_ver s1) []))) by (cbn; now rewrite T1).
  rewrite run_cons, B in R2. inversion R2; subst o2 s2; clear R2.
  set (sb := sput s1 t (TLoad (sl_ver s1) [])) in *.
  assert (Ib : inv (length v0) m v0 (o1 ++ [SNone]) sb).
  { eapply step_inv; [eauto| |exact B]. destruct m; cbn; congruence. }
  pose proof (i_ver _ _ _ _ _ I1) as A1.
  assert (SN : stores (SNone :: fst (sl_run sb ls2)) = stores (fst (sl_run sb ls2))) by reflexivity. rewrite SN in *.
  pose proof (stores_nonneg (fst (sl_run sb ls2))) as SNN.
  inversion NE as [|? ? _ NE2]; subst.
  destruct (Z.even (sl_ver s1)) eqn:EV.
  - assert (Db : during t (sl_ver s1) (sl_val s1) [] sb).
    { constructor.
      - cbn [stores filter length sl_ver sb sput]. rewrite even_odd in EV. apply Bool.negb_true_iff in EV. rewrite EV. cbn. u32s; lia.
      - exists []. subst sb; rewrite sput_eq. split; auto.
      - reflexivity. }
    pose proof (run_during ls2 _ m v0 _ t _ _ [] sb EV Ib F2 Db NE2) as [D1 (buf & D2 & D3) D4]. cbn [app] in *.
    pose proof (run_inv ls2 _ m v0 _ _ Ib F2) as I2.
    set (s2 := snd (sl_run sb ls2)) in *. set (o2 := fst (sl_run sb ls2)) in *.
    cbn [sl_step] in H. rewrite D2 in H.
    destruct (nth_error (sl_val s2) (length buf)) as [b|] eqn:Eb; [discriminate|].
    rewrite EV in H. cbn [andb] in H.
    destruct (Z.eqb_spec (sl_ver s1) (sl_ver s2)) as [E|]; [|discriminate].
    inversion H; subst v ver s3; clear H.
    assert (E2 : Z.even (sl_ver s2) = true) by congruence.
    assert (S0 : stores o2 = 0).
    { rewrite even_odd in E2. apply Bool.negb_true_iff in E2. rewrite E2 in D1. cbn [Z.b2z] in D1. rewrite <- E in D1.
      change (2 ^ 31) with 2147483648 in SC. u32s; lia. }
    pose proof (D4 S0 E2) as DV.
    split; [|split; auto].
    + rewrite (D3 S0 E2).
      pose proof (i_load _ _ _ _ _ I2 _ _ _ D2) as (LB & _).
      apply nth_error_None in Eb. rewrite (i_len _ _ _ _ _ I2) in Eb. replace (length buf) with (length v0) by lia.
      rewrite <- (i_len _ _ _ _ _ I1), firstn_all. apply (i_even _ _ _ _ _ I1 EV).
    + rewrite <- E. pose proof (i_count _ _ _ _ _ I1) as C. rewrite even_odd in EV. apply Bool.negb_true_iff in EV. rewrite EV in C. cbn [Z.b2z] in C. now rewrite Z.add_0_r in C.
  - (* started inside a store: such a load is rejected *)
    exfalso.
    assert (G : forall ls s, sl_th s t = TLoad (sl_ver s1) (match sl_th s t with TLoad _ b => b | _ => [] end) ->
      Forall (fun o => ~ ends_load t o) (fst (sl_run s ls)) ->
      exists b, sl_th (snd (sl_run s ls)) t = TLoad (sl_ver s1) b).
    { clear. induction ls as [|l ls IH]; intros s E NE; [eexists; exact E|].
      rewrite run_cons in *. destruct (sl_step s l) as [[o s']|] eqn:St; [|auto]. cbn [fst snd] in *.
      inversion NE as [|? ? N1 N2]; subst. apply IH; auto. clear IH NE N2.
      assert (X : exists b, sl_th s' t = TLoad (sl_ver s1) b); [|destruct X as [b X]; now rewrite X].
      remember (match sl_th s t with TLoad _ b => b | _ => [] end) as b0 eqn:Eb0. clear Eb0.
      destruct l as [u v|u v|u|u]; cbn [sl_step] in St.
      - destruct (sl_th s u) eqn:Eu; try discriminate. destruct (_ =? _)%nat; try discriminate.
        destruct (Z.odd (sl_ver s)); inversion St; subst; eauto. rewrite sput_neq by congruence; eauto.
      - destruct (sl_th s u) eqn:Eu; try discriminate. destruct (_ =? _)%nat; try discriminate.
        inversion St; subst; eauto. rewrite sput_neq by congruence; eauto.
      - destruct (sl_th s u) eqn:Eu; try discriminate. inversion St; subst; eauto. rewrite sput_neq by congruence; eauto.
      - destruct (Nat.eq_dec u t) as [->|Hu].
        + rewrite E in St. destruct (nth_error _ _); inversion St; subst.
          * rewrite sput_eq; eauto.
          * exfalso; apply N1. destruct (_ && _); cbn; auto.
        + destruct (sl_th s u); try discriminate.
          * destruct (_ =? _); inversion St; subst; rewrite sput_neq by auto; eauto.
          * inversion St; subst; rewrite sput_neq by auto; eauto.
          * destruct (nth_error _ _); inversion St; subst; rewrite sput_neq by auto; eauto.
          * destruct (nth_error _ _); inversion St; subst; rewrite sput_neq by auto; eauto. }
    destruct (G ls2 sb) as (b & Eb); auto.
    { subst sb. now rewrite sput_eq. }
    cbn [sl_step] in H. rewrite Eb in H. destruct (nth_error _ _); [discriminate|]. rewrite EV in H. discriminate.
Qed.

(** Calls run without interference. *)
Lemma run_app : forall l1 l2 s, sl_run s (l1 ++ l2) =
  (fst (sl_run s l1) ++ fst (sl_run (snd (sl_run s l1)) l2), snd (sl_run (snd (sl_run s l1)) l2)).
Proof.
  induction l1 as [|l l1 IH]; intros l2 s.
  - cbn. now destruct (sl_run s l2).
  - cbn [List.app]. rewrite !run_cons. destruct (sl_step s l) as [[o s1]|]; rewrite IH; cbn; auto.
Qed.

Lemma copy_alone : forall k t v a s i, sl_th s t = TCopy v a i -> length v = length (sl_val s) -> (i + k = length v)%nat ->
  firstn i (sl_val s) = firstn i v ->
  let r := sl_run s (repeat (LStep t) (S k)) in
  fst r = repeat SNone k ++ [SStored t v (u32 (a + 2))] /\ sl_val (snd r) = v /\ sl_ver (snd r) = u32 (a + 2) /\
  sl_th (snd r) t = TIdle /\ (forall u, u <> t -> sl_th (snd r) u = sl_th s u).
Proof.
  induction k as [|k IH]; intros t v a s i E L K P; cbn zeta.
  - rewrite Nat.add_0_r in K. subst i. cbn [repeat]. rewrite run_cons. cbn [sl_step]. rewrite E.
    rewrite (proj2 (nth_error_None v (length v))) by lia. cbn [sl_run fst snd app repeat sl_val sl_ver sput].
    rewrite L, firstn_all in P. rewrite <- L, firstn_all in P.
    split; [reflexivity|]. split; [auto|]. split; [reflexivity|]. split; [apply sput_eq|].
    intros u Hu. now rewrite sput_neq.
  - change (repeat (LStep t) (S (S k))) with (LStep t :: repeat (LStep t) (S k)). rewrite run_cons. cbn [sl_step]. rewrite E.
    destruct (nth_error v i) as [b|] eqn:Eb; [|apply nth_error_None in Eb; lia]. cbn [fst snd].
    set (s1 := sput _ _ _).
    destruct (IH t v a s1 (S i)) as (I1 & I2 & I3 & I4 & I5).
    + apply sput_eq.
    + cbn. now rewrite length_upd.
    + lia.
    + cbn [s1 sl_val sput]. rewrite firstn_upd by lia. rewrite P. symmetry; now apply firstn_nth.
    + rewrite I1, I2, I3, I4. repeat split; auto. intros u Hu. rewrite I5 by auto. subst s1. now rewrite sput_neq.
Qed.

Lemma store_alone : forall t v s, sl_th s t = TIdle -> Z.even (sl_ver s) = true -> length v = length (sl_val s) ->
  let r := sl_run s (LTry t v :: LStep t :: repeat (LStep t) (S (length v))) in
  fst r = SNone :: SNone :: repeat SNone (length v) ++ [SStored t v (u32 (sl_ver s + 2))] /\
  sl_val (snd r) = v /\ sl_ver (snd r) = u32 (sl_ver s + 2) /\
  sl_th (snd r) t = TIdle /\ (forall u, u <> t -> sl_th (snd r) u = sl_th s u).
Proof.
  intros t v s E EV L r. subst r. rewrite run_cons. cbn [sl_step]. rewrite E, L, Nat.eqb_refl.
  rewrite even_odd in EV. apply Bool.negb_true_iff in EV. rewrite EV. cbn [fst snd].
  rewrite run_cons. cbn [sl_step]. rewrite sput_eq. cbn [sl_ver sput]. rewrite Z.eqb_refl. cbn [fst snd].
  set (s1 := sput _ _ _).
  destruct (copy_alone (length v) t v (sl_ver s) s1 0) as (I1 & I2 & I3 & I4 & I5); auto.
  - apply sput_eq.
  - rewrite <- L, I1, I2, I3, I4. repeat split; auto. intros u Hu. rewrite I5 by auto. subst s1. rewrite sput_neq by auto. cbn.
    destruct (Nat.eqb_spec u t); congruence.
Qed.

Lemma read_alone : forall k t a s buf, sl_th s t = TLoad a buf -> (length buf + k = length (sl_val s))%nat ->
  buf = firstn (length buf) (sl_val s) ->
  fst (sl_run s (repeat (LStep t) (S k))) =
    repeat SNone k ++ [if Z.even a && (a =? sl_ver s) then SLoaded t (sl_val s) (sl_ver s) else SLoadFailed t].
Proof.
  induction k as [|k IH]; intros t a s buf E K P.
  - cbn [repeat]. rewrite run_cons. cbn [sl_step]. rewrite E.
    rewrite (proj2 (nth_error_None _ _)) by lia. cbn [sl_run fst app]. rewrite Nat.add_0_r in K. rewrite K, firstn_all in P. now subst.
  - change (repeat (LStep t) (S (S k))) with (LStep t :: repeat (LStep t) (S k)). rewrite run_cons. cbn [sl_step]. rewrite E.
    destruct (nth_error (sl_val s) (length buf)) as [b|] eqn:Eb; [|apply nth_error_None in Eb; lia]. cbn [fst].
    rewrite (IH t a _ (buf ++ [b])).
    + reflexivity.
    + apply sput_eq.
    + cbn [sput sl_val]. rewrite app_length. cbn [length]. lia.
    + cbn [sput sl_val]. rewrite app_length. cbn [length]. rewrite Nat.add_1_r.
      rewrite (firstn_nth _ _ _ Eb). now rewrite <- P.
Qed.
Lemma load_alone : forall t s, sl_th s t = TIdle -> Z.even (sl_ver s) = true ->
  fst (sl_run s (LBegin t :: repeat (LStep t) (S (length (sl_val s))))) =
    SNone :: repeat SNone (length (sl_val s)) ++ [SLoaded t (sl_val s) (sl_ver s)].
Proof.
  intros t s E EV. rewrite run_cons. cbn [sl_step]. rewrite E. cbn [fst].
  rewrite (read_alone (length (sl_val s)) t (sl_ver s) _ []); auto.
  - cbn [sput sl_ver sl_val]. now rewrite EV, Z.eqb_refl.
  - apply sput_eq.
Qed.

(** Many stores by thread 0. *)

Lemma stores_one : forall n t v w, stores (SNone :: SNone :: repeat SNone n ++ [SStored t v w]) = 1.
Proof.
  intros. change (SNone :: SNone :: repeat SNone n ++ [SStored t v w]) with (repeat SNone (S (S n)) ++ [SStored t v w]).
  rewrite stores_app. assert (E : forall m, stores (repeat SNone m) = 0) by (induction m; auto). rewrite E. reflexivity.
Qed.

Lemma many_stores : forall k t v s, sl_th s t = TIdle -> Z.even (sl_ver s) = true -> 0 <= sl_ver s < 2 ^ 32 ->
  length v = length (sl_val s) ->
  let r := sl_run s (many k (one_store t v)) in
  sl_val (snd r) = (match k with O => sl_val s | _ => v end) /\
  sl_ver (snd r) = u32 (sl_ver s + 2 * Z.of_nat k) /\ sl_th (snd r) t = TIdle /\
  (forall u, u <> t -> sl_th (snd r) u = sl_th s u) /\ stores (fst r) = Z.of_nat k /\
  (forall u, Forall (fun o => ~ ends_load u o) (fst r)).
Proof.
  induction k as [|k IH]; intros t v s E EV R L.
  - cbn. rewrite Z.add_0_r. repeat split; auto. u32s; lia.
  - cbn zeta. cbn [many]. rewrite run_app.
    destruct (store_alone t v s E EV L) as (I1 & I2 & I3 & I4 & I5). fold (one_store t v) in *.
    set (r1 := sl_run s (one_store t v)) in *.
    destruct (IH t v (snd r1)) as (J1 & J2 & J3 & J4 & J5 & J6); auto.
    + rewrite I3, even_u32, Z.even_add, EV. reflexivity.
    + rewrite I3. unfold u32, wrapu; rewrite q32; lia.
    + now rewrite I2.
    + cbn [fst snd]. split; [rewrite J1; destruct k; auto|].
      split; [rewrite J2, I3; unfold u32, wrapu; rewrite q32; lia|]. split; [auto|].
      split; [intros u Hu; rewrite J4, I5; auto|].
      split.
      * rewrite stores_app, J5, I1, stores_one. lia.
      * intros u. apply Forall_app. split; auto. rewrite I1.
        change (SNone :: SNone :: repeat SNone (length v) ++ [SStored t v (u32 (sl_ver s + 2))]) with (repeat SNone (S (S (length v))) ++ [SStored t v (u32 (sl_ver s + 2))]).
        apply Forall_app; split; [|constructor; [cbn; tauto|constructor]].
        apply Forall_forall. intros o Ho. apply repeat_spec in Ho. subst o; cbn; tauto.
Qed.

Lemma wrap_torn : forall k, Z.of_nat k = 2 ^ 31 ->
  let ls2 := LStep 1 :: many k (one_store 0 [1; 1]) ++ [LStep 1%nat] in
  exists o2 s2 s3,
  sl_run (sl_new [0; 0]) (LBegin 1 :: ls2) = (o2, s2) /\ Forall (fun o => ~ ends_load 1 o) o2 /\ stores o2 = 2 ^ 31 /\
  sl_step s2 (LStep 1) = Some (SLoaded 1 [0; 1] 0, s3).
Proof.
  intros k K ls2. subst ls2. rewrite run_cons. cbn [sl_step sl_new sl_th]. rewrite run_cons. cbn [sl_step]. rewrite sput_eq.
  cbn [sl_val sput sl_new nth_error length]. rewrite run_app.
  set (s1 := sput _ _ _).
  destruct (many_stores k 0 [1; 1] s1) as (J1 & J2 & J3 & J4 & J5 & J6); auto.
  { cbn. lia. }
  set (r := sl_run s1 (many k (one_store 0 [1; 1]))) in *.
  assert (T : sl_th (snd r) 1 = TLoad 0 [0]) by (rewrite J4 by lia; reflexivity).
  assert (V : sl_val (snd r) = [1; 1]) by (rewrite J1; destruct k; [cbn in K; lia|reflexivity]).
  assert (W : sl_ver (snd r) = 0) by (rewrite J2, K; reflexivity).
  assert (ST : sl_step (snd r) (LStep 1) = Some (SNone, sput (snd r) 1 (TLoad 0 [0; 1]))).
  { cbn [sl_step]. rewrite T, V. reflexivity. }
  rewrite run_cons, ST. cbn [sl_run fst snd app].
  eexists _, _, _. split; [reflexivity|]. split; [|split].
  - constructor; [cbn; tauto|]. constructor; [cbn; tauto|]. apply Forall_app. split; [apply J6|]. constructor; [cbn; tauto|constructor].
  - change (SNone :: SNone :: fst r ++ [SNone]) with ([SNone; SNone] ++ fst r ++ [SNone]). rewrite !stores_app, J5, K. reflexivity.
  - cbn [sl_step]. rewrite sput_eq. cbn [sl_val sput sl_ver]. rewrite V, W. reflexivity.
Qed.

Lemma reach_quiet : forall v0 ls outs s, permitted ls -> sl_run (sl_new v0) ls = (outs, s) -> quiet s ->
  Z.even (sl_ver s) = true /\ sl_val s = committed v0 outs /\ length (sl_val s) = length v0 /\ sl_ver s = u32 (2 * stores outs).
Proof.
  intros v0 ls outs s P R Q. destruct (permitted_allowed _ P) as (m & F).
  pose proof (run_inv ls _ m v0 [] _ (inv0 m v0) F) as I. rewrite R in I. cbn [fst snd app] in I.
  assert (E : Z.even (sl_ver s) = true).
  { rewrite even_odd. destruct (Z.odd (sl_ver s)) eqn:Eo; auto.
    destruct (i_odd _ _ _ _ _ I Eo) as (u & v' & a' & i' & Eu). exfalso; eapply Q; eauto. }
  repeat split; auto; try apply I; auto.
  pose proof (i_count _ _ _ _ _ I) as C. rewrite even_odd in E. apply Bool.negb_true_iff in E. rewrite E in C. cbn [Z.b2z] in C. now rewrite Z.add_0_r in C.
Qed.
Lemma one_holder : forall v0 ls outs s, permitted ls -> sl_run (sl_new v0) ls = (outs, s) ->
  forall t u v v' a a' i i', sl_th s t = TCopy v a i -> sl_th s u = TCopy v' a' i' -> t = u.
Proof.
  intros v0 ls outs s P R. destruct (permitted_allowed _ P) as (m & F).
  pose proof (run_inv ls _ m v0 [] _ (inv0 m v0) F) as I. rewrite R in I. apply I.
Qed.
