From Verif Require Import Base RateLimiter_model.

(** Non-decreasing list starting at or after [lo]. *)
Fixpoint sorted_from (lo : Z) (ts : list Z) : Prop :=
  match ts with [] => True | t :: ts' => lo <= t /\ sorted_from t ts' end.

(** Specification: time is cut into cells of [p] starting at the first call
    [t0]; a call is let through iff no earlier call was let through in its cell. *)
Fixpoint cells (p t0 : Z) (last : option Z) (ts : list Z) : list bool :=
  match ts with
  | [] => []
  | t :: ts' =>
      let c := (t - t0) / p in
      let ok := match last with None => true | Some k => k <? c end in
      ok :: cells p t0 (if ok then Some c else last) ts'
  end.

Lemma mul_div_le p x : 0 < p -> (x / p) * p <= x < (x / p + 1) * p.
Proof. intros. pose proof (Z.div_mod x p). pose proof (Z.mod_pos_bound x p). nia. Qed.

Lemma lt_cell p k x : 0 < p -> ((k + 1) * p <=? x) = (k <? x / p).
Proof.
  intros Hp. pose proof (mul_div_le p x Hp).
  destruct (Z.ltb_spec k (x / p)); [apply Z.leb_le|apply Z.leb_gt]; nia.
Qed.

Definition rinv (p t0 : Z) (s : rl) (last : option Z) : Prop :=
  rl_period s = p /\ rl_start s = Some t0 /\
  match last with None => rl_pos s = 0 | Some k => rl_pos s = (k + 1) * p /\ 0 <= k end.

Lemma rl_run_spec p t0 : 0 < p -> forall ts s last lo, rinv p t0 s last -> t0 <= lo -> sorted_from lo ts ->
  (forall t, In t ts -> t - t0 + p < 18446744073709551616) ->
  rl_run s ts = cells p t0 last ts.
Proof.
  intros Hp. induction ts as [|t ts IH]; intros s last lo (P & S & Q) Hlo Hs Hb; [reflexivity|].
  cbn [sorted_from] in Hs. destruct Hs as [Hs1 Hs2].
  cbn [rl_run cells]. unfold rl_allow, rl_elapsed. rewrite S, P.
  assert (Hpos : 0 <= t - t0) by lia.
  assert (Hb' : t - t0 + p < 18446744073709551616) by (apply Hb; cbn; auto).
  assert (Hc : 0 <= (t - t0) / p) by (apply Z.div_pos; lia).
  assert (E : (rl_pos s <=? t - t0) = match last with None => true | Some k => k <? (t - t0) / p end).
  { destruct last as [k|]; [destruct Q as [-> _]; apply lt_cell; auto|rewrite Q; lia]. }
  rewrite E. destruct (match last with None => true | Some k => k <? (t - t0) / p end) eqn:E2.
  - f_equal. apply (IH _ _ t).
    + repeat split; cbn; auto.
      pose proof (mul_div_le p (t - t0) Hp).
      unfold u64, wrapu. change (2 ^ 64) with 18446744073709551616.
      assert (0 <= (t - t0) / p + 1 < 18446744073709551616).
      { split; [lia|]. assert ((t - t0) / p * p >= (t - t0) / p * 1) by nia. nia. }
      rewrite (Z.mod_small ((t - t0) / p + 1)) by lia. apply Z.mod_small. nia.
    + lia.
    + exact Hs2.
    + intros x Hx; apply Hb; cbn; auto.
  - f_equal. apply (IH _ _ t); [repeat split; auto|lia|exact Hs2|intros x Hx; apply Hb; cbn; auto].
Qed.

Lemma rl_new_spec p t ts s : rl_new p = Ok s -> sorted_from t ts ->
  (forall x, In x (t :: ts) -> x - t + p < 18446744073709551616) ->
  rl_run s (t :: ts) = cells p t None (t :: ts).
Proof.
  unfold rl_new. destruct (p <=? 0) eqn:Ep; [discriminate|]. intros [= <-] Hs Hb.
  assert (Hp : 0 < p) by lia.
  cbn [rl_run cells]. unfold rl_allow, rl_elapsed. cbn [rl_start rl_pos rl_period].
  cbn [Z.leb Z.compare]. rewrite Z.sub_diag, Z.div_0_l by lia.
  f_equal. apply (rl_run_spec p t Hp _ _ _ t); [|lia|exact Hs|intros x Hx; apply Hb; cbn; auto].
  assert (Hb' : t - t + p < 18446744073709551616) by (apply Hb; cbn; auto).
  assert (E : u64 (u64 (0 + 1) * p) = (0 + 1) * p).
  { unfold u64, wrapu. change (2 ^ 64) with 18446744073709551616.
    rewrite (Z.mod_small (0 + 1)) by lia. apply Z.mod_small. lia. }
  split; [reflexivity|]. split; [reflexivity|]. cbn [rl_pos]. split; [exact E|lia].
Qed.

(** Consequences of the cell specification. *)
Definition allowed (bs : list bool) (ts : list Z) : list Z := map snd (filter fst (combine bs ts)).

Lemma cells_last_le p t0 : 0 < p -> forall ts last t i,
  nth_error (cells p t0 last ts) i = Some true -> nth_error ts i = Some t ->
  forall k, last = Some k -> k < (t - t0) / p.
Proof.
  intros Hp. induction ts as [|x ts IH]; intros last t i H1 H2 k ->; destruct i; cbn in *; try discriminate.
  - injection H1 as H1. injection H2 as <-. lia.
  - destruct (k <? (x - t0) / p) eqn:E.
    + assert ((x - t0) / p < (t - t0) / p) by (eapply IH; eauto). lia.
    + eapply IH; eauto.
Qed.

(** Two calls let through are in different cells. *)
Lemma cells_distinct p t0 : 0 < p -> forall ts last i j t u, (i < j)%nat ->
  nth_error (cells p t0 last ts) i = Some true -> nth_error ts i = Some t ->
  nth_error (cells p t0 last ts) j = Some true -> nth_error ts j = Some u ->
  (t - t0) / p < (u - t0) / p.
Proof.
  intros Hp. induction ts as [|x ts IH]; intros last i j t u Hij H1 H2 H3 H4; [destruct i; discriminate|].
  destruct j as [|j]; [lia|]. cbn [cells] in *. destruct i as [|i]; cbn in *.
  - injection H1 as E. injection H2 as <-.
    rewrite E in H3. eapply cells_last_le; eauto.
  - eapply (IH _ i j); eauto. lia.
Qed.

(** Among the calls up to the i-th, some call was let through that is less than
    one period older. *)
Lemma cells_recent p t0 : 0 < p -> forall ts last i u lo, sorted_from lo ts -> t0 <= lo ->
  nth_error ts i = Some u ->
  (exists j t, (j <= i)%nat /\ nth_error (cells p t0 last ts) j = Some true /\ nth_error ts j = Some t /\ u - t < p) \/
  (exists k, last = Some k /\ (u - t0) / p <= k).
Proof.
  intros Hp. induction ts as [|x ts IH]; intros last i u lo Hs Hlo Hi; [destruct i; discriminate|].
  cbn [sorted_from] in Hs. destruct Hs as [Hs1 Hs2].
  cbn [cells].
  set (ok := match last with None => true | Some k => k <? (x - t0) / p end).
  destruct i as [|i]; cbn in Hi.
  - injection Hi as <-. destruct ok eqn:Eo.
    + left. exists 0%nat, x. repeat split; auto; lia.
    + right. unfold ok in Eo. destruct last as [k|]; [|discriminate]. exists k. split; [auto|lia].
  - destruct (IH (if ok then Some ((x - t0) / p) else last) i u x Hs2 ltac:(lia) Hi) as
      [(j & t & Hj & H1 & H2 & H3)|(k & E & Hk)].
    + left. exists (S j), t. repeat split; auto; lia.
    + destruct ok eqn:Eo.
      * injection E as <-. left. exists 0%nat, x. split; [lia|]. split; [reflexivity|]. split; [reflexivity|].
        assert (x <= u).
        { clear -Hs2 Hi. revert x i Hs2 Hi. induction ts as [|y ts IH]; intros x i Hs Hi; [destruct i; discriminate|].
          cbn in Hs. destruct Hs, i; cbn in Hi; [injection Hi as <-; lia|]. assert (y <= u) by (eapply IH; eauto). lia. }
        assert ((x - t0) / p <= (u - t0) / p) by (apply Z.div_le_mono; lia).
        pose proof (mul_div_le p (x - t0) Hp). pose proof (mul_div_le p (u - t0) Hp). nia.
      * right. exists k. auto.
Qed.
