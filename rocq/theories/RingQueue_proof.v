From Verif Require Import Base Base_lemmas RingQueue_model RingQueue_spec.
Open Scope res_scope.

Lemma mod_wrap a n : (a < 2 * n)%nat -> (a mod n = if a <? n then a else a - n)%nat.
Proof.
  intros H. destruct (Nat.ltb_spec a n); [apply Nat.mod_small; assumption|].
  replace a with ((a - n) + 1 * n)%nat at 1 by lia. rewrite Nat.mod_add by lia. apply Nat.mod_small. lia.
Qed.
Ltac modw := repeat (rewrite mod_wrap by lia); repeat match goal with |- context [(?a <? ?b)%nat] => destruct (Nat.ltb_spec a b) end.

Section P.
Context {A : Type}.
Variable triv : bool.

Record rinv (n : nat) (q : rq A) (l : list A) : Prop := mkRi {
  ri_cap : length (rq_buf q) = n;
  ri_len : (length l < n)%nat;
  ri_begin : (rq_begin q < n)%nat;
  ri_end : rq_end q = ((rq_begin q + length l) mod n)%nat;
  ri_cont : forall i x, nth_error l i = Some x -> nth_error (rq_buf q) ((rq_begin q + i) mod n) = Some (Some x) }.

Lemma rinv_lt n q l i x : rinv n q l -> nth_error l i = Some x -> (i < length l)%nat.
Proof. intros _ H. apply nth_error_Some. congruence. Qed.

Lemma rinv_size n q l : rinv n q l -> rq_size q = length l.
Proof.
  intros [C L B E _]. unfold rq_size, rq_cap. rewrite C, E. rewrite (mod_wrap (rq_begin q + length l)) by lia.
  destruct (Nat.ltb_spec (rq_begin q + length l) n); modw; lia.
Qed.
Lemma rinv_empty n q l : rinv n q l -> rq_empty q = (length l =? 0)%nat.
Proof.
  intros [C L B E _]. unfold rq_empty. rewrite E, mod_wrap by lia.
  destruct (Nat.ltb_spec (rq_begin q + length l) n), (Nat.eqb_spec (length l) 0); apply Nat.eqb_eq || apply Nat.eqb_neq; lia.
Qed.
Lemma rinv_full n q l : rinv n q l -> rq_full q = false.
Proof. intros I. unfold rq_full. rewrite (rinv_size n q l I). destruct I. unfold rq_cap. apply Nat.eqb_neq. lia. Qed.

Lemma rinv_front n q x l : rinv n q (x :: l) -> rq_front q = Ok x.
Proof.
  intros I. unfold rq_front. rewrite (rinv_empty _ _ _ I). cbn [length Nat.eqb]. destruct I as [C L B E N]. specialize (N 0%nat x eq_refl).
  rewrite Nat.add_0_r, Nat.mod_small in N by exact B. unfold rq_get, rd. rewrite N. reflexivity.
Qed.
Lemma rinv_back n q x l : rinv n q (l ++ [x]) -> rq_back q = Ok x.
Proof.
  intros I. unfold rq_back. rewrite (rinv_empty _ _ _ I). rewrite app_length. cbn [length]. replace (length l + 1 =? 0)%nat with false by (symmetry; apply Nat.eqb_neq; lia).
  destruct I as [C L B E N]. specialize (N (length l) x). rewrite nth_error_app2, Nat.sub_diag in N by lia. specialize (N eq_refl).
  rewrite app_length in *. cbn [length] in *. unfold rq_get, rd, rq_cap. rewrite C, E.
  replace (((rq_begin q + (length l + 1)) mod n + n - 1) mod n)%nat with ((rq_begin q + length l) mod n)%nat.
  - rewrite N. reflexivity.
  - rewrite (mod_wrap (rq_begin q + length l)), (mod_wrap (rq_begin q + (length l + 1))) by lia.
    destruct (Nat.ltb_spec (rq_begin q + (length l + 1)) n); modw; lia.
Qed.

Lemma rinv_push_back n q l x : rinv n q l -> (length l + 1 < n)%nat ->
  exists q', rq_push_back q x = Ok q' /\ rinv n q' (l ++ [x]).
Proof.
  intros I Hl. unfold rq_push_back. rewrite (rinv_full _ _ _ I). destruct I as [C L B E N].
  assert (El : (rq_end q < n)%nat) by (rewrite E; apply Nat.mod_upper_bound; lia).
  unfold wr. rewrite C. replace (rq_end q <? n)%nat with true by (symmetry; apply Nat.ltb_lt; exact El). cbn [bind].
  eexists. split; [reflexivity|]. constructor; cbn [rq_buf rq_begin rq_end].
  - rewrite length_upd. exact C.
  - rewrite app_length. cbn. lia.
  - exact B.
  - unfold rq_cap. rewrite C, app_length. cbn [length]. rewrite E, (mod_wrap (rq_begin q + length l)) by lia.
    destruct (Nat.ltb_spec (rq_begin q + length l) n); modw; lia.
  - intros i y Hi. destruct (Nat.lt_ge_cases i (length l)) as [Hlt|Hge].
    + rewrite nth_error_app1 in Hi by exact Hlt. rewrite nth_error_upd_neq; [apply N, Hi|].
      rewrite E, !mod_wrap by lia. destruct (Nat.ltb_spec (rq_begin q + length l) n), (Nat.ltb_spec (rq_begin q + i) n); lia.
    + rewrite nth_error_app2 in Hi by exact Hge. destruct (i - length l)%nat as [|j] eqn:Ei; [|destruct j; discriminate].
      cbn in Hi. replace i with (length l) by lia. rewrite <- E. rewrite nth_error_upd_eq by lia. congruence.
Qed.

Lemma rinv_push_front n q l x : rinv n q l -> (length l + 1 < n)%nat ->
  exists q', rq_push_front q x = Ok q' /\ rinv n q' (x :: l).
Proof.
  intros I Hl. unfold rq_push_front. rewrite (rinv_full _ _ _ I). destruct I as [C L B E N]. unfold rq_cap. rewrite C.
  set (b := ((rq_begin q + n - 1) mod n)%nat).
  assert (Eb : b = if (rq_begin q =? 0)%nat then (n - 1)%nat else (rq_begin q - 1)%nat).
  { unfold b. destruct (Nat.eqb_spec (rq_begin q) 0); modw; lia. }
  assert (Bl : (b < n)%nat) by (rewrite Eb; destruct (rq_begin q =? 0)%nat; lia).
  unfold wr. rewrite C. replace (b <? n)%nat with true by (symmetry; apply Nat.ltb_lt; exact Bl). cbn [bind].
  eexists. split; [reflexivity|]. constructor; cbn [rq_buf rq_begin rq_end length].
  - rewrite length_upd. exact C.
  - lia.
  - exact Bl.
  - rewrite E, Eb. destruct (Nat.eqb_spec (rq_begin q) 0); modw; lia.
  - intros i y Hi. destruct i as [|i]; cbn in Hi.
    + rewrite Nat.add_0_r, Nat.mod_small, nth_error_upd_eq by lia. congruence.
    + assert (i < length l)%nat by (apply nth_error_Some; congruence).
      replace ((b + S i) mod n)%nat with ((rq_begin q + i) mod n)%nat.
      * rewrite nth_error_upd_neq; [apply N, Hi|]. rewrite Eb. destruct (Nat.eqb_spec (rq_begin q) 0); modw; lia.
      * rewrite Eb. destruct (Nat.eqb_spec (rq_begin q) 0); modw; lia.
Qed.

Lemma rinv_pop_front n q l x : rinv n q (x :: l) -> exists q', rq_pop_front triv q = Ok q' /\ rinv n q' l.
Proof.
  intros I. unfold rq_pop_front. rewrite (rinv_empty _ _ _ I). cbn [length Nat.eqb]. destruct I as [C L B E N]. cbn [length] in *.
  pose proof (N 0%nat x eq_refl) as N0. rewrite Nat.add_0_r, Nat.mod_small in N0 by exact B.
  unfold rq_destroy, rd. rewrite N0. cbn [bind].
  assert (G : forall buf, length buf = n -> (forall j, j <> rq_begin q -> nth_error buf j = nth_error (rq_buf q) j) ->
    rinv n (mkRq buf ((rq_begin q + 1) mod n) (rq_end q)) l).
  { intros buf Cb Hb. constructor; cbn [rq_buf rq_begin rq_end].
    - exact Cb.
    - lia.
    - apply Nat.mod_upper_bound. lia.
    - rewrite E. rewrite (mod_wrap (rq_begin q + 1)) by lia. destruct (Nat.ltb_spec (rq_begin q + 1) n); modw; lia.
    - intros i y Hi. assert (i < length l)%nat by (apply nth_error_Some; congruence).
      assert (Ep : (((rq_begin q + 1) mod n + i) mod n)%nat = ((rq_begin q + S i) mod n)%nat).
      { rewrite (mod_wrap (rq_begin q + 1)) by lia. destruct (Nat.ltb_spec (rq_begin q + 1) n); modw; lia. }
      rewrite Ep. rewrite Hb; [apply N; exact Hi|]. modw; lia. }
  destruct triv; cbn [bind]; eexists; (split; [reflexivity|]); unfold rq_cap; rewrite ?C.
  - apply G; [exact C|reflexivity].
  - apply G; [rewrite length_upd; exact C|]. intros j Hj. apply nth_error_upd_neq. congruence.
Qed.

Lemma rinv_pop_back n q l x : triv = true -> rinv n q (l ++ [x]) -> exists q', rq_pop_back triv q = Ok q' /\ rinv n q' l.
Proof.
  intros -> I. unfold rq_pop_back. rewrite (rinv_empty _ _ _ I). rewrite app_length. cbn [length].
  replace (length l + 1 =? 0)%nat with false by (symmetry; apply Nat.eqb_neq; lia).
  destruct I as [C L B E N]. rewrite app_length in *. cbn [length] in *.
  assert (El : (rq_end q < n)%nat) by (rewrite E; apply Nat.mod_upper_bound; lia).
  unfold rq_destroy. destruct (rd_ok (rq_buf q) (rq_end q)) as (o & ->); [lia|]. cbn [bind].
  eexists. split; [reflexivity|]. constructor; cbn [rq_buf rq_begin rq_end].
  - exact C.
  - lia.
  - exact B.
  - unfold rq_cap. rewrite C, E. rewrite (mod_wrap (rq_begin q + (length l + 1))) by lia.
    destruct (Nat.ltb_spec (rq_begin q + (length l + 1)) n); modw; lia.
  - intros i y Hi. apply N. rewrite nth_error_app1; [exact Hi|]. apply nth_error_Some. congruence.
Qed.

Definition no_pop_back (ops : list (rq_op A)) : Prop := ~ In RPopBack ops.

Lemma rq_run_sound n : forall ops q l, rinv n q l -> within (n - 1) l ops -> (triv = true \/ no_pop_back ops) ->
  match dq_run l ops with
  | Some l' => exists q', rq_run triv q ops = Ok q' /\ rinv n q' l'
  | None => rq_run triv q ops = Panic
  end.
Proof.
  induction ops as [|o ops IH]; intros q l I W T; [exists q; auto|].
  cbn [dq_run rq_run within] in *. destruct W as [W0 W].
  assert (T' : triv = true \/ no_pop_back ops) by (destruct T as [T|T]; [left; exact T|right; intros H; apply T; right; exact H]).
  destruct o as [x|x| |]; cbn [dq_step rq_step] in *.
  - assert (length (x :: l) <= n - 1)%nat by (destruct ops; cbn [within] in W; tauto). cbn [length] in *.
    destruct (rinv_push_front n q l x I) as (q' & -> & I'); [lia|]. cbn [bind]. apply IH; assumption.
  - assert (length (l ++ [x]) <= n - 1)%nat by (destruct ops; cbn [within] in W; tauto). rewrite app_length in *. cbn [length] in *.
    destruct (rinv_push_back n q l x I) as (q' & -> & I'); [lia|]. cbn [bind]. apply IH; assumption.
  - destruct l as [|x l].
    + unfold rq_pop_front. rewrite (rinv_empty _ _ _ I). reflexivity.
    + destruct (rinv_pop_front n q l x I) as (q' & -> & I'). cbn [bind]. apply IH; assumption.
  - destruct T as [T|T]; [|exfalso; apply T; left; reflexivity]. destruct l as [|x l].
    + unfold rq_pop_back. rewrite (rinv_empty _ _ _ I). reflexivity.
    + destruct (exists_last (l := x :: l)) as (l0 & y & El); [discriminate|]. rewrite El in *. rewrite removelast_last in *.
      destruct (rinv_pop_back n q l0 y T I) as (q' & -> & I'). cbn [bind]. apply IH; assumption.
Qed.

Lemma rinv_new n : (0 < n)%nat -> exists q, rq_new n = Ok q /\ rinv n q ([] : list A).
Proof.
  intros H. unfold rq_new. replace (n =? 0)%nat with false by (symmetry; apply Nat.eqb_neq; lia). eexists. split; [reflexivity|].
  constructor; cbn; [apply repeat_length|lia|lia|rewrite Nat.mod_0_l; lia|intros [|i]; discriminate].
Qed.
End P.
