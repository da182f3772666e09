(* Proofs about the session router. *)
From Coq Require Import ZArith List Bool Lia.
From Verif Require Import Base Base_lemmas SessRouter_model SessRouter_spec.
Import ListNotations.
Local Open Scope Z_scope.

Ltac splits := repeat match goal with |- _ /\ _ => split end.

(* ---- keys ---- *)

Lemma keyz_eq x y : keyz x y = true <-> x = y.
Proof.
  destruct x, y; cbn; try rewrite Z.eqb_eq; split; intro H; try congruence; auto.
Qed.

Lemma keyn_eq x y : keyn x y = true <-> x = y.
Proof.
  destruct x, y; cbn; try rewrite Nat.eqb_eq; split; intro H; try congruence; auto.
Qed.

Lemma keys_eq x y : keys x y = true <-> x = y.
Proof.
  revert y. induction x; destruct y; cbn; split; intro H; try congruence; auto.
  - apply andb_true_iff in H. destruct H as [H1 H2]. apply Z.eqb_eq in H1.
    apply IHx in H2. congruence.
  - inversion H; subst. rewrite Z.eqb_refl. apply IHx. reflexivity.
Qed.

Lemma keyn_reflx x : keyn x x = true. Proof. apply keyn_eq; auto. Qed.
Lemma keys_reflx x : keys x x = true. Proof. apply keys_eq; auto. Qed.
Lemma keyz_reflx x : keyz x x = true. Proof. apply keyz_eq; auto. Qed.

(* ---- the invariant ---- *)

Definition wf (r : route) : Prop :=
  r_an r = match r_addr r with None => None | Some a => Some (Some a) end /\
  r_cn r = match r_cname r with [] => None | c => Some c end /\
  r_sn r = match r_sess r with None => None | Some x => Some (Some x) end /\
  NoDup (r_srcs r) /\
  (r_cname r = [] -> r_srcs r <> [] ->
   exists s x a, r_srcs r = [s] /\ r_main r = Some s /\ r_sess r = Some x /\
                 r_addr r = Some a) /\
  (r_addr r <> None -> r_sess r <> None).

(* Two routes share a key. *)
Definition clash (r q : route) : Prop :=
  (exists s, In s (r_srcs r) /\ In s (r_srcs q)) \/
  (r_addr r <> None /\ r_addr r = r_addr q) \/
  (r_cname r <> [] /\ r_cname r = r_cname q) \/
  (r_sess r <> None /\ r_sess r = r_sess q).

Record inv (st : rstate) : Prop := {
  i_ids : NoDup (map r_id (st_routes st));
  i_next : forall r, In r (st_routes st) -> (r_id r < st_next st)%nat;
  i_wf : forall r, In r (st_routes st) -> wf r;
  i_uniq : forall r q, In r (st_routes st) -> In q (st_routes st) -> clash r q ->
           r_id r = r_id q
}.

Lemma id_eq rs r q :
  NoDup (map r_id rs) -> In r rs -> In q rs -> r_id r = r_id q -> r = q.
Proof.
  induction rs as [| a rs IH]; cbn; [tauto |].
  intros Hn H1 H2 E. apply NoDup_cons_iff in Hn. destruct Hn as [Ha Hn].
  destruct H1 as [-> | H1], H2 as [-> | H2]; auto.
  - exfalso. apply Ha. rewrite E. apply in_map. auto.
  - exfalso. apply Ha. rewrite <- E. apply in_map. auto.
Qed.

Lemma find_in {A} (p : A -> bool) l x : find p l = Some x -> In x l /\ p x = true.
Proof. apply find_some. Qed.

Lemma find_ex {A} (p : A -> bool) l x :
  In x l -> p x = true -> exists y, find p l = Some y.
Proof.
  intros Hi Hp. destruct (find p l) eqn:E; eauto.
  eapply find_none in E; eauto. congruence.
Qed.

Section Look.
Variable st : rstate.
Variable I : inv st.
Notation rs := (st_routes st).

Lemma same r q : In r rs -> In q rs -> r_id r = r_id q -> r = q.
Proof. apply id_eq. apply I. Qed.

Lemma by_id_iff i r : by_id rs i = Some r <-> In r rs /\ r_id r = i.
Proof.
  split.
  - intro H. apply find_in in H. destruct H as [H1 H2]. apply Nat.eqb_eq in H2. auto.
  - intros [H1 H2]. destruct (find_ex (fun r => Nat.eqb i (r_id r)) rs r) as [y Hy]; auto.
    + apply Nat.eqb_eq. auto.
    + unfold by_id. rewrite Hy. f_equal. apply find_in in Hy. destruct Hy as [H3 H4].
      apply Nat.eqb_eq in H4. apply same; congruence || auto.
Qed.

Lemma existsb_in s l : existsb (Z.eqb s) l = true <-> In s l.
Proof.
  rewrite existsb_exists. split.
  - intros [x [H1 H2]]. apply Z.eqb_eq in H2. subst. auto.
  - intro H. exists s. split; auto. apply Z.eqb_refl.
Qed.

Lemma by_src_iff s r : by_src rs s = Some r <-> In r rs /\ In s (r_srcs r).
Proof.
  split.
  - intro H. apply find_in in H. destruct H as [H1 H2]. apply existsb_in in H2. auto.
  - intros [H1 H2].
    destruct (find_ex (fun r => existsb (Z.eqb s) (r_srcs r)) rs r) as [y Hy]; auto.
    + apply existsb_in. auto.
    + unfold by_src. rewrite Hy. f_equal. apply find_in in Hy. destruct Hy as [H3 H4].
      apply existsb_in in H4. apply same; auto. apply I; auto. left. eauto.
Qed.

Lemma by_addr_iff a r : by_addr rs (Some a) = Some r <-> In r rs /\ r_addr r = Some a.
Proof.
  assert (W : forall q, In q rs ->
    (match r_an q with Some k => keyz (Some a) k | None => false end = true <->
     r_addr q = Some a)).
  { intros q Hq. destruct (i_wf _ I q Hq) as [E _]. rewrite E.
    destruct (r_addr q); [rewrite keyz_eq |]; split; congruence. }
  split.
  - intro H. apply find_in in H. destruct H as [H1 H2]. apply W in H2; auto.
  - intros [H1 H2].
    destruct (find_ex (fun r => match r_an r with Some k => keyz (Some a) k
                                | None => false end) rs r) as [y Hy]; auto.
    + apply W; auto.
    + unfold by_addr. rewrite Hy. f_equal. apply find_in in Hy. destruct Hy as [H3 H4].
      apply W in H4; auto. apply same; auto. apply I; auto. right; left.
      split; congruence.
Qed.

Lemma by_cname_iff c r :
  by_cname rs c = Some r <-> In r rs /\ r_cname r = c /\ c <> [].
Proof.
  assert (W : forall q, In q rs ->
    (match r_cn q with Some k => keys c k | None => false end = true <->
     r_cname q = c /\ c <> [])).
  { intros q Hq. destruct (i_wf _ I q Hq) as [_ [E _]]. rewrite E.
    destruct (r_cname q); [| rewrite keys_eq]; split; try congruence.
    - intros [H1 H2]. congruence.
    - intros ->. split; congruence.
    - intros [H1 H2]. congruence. }
  split.
  - intro H. apply find_in in H. destruct H as [H1 H2]. apply W in H2; auto.
  - intros [H1 H2].
    destruct (find_ex (fun r => match r_cn r with Some k => keys c k
                                | None => false end) rs r) as [y Hy]; auto.
    + apply W; auto.
    + unfold by_cname. rewrite Hy. f_equal. apply find_in in Hy. destruct Hy as [H3 H4].
      apply W in H4; auto. apply same; auto. apply I; auto. right; right; left.
      destruct H2, H4. split; congruence.
Qed.

Lemma by_sess_iff x r : by_sess rs (Some x) = Some r <-> In r rs /\ r_sess r = Some x.
Proof.
  assert (W : forall q, In q rs ->
    (match r_sn q with Some k => keyn (Some x) k | None => false end = true <->
     r_sess q = Some x)).
  { intros q Hq. destruct (i_wf _ I q Hq) as [_ [_ [E _]]]. rewrite E.
    destruct (r_sess q); [rewrite keyn_eq |]; split; congruence. }
  split.
  - intro H. apply find_in in H. destruct H as [H1 H2]. apply W in H2; auto.
  - intros [H1 H2].
    destruct (find_ex (fun r => match r_sn r with Some k => keyn (Some x) k
                                | None => false end) rs r) as [y Hy]; auto.
    + apply W; auto.
    + unfold by_sess. rewrite Hy. f_equal. apply find_in in Hy. destruct Hy as [H3 H4].
      apply W in H4; auto. apply same; auto. apply I; auto. right; right; right.
      split; congruence.
Qed.

Lemma by_src_none s : by_src rs s = None <-> forall r, In r rs -> ~ In s (r_srcs r).
Proof.
  split.
  - intros H r Hr Hs. assert (by_src rs s = Some r) by (apply by_src_iff; auto). congruence.
  - intro H. destruct (by_src rs s) eqn:E; auto. apply by_src_iff in E. exfalso.
    eapply H; apply E.
Qed.

Lemma by_addr_none a : by_addr rs (Some a) = None <-> forall r, In r rs -> r_addr r <> Some a.
Proof.
  split.
  - intros H r Hr Hs. assert (by_addr rs (Some a) = Some r) by (apply by_addr_iff; auto).
    congruence.
  - intro H. destruct (by_addr rs (Some a)) eqn:E; auto. apply by_addr_iff in E. exfalso.
    eapply H; apply E.
Qed.

Lemma by_cname_none c :
  c <> [] -> by_cname rs c = None <-> forall r, In r rs -> r_cname r <> c.
Proof.
  intro Hc. split.
  - intros H r Hr Hs. assert (by_cname rs c = Some r) by (apply by_cname_iff; auto).
    congruence.
  - intro H. destruct (by_cname rs c) eqn:E; auto. apply by_cname_iff in E. exfalso.
    eapply H; apply E.
Qed.

Lemma by_sess_none x : by_sess rs (Some x) = None <-> forall r, In r rs -> r_sess r <> Some x.
Proof.
  split.
  - intros H r Hr Hs. assert (by_sess rs (Some x) = Some r) by (apply by_sess_iff; auto).
    congruence.
  - intro H. destruct (by_sess rs (Some x)) eqn:E; auto. apply by_sess_iff in E. exfalso.
    eapply H; apply E.
Qed.

End Look.

(* ---- lists of routes ---- *)

Definition keeps (f : route -> route) : Prop := forall r, r_id (f r) = r_id r.

Lemma in_on rs i f q :
  In q (on rs i f) <-> exists r, In r rs /\ q = if Nat.eqb i (r_id r) then f r else r.
Proof.
  unfold on. rewrite in_map_iff. split; intros [r [H1 H2]]; exists r; auto.
Qed.

Lemma ids_on rs i f : keeps f -> map r_id (on rs i f) = map r_id rs.
Proof.
  intro K. unfold on. rewrite map_map. apply map_ext. intro r.
  destruct (Nat.eqb i (r_id r)); auto.
Qed.

Lemma on_on rs i f g : keeps f -> on (on rs i f) i g = on rs i (fun r => g (f r)).
Proof.
  intro K. unfold on. rewrite map_map. apply map_ext. intro r.
  destruct (Nat.eqb i (r_id r)) eqn:E; [rewrite K, E | rewrite E]; auto.
Qed.

Lemma on_ext rs i f g : (forall r, In r rs -> r_id r = i -> f r = g r) -> on rs i f = on rs i g.
Proof.
  intro H. apply map_ext_in. intros r Hr. destruct (Nat.eqb i (r_id r)) eqn:E; auto.
  apply H; auto. apply Nat.eqb_eq in E. auto.
Qed.

Lemma on_comm rs i j f g :
  i <> j -> keeps f -> keeps g -> on (on rs i f) j g = on (on rs j g) i f.
Proof.
  intros N Kf Kg. unfold on. rewrite !map_map. apply map_ext. intro r.
  destruct (Nat.eqb i (r_id r)) eqn:Ei, (Nat.eqb j (r_id r)) eqn:Ej;
    rewrite ?Kf, ?Kg, ?Ei, ?Ej; auto.
  apply Nat.eqb_eq in Ei, Ej. congruence.
Qed.

Lemma on_fresh rs i f : (forall r, In r rs -> r_id r <> i) -> on rs i f = rs.
Proof.
  intro H. unfold on. rewrite <- (map_id rs) at 2. apply map_ext_in. intros r Hr.
  destruct (Nat.eqb i (r_id r)) eqn:E; auto. apply Nat.eqb_eq in E. exfalso.
  eapply H; eauto.
Qed.

Lemma on_app rs qs i f : on (rs ++ qs) i f = on rs i f ++ on qs i f.
Proof. apply map_app. Qed.

Lemma on_snoc rs p f :
  (forall r, In r rs -> r_id r <> r_id p) -> on (rs ++ [p]) (r_id p) f = rs ++ [f p].
Proof.
  intro H. rewrite on_app, on_fresh; auto. cbn. rewrite Nat.eqb_refl. auto.
Qed.

Definition others (i : nat) (rs : list route) : list route :=
  filter (fun r => negb (Nat.eqb i (r_id r))) rs.

Lemma in_others i rs r : In r (others i rs) <-> In r rs /\ r_id r <> i.
Proof.
  unfold others. rewrite filter_In, negb_true_iff, Nat.eqb_neq. split; intros [? ?]; split; auto.
Qed.

Lemma others_snoc rs p :
  (forall r, In r rs -> r_id r <> r_id p) -> others (r_id p) (rs ++ [p]) = rs.
Proof.
  intro H. unfold others. rewrite filter_app. cbn. rewrite Nat.eqb_refl. cbn.
  rewrite app_nil_r. rewrite <- (app_nil_r rs) at 2.
  induction rs as [| a rs IH]; cbn; auto.
  destruct (Nat.eqb (r_id p) (r_id a)) eqn:E; cbn.
  - apply Nat.eqb_eq in E. exfalso. eapply H; [left; reflexivity | auto].
  - f_equal. apply IH. intros; apply H; right; auto.
Qed.

Lemma nodup_others i rs : NoDup (map r_id rs) -> NoDup (map r_id (others i rs)).
Proof.
  induction rs as [| a rs IH]; cbn; auto. intro H. apply NoDup_cons_iff in H.
  destruct H as [H1 H2]. destruct (Nat.eqb i (r_id a)); cbn; auto.
  constructor; auto. intro X. apply H1. apply in_map_iff in X. destruct X as [q [E X]].
  apply in_others in X. rewrite <- E. apply in_map. tauto.
Qed.

(* ---- how the invariant survives ---- *)

Lemma inv_oom st l : inv st -> inv (mkSt (st_routes st) (st_next st) l).
Proof. intros [A B C D]. split; auto. Qed.

Lemma inv_on st i f :
  inv st -> keeps f ->
  (forall r, In r (st_routes st) -> r_id r = i -> wf (f r)) ->
  (forall r q, In r (st_routes st) -> In q (st_routes st) -> r_id r = i -> r_id q <> i ->
     clash (f r) q -> False) ->
  inv (modify st i f).
Proof.
  intros [A B C D] K W U. unfold modify, set_routes. split; cbn.
  - rewrite ids_on; auto.
  - intros r Hr. apply in_on in Hr. destruct Hr as [q [Hq ->]].
    destruct (Nat.eqb i (r_id q)); [rewrite K |]; auto.
  - intros r Hr. apply in_on in Hr. destruct Hr as [q [Hq ->]].
    destruct (Nat.eqb i (r_id q)) eqn:E; auto. apply Nat.eqb_eq in E. auto.
  - intros r q Hr Hq Hc. apply in_on in Hr, Hq.
    destruct Hr as [r' [Hr ->]], Hq as [q' [Hq ->]].
    assert (SY : forall a b, clash a b -> clash b a).
    { intros a b [[s [? ?]] | [[? ?] | [[? ?] | [? ?]]]].
      - left. eauto.
      - right; left. split; congruence.
      - right; right; left. split; congruence.
      - right; right; right. split; congruence. }
    destruct (Nat.eqb i (r_id r')) eqn:Er, (Nat.eqb i (r_id q')) eqn:Eq;
      rewrite ?K in *; rewrite ?Nat.eqb_eq, ?Nat.eqb_neq in *; try congruence; auto.
    + exfalso. apply (U r' q'); auto.
    + exfalso. apply (U q' r'); auto.
Qed.

Lemma inv_others st i : inv st -> inv (set_routes st (others i (st_routes st))).
Proof.
  intros [A B C D]. split; cbn.
  - apply nodup_others. auto.
  - intros r Hr. apply in_others in Hr. apply B. tauto.
  - intros r Hr. apply in_others in Hr. apply C. tauto.
  - intros r q Hr Hq. apply in_others in Hr, Hq. apply D; tauto.
Qed.

Lemma inv_snoc st p n :
  inv st -> r_id p = st_next st -> (st_next st < n)%nat -> wf p ->
  (forall q, In q (st_routes st) -> clash p q -> False) ->
  inv (mkSt (st_routes st ++ [p]) n (st_oom st)).
Proof.
  intros [A B C D] E Hn W U.
  assert (SY : forall a b, clash a b -> clash b a).
  { intros a b [[s [? ?]] | [[? ?] | [[? ?] | [? ?]]]].
    - left. eauto.
    - right; left. split; congruence.
    - right; right; left. split; congruence.
    - right; right; right. split; congruence. }
  split; cbn.
  - rewrite map_app. cbn. apply NoDup_app_remove_r with (l' := []) || idtac.
    rewrite <- (app_nil_r (map r_id (st_routes st) ++ [r_id p])).
    rewrite <- app_assoc. cbn. apply NoDup_Add with (a := r_id p) (l := map r_id (st_routes st)).
    + rewrite <- (app_nil_r (map r_id (st_routes st))) at 1. apply Add_app.
    + split; auto. intro X. apply in_map_iff in X. destruct X as [q [Eq Hq]].
      apply B in Hq. lia.
  - intros r Hr. apply in_app_iff in Hr. destruct Hr as [Hr | [<- | []]].
    + apply B in Hr. lia.
    + lia.
  - intros r Hr. apply in_app_iff in Hr. destruct Hr as [Hr | [<- | []]]; auto.
  - intros r q Hr Hq Hc. apply in_app_iff in Hr, Hq.
    destruct Hr as [Hr | [<- | []]], Hq as [Hq | [<- | []]]; auto.
    + exfalso. eapply U; [apply Hr |]. auto.
    + exfalso. eapply U; [apply Hq |]. auto.
Qed.

(* ---- executing the primitives ---- *)

Lemma alloc_cases st :
  exists (b : bool) l, alloc st = (b, mkSt (st_routes st) (st_next st) l).
Proof.
  unfold alloc. destruct (st_oom st) eqn:E.
  - exists true, []. rewrite <- E. destruct st; auto.
  - eauto.
Qed.

Lemma check_ok st :
  exists (b : bool) l, insert_check st false false = Ok (b, mkSt (st_routes st) (st_next st) l).
Proof.
  unfold insert_check. destruct (alloc_cases st) as [b [l E]]. rewrite E. cbn.
  destruct b; cbn; eauto.
Qed.

Lemma find_none_all {A} (p : A -> bool) l : find p l = None <-> forall x, In x l -> p x = false.
Proof.
  split; [intros H x Hx; eapply find_none; eauto |].
  induction l as [| a l IH]; cbn; auto. intro H.
  rewrite (H a) by auto. apply IH. auto.
Qed.

Lemma src_insert_ok st i s :
  by_src (st_routes st) s = None ->
  exists (b : bool) l, src_insert st i s =
    Ok (b, if b then mkSt (on (st_routes st) i (fun r => w_srcs (r_srcs r ++ [s]) r))
                          (st_next st) l
           else mkSt (st_routes st) (st_next st) l).
Proof.
  intro H. unfold src_insert. rewrite H. destruct (check_ok st) as [b [l E]].
  exists b, l. cbn [has negb is_none]. rewrite E. cbn. destruct b; reflexivity.
Qed.

Lemma addr_insert_ok st i r :
  by_id (st_routes st) i = Some r -> r_an r = None ->
  by_addr (st_routes st) (r_addr r) = None ->
  exists (b : bool) l, addr_insert st i =
    Ok (b, if b then mkSt (on (st_routes st) i (fun q => w_an (Some (r_addr r)) q))
                          (st_next st) l
           else mkSt (st_routes st) (st_next st) l).
Proof.
  intros H1 H2 H3. unfold addr_insert, deref. rewrite H1. cbn [bind]. rewrite H2, H3.
  destruct (check_ok st) as [b [l E]]. exists b, l. cbn [has negb is_none]. rewrite E. cbn.
  destruct b; reflexivity.
Qed.

Lemma cname_insert_ok st i r :
  by_id (st_routes st) i = Some r -> r_cn r = None ->
  by_cname (st_routes st) (r_cname r) = None ->
  exists (b : bool) l, cname_insert st i =
    Ok (b, if b then mkSt (on (st_routes st) i (fun q => w_cn (Some (r_cname r)) q))
                          (st_next st) l
           else mkSt (st_routes st) (st_next st) l).
Proof.
  intros H1 H2 H3. unfold cname_insert, deref. rewrite H1. cbn [bind]. rewrite H2, H3.
  destruct (check_ok st) as [b [l E]]. exists b, l. cbn [has negb is_none]. rewrite E. cbn.
  destruct b; reflexivity.
Qed.

Lemma sess_insert_ok st i r :
  by_id (st_routes st) i = Some r -> r_sn r = None ->
  by_sess (st_routes st) (r_sess r) = None ->
  exists (b : bool) l, sess_insert st i =
    Ok (b, if b then mkSt (on (st_routes st) i (fun q => w_sn (Some (r_sess r)) q))
                          (st_next st) l
           else mkSt (st_routes st) (st_next st) l).
Proof.
  intros H1 H2 H3. unfold sess_insert, deref. rewrite H1. cbn [bind]. rewrite H2, H3.
  destruct (check_ok st) as [b [l E]]. exists b, l. cbn [has negb is_none]. rewrite E. cbn.
  destruct b; reflexivity.
Qed.

Lemma remove_route_ok st i r :
  by_id (st_routes st) i = Some r ->
  remove_route st i = Ok (set_routes st (others i (st_routes st))).
Proof. intro H. unfold remove_route, deref. rewrite H. reflexivity. Qed.

Lemma by_id_snoc rs p :
  (forall r, In r rs -> r_id r <> r_id p) -> by_id (rs ++ [p]) (r_id p) = Some p.
Proof.
  intro H. unfold by_id. induction rs as [| a rs IH]; cbn.
  - rewrite Nat.eqb_refl. auto.
  - destruct (Nat.eqb (r_id p) (r_id a)) eqn:E.
    + apply Nat.eqb_eq in E. exfalso. eapply H; [left; reflexivity | auto].
    + apply IH. intros; apply H; right; auto.
Qed.

Lemma find_snoc_none {A} (f : A -> bool) l x :
  find f l = None -> f x = false -> find f (l ++ [x]) = None.
Proof.
  intros H1 H2. apply find_none_all. intros y Hy. apply in_app_iff in Hy.
  destruct Hy as [Hy | [<- | []]]; auto. eapply find_none in H1; eauto.
Qed.

(* The route that create_route_ makes. *)
Definition new_route (i : nat) (s : Z) (a : option Z) (c : option (list Z)) (x : option nat)
  : route :=
  mkRoute i x a (match c with Some c => c | None => [] end) (Some s) [s]
    (match a with Some a => Some (Some a) | None => None end) c
    (match x with Some x => Some (Some x) | None => None end).

Lemma create_ok st s a c x :
  inv st -> by_src (st_routes st) s = None ->
  (forall a', a = Some a' -> by_addr (st_routes st) a = None) ->
  (forall c', c = Some c' -> by_cname (st_routes st) c' = None) ->
  (forall x', x = Some x' -> by_sess (st_routes st) x = None) ->
  exists r st', create_route st s a c x = Ok (r, st') /\
    ((r = StOK /\ st_routes st' = st_routes st ++ [new_route (st_next st) s a c x] /\
      st_next st' = S (st_next st)) \/
     (r = StNoMem /\ st_routes st' = st_routes st /\ (st_next st <= st_next st')%nat)).
Proof.
  intros I Hs Ha Hc Hx. unfold create_route.
  destruct (alloc_cases st) as [b0 [l0 E0]]. rewrite E0. cbn [fst snd st_routes st_next st_oom].
  destruct b0; cbn [negb];
    [| do 2 eexists; split; [reflexivity | right; cbn; auto]].
  set (i := st_next st). set (rs := st_routes st) in *.
  assert (F : forall p, r_id p = i -> forall r, In r rs -> r_id r <> r_id p).
  { intros p -> r Hr. apply I in Hr. unfold i. lia. }
  assert (RM : forall p n l, r_id p = i ->
    remove_route (mkSt (rs ++ [p]) n l) i = Ok (mkSt rs n l)).
  { intros p n l Ep. rewrite (remove_route_ok _ _ p).
    - unfold set_routes. cbn [st_routes st_next st_oom]. rewrite <- Ep at 1.
      rewrite others_snoc; auto.
    - cbn [st_routes]. rewrite <- Ep. apply by_id_snoc. auto. }
  assert (ON : forall p f, r_id p = i -> on (rs ++ [p]) i f = rs ++ [f p]).
  { intros p f Ep. rewrite <- Ep. apply on_snoc. auto. }
  assert (ID : forall p, r_id p = i -> by_id (rs ++ [p]) i = Some p).
  { intros p Ep. rewrite <- Ep. apply by_id_snoc. auto. }
  match goal with |- context [alloc ?z] => destruct (alloc_cases z) as [b1 [l1 E1]] end.
  rewrite E1. cbn [fst snd st_routes st_next st_oom].
  destruct b1; cbn [negb].
  2: { rewrite RM by reflexivity. cbn [bind].
       do 2 eexists; split; [reflexivity | right; cbn; splits; auto]. }
  match goal with |- context [src_insert ?z _ _] =>
    destruct (src_insert_ok z i s) as [b2 [l2 E2]] end.
  { cbn [st_routes]. apply find_snoc_none; auto. }
  rewrite E2. cbn [bind fst snd st_routes st_next st_oom].
  destruct b2; cbn [negb].
  2: { rewrite RM by reflexivity. cbn [bind].
       do 2 eexists; split; [reflexivity | right; cbn; splits; auto]. }
  unfold modify, set_routes. cbn [st_routes st_next st_oom].
  rewrite !ON by reflexivity. cbn [w_srcs w_main r_id r_srcs app].
  (* CNAME *)
  assert (S3 : exists (b : bool) l, match c with
      | None => Ok (true, mkSt (rs ++ [mkRoute i None None [] (Some s) [s] None None None]) (S i) l2)
      | Some c0 => cname_insert (mkSt (on (rs ++ [mkRoute i None None [] (Some s) [s] None None None]) i
                                (w_cname c0)) (S i) l2) i
      end = Ok (b, mkSt (rs ++ [mkRoute i None None match c with Some c => c | None => [] end
                    (Some s) [s] None (if b then c else None) None]) (S i) l)).
  { destruct c as [c |].
    - rewrite ON by reflexivity.
      match goal with |- context [cname_insert ?z _] =>
        destruct (cname_insert_ok z i (mkRoute i None None c (Some s) [s] None None None))
          as [b [l E]] end.
      + cbn [st_routes]. apply ID. reflexivity.
      + reflexivity.
      + cbn [st_routes r_cname]. apply find_snoc_none; [apply Hc; auto | auto].
      + exists b, l. unfold w_cname in *. cbn [r_id r_sess r_addr r_main r_srcs r_an r_cn r_sn] in *.
        rewrite E. cbn [st_routes st_next r_cname]. destruct b; auto.
        rewrite ON by reflexivity. reflexivity.
    - exists true, l2. reflexivity. }
  destruct S3 as [b3 [l3 E3]].
  unfold w_cname in E3 |- *. cbn [r_id r_sess r_addr r_main r_srcs r_an r_cn r_sn] in *.
  match goal with |- context [bind ?m _] =>
    match type of E3 with ?m' = _ => change m with m' end end.
  rewrite E3. cbn [bind fst snd].
  destruct b3; cbn [negb].
  2: { rewrite RM by reflexivity. cbn [bind].
       do 2 eexists; split; [reflexivity | right; cbn; splits; auto]. }
  set (cc := match c with Some c => c | None => [] end) in *.
  (* address *)
  assert (S4 : exists (b : bool) l, match a with
      | None => Ok (true, mkSt (rs ++ [mkRoute i None None cc (Some s) [s] None c None]) (S i) l3)
      | Some _ => addr_insert (modify (mkSt (rs ++ [mkRoute i None None cc (Some s) [s] None c None])
                                 (S i) l3) i (w_addr a)) i
      end = Ok (b, mkSt (rs ++ [mkRoute i None a cc (Some s) [s]
                    (if b then match a with Some a => Some (Some a) | None => None end else None)
                    c None]) (S i) l)).
  { destruct a as [a |].
    - unfold modify, set_routes. cbn [st_routes st_next st_oom]. rewrite ON by reflexivity.
      match goal with |- context [addr_insert ?z _] =>
        destruct (addr_insert_ok z i (mkRoute i None (Some a) cc (Some s) [s] None c None))
          as [b [l E]] end.
      + cbn [st_routes]. apply ID. reflexivity.
      + reflexivity.
      + cbn [st_routes r_addr]. apply find_snoc_none; [eapply Ha; reflexivity | reflexivity].
      + exists b, l. unfold w_addr in *.
        cbn [r_id r_sess r_addr r_main r_srcs r_an r_cn r_sn r_cname] in *.
        rewrite E. cbn [st_routes st_next r_addr]. destruct b; auto.
        rewrite ON by reflexivity. reflexivity.
    - exists true, l3. reflexivity. }
  destruct S4 as [b4 [l4 E4]]. unfold modify, set_routes in E4.
  cbn [st_routes st_next st_oom] in E4 |- *.
  match goal with |- context [bind ?m _] =>
    match type of E4 with ?m' = _ => change m with m' end end.
  rewrite E4. cbn [bind fst snd].
  destruct b4; cbn [negb].
  2: { rewrite RM by reflexivity. cbn [bind].
       do 2 eexists; split; [reflexivity | right; cbn; splits; auto]. }
  set (aa := match a with Some a => Some (Some a) | None => None end) in *.
  assert (S5 : exists (b : bool) l, match x with
      | None => Ok (true, mkSt (rs ++ [mkRoute i None a cc (Some s) [s] aa c None]) (S i) l4)
      | Some _ => sess_insert (modify (mkSt (rs ++ [mkRoute i None a cc (Some s) [s] aa c None])
                                 (S i) l4) i (w_sess x)) i
      end = Ok (b, mkSt (rs ++ [mkRoute i x a cc (Some s) [s] aa c
                    (if b then match x with Some x => Some (Some x) | None => None end else None)])
                    (S i) l)).
  { destruct x as [x |].
    - unfold modify, set_routes. cbn [st_routes st_next st_oom]. rewrite ON by reflexivity.
      match goal with |- context [sess_insert ?z _] =>
        destruct (sess_insert_ok z i (mkRoute i (Some x) a cc (Some s) [s] aa c None))
          as [b [l E]] end.
      + cbn [st_routes]. apply ID. reflexivity.
      + reflexivity.
      + cbn [st_routes r_sess]. apply find_snoc_none; [eapply Hx; reflexivity | reflexivity].
      + exists b, l. unfold w_sess in *.
        cbn [r_id r_sess r_addr r_main r_srcs r_an r_cn r_sn r_cname] in *.
        rewrite E. cbn [st_routes st_next r_sess]. destruct b; auto.
        rewrite ON by reflexivity. reflexivity.
    - exists true, l4. reflexivity. }
  destruct S5 as [b5 [l5 E5]]. unfold modify, set_routes in E5.
  cbn [st_routes st_next st_oom] in E5 |- *.
  match goal with |- context [bind ?m _] =>
    match type of E5 with ?m' = _ => change m with m' end end.
  rewrite E5. cbn [bind fst snd].
  destruct b5; cbn [negb].
  2: { rewrite RM by reflexivity. cbn [bind].
       do 2 eexists; split; [reflexivity | right; cbn; splits; auto]. }
  do 2 eexists; split; [reflexivity | left]. cbn. splits; auto.
Qed.

(* ---- unlink_source ---- *)

Lemma others_on i rs f : keeps f -> others i (on rs i f) = others i rs.
Proof.
  intro K. unfold others, on. induction rs as [| a rs IH]; cbn; auto.
  destruct (Nat.eqb i (r_id a)) eqn:E.
  - rewrite K, E. cbn. auto.
  - rewrite E. cbn. f_equal. auto.
Qed.

Lemma others_on2 i j rs f : i <> j -> keeps f -> others i (on rs j f) = on (others i rs) j f.
Proof.
  intros N K. unfold others, on. induction rs as [| a rs IH]; cbn; auto.
  destruct (Nat.eqb j (r_id a)) eqn:E.
  - rewrite K. destruct (Nat.eqb i (r_id a)) eqn:E2; cbn; auto.
    rewrite E. f_equal. auto.
  - destruct (Nat.eqb i (r_id a)) eqn:E2; cbn; auto. rewrite E. f_equal. auto.
Qed.

Lemma by_id_on rs i f r :
  by_id rs i = Some r -> keeps f -> by_id (on rs i f) i = Some (f r).
Proof.
  intros H K. unfold by_id, on in *. induction rs as [| a rs IH]; cbn in *; [discriminate H |].
  destruct (Nat.eqb i (r_id a)) eqn:E.
  - rewrite K, E. congruence.
  - rewrite E. auto.
Qed.

Lemma by_id_on_ne rs i j f :
  i <> j -> keeps f -> by_id (on rs i f) j = by_id rs j.
Proof.
  intros N K. unfold by_id, on. induction rs as [| a rs IH]; cbn; auto.
  destruct (Nat.eqb i (r_id a)) eqn:E.
  - rewrite K. destruct (Nat.eqb j (r_id a)) eqn:E2; auto.
    apply Nat.eqb_eq in E, E2. congruence.
  - destruct (Nat.eqb j (r_id a)) eqn:E2; auto.
Qed.

Lemma find_on_ne p rs i f r :
  find p rs = Some r -> r_id r <> i -> (forall q, p (f q) = p q) ->
  find p (on rs i f) = Some r.
Proof.
  intros H N P. unfold on. induction rs as [| q rs IH]; cbn [map find] in *; [discriminate H |].
  destruct (Nat.eqb i (r_id q)) eqn:E.
  - rewrite P. destruct (p q); auto. apply Nat.eqb_eq in E. congruence.
  - destruct (p q); auto.
Qed.

(* What unlink_source does to the route of the SSRC. *)
Definition cut (r : route) (s : Z) (q : route) : route :=
  if keyz (r_main r) (Some s) then w_main None (drop_src s q) else drop_src s q.

Lemma keeps_cut r s : keeps (cut r s).
Proof. intro q. unfold cut. destruct (keyz _ _); reflexivity. Qed.

Lemma srcs_cut r s q : r_srcs (cut r s q) = filter (fun x => negb (x =? s)) (r_srcs q).
Proof. unfold cut. destruct (keyz _ _); reflexivity. Qed.

Lemma unlink_ok st s :
  inv st ->
  exists st', unlink_source st s = Ok st' /\ st_next st' = st_next st /\
    (forall r, by_src (st_routes st) s = Some r ->
       st_routes st' =
       if Nat.eqb (length (filter (fun x => negb (x =? s)) (r_srcs r))) 0
       then others (r_id r) (st_routes st)
       else on (st_routes st) (r_id r) (cut r s)) /\
    (by_src (st_routes st) s = None -> st' = st).
Proof.
  intro I. unfold unlink_source. destruct (by_src (st_routes st) s) as [r |] eqn:E.
  2: { exists st. splits; auto. congruence. }
  pose proof E as E'. apply by_src_iff in E'; auto. destruct E' as [Hr Hs].
  assert (B : by_id (st_routes st) (r_id r) = Some r) by (apply by_id_iff; auto).
  assert (M : (let st0 := modify st (r_id r) (drop_src s) in
              if keyz (r_main r) (Some s) then modify st0 (r_id r) (w_main None) else st0)
              = modify st (r_id r) (cut r s)).
  { cbv zeta. unfold cut. destruct (keyz (r_main r) (Some s)); auto.
    unfold modify, set_routes. cbn [st_routes st_next st_oom]. f_equal.
    apply on_on. intro; reflexivity. }
  cbv zeta in M. cbv zeta. rewrite M. unfold collect_route, deref, modify, set_routes.
  cbn [st_routes].
  rewrite (by_id_on _ _ _ r) by (auto using keeps_cut). cbn [bind]. rewrite srcs_cut.
  destruct (Nat.eqb _ 0) eqn:El.
  - rewrite (remove_route_ok _ _ (cut r s r)).
    + eexists; splits; [reflexivity | reflexivity | | congruence].
      intros r' Er. assert (r' = r) by congruence. subst r'. rewrite El. cbn.
      apply others_on. apply keeps_cut.
    + cbn [st_routes]. apply by_id_on; auto using keeps_cut.
  - eexists; splits; [reflexivity | reflexivity | | congruence].
    intros r' Er. assert (r' = r) by congruence. subst r'. rewrite El. reflexivity.
Qed.

(* ---- link_source ---- *)

(* Every SSRC of a route with a CNAME comes from the previous table, or is the
   one just linked. *)
Definition prov (rs : list route) (s : Z) (c : list Z) (rs' : list route) : Prop :=
  forall r' t, In r' rs' -> In t (r_srcs r') -> r_cname r' <> [] ->
    (t = s /\ r_cname r' = c) \/
    exists r, In r rs /\ In t (r_srcs r) /\ r_cname r = r_cname r'.

Definition sprov (rs rs' : list route) : Prop :=
  forall r' x, In r' rs' -> r_sess r' = Some x -> exists r, In r rs /\ r_sess r = Some x.

(* The route of CNAME [c] after SSRC [s] with session [x] and address [a] has
   moved there. *)
Definition taken (s : Z) (x : nat) (a : Z) (q : route) : route :=
  mkRoute (r_id q) (Some x) (Some a) (r_cname q) (Some s) (r_srcs q ++ [s])
          (Some (Some a)) (r_cn q) (Some (Some x)).

Inductive link_ok (st : rstate) (s : Z) (c : list Z) : list route -> Prop :=
| LSame r : In r (st_routes st) -> In s (r_srcs r) -> r_cname r = c ->
    link_ok st s c (st_routes st)
| LNew : by_src (st_routes st) s = None -> by_cname (st_routes st) c = None ->
    link_ok st s c (st_routes st ++ [new_route (st_next st) s None (Some c) None])
| LAttach r : In r (st_routes st) -> In s (r_srcs r) -> r_cname r = [] ->
    by_cname (st_routes st) c = None ->
    link_ok st s c (on (st_routes st) (r_id r) (fun q => w_cn (Some c) (w_cname c q)))
| LJoin r : In r (st_routes st) -> r_cname r = c -> by_src (st_routes st) s = None ->
    link_ok st s c (on (st_routes st) (r_id r) (fun q => w_srcs (r_srcs q ++ [s]) q))
| LMove ro rc x a : In ro (st_routes st) -> In rc (st_routes st) -> r_id ro <> r_id rc ->
    r_srcs ro = [s] -> r_cname ro = [] -> r_sess ro = Some x -> r_addr ro = Some a ->
    r_cname rc = c ->
    link_ok st s c (on (others (r_id ro) (st_routes st)) (r_id rc) (taken s x a)).

Lemma norm_i rs i j f g h :
  i <> j -> keeps f -> keeps g -> keeps h ->
  on (on (on rs i f) j g) i h = on (on rs i (fun r => h (f r))) j g.
Proof.
  intros N Kf Kg Kh. rewrite (on_comm (on rs i f) j i) by auto. rewrite on_on by auto.
  reflexivity.
Qed.

Lemma norm_j rs i j f g h :
  keeps f -> keeps g -> keeps h ->
  on (on (on rs i f) j g) j h = on (on rs i f) j (fun r => h (g r)).
Proof. intros. apply on_on. auto. Qed.

Lemma in_on2 rs i j f g q :
  i <> j -> keeps f -> In q (on (on rs i f) j g) <->
  exists r, In r rs /\ q = if Nat.eqb i (r_id r) then f r
                           else if Nat.eqb j (r_id r) then g r else r.
Proof.
  intros N K. rewrite in_on. split.
  - intros [r [H ->]]. apply in_on in H. destruct H as [r0 [H ->]]. exists r0. split; auto.
    destruct (Nat.eqb i (r_id r0)) eqn:E; auto. rewrite K.
    apply Nat.eqb_eq in E. rewrite <- E. destruct (Nat.eqb j i) eqn:E2; auto.
    apply Nat.eqb_eq in E2. congruence.
  - intros [r0 [H ->]]. exists (if Nat.eqb i (r_id r0) then f r0 else r0). split.
    + apply in_on. eauto.
    + destruct (Nat.eqb i (r_id r0)) eqn:E; auto. rewrite K.
      apply Nat.eqb_eq in E. rewrite <- E. destruct (Nat.eqb j i) eqn:E2; auto.
      apply Nat.eqb_eq in E2. congruence.
Qed.

Lemma by_id_on2 rs i j f g r q :
  i <> j -> keeps f -> keeps g -> by_id rs i = Some r -> by_id rs j = Some q ->
  by_id (on (on rs i f) j g) i = Some (f r) /\ by_id (on (on rs i f) j g) j = Some (g q).
Proof.
  intros N Kf Kg Hi Hj. split.
  - rewrite by_id_on_ne by auto. apply by_id_on; auto.
  - apply by_id_on; auto. rewrite by_id_on_ne; auto.
Qed.

Ltac kp := intro; reflexivity.

Section Move.
Variable st : rstate.
Variable I : inv st.
Notation rs := (st_routes st).
Variables (ro rc : route) (s : Z) (x : nat) (a : Z) (c : list Z).
Hypothesis Ho : In ro rs.
Hypothesis Hc : In rc rs.
Hypothesis N : r_id ro <> r_id rc.
Hypothesis So : r_srcs ro = [s].
Hypothesis Mo : r_main ro = Some s.
Hypothesis Co : r_cname ro = [].
Hypothesis Xo : r_sess ro = Some x.
Hypothesis Ao : r_addr ro = Some a.
Hypothesis Cc : r_cname rc = c.
Hypothesis Cn : c <> [].

Notation i := (r_id ro).
Notation j := (r_id rc).

Lemma move_by_id :
  by_id rs i = Some ro /\ by_id rs j = Some rc.
Proof. split; apply by_id_iff; auto. Qed.

Lemma lone_addr q : In q rs -> r_addr q = Some a -> r_id q = i.
Proof. intros Hq E. apply I; auto. right; left. split; congruence. Qed.

Lemma lone_sess q : In q rs -> r_sess q = Some x -> r_id q = i.
Proof. intros Hq E. apply I; auto. right; right; right. split; congruence. Qed.

Lemma lone_src q : In q rs -> In s (r_srcs q) -> r_id q = i.
Proof. intros Hq E. apply I; auto. left. exists s. rewrite So. cbn. auto. Qed.

Lemma drop_so : r_srcs (drop_src s ro) = [].
Proof.
  unfold drop_src. cbn [r_srcs w_srcs]. rewrite So. cbn. rewrite Z.eqb_refl. auto.
Qed.

(* The three stages at which memory may run out, and success. *)
Lemma relink_ok n :
  exists r st', relink_source_n (S (S n)) st s c = Ok (r, st') /\ st_next st' = st_next st /\
    ((r = StOK /\ st_routes st' = on (others i rs) j (taken s x a)) \/
     (r = StNoMem /\
      (st_routes st' = on rs i (drop_src s) \/
       st_routes st' = on (others j rs) i (fun q => w_addr None (w_an None (drop_src s q))) \/
       st_routes st' = on (others j rs) i
         (fun q => w_sess None (w_sn None (w_addr None (w_an None (drop_src s q)))))))).
Proof.
  destruct move_by_id as [Bi Bj].
  cbn [relink_source_n].
  assert (Es : by_src rs s = Some ro) by (apply by_src_iff; auto; split; auto; rewrite So; cbn; auto).
  rewrite Es. cbv zeta. unfold modify at 1, set_routes at 1.
  set (s1 := mkSt (on rs i (drop_src s)) (st_next st) (st_oom st)).
  assert (L : exists b l, link_source_n (S n) s1 s c =
    Ok (if b : bool then StOK else StNoMem,
        mkSt (if b then on (on rs i (drop_src s)) j (fun r => w_srcs (r_srcs r ++ [s]) r)
              else on rs i (drop_src s)) (st_next st) l)).
  { cbn [link_source_n]. destruct c as [| c0 c']; [congruence |].
    assert (E1 : by_src (st_routes s1) s = None).
    { apply find_none_all. intros q Hq. cbn in Hq. apply in_on in Hq.
      destruct Hq as [r [Hr ->]]. apply not_true_is_false. intro X. apply existsb_in in X.
      destruct (Nat.eqb i (r_id r)) eqn:E.
      - unfold drop_src in X. cbn in X. apply filter_In in X. rewrite Z.eqb_refl in X.
        destruct X as [_ X]. discriminate X.
      - apply Nat.eqb_neq in E. apply lone_src in X; auto. }
    assert (E2 : by_cname (st_routes s1) (c0 :: c') = Some rc).
    { assert (E3 : by_cname rs (c0 :: c') = Some rc) by (apply by_cname_iff; auto).
      cbn [s1 st_routes]. unfold by_cname in *. apply find_on_ne; auto. }
    rewrite E1, E2.
    destruct (alloc_cases s1) as [b0 [l0 E0]]. rewrite E0. cbn [fst snd].
    destruct b0; cbn [negb]; [| exists false, l0; reflexivity].
    destruct (src_insert_ok (mkSt (st_routes s1) (st_next s1) l0) j s) as [b [l E3]]; auto.
    rewrite E3. cbn [bind fst snd]. exists b, l. destruct b; reflexivity. }
  destruct L as [b [l L]]. rewrite L. cbn [bind fst snd].
  destruct b; [| do 2 eexists; splits; [reflexivity | reflexivity | right; auto]].
  clear L s1.
  assert (B2 := by_id_on2 rs i j (drop_src s) (fun r => w_srcs (r_srcs r ++ [s]) r) ro rc N
                  ltac:(kp) ltac:(kp) Bi Bj).
  destruct B2 as [B2i B2j].
  set (s2 := mkSt (on (on rs i (drop_src s)) j (fun r => w_srcs (r_srcs r ++ [s]) r))
                  (st_next st) l).
  unfold deref at 1. cbn [s2 st_routes]. rewrite B2i. cbn [bind].
  change (r_main (drop_src s ro)) with (r_main ro). rewrite Mo. cbn [keyz]. rewrite Z.eqb_refl.
  assert (E3 : exists rn, by_src (on (on rs i (drop_src s)) j (fun r => w_srcs (r_srcs r ++ [s]) r)) s
               = Some rn /\ r_id rn = j).
  { destruct (find_ex (fun r => existsb (Z.eqb s) (r_srcs r))
      (on (on rs i (drop_src s)) j (fun r => w_srcs (r_srcs r ++ [s]) r))
      (w_srcs (r_srcs rc ++ [s]) rc)) as [rn Hn].
    - apply in_on2; auto; [kp |]. exists rc. split; auto. rewrite Nat.eqb_refl.
      destruct (Nat.eqb i j) eqn:E; auto. apply Nat.eqb_eq in E. congruence.
    - apply existsb_in. cbn. apply in_app_iff. cbn; auto.
    - exists rn. split; auto. apply find_in in Hn. destruct Hn as [Hn Hs].
      apply existsb_in in Hs. apply in_on2 in Hn; auto; [| kp].
      destruct Hn as [q [Hq ->]].
      destruct (Nat.eqb i (r_id q)) eqn:E.
      + apply filter_In in Hs. rewrite Z.eqb_refl in Hs. destruct Hs as [_ X]. discriminate X.
      + destruct (Nat.eqb j (r_id q)) eqn:E4.
        * apply Nat.eqb_eq in E4. cbn. auto.
        * apply lone_src in Hs; auto. apply Nat.eqb_neq in E. congruence. }
  destruct E3 as [rn [E3 En]]. rewrite E3, En. clear E3 En rn.
  (* move *)
  subst s2. unfold move_route_session. unfold deref at 1. cbn [st_routes]. rewrite B2i. cbn [bind].
  unfold modify, set_routes. cbv zeta. cbn [st_routes st_next st_oom].
  rewrite (norm_i rs i j) by (auto; kp). rewrite (norm_j rs i j) by kp. rewrite (norm_j rs i j) by kp.
  rewrite (norm_i rs i j) by (auto; kp).
  change (r_addr (drop_src s ro)) with (r_addr ro). rewrite Ao.
  set (f1 := fun r => w_addr None (w_an None (drop_src s r))).
  set (g1 := fun r => w_addr (Some a) (w_an None (w_srcs (r_srcs r ++ [s]) r))).
  assert (B3 := by_id_on2 rs i j f1 g1 ro rc N ltac:(kp) ltac:(kp) Bi Bj).
  destruct B3 as [B3i B3j].
  match goal with |- context [addr_insert ?z _] =>
    destruct (addr_insert_ok z j (g1 rc)) as [b1 [l1 E1]] end; auto.
  { cbn [st_routes r_addr g1 w_addr]. apply find_none_all. intros q Hq.
    apply in_on2 in Hq; auto; [| kp]. destruct Hq as [r [Hr ->]].
    destruct (Nat.eqb i (r_id r)) eqn:E; auto.
    destruct (Nat.eqb j (r_id r)) eqn:E2; auto.
    destruct (i_wf _ I r Hr) as [Wa _]. rewrite Wa.
    destruct (r_addr r) eqn:Er; auto. apply not_true_is_false. rewrite keyz_eq. intro X.
    apply Nat.eqb_neq in E. apply E. symmetry. apply lone_addr; congruence. }
  rewrite E1. cbn [bind fst snd]. clear E1. cbn [g1 r_addr w_addr].
  destruct b1; cbn [negb].
  2: { cbn [bind fst snd]. rewrite (remove_route_ok _ _ (g1 rc)) by (cbn [st_routes]; auto).
       cbn [bind]. do 2 eexists; splits; [reflexivity | reflexivity | right; split; auto].
       right; left. cbn [set_routes st_routes]. rewrite others_on by kp.
       rewrite others_on2 by (auto; kp). reflexivity. }
  cbn [st_routes st_next st_oom].
  rewrite (norm_j rs i j) by kp. rewrite (norm_i rs i j) by (auto; kp). rewrite (norm_j rs i j) by kp. rewrite (norm_j rs i j) by kp.
  rewrite (norm_i rs i j) by (auto; kp).
  change (r_sess (drop_src s ro)) with (r_sess ro). rewrite Xo.
  set (f2 := fun r => w_sess None (w_sn None (f1 r))).
  set (g2 := fun r => w_sess (Some x) (w_sn None (w_an (Some (Some a)) (g1 r)))).
  assert (B4 := by_id_on2 rs i j f2 g2 ro rc N ltac:(kp) ltac:(kp) Bi Bj).
  destruct B4 as [B4i B4j].
  match goal with |- context [sess_insert ?z _] =>
    destruct (sess_insert_ok z j (g2 rc)) as [b2 [l2 E2]] end; auto.
  { cbn [st_routes r_sess g2 w_sess]. apply find_none_all. intros q Hq.
    apply in_on2 in Hq; auto; [| kp]. destruct Hq as [r [Hr ->]].
    destruct (Nat.eqb i (r_id r)) eqn:E; auto.
    destruct (Nat.eqb j (r_id r)) eqn:E2; auto.
    destruct (i_wf _ I r Hr) as [_ [_ [Wa _]]]. rewrite Wa.
    destruct (r_sess r) eqn:Er; auto. apply not_true_is_false. rewrite keyn_eq. intro X.
    apply Nat.eqb_neq in E. apply E. symmetry. apply lone_sess; congruence. }
  rewrite E2. cbn [bind fst snd]. clear E2. cbn [g2 r_sess w_sess].
  destruct b2; cbn [negb].
  2: { cbn [bind fst snd]. rewrite (remove_route_ok _ _ (g2 rc)) by (cbn [st_routes]; auto).
       cbn [bind]. do 2 eexists; splits; [reflexivity | reflexivity | right; split; auto].
       right; right. cbn [set_routes st_routes]. rewrite others_on by kp.
       rewrite others_on2 by (auto; kp). reflexivity. }
  cbn [bind fst snd st_routes st_next st_oom].
  rewrite (norm_j rs i j) by kp. rewrite (norm_j rs i j) by kp. rewrite (norm_i rs i j) by (auto; kp).
  set (f3 := fun r => w_main None (f2 r)).
  match goal with |- context [on (on rs i f3) j ?g] => set (g3 := g) end.
  assert (B5 := by_id_on2 rs i j f3 g3 ro rc N ltac:(kp) ltac:(kp) Bi Bj).
  destruct B5 as [B5i B5j].
  unfold collect_route, deref. cbn [st_routes]. rewrite B5i. cbn [bind].
  change (r_srcs (f3 ro)) with (r_srcs (drop_src s ro)). rewrite drop_so. cbn [length Nat.eqb].
  rewrite (remove_route_ok _ _ (f3 ro)) by (cbn [st_routes]; auto). cbn [bind].
  do 2 eexists; splits; [reflexivity | reflexivity | left; split; auto].
  cbn [set_routes st_routes]. rewrite others_on2 by (auto; kp). rewrite others_on by kp.
  reflexivity.
Qed.

End Move.

(* ---- the invariant along the calls ---- *)

Lemma inv_eq st st' : inv st -> st_routes st' = st_routes st ->
  (st_next st <= st_next st')%nat -> inv st'.
Proof.
  intros [A B C D] E L. split; rewrite E; auto. intros r Hr. apply B in Hr. lia.
Qed.

Lemma inv_routes st st' : inv st -> st_routes st' = st_routes st ->
  st_next st' = st_next st -> inv st'.
Proof. intros I E L. eapply inv_eq; eauto. lia. Qed.

Lemma inv_remove st st' i : inv st -> st_routes st' = others i (st_routes st) ->
  st_next st' = st_next st -> inv st'.
Proof.
  intros I E L. apply inv_others with (i := i) in I.
  eapply inv_eq; [exact I | exact E | cbn; lia].
Qed.

Lemma inv_change st st' i f :
  inv st -> st_routes st' = on (st_routes st) i f -> st_next st' = st_next st -> keeps f ->
  (forall r, In r (st_routes st) -> r_id r = i -> wf (f r)) ->
  (forall r q, In r (st_routes st) -> In q (st_routes st) -> r_id r = i -> r_id q <> i ->
     clash (f r) q -> False) ->
  inv st'.
Proof.
  intros I E L K W U. pose proof (inv_on st i f I K W U) as J.
  eapply inv_eq; [exact J | exact E | cbn; lia].
Qed.

Lemma inv_create st st' s a c x :
  inv st -> st_routes st' = st_routes st ++ [new_route (st_next st) s a c x] ->
  st_next st' = S (st_next st) ->
  by_src (st_routes st) s = None ->
  (forall a', a = Some a' -> by_addr (st_routes st) a = None) ->
  (forall c', c = Some c' -> c' <> [] /\ by_cname (st_routes st) c' = None) ->
  (forall x', x = Some x' -> by_sess (st_routes st) x = None) ->
  (c = None -> a <> None) -> (c <> None -> a = None) -> (a <> None -> x <> None) ->
  inv st'.
Proof.
  intros I E L Hs Ha Hc Hx C1 C2 C3.
  assert (J : inv (mkSt (st_routes st ++ [new_route (st_next st) s a c x])
                        (S (st_next st)) (st_oom st))).
  { apply inv_snoc; auto.
    - unfold new_route, wf; cbn. splits; auto.
      + destruct c as [[| c0 c] |]; auto. destruct (Hc [] eq_refl). congruence.
      + repeat constructor. cbn. tauto.
      + intros Ec _. destruct a as [a |].
        * destruct x as [x |]; [eauto 10 | exfalso; apply C3; congruence].
        * exfalso. apply C1; auto. destruct c as [c |]; auto. destruct (Hc c eq_refl). congruence.
    - intros q Hq [[t [H1 H2]] | [[H1 H2] | [[H1 H2] | [H1 H2]]]]; cbn in *.
      + destruct H1 as [<- | []]. exact (proj1 (by_src_none _ I s) Hs q Hq H2).
      + destruct a as [a |]; [| congruence]. specialize (Ha a eq_refl).
        pose proof (proj1 (by_addr_none _ I a) Ha q Hq). congruence.
      + destruct c as [c |]; [| congruence]. destruct (Hc c eq_refl) as [Hn Hb].
        pose proof (proj1 (by_cname_none _ I c Hn) Hb q Hq). congruence.
      + destruct x as [x |]; [| congruence]. specialize (Hx x eq_refl).
        pose proof (proj1 (by_sess_none _ I x) Hx q Hq). congruence. }
  eapply inv_eq; [exact J | exact E | cbn; lia].
Qed.

Lemma nodup_filter {A} (p : A -> bool) l : NoDup l -> NoDup (filter p l).
Proof.
  induction l; cbn; auto. intro H. apply NoDup_cons_iff in H. destruct H as [H1 H2].
  destruct (p a); auto. constructor; auto. rewrite filter_In. tauto.
Qed.

Lemma unlink_inv st s st' :
  inv st -> unlink_source st s = Ok st' ->
  inv st' /\ st_next st' = st_next st /\
  prov (st_routes st) s [] (st_routes st') /\ sprov (st_routes st) (st_routes st') /\
  by_src (st_routes st') s = None.
Proof.
  intros I H. destruct (unlink_ok st s I) as [st1 [E [En [E1 E2]]]].
  assert (st1 = st') by congruence. subst st1.
  destruct (by_src (st_routes st) s) as [r |] eqn:Es.
  2: { rewrite E2 by auto. splits; auto.
       - intros r t Hr Ht Hc. right. eauto.
       - intros r x Hr Hx. eauto. }
  specialize (E1 r eq_refl). apply by_src_iff in Es; auto. destruct Es as [Hr Hs].
  destruct (Nat.eqb _ 0) eqn:El.
  - assert (I' : inv st') by (eapply inv_remove; eauto). splits; auto.
    + intros q t Hq Ht Hc. rewrite E1 in Hq. apply in_others in Hq. right. exists q. tauto.
    + intros q x Hq Hx. rewrite E1 in Hq. apply in_others in Hq. exists q. tauto.
    + apply by_src_none; auto. intros q Hq Ht. rewrite E1 in Hq. apply in_others in Hq.
      destruct Hq as [Hq Hn]. apply Hn. apply I; auto. left. eauto.
  - assert (I' : inv st').
    { eapply inv_change; eauto using keeps_cut.
      - intros q Hq Ei. assert (q = r) by (apply (same _ I); auto; congruence). subst q.
        destruct (i_wf _ I r Hr) as (W1 & W2 & W3 & W4 & W5 & W6).
        assert (Wc : r_cname r = [] -> False).
        { intro Ec. destruct W5 as (t & x & a & T1 & _); auto.
          - intro X. rewrite X in Hs. destruct Hs.
          - rewrite T1 in Hs. destruct Hs as [-> | []]. rewrite T1 in El.
            cbn in El. rewrite Z.eqb_refl in El. discriminate El. }
        unfold cut. destruct (keyz (r_main r) (Some s)); unfold wf; cbn; splits; auto;
          try (apply nodup_filter; auto); intros; exfalso; auto.
      - intros q q' Hq Hq' Ei Ej Hc. assert (q = r) by (apply (same _ I); auto; congruence). subst q.
        apply Ej. symmetry. apply I; auto.
        assert (Z0 : r_addr (cut r s r) = r_addr r /\ r_cname (cut r s r) = r_cname r /\
                     r_sess (cut r s r) = r_sess r).
        { unfold cut. destruct (keyz _ _); auto. }
        destruct Z0 as (Z1 & Z2 & Z3). unfold clash in *. rewrite srcs_cut, Z1, Z2, Z3 in Hc.
        destruct Hc as [[t [H1 H2]] | Hc]; [left | right; auto].
        apply filter_In in H1. exists t. tauto. }
    splits; auto.
    + intros q t Hq Ht Hc. rewrite E1 in Hq. apply in_on in Hq. destruct Hq as [q' [Hq ->]].
      right. exists q'. destruct (Nat.eqb (r_id r) (r_id q')); auto.
      rewrite srcs_cut in Ht. apply filter_In in Ht. splits; try tauto.
      unfold cut. destruct (keyz _ _); auto.
    + intros q x Hq Hx. rewrite E1 in Hq. apply in_on in Hq. destruct Hq as [q' [Hq ->]].
      exists q'. destruct (Nat.eqb (r_id r) (r_id q')); auto. split; auto.
      unfold cut in Hx. destruct (keyz _ _); auto.
    + apply by_src_none; auto. intros q Hq Ht. rewrite E1 in Hq. apply in_on in Hq.
      destruct Hq as [q' [Hq ->]]. destruct (Nat.eqb (r_id r) (r_id q')) eqn:Ei.
      * rewrite srcs_cut in Ht. apply filter_In in Ht. rewrite Z.eqb_refl in Ht.
        destruct Ht as [_ X]. discriminate X.
      * apply Nat.eqb_neq in Ei. apply Ei. apply I; auto. left. eauto.
Qed.

Lemma nodup_snoc (l : list Z) s : NoDup l -> ~ In s l -> NoDup (l ++ [s]).
Proof.
  intros H1 H2. apply NoDup_Add with (a := s) (l := l).
  - rewrite <- (app_nil_r l) at 1. apply Add_app.
  - auto.
Qed.

Lemma link_run st s c :
  inv st -> c <> [] ->
  (forall r, In r (st_routes st) -> In s (r_srcs r) -> r_cname r = [] \/ r_cname r = c) ->
  exists k st', link_source st s c = Ok (k, st') /\ inv st' /\
    prov (st_routes st) s c (st_routes st') /\ sprov (st_routes st) (st_routes st') /\
    ((k = StOK /\ link_ok st s c (st_routes st')) \/ k = StNoMem).
Proof.
  intros I Hc Hp. unfold link_source. cbn [link_source_n].
  assert (SAME : prov (st_routes st) s c (st_routes st) /\ sprov (st_routes st) (st_routes st)).
  { split.
    - intros r t Hr Ht Hn. right. eauto.
    - intros r x Hr Hx. eauto. }
  destruct SAME as [SP SS].
  assert (RE : c = match c with [] => [] | _ :: _ => c end) by (destruct c; auto).
  destruct c as [| c0 c1] eqn:Ec; [congruence |]. clear RE.
  rewrite <- Ec in *. assert (Hc' : c <> []) by congruence. clear Hc Ec c0 c1.
  rename Hc' into Hc.
  destruct (by_src (st_routes st) s) as [ro |] eqn:Es;
    destruct (by_cname (st_routes st) c) as [rc |] eqn:Eb.
  - (* both *)
    apply by_src_iff in Es; auto. apply by_cname_iff in Eb; auto.
    destruct Es as [Ho Hs], Eb as [Hr [Ecc _]].
    destruct (Nat.eqb (r_id ro) (r_id rc)) eqn:Ei.
    + do 2 eexists; splits; [reflexivity | auto | auto | auto |]. left. split; auto.
      apply Nat.eqb_eq in Ei. assert (ro = rc) by (apply (same _ I); auto; congruence). subst.
      eapply LSame; eauto.
    + apply Nat.eqb_neq in Ei.
      assert (Co : r_cname ro = []).
      { destruct (Hp ro Ho Hs) as [X | X]; auto. exfalso. apply Ei. apply I; auto.
        right; right; left. split; congruence. }
      destruct (i_wf _ I ro Ho) as (_ & _ & W3 & _ & W5 & _).
      destruct W5 as (s' & x & a & T1 & T2 & T3 & T4); auto.
      { intro X. rewrite X in Hs. destruct Hs. }
      assert (s' = s). { rewrite T1 in Hs. destruct Hs as [X | []]. auto. } subst s'.
      destruct (relink_ok st I ro rc s x a c Ho Hr Ei T1 T2 T3 T4 Ecc Hc 0)
        as [k [st' [E [En D]]]].
      exists k, st'. split; [exact E |].
      assert (Wc := i_wf _ I rc Hr). destruct Wc as (V1 & V2 & V3 & V4 & V5 & V6).
      assert (U : forall q, In q (st_routes st) -> r_addr q = Some a -> r_id q = r_id ro)
        by (eapply lone_addr; eauto).
      assert (U2 : forall q, In q (st_routes st) -> r_sess q = Some x -> r_id q = r_id ro)
        by (eapply lone_sess; eauto).
      assert (U3 : forall q, In q (st_routes st) -> In s (r_srcs q) -> r_id q = r_id ro)
        by (eapply lone_src; eauto).
      destruct D as [[-> D] | [-> [D | [D | D]]]].
      * (* moved *)
        assert (I' : inv st').
        { eapply (inv_change (set_routes st (others (r_id ro) (st_routes st)))
                             st' (r_id rc) (taken s x a)).
          - apply inv_others. auto.
          - exact D.
          - exact En.
          - kp.
          - cbn [set_routes st_routes]. intros q Hq Eq. apply in_others in Hq.
            assert (q = rc) by (apply (same _ I); auto; tauto). subst q.
            unfold wf, taken; cbn. splits; auto.
            + apply nodup_snoc; auto. intro X. apply Ei. symmetry. auto.
            + intros X. congruence.
            + congruence.
          - cbn [set_routes st_routes]. intros q q' Hq Hq' E1 E2 Hcl.
            apply in_others in Hq, Hq'. destruct Hq as [Hq Nq], Hq' as [Hq' Nq'].
            assert (q = rc) by (apply (same _ I); auto; congruence). subst q.
            destruct Hcl as [[t [H1 H2]] | [[H1 H2] | [[H1 H2] | [H1 H2]]]]; cbn in *.
            + apply in_app_iff in H1. destruct H1 as [H1 | [<- | []]].
              * apply E2. symmetry. apply I; auto. left. eauto.
              * apply Nq'. auto.
            + apply Nq'. auto.
            + apply E2. symmetry. apply I; auto. right; right; left. auto.
            + apply Nq'. auto. }
        splits; auto.
        -- intros q t Hq Ht Hn. rewrite D in Hq. apply in_on in Hq.
           destruct Hq as [q' [Hq ->]]. apply in_others in Hq. destruct Hq as [Hq Nq].
           destruct (Nat.eqb (r_id rc) (r_id q')) eqn:E1.
           ++ apply Nat.eqb_eq in E1. assert (q' = rc) by (apply (same _ I); auto; congruence). subst q'.
              cbn in Ht, Hn |- *. apply in_app_iff in Ht. destruct Ht as [Ht | [<- | []]]; eauto 8.
           ++ right. eauto.
        -- intros q y Hq Hy. rewrite D in Hq. apply in_on in Hq.
           destruct Hq as [q' [Hq ->]]. apply in_others in Hq. destruct Hq as [Hq Nq].
           destruct (Nat.eqb (r_id rc) (r_id q')) eqn:E1; eauto.
           cbn in Hy. exists ro. split; congruence.
        -- left. split; auto. rewrite D. eapply LMove; eauto.
      * (* failed before moving *)
        splits; auto.
        -- eapply inv_change; eauto; [kp | |].
           ++ intros q Hq Eq. assert (q = ro) by (apply (same _ I); auto; congruence). subst q.
              destruct (i_wf _ I ro Ho) as (X1 & X2 & X3 & X4 & X5 & X6).
              unfold drop_src, wf; cbn. rewrite T1. cbn. rewrite Z.eqb_refl. cbn.
              splits; auto; try constructor. congruence.
           ++ intros q q' Hq Hq' E1 E2 Hcl. assert (q = ro) by (apply (same _ I); auto; congruence). subst q.
              apply E2. symmetry. apply I; auto. destruct Hcl as [[t [H1 H2]] | Hcl]; [| right; exact Hcl].
              left. exists t. cbn in H1. apply filter_In in H1. tauto.
        -- intros q t Hq Ht Hn. rewrite D in Hq. apply in_on in Hq.
           destruct Hq as [q' [Hq ->]]. right. exists q'.
           destruct (Nat.eqb _ _); splits; auto. cbn in Ht. apply filter_In in Ht. tauto.
        -- intros q y Hq Hy. rewrite D in Hq. apply in_on in Hq.
           destruct Hq as [q' [Hq ->]]. exists q'. destruct (Nat.eqb _ _); auto.
      * splits; auto.
        -- eapply (inv_change (set_routes st (others (r_id rc) (st_routes st)))).
           ++ apply inv_others. auto.
           ++ exact D.
           ++ exact En.
           ++ kp.
           ++ cbn [set_routes st_routes]. intros q Hq Eq. apply in_others in Hq.
              assert (q = ro) by (apply (same _ I); auto; tauto). subst q.
              destruct (i_wf _ I ro Ho) as (X1 & X2 & X3 & X4 & X5 & X6).
              unfold drop_src, wf; cbn. rewrite T1. cbn. rewrite Z.eqb_refl. cbn.
              splits; auto; try constructor; congruence.
           ++ cbn [set_routes st_routes]. intros q q' Hq Hq' E1 E2 Hcl.
              apply in_others in Hq, Hq'.
              assert (q = ro) by (apply (same _ I); auto; tauto). subst q.
              apply E2. symmetry. apply I; try tauto.
              destruct Hcl as [[t [H1 H2]] | [[H1 H2] | Hcl]].
              ** left. exists t. cbn in H1. apply filter_In in H1. tauto.
              ** cbn in H1. congruence.
              ** right; right. exact Hcl.
        -- intros q t Hq Ht Hn. rewrite D in Hq. apply in_on in Hq.
           destruct Hq as [q' [Hq ->]]. apply in_others in Hq. right. exists q'.
           destruct (Nat.eqb _ _); splits; try tauto. cbn in Ht. apply filter_In in Ht. tauto.
        -- intros q y Hq Hy. rewrite D in Hq. apply in_on in Hq.
           destruct Hq as [q' [Hq ->]]. apply in_others in Hq. exists q'.
           destruct (Nat.eqb _ _); split; tauto.
      * splits; auto.
        -- eapply (inv_change (set_routes st (others (r_id rc) (st_routes st)))).
           ++ apply inv_others. auto.
           ++ exact D.
           ++ exact En.
           ++ kp.
           ++ cbn [set_routes st_routes]. intros q Hq Eq. apply in_others in Hq.
              assert (q = ro) by (apply (same _ I); auto; tauto). subst q.
              destruct (i_wf _ I ro Ho) as (X1 & X2 & X3 & X4 & X5 & X6).
              unfold drop_src, wf; cbn. rewrite T1. cbn. rewrite Z.eqb_refl. cbn.
              splits; auto; try constructor; congruence.
           ++ cbn [set_routes st_routes]. intros q q' Hq Hq' E1 E2 Hcl.
              apply in_others in Hq, Hq'.
              assert (q = ro) by (apply (same _ I); auto; tauto). subst q.
              apply E2. symmetry. apply I; try tauto.
              destruct Hcl as [[t [H1 H2]] | [[H1 H2] | [Hcl | [H1 H2]]]].
              ** left. exists t. cbn in H1. apply filter_In in H1. tauto.
              ** cbn in H1. congruence.
              ** right; right; left. exact Hcl.
              ** cbn in H1. congruence.
        -- intros q t Hq Ht Hn. rewrite D in Hq. apply in_on in Hq.
           destruct Hq as [q' [Hq ->]]. apply in_others in Hq. right. exists q'.
           destruct (Nat.eqb _ _); splits; try tauto. cbn in Ht. apply filter_In in Ht. tauto.
        -- intros q y Hq Hy. rewrite D in Hq. apply in_on in Hq.
           destruct Hq as [q' [Hq ->]]. apply in_others in Hq. exists q'.
           destruct (Nat.eqb _ _); split; try tauto. cbn in Hy. congruence.
  - (* only the SSRC *)
    apply by_src_iff in Es; auto. destruct Es as [Ho Hs].
    destruct (r_cname ro) eqn:Co.
    2: { exfalso. destruct (Hp ro Ho Hs) as [X | X]; [congruence |].
         pose proof (proj1 (by_cname_none _ I c Hc) Eb ro Ho). congruence. }
    destruct (i_wf _ I ro Ho) as (W1 & W2 & W3 & W4 & W5 & W6). rewrite Co in W2.
    assert (B : by_id (st_routes st) (r_id ro) = Some ro) by (apply by_id_iff; auto).
    match goal with |- context [cname_insert ?z _] =>
      destruct (cname_insert_ok z (r_id ro) (w_cname c ro)) as [b [l E]] end.
    { unfold modify, set_routes. cbn [st_routes]. apply by_id_on; auto. kp. }
    { auto. }
    { unfold modify, set_routes. cbn [st_routes r_cname w_cname]. apply find_none_all.
      intros q Hq. apply in_on in Hq. destruct Hq as [q' [Hq ->]].
      unfold by_cname in Eb. pose proof (find_none _ _ Eb q' Hq) as Z0. cbv beta in Z0.
      destruct (Nat.eqb _ _); exact Z0. }
    rewrite E. cbn [bind fst snd]. unfold modify, set_routes.
    cbn [st_routes st_next st_oom r_cname w_cname].
    rewrite on_on by kp.
    destruct b.
    + do 2 eexists; splits; [reflexivity | | | |].
      * eapply inv_change with (st := st); [auto | cbn; reflexivity | reflexivity | kp | |].
        -- intros q Hq Eq. assert (q = ro) by (apply (same _ I); auto; congruence). subst q.
           unfold wf; cbn. splits; auto; try congruence. destruct c; congruence.
        -- intros q q' Hq Hq' E1 E2 Hcl. assert (q = ro) by (apply (same _ I); auto; congruence). subst q.
           destruct Hcl as [Hcl | [Hcl | [[H1 H2] | Hcl]]].
           ++ apply E2. symmetry. apply I; auto. left. exact Hcl.
           ++ apply E2. symmetry. apply I; auto. right; left. exact Hcl.
           ++ cbn in H2. pose proof (proj1 (by_cname_none _ I c Hc) Eb q' Hq'). congruence.
           ++ apply E2. symmetry. apply I; auto. right; right; right. exact Hcl.
      * cbn [st_routes]. intros q t Hq Ht Hn. apply in_on in Hq. destruct Hq as [q' [Hq ->]].
        destruct (Nat.eqb _ _) eqn:Ei; [| right; eauto].
        apply Nat.eqb_eq in Ei. assert (q' = ro) by (apply (same _ I); auto; congruence). subst q'.
        left. cbn in Ht |- *. split; auto.
        destruct W5 as (s' & x & a & T1 & _); auto.
        { intro X. rewrite X in Hs. destruct Hs. }
        rewrite T1 in Hs, Ht. destruct Hs as [<- | []], Ht as [<- | []]. auto.
      * cbn [st_routes]. intros q y Hq Hy. apply in_on in Hq. destruct Hq as [q' [Hq ->]].
        exists q'. destruct (Nat.eqb _ _); auto.
      * left. split; auto. cbn [st_routes]. eapply LAttach; eauto.
    + assert (EQ : on (on (st_routes st) (r_id ro) (w_cname c)) (r_id ro) (w_cname []) = st_routes st).
      { rewrite on_on by kp. unfold on. rewrite <- (map_id (st_routes st)) at 2.
        apply map_ext_in. intros q Hq. destruct (Nat.eqb _ _) eqn:Ei; auto.
        apply Nat.eqb_eq in Ei. assert (q = ro) by (apply (same _ I); auto; congruence). subst q.
        destruct ro; cbn in *. subst. reflexivity. }
      do 2 eexists; splits; [reflexivity | | | |]; cbn [st_routes]; rewrite ?EQ; auto.
      eapply inv_routes; [exact I | reflexivity | reflexivity].
  - (* only the CNAME *)
    apply by_cname_iff in Eb; auto. destruct Eb as [Hr [Ecc _]].
    destruct (alloc_cases st) as [b0 [l0 E0]]. rewrite E0. cbn [fst snd].
    destruct b0; cbn [negb].
    2: { do 2 eexists; splits; [reflexivity | apply inv_oom; auto | auto | auto | auto]. }
    destruct (src_insert_ok (mkSt (st_routes st) (st_next st) l0) (r_id rc) s)
      as [b [l E]]; auto.
    rewrite E. cbn [bind fst snd st_routes st_next].
    destruct b.
    2: { do 2 eexists; splits; [reflexivity | apply inv_oom; auto | auto | auto | auto]. }
    do 2 eexists; splits; [reflexivity | | | |].
    + eapply inv_change with (st := st); [auto | cbn; reflexivity | reflexivity | kp | |].
      * intros q Hq Eq. assert (q = rc) by (apply (same _ I); auto; congruence). subst q.
        destruct (i_wf _ I rc Hr) as (X1 & X2 & X3 & X4 & X5 & X6).
        unfold wf; cbn. splits; auto; try congruence. apply nodup_snoc; auto.
        apply (proj1 (by_src_none _ I s) Es rc Hr).
      * intros q q' Hq Hq' E1 E2 Hcl. assert (q = rc) by (apply (same _ I); auto; congruence). subst q.
        destruct Hcl as [[t [H1 H2]] | Hcl].
        -- cbn in H1. apply in_app_iff in H1. destruct H1 as [H1 | [<- | []]].
           ++ apply E2. symmetry. apply I; auto. left. eauto.
           ++ eapply (proj1 (by_src_none _ I s) Es q'); eauto.
        -- apply E2. symmetry. apply I; auto. right. exact Hcl.
    + cbn [st_routes]. intros q t Hq Ht Hn. apply in_on in Hq. destruct Hq as [q' [Hq ->]].
      destruct (Nat.eqb _ _) eqn:Ei; [| right; eauto].
      apply Nat.eqb_eq in Ei. assert (q' = rc) by (apply (same _ I); auto; congruence). subst q'.
      cbn in Ht |- *. apply in_app_iff in Ht. destruct Ht as [Ht | [<- | []]]; eauto 8.
    + cbn [st_routes]. intros q y Hq Hy. apply in_on in Hq. destruct Hq as [q' [Hq ->]].
      exists q'. destruct (Nat.eqb _ _); auto.
    + left. split; auto. cbn [st_routes]. eapply LJoin; eauto.
  - (* neither *)
    destruct (create_ok st s None (Some c) None I Es) as [k [st' [E D]]]; try congruence.
    exists k, st'. split; [exact E |].
    destruct D as [[-> [D1 D2]] | [-> [D1 D2]]].
    + splits.
      * eapply inv_create; eauto; try congruence. intros c' X. split; congruence.
      * rewrite D1. intros q t Hq Ht Hn. apply in_app_iff in Hq.
        destruct Hq as [Hq | [<- | []]]; [right; eauto |].
        cbn in Ht |- *. destruct Ht as [<- | []]. auto.
      * rewrite D1. intros q y Hq Hy. apply in_app_iff in Hq.
        destruct Hq as [Hq | [<- | []]]; [eauto | cbn in Hy; congruence].
      * left. split; auto. rewrite D1. apply LNew; auto.
    + splits; auto; try (rewrite D1; auto). eapply inv_eq; eauto.
Qed.

(* ---- add_session and remove_session ---- *)

Lemma unlink_sub st s st' :
  inv st -> unlink_source st s = Ok st' ->
  forall r', In r' (st_routes st') -> exists r, In r (st_routes st) /\ r_id r' = r_id r /\
    r_addr r' = r_addr r /\ r_sess r' = r_sess r /\ r_cname r' = r_cname r /\
    incl (r_srcs r') (r_srcs r).
Proof.
  intros I H r' Hr'. destruct (unlink_ok st s I) as [st1 [E [En [E1 E2]]]].
  assert (st1 = st') by congruence. subst st1.
  destruct (by_src (st_routes st) s) as [r |] eqn:Es.
  2: { rewrite E2 in Hr' by auto. exists r'. splits; auto. apply incl_refl. }
  rewrite (E1 r eq_refl) in Hr'. destruct (Nat.eqb _ 0).
  - apply in_others in Hr'. exists r'. splits; try tauto. apply incl_refl.
  - apply in_on in Hr'. destruct Hr' as [q [Hq ->]]. exists q. splits; auto.
    all: destruct (Nat.eqb (r_id r) (r_id q)); auto using keeps_cut, incl_refl.
    all: try (unfold cut; destruct (keyz _ _); reflexivity).
    rewrite srcs_cut. apply incl_filter.
Qed.

Definition fill (x : nat) (a : Z) (q : route) : route :=
  w_sn (Some (Some x)) (w_sess (Some x) (w_an (Some (Some a)) (w_addr (Some a) q))).

Inductive add_ok (st : rstate) (x : nat) (s a : Z) : list route -> Prop :=
| AFill r : In r (st_routes st) -> In s (r_srcs r) -> r_addr r = None -> r_sess r = None ->
    add_ok st x s a (on (st_routes st) (r_id r) (fill x a))
| AMake st1 : unlink_source st s = Ok st1 ->
    (forall r, In r (st_routes st) -> In s (r_srcs r) -> r_sess r <> None) ->
    add_ok st x s a (st_routes st1 ++ [new_route (st_next st) s (Some a) None (Some x)]).

Lemma add_run st x s a :
  inv st ->
  exists k st', add_session st x s (Some a) = Ok (k, st') /\ inv st' /\
    prov (st_routes st) s [] (st_routes st') /\
    (forall r' y, In r' (st_routes st') -> r_sess r' = Some y ->
       (k = StOK /\ y = x) \/ exists r, In r (st_routes st) /\ r_sess r = Some y) /\
    ((k = StConflict /\ st' = st /\
      (by_addr (st_routes st) (Some a) <> None \/ by_sess (st_routes st) (Some x) <> None)) \/
     (by_addr (st_routes st) (Some a) = None /\ by_sess (st_routes st) (Some x) = None /\
      ((k = StOK /\ add_ok st x s a (st_routes st')) \/ k = StNoMem))).
Proof.
  intros I. unfold add_session. cbn [has is_none negb andb].
  assert (SAME : prov (st_routes st) s [] (st_routes st) /\
                 forall k r' y, In r' (st_routes st) -> r_sess r' = Some y ->
                 (k = StOK /\ y = x) \/ exists r, In r (st_routes st) /\ r_sess r = Some y).
  { split.
    - intros r t Hr Ht Hn. right. eauto.
    - intros. right. eauto. }
  destruct SAME as [SP SS].
  destruct (by_addr (st_routes st) (Some a)) eqn:Ea; cbn [is_none negb].
  { do 2 eexists; splits; [reflexivity | auto | auto | intros; right; eauto |]. left. splits; auto.
    left. congruence. }
  destruct (by_sess (st_routes st) (Some x)) eqn:Ex; cbn [has is_none negb].
  { do 2 eexists; splits; [reflexivity | auto | auto | intros; right; eauto |]. left. splits; auto.
    right. congruence. }
  assert (Na := proj1 (by_addr_none _ I a) Ea). assert (Nx := proj1 (by_sess_none _ I x) Ex).
  assert (MK : forall st1, unlink_source st s = Ok st1 ->
     (forall r, In r (st_routes st) -> In s (r_srcs r) -> r_sess r <> None) ->
     exists k st', create_route st1 s (Some a) None (Some x) = Ok (k, st') /\ inv st' /\
     prov (st_routes st) s [] (st_routes st') /\
    (forall r' y, In r' (st_routes st') -> r_sess r' = Some y ->
       (k = StOK /\ y = x) \/ exists r, In r (st_routes st) /\ r_sess r = Some y) /\
    ((k = StConflict /\ st' = st /\
      (@None route <> None \/ @None route <> None)) \/
     (@None route = None /\ @None route = None /\
      ((k = StOK /\ add_ok st x s a (st_routes st')) \/ k = StNoMem)))).
  { intros st1 Hu Hl. destruct (unlink_inv _ _ _ I Hu) as (I1 & N1 & P1 & S1 & F1).
    pose proof (unlink_sub _ _ _ I Hu) as U.
    assert (A1 : by_addr (st_routes st1) (Some a) = None).
    { apply by_addr_none; auto. intros r Hr X. destruct (U r Hr) as (q & Hq & _ & E & _).
      apply (Na q Hq). congruence. }
    assert (X1 : by_sess (st_routes st1) (Some x) = None).
    { apply by_sess_none; auto. intros r Hr X. destruct (U r Hr) as (q & Hq & _ & _ & E & _).
      apply (Nx q Hq). congruence. }
    destruct (create_ok st1 s (Some a) None (Some x) I1 F1) as (k & st' & E & D); auto;
      try congruence.
    exists k, st'. split; [exact E |].
    destruct D as [[-> [D1 D2]] | [-> [D1 D2]]].
    - splits.
      + eapply inv_create; eauto; congruence.
      + rewrite D1. intros r t Hr Ht Hn. apply in_app_iff in Hr.
        destruct Hr as [Hr | [<- | []]]; [apply P1; auto | cbn in Hn; congruence].
      + rewrite D1. intros r y Hr Hy. apply in_app_iff in Hr.
        destruct Hr as [Hr | [<- | []]].
        * right. eapply S1; eauto.
        * left. cbn in Hy. split; congruence.
      + right. splits; auto. left. split; auto. rewrite D1, N1. apply AMake; auto.
    - splits.
      + eapply inv_eq; eauto.
      + rewrite D1. auto.
      + rewrite D1. intros r y Hr Hy. right. eapply S1; eauto.
      + right. auto. }
  destruct (by_src (st_routes st) s) as [r |] eqn:Es.
  2: { apply MK.
       - unfold unlink_source. rewrite Es. auto.
       - intros r Hr Hs. exfalso. exact (proj1 (by_src_none _ I s) Es r Hr Hs). }
  pose proof Es as Es'. apply by_src_iff in Es'; auto. destruct Es' as [Hr Hs].
  destruct (is_none (r_addr r) && is_none (r_sess r)) eqn:Eb.
  2: { destruct (unlink_ok st s I) as [st1 [Hu _]]. rewrite Hu. cbn [bind].
       apply MK; auto. intros q Hq Hqs.
       assert (q = r) by (apply (same _ I); auto; apply I; auto; left; eauto). subst q.
       destruct (i_wf _ I r Hr) as (_ & _ & _ & _ & _ & W6). intro X.
       rewrite X in Eb. cbn in Eb. rewrite andb_true_r in Eb.
       destruct (r_addr r); [apply W6; congruence | discriminate Eb]. }
  clear MK. apply andb_true_iff in Eb. destruct Eb as [Eb1 Eb2].
  assert (Ar : r_addr r = None) by (destruct (r_addr r); [discriminate Eb1 | auto]).
  assert (Xr : r_sess r = None) by (destruct (r_sess r); [discriminate Eb2 | auto]).
  destruct (i_wf _ I r Hr) as (W1 & W2 & W3 & W4 & W5 & W6). rewrite Ar in W1. rewrite Xr in W3.
  assert (Wc : r_cname r <> []).
  { intro X. destruct W5 as (s' & y & b & _ & _ & T & _); auto; [| congruence].
    intro Y. rewrite Y in Hs. destruct Hs. }
  assert (B : by_id (st_routes st) (r_id r) = Some r) by (apply by_id_iff; auto).
  assert (RM : forall f n l st', keeps f ->
    remove_route (mkSt (on (st_routes st) (r_id r) f) n l) (r_id r) = Ok st' ->
    st' = mkSt (others (r_id r) (st_routes st)) n l).
  { intros f n l st' K X. rewrite (remove_route_ok _ _ (f r)) in X.
    - unfold set_routes in X. cbn [st_routes st_next st_oom] in X. rewrite others_on in X by auto.
      congruence.
    - cbn [st_routes]. apply by_id_on; auto. }
  assert (OT : forall n l k, n = st_next st ->
     inv (mkSt (others (r_id r) (st_routes st)) n l) /\
     prov (st_routes st) s [] (others (r_id r) (st_routes st)) /\
    (forall r' y, In r' (others (r_id r) (st_routes st)) -> r_sess r' = Some y ->
       (k = StOK /\ y = x) \/ exists r, In r (st_routes st) /\ r_sess r = Some y)).
  { intros n l k ->. splits.
    - apply (inv_remove st _ (r_id r)); auto.
    - intros q t Hq Ht Hn. apply in_others in Hq. right. exists q. tauto.
    - intros q y Hq Hy. apply in_others in Hq. right. exists q. tauto. }
  match goal with |- context [addr_insert ?z _] =>
    destruct (addr_insert_ok z (r_id r) (w_addr (Some a) r)) as [b1 [l1 E1]] end.
  { unfold modify, set_routes. cbn [st_routes]. apply by_id_on; auto. kp. }
  { auto. }
  { unfold modify, set_routes. cbn [st_routes r_addr w_addr]. apply find_none_all.
    intros q Hq. apply in_on in Hq. destruct Hq as [q' [Hq ->]].
    unfold by_addr in Ea. pose proof (find_none _ _ Ea q' Hq) as Z0. cbv beta in Z0.
    destruct (Nat.eqb _ _); exact Z0. }
  rewrite E1. cbn [bind fst snd]. unfold modify, set_routes.
  cbn [st_routes st_next st_oom r_addr w_addr].
  destruct b1; cbn [negb].
  2: { destruct (remove_route _ _) as [st' | |] eqn:Er.
       - apply RM in Er; [| kp]. subst st'. cbn [bind].
         do 2 eexists; split; [reflexivity |]. cbn [st_routes].
         destruct (OT (st_next st) l1 StNoMem eq_refl) as (O1 & O2 & O3). splits; auto 7.
       - exfalso. rewrite (remove_route_ok _ _ (w_addr (Some a) r)) in Er; [discriminate Er |].
         cbn [st_routes]. apply by_id_on; auto. kp.
       - exfalso. rewrite (remove_route_ok _ _ (w_addr (Some a) r)) in Er; [discriminate Er |].
         cbn [st_routes]. apply by_id_on; auto. kp. }
  rewrite on_on by kp. cbn [st_routes st_next st_oom]. rewrite on_on by kp.
  match goal with |- context [sess_insert (mkSt (on _ _ ?f) _ _) _] => set (f1 := f) end.
  match goal with |- context [sess_insert ?z _] =>
    destruct (sess_insert_ok z (r_id r) (f1 r)) as [b2 [l2 E2]] end.
  { cbn [st_routes]. apply by_id_on; auto. kp. }
  { auto. }
  { cbn [st_routes]. apply find_none_all.
    intros q Hq. apply in_on in Hq. destruct Hq as [q' [Hq ->]].
    unfold by_sess in Ex. pose proof (find_none _ _ Ex q' Hq) as Z0. cbv beta in Z0.
    destruct (Nat.eqb _ _); exact Z0. }
  rewrite E2. cbn [bind fst snd st_routes st_next].
  destruct b2; cbn [negb].
  2: { destruct (remove_route _ _) as [st' | |] eqn:Er.
       - apply RM in Er; [| kp]. subst st'. cbn [bind].
         do 2 eexists; split; [reflexivity |]. cbn [st_routes].
         destruct (OT (st_next st) l2 StNoMem eq_refl) as (O1 & O2 & O3). splits; auto 7.
       - exfalso. rewrite (remove_route_ok _ _ (f1 r)) in Er; [discriminate Er |].
         cbn [st_routes]. apply by_id_on; auto. kp.
       - exfalso. rewrite (remove_route_ok _ _ (f1 r)) in Er; [discriminate Er |].
         cbn [st_routes]. apply by_id_on; auto. kp. }
  rewrite on_on by kp.
  do 2 eexists; split; [reflexivity |]. cbn [st_routes].
  change (fun r0 : route => w_sn (Some (r_sess (f1 r))) (f1 r0)) with (fill x a).
  splits.
  - eapply inv_change with (st := st); [auto | reflexivity | reflexivity | kp | |].
    + intros q Hq Eq. assert (q = r) by (apply (same _ I); auto). subst q.
      unfold wf, fill; cbn. splits; auto; congruence.
    + intros q q' Hq Hq' X1 X2 Hcl. assert (q = r) by (apply (same _ I); auto). subst q.
      destruct Hcl as [Hcl | [[H1 H2] | [Hcl | [H1 H2]]]].
      * apply X2. symmetry. apply I; auto. left. exact Hcl.
      * cbn in H2. eapply Na; eauto.
      * apply X2. symmetry. apply I; auto. right; right; left. exact Hcl.
      * cbn in H2. eapply Nx; eauto.
  - intros q t Hq Ht Hn. apply in_on in Hq. destruct Hq as [q' [Hq ->]]. right. exists q'.
    destruct (Nat.eqb _ _); auto.
  - intros q y Hq Hy. apply in_on in Hq. destruct Hq as [q' [Hq ->]].
    destruct (Nat.eqb _ _); [left; cbn in Hy; split; congruence | right; eauto].
  - right. splits; auto. left. split; auto. apply AFill; auto.
Qed.

Lemma remove_run st x :
  inv st ->
  exists st', remove_session st x = Ok st' /\ inv st' /\ st_next st' = st_next st /\
    (forall r, by_sess (st_routes st) (Some x) = Some r ->
       st_routes st' = others (r_id r) (st_routes st)) /\
    (by_sess (st_routes st) (Some x) = None -> st' = st).
Proof.
  intro I. unfold remove_session. destruct (by_sess (st_routes st) (Some x)) as [r |] eqn:E.
  - pose proof E as E'. apply by_sess_iff in E'; auto.
    rewrite (remove_route_ok _ _ r) by (apply by_id_iff; tauto).
    eexists; splits; [reflexivity | | reflexivity | | congruence].
    + apply inv_others. auto.
    + intros r' X. assert (r' = r) by congruence. subst. reflexivity.
  - exists st. splits; auto. congruence.
Qed.

Lemma filter_len {A} (p : A -> bool) l : (length (filter p l) <= length l)%nat.
Proof. induction l; cbn; auto. destruct (p a); cbn; lia. Qed.

Lemma remove_all_ok n st :
  inv st -> (length (st_routes st) <= n)%nat ->
  exists st', remove_all n st = Ok st' /\ st_routes st' = [].
Proof.
  revert st. induction n as [| n IH]; intros st I L.
  - exists st. split; auto. destruct (st_routes st); auto. cbn in L. lia.
  - cbn [remove_all]. destruct (rev (st_routes st)) as [| r l] eqn:E.
    + exists st. split; auto. apply (f_equal (@rev _)) in E. rewrite rev_involutive in E. auto.
    + assert (Hr : In r (st_routes st)) by (apply in_rev; rewrite E; left; auto).
      rewrite (remove_route_ok _ _ r) by (apply by_id_iff; auto). cbn [bind].
      apply IH.
      * apply inv_others. auto.
      * cbn. assert (X : (length (others (r_id r) (st_routes st)) < length (st_routes st))%nat).
        { clear -Hr. unfold others. induction (st_routes st) as [| q l IH]; [destruct Hr |].
          cbn. destruct Hr as [<- | Hr].
          - rewrite Nat.eqb_refl. cbn. pose proof (filter_len (fun r => negb (Nat.eqb (r_id q) (r_id r))) l). lia.
          - specialize (IH Hr). destruct (negb _); cbn; lia. }
        lia.
Qed.

(* ---- histories ---- *)

(* The CNAME of a route is the one its SSRCs were last linked to. *)
Definition tied (h : list rop) (rs : list route) : Prop :=
  forall r s, In r rs -> In s (r_srcs r) -> r_cname r <> [] -> linked h s = Some (r_cname r).

(* Registered with success and not removed since; newest call first. *)
Fixpoint registered (h : list (rop * code)) (x : nat) : bool :=
  match h with
  | [] => false
  | (RAdd y _ _, StOK) :: h' => Nat.eqb y x || registered h' x
  | (RRemove y, _) :: h' => negb (Nat.eqb y x) && registered h' x
  | _ :: h' => registered h' x
  end.

Definition known (h : list (rop * code)) (rs : list route) : Prop :=
  forall r x, In r rs -> r_sess r = Some x -> registered h x = true.

Lemma step_run st h o :
  inv st -> tied (map fst h) (st_routes st) -> known h (st_routes st) ->
  polite (map fst h) o ->
  exists k st', rstep st o = Ok (k, st') /\ inv st' /\
    tied (o :: map fst h) (st_routes st') /\ known ((o, k) :: h) (st_routes st').
Proof.
  intros I T K P. destruct o as [x s a | x | s c | s]; cbn [rstep polite] in *.
  - destruct a as [a |]; [| congruence].
    destruct (add_run st x s a I) as (k & st' & E & I' & PV & SV & _).
    exists k, st'. splits; auto.
    + intros r t Hr Ht Hn. cbn. destruct (PV r t Hr Ht Hn) as [[-> X] | (q & Hq & Hqt & X)].
      * congruence.
      * rewrite <- X. apply T; auto. congruence.
    + intros r y Hr Hy. destruct (SV r y Hr Hy) as [[-> ->] | (q & Hq & X)].
      * cbn. rewrite Nat.eqb_refl. auto.
      * pose proof (K q y Hq X) as Z. cbn. destruct k; auto. rewrite Z, orb_true_r. auto.
  - destruct (remove_run st x I) as (st' & E & I' & _ & D1 & D2). rewrite E. cbn [bind].
    exists StOK, st'. splits; auto.
    + intros r t Hr Ht Hn. cbn. destruct (by_sess (st_routes st) (Some x)) as [q |].
      * rewrite (D1 q eq_refl) in Hr. apply in_others in Hr. apply T; tauto.
      * rewrite D2 in Hr by auto. apply T; auto.
    + intros r y Hr Hy. cbn.
      destruct (by_sess (st_routes st) (Some x)) as [q |] eqn:Eq.
      * rewrite (D1 q eq_refl) in Hr. apply in_others in Hr. destruct Hr as [Hr Hn].
        rewrite (K r y) by auto. rewrite andb_true_r. apply negb_true_iff.
        apply Nat.eqb_neq. intros ->. apply by_sess_iff in Eq; auto. apply Hn.
        apply I; auto; [tauto |]. right; right; right. destruct Eq. split; congruence.
      * rewrite D2 in Hr by auto. rewrite (K r y) by auto. rewrite andb_true_r.
        apply negb_true_iff. apply Nat.eqb_neq. intros ->.
        exact (proj1 (by_sess_none _ I y) Eq r Hr Hy).
  - destruct P as [P1 P2].
    destruct (link_run st s c I P1) as (k & st' & E & I' & PV & SV & _).
    { intros r Hr Hs. destruct (r_cname r) eqn:Ec; auto. right.
      assert (X : linked (map fst h) s = Some (r_cname r)) by (apply T; congruence || auto).
      destruct P2; congruence. }
    exists k, st'. splits; auto.
    + intros r t Hr Ht Hn. cbn. destruct (s =? t) eqn:Et.
      * apply Z.eqb_eq in Et. subst t.
        destruct (PV r s Hr Ht Hn) as [[_ X] | (q & Hq & Hqt & X)]; [congruence |].
        assert (Y : linked (map fst h) s = Some (r_cname q)) by (apply T; congruence || auto).
        destruct P2; congruence.
      * destruct (PV r t Hr Ht Hn) as [[X _] | (q & Hq & Hqt & X)].
        -- rewrite Z.eqb_neq in Et. congruence.
        -- rewrite <- X. apply T; congruence || auto.
    + intros r y Hr Hy. destruct (SV r y Hr Hy) as (q & Hq & X). cbn. eapply K; eauto.
  - destruct (unlink_ok st s I) as (st' & E & _). rewrite E. cbn [bind].
    destruct (unlink_inv _ _ _ I E) as (I' & _ & PV & SV & F).
    exists StOK, st'. splits; auto.
    + intros r t Hr Ht Hn. cbn. destruct (s =? t) eqn:Et.
      * apply Z.eqb_eq in Et. subst t. exfalso.
        exact (proj1 (by_src_none _ I' s) F r Hr Ht).
      * destruct (PV r t Hr Ht Hn) as [[X _] | (q & Hq & Hqt & X)].
        -- rewrite Z.eqb_neq in Et. congruence.
        -- rewrite <- X. apply T; congruence || auto.
    + intros r y Hr Hy. destruct (SV r y Hr Hy) as (q & Hq & X). cbn. eapply K; eauto.
Qed.
