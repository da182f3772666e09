From Verif Require Import Base Base_lemmas Router_model Router_spec.

Lemma has_all_land need have : N.land need have = need <-> has_all need have.
Proof.
  unfold has_all. split.
  - intros E b Hb. rewrite <- E in Hb. rewrite N.land_spec in Hb. apply andb_true_iff in Hb. tauto.
  - intros H. apply N.bits_inj. intros b. rewrite N.land_spec.
    destruct (N.testbit need b) eqn:E; auto. rewrite (H b E). reflexivity.
Qed.

Lemma find_route_spec rs p :
  match find_route rs (rp_flags p) with
  | Some i => first_match (map rt_flags rs) p i
  | None => forall i, ~ first_match (map rt_flags rs) p i
  end.
Proof.
  induction rs as [|r t IH]; cbn [find_route map].
  - intros i (need & E & _). destruct i; discriminate.
  - destruct (N.eqb_spec (N.land (rt_flags r) (rp_flags p)) (rt_flags r)) as [E|E].
    + exists (rt_flags r). split; [reflexivity|]. split; [apply has_all_land; auto|]. intros; lia.
    + assert (NH : ~ has_all (rt_flags r) (rp_flags p)) by (intros H; apply has_all_land in H; congruence).
      destruct (find_route t (rp_flags p)) as [i|]; cbn [option_map].
      * destruct IH as (need & E1 & E2 & E3). exists need. split; [exact E1|]. split; [exact E2|].
        intros [|j] need' Hj En; cbn in En. { inversion En; subst; auto. } eapply E3; eauto. lia.
      * intros [|i] (need & E1 & E2 & E3); cbn in E1. { inversion E1; subst; auto. }
        apply (IH i). exists need. split; auto. split; auto.
        intros j need' Hj En. apply (E3 (S j)); auto. lia.
Qed.

Lemma first_match_fun table p i j : first_match table p i -> first_match table p j -> i = j.
Proof.
  intros (n1 & A1 & A2 & A3) (n2 & B1 & B2 & B3).
  destruct (Nat.lt_total i j) as [L|[E|L]]; auto.
  - exfalso. eapply B3; eauto.
  - exfalso. eapply A3; eauto.
Qed.

Lemma first_match_dec table p i : first_match table p i \/ ~ first_match table p i.
Proof.
  pose proof (find_route_spec (map (fun f => mkRoute f 0 false false) table) p) as H.
  rewrite map_map in H. cbn in H. rewrite map_id in H.
  destruct (find_route _ _) as [j|].
  - destruct (Nat.eq_dec i j) as [->|N]; auto. right. intros X. apply N. eapply first_match_fun; eauto.
  - right. apply H.
Qed.

(** Route state after history h. *)
Definition route_ok (table : list N) (h : list rpkt) (i : nat) (r : route) : Prop :=
  nth_error table i = Some (rt_flags r) /\
  ((rt_started r = false /\ rt_has_source r = false /\ forall x, In x h -> ~ first_match table x i)
   \/ (rt_started r = true /\ exists q, owner table h i q /\
       rp_src q = if rt_has_source r then Some (rt_source r) else None)).

Definition inv (table : list N) (h : list rpkt) (rs : list route) : Prop :=
  map rt_flags rs = table /\ forall i r, nth_error rs i = Some r -> route_ok table h i r.

Lemma owner_snoc_old table h p i q : owner table h i q -> owner table (h ++ [p]) i q.
Proof.
  intros (a & b & -> & H1 & H2). exists a, (b ++ [p]). rewrite <- app_assoc. auto.
Qed.

Lemma owner_fun table h i q1 q2 : owner table h i q1 -> owner table h i q2 -> q1 = q2.
Proof.
  intros (a & b & E1 & F1 & N1) (c & d & E2 & F2 & N2). subst h.
  revert c E2 N1 N2. induction a as [|x a IH]; intros c E2 N1 N2.
  - destruct c as [|y c]; cbn in E2; inversion E2; subst; auto.
    exfalso. apply (N2 y); [left; auto|auto].
  - destruct c as [|y c]; cbn in E2; inversion E2; subst.
    + exfalso. apply (N1 q2); [left; auto|auto].
    + eapply IH; eauto; intros z Hz; [apply N1|apply N2]; right; auto.
Qed.

Lemma owner_new table h p i :
  (forall x, In x h -> ~ first_match table x i) -> first_match table p i -> owner table (h ++ [p]) i p.
Proof. intros H1 H2. exists h, []. auto. Qed.

Lemma write_ok table h rs p :
  inv table h rs ->
  inv table (h ++ [p]) (fst (router_write rs p)) /\
  (forall i, snd (router_write rs p) = Some i <-> delivered table h p i).
Proof.
  intros [HT HI]. unfold router_write.
  pose proof (find_route_spec rs p) as HF. rewrite HT in HF.
  destruct (find_route rs (rp_flags p)) as [i|].
  2:{ cbn. split.
      - split; auto. intros i r Er. destruct (HI i r Er) as [A [(B1 & B2 & B3)|(B1 & q & B2 & B3)]]; split; auto.
        + left. split; auto. split; auto. intros x Hx. apply in_app_or in Hx as [Hx|[<-|[]]]; auto.
        + right. split; auto. exists q. split; auto. apply owner_snoc_old; auto.
      - intros i. split; [discriminate|]. intros [H _]. exfalso. eapply HF; eauto. }
  destruct (nth_error rs i) as [r|] eqn:Er.
  2:{ exfalso. destruct HF as (need & E & _). rewrite <- HT, nth_error_map, Er in E. discriminate. }
  assert (Hi : (i < length rs)%nat) by (apply nth_error_Some; congruence).
  destruct (HI i r Er) as [HA HB].
  (* characterise the verdict *)
  assert (HV : exists r' ok, allow_route r p = (r', ok) /\ rt_flags r' = rt_flags r /\
     route_ok table (h ++ [p]) i r' /\ (ok = true <-> exists q, owner table (h ++ [p]) i q /\ rp_src q = rp_src p)).
  { destruct HB as [(S1 & S2 & S3)|(S1 & q & S2 & S3)].
    - unfold allow_route. rewrite S1, S2.
      assert (OW : owner table (h ++ [p]) i p) by (apply owner_new; auto).
      destruct (rp_src p) as [s|] eqn:Es; eexists; eexists; (split; [reflexivity|]); cbn [rt_flags];
        (split; [reflexivity|]); (split; [split; [exact HA|right; cbn; split; [reflexivity|exists p; auto]]|]);
        split; auto; intros _; exists p; auto.
    - assert (OW : owner table (h ++ [p]) i q) by (apply owner_snoc_old; auto).
      assert (RO : route_ok table (h ++ [p]) i r).
      { split; auto. right. split; auto. exists q; auto. }
      exists r, (match rp_src q, rp_src p with Some a, Some b => Z.eqb a b | None, None => true | _, _ => false end).
      split.
      { unfold allow_route. rewrite S1, S3. destruct (rp_src p), (rt_has_source r); auto.
        destruct (Z.eqb (rt_source r) z); reflexivity. }
      split; auto. split; auto. split.
      + intros Hk. exists q. split; auto. destruct (rp_src q), (rp_src p); try discriminate; auto.
        apply Z.eqb_eq in Hk. congruence.
      + intros (q' & O' & E'). assert (q' = q) as -> by (eapply owner_fun; eauto).
        rewrite E'. destruct (rp_src p); auto. apply Z.eqb_refl. }
  destruct HV as (r' & ok & EA & EF & RO & HK). rewrite EA. cbn [fst snd]. split.
  - split.
    + rewrite <- HT. apply nth_error_ext. intros k. rewrite !nth_error_map.
      destruct (Nat.eq_dec i k) as [->|N].
      * rewrite nth_error_upd_eq, Er by auto. cbn. congruence.
      * rewrite nth_error_upd_neq by auto. reflexivity.
    + intros k rk Ek. destruct (Nat.eq_dec i k) as [->|N].
      * rewrite nth_error_upd_eq in Ek by auto. inversion Ek; subst. auto.
      * rewrite nth_error_upd_neq in Ek by auto.
        destruct (HI k rk Ek) as [A [(B1 & B2 & B3)|(B1 & q & B2 & B3)]]; split; auto.
        -- left. split; auto. split; auto. intros x Hx. apply in_app_or in Hx as [Hx|[<-|[]]]; auto.
           intros X. apply N. eapply first_match_fun; eauto.
        -- right. split; auto. exists q. split; auto. apply owner_snoc_old; auto.
  - intros k. split.
    + intros E. destruct ok; inversion E; subst. split; auto. apply HK; auto.
    + intros (F & q & O & E). assert (k = i) as -> by (eapply first_match_fun; eauto).
      replace ok with true; auto. symmetry. apply HK. eauto.
Qed.

Lemma run_ok table : forall ps h rs, inv table h rs ->
  inv table (h ++ ps) (fst (router_run rs ps)) /\
  forall a p b, ps = a ++ p :: b ->
  forall i, nth_error (snd (router_run rs ps)) (length a) = Some (Some i) <-> delivered table (h ++ a) p i.
Proof.
  induction ps as [|p ps IH]; intros h rs HI.
  - cbn. rewrite app_nil_r. split; auto. intros a q b E. destruct a; discriminate.
  - cbn [router_run]. destruct (write_ok table h rs p HI) as [H1 H2].
    destruct (router_write rs p) as [rs1 o]. cbn [fst snd] in *.
    destruct (IH (h ++ [p]) rs1 H1) as [H3 H4]. destruct (router_run rs1 ps) as [rs2 os]. cbn [fst snd] in *.
    split. { rewrite <- app_assoc in H3. exact H3. }
    intros [|x a] q b E i; cbn in E; inversion E; subst; cbn [length nth_error].
    + rewrite app_nil_r. rewrite <- H2. split; congruence.
    + rewrite (H4 a q b eq_refl i). rewrite <- app_assoc. reflexivity.
Qed.

Lemma new_inv flags : inv flags [] (router_new flags).
Proof.
  assert (E : forall l acc, fold_left router_add l acc = acc ++ map (fun f => mkRoute f 0 false false) l).
  { induction l as [|f l IH]; intros acc; cbn. { rewrite app_nil_r; auto. }
    rewrite IH. unfold router_add. rewrite <- app_assoc. reflexivity. }
  unfold router_new. rewrite E. cbn [app]. split.
  - rewrite map_map. cbn. apply map_id.
  - intros i r Er. rewrite nth_error_map in Er. destruct (nth_error flags i) as [f|] eqn:Ef; inversion Er; subst.
    split; auto.
Qed.

Lemma run_delivery flags ps a p b i :
  ps = a ++ p :: b ->
  nth_error (snd (router_run (router_new flags) ps)) (length a) = Some (Some i) <-> delivered flags a p i.
Proof. intros E. exact (proj2 (run_ok flags ps [] _ (new_inv flags)) a p b E i). Qed.

Lemma same_source flags ps a1 p1 b1 a2 p2 b2 i :
  ps = a1 ++ p1 :: b1 -> ps = a2 ++ p2 :: b2 ->
  nth_error (snd (router_run (router_new flags) ps)) (length a1) = Some (Some i) ->
  nth_error (snd (router_run (router_new flags) ps)) (length a2) = Some (Some i) ->
  rp_src p1 = rp_src p2.
Proof.
  intros E1 E2 H1 H2.
  apply (run_delivery flags ps a1 p1 b1 i E1) in H1. apply (run_delivery flags ps a2 p2 b2 i E2) in H2.
  destruct H1 as (_ & q1 & O1 & S1). destruct H2 as (_ & q2 & O2 & S2).
  assert (L1 : owner flags ps i q1).
  { destruct O1 as (x & y & E & F & N). subst ps.
    replace (a1 ++ p1 :: b1) with ((a1 ++ [p1]) ++ b1) by (rewrite <- app_assoc; auto).
    rewrite E. exists x, (y ++ b1). rewrite <- app_assoc. auto. }
  assert (L2 : owner flags ps i q2).
  { destruct O2 as (x & y & E & F & N). rewrite E2.
    replace (a2 ++ p2 :: b2) with ((a2 ++ [p2]) ++ b2) by (rewrite <- app_assoc; auto).
    rewrite E. exists x, (y ++ b2). rewrite <- app_assoc. auto. }
  rewrite <- S1, <- S2. f_equal. eapply owner_fun; eauto.
Qed.

Lemma length_run : forall ps rs, length (snd (router_run rs ps)) = length ps.
Proof.
  induction ps as [|p ps IH]; intros rs; cbn; auto.
  destruct (router_write rs p) as [rs1 o]. specialize (IH rs1). destruct (router_run rs1 ps). cbn in *. auto.
Qed.
