(* Histories of a session group together with the reporter that drives it. *)
From Coq Require Import ZArith List Bool Lia.
From Verif Require Import Base SessRouter_model SessRouter_spec SessRouter_proof SessRouterRef_proof.
From Verif Require Import SessGroup_model SessGroup_spec SessGroup_proof.
From Verif Require Reporter_model Reporter_proof ReporterNames_proof.
Import ListNotations.
Local Open Scope Z_scope.
Local Open Scope res_scope.

Notation nm := ReporterNames_proof.nm.

(* Names in the router come from the reporter. *)
Definition named (t : Reporter_model.tab) (s : Z) (c : list Z) : Prop :=
  exists z h, nm t s = Some (z, h) /\ z <> 0 /\ c = name_of z.

Lemma name_some z : z <> 0 -> name_of z <> [].
Proof. unfold name_of. intros H. destruct (z =? 0) eqn:E; [apply Z.eqb_eq in E; tauto | discriminate]. Qed.

Lemma cname_in_nm t s z h : nm t s = Some (z, h) -> cname_in t s = name_of z.
Proof.
  unfold nm, cname_in. destruct (Reporter_model.get t s); intros H; [cbn in H; congruence | discriminate H].
Qed.

Record ninv (routing : bool) (ids : list Z) (n : node) : Prop := {
  ni_group : ginv (n_group n);
  ni_few : few routing (n_group n);
  ni_rep : Reporter_proof.rok False (n_rep n);
  ni_names : holds (named (Reporter_model.r_tab (n_rep n))) (n_group n);
  ni_anon : forall id, nm (Reporter_model.r_tab (n_rep n)) id <> Some (0, true);
  ni_ids : forall id, In id ids -> exists c h, nm (Reporter_model.r_tab (n_rep n)) id = Some (c, h) /\ c <> 0
}.

Lemma holds_mono (P Q : Z -> list Z -> Prop) g : (forall s c, P s c -> Q s c) -> holds P g -> holds Q g.
Proof. intros I H r s Hr Hs Hc. apply I. apply H; auto. Qed.

Lemma tell_halts routing t' ns : forall hs g (P : Z -> list Z -> Prop), ginv g -> few routing g -> holds P g ->
  exists g', tell t' (map Reporter_model.Halt hs ++ ns) g = tell t' ns g' /\ ginv g' /\ few routing g' /\
    holds (fun s c => ~ In s hs /\ P s c) g'.
Proof.
  induction hs as [| s hs IH]; intros g P G F H; cbn [map app tell].
  - exists g. splits; auto. eapply holds_mono; [| exact H]. intros; split; auto.
  - destruct (halt_ok P g s G H) as (g1 & E1 & G1 & H1 & L1). rewrite E1. cbn [bind].
    destruct (IH g1 _ G1 (fun R => Nat.le_trans _ _ _ L1 (F R)) H1) as (g' & E & G' & F' & H').
    exists g'. splits; auto. eapply holds_mono; [| exact H']. cbn. intros x c (X1 & X2 & X3). split; auto.
    intros [-> | X]; auto.
Qed.

Lemma tell_notifies routing t' : (forall id, nm t' id <> Some (0, true)) ->
  forall ns g, ginv g -> few routing g -> holds (named t') g ->
  (forall id, ~ In (Reporter_model.Halt id) ns) ->
  (forall id, In (Reporter_model.NotifyRecv id) ns -> exists c, nm t' id = Some (c, true)) ->
  exists g', tell t' ns g = Ok g' /\ ginv g' /\ few routing g' /\ holds (named t') g'.
Proof.
  intros A. induction ns as [| e ns IH]; intros g G F H Hh Hn; cbn [tell].
  - exists g. splits; auto.
  - assert (IH' : forall g1, ginv g1 -> few routing g1 -> holds (named t') g1 ->
      exists g', tell t' ns g1 = Ok g' /\ ginv g' /\ few routing g' /\ holds (named t') g').
    { intros g1 G1 F1 H1. apply IH; auto. intros id Hi. apply (Hh id). right; auto. intros id Hi. apply Hn. right; auto. }
    destruct e as [s | | s | |]; try (apply IH'; auto; fail).
    + exfalso. apply (Hh s). left; auto.
    + destruct (Hn s (or_introl eq_refl)) as (z & Ez).
      assert (Z0 : z <> 0) by (intros ->; exact (A s Ez)).
      rewrite (cname_in_nm _ _ _ _ Ez).
      destruct (notify_ok (named t') g s (name_of z) G H (name_some z Z0)) as (k & x & g1 & E & G1 & H1 & L & _).
      { intros d (z' & h' & E' & _ & ->). congruence. }
      rewrite E. cbn [bind fst snd].
      assert (H2 : holds (named t') g1).
      { eapply holds_mono; [| exact H1]. intros u c [X | (-> & ->)]; auto. exists z, true. auto. }
      assert (F1 : few routing g1) by (intro R; specialize (F R); lia).
      destruct k; [apply IH'; auto | exists g1; splits; auto | exists g1; splits; auto].
Qed.

Lemma introduced_app l1 : forall ids l2, introduced ids (l1 ++ l2) -> introduced ids l1.
Proof.
  induction l1 as [| o l1 IH]; intros ids l2 H; cbn [introduced app] in *; auto.
  destruct o; try (eapply IH; eauto; fail). split; [tauto | eapply IH; apply H].
Qed.

(* SSRCs named so far, after [o] *)
Definition next_ids (ids : list Z) (o : Reporter_model.rop) : list Z :=
  match o with
  | Reporter_model.RBeginP _ _ _ | Reporter_model.RBeginG _ _ | Reporter_model.REndP | Reporter_model.REndG _ => []
  | Reporter_model.RCname ok id name =>
      if ok && negb (name =? 0) then id :: ids else filter (fun x => negb (x =? id)) ids
  | Reporter_model.RBye id => filter (fun x => negb (x =? id)) ids
  | _ => ids
  end.
Lemma introduced_cons ids o l : introduced ids (o :: l) ->
  introduced (next_ids ids o) l /\ (forall ok id ts, o = Reporter_model.RSr ok id ts -> In id ids).
Proof. destruct o; cbn [introduced next_ids]; intros H; split; try tauto; intros; try discriminate; try tauto. destruct H; congruence. Qed.

Lemma report_ok fuel routing c ids n o r' ev : ninv routing ids n ->
  (forall ok id ts, o = Reporter_model.RSr ok id ts -> In id ids) ->
  Reporter_model.r_step fuel c (n_rep n) o = Ok (Some (r', ev)) ->
  exists g', tell (Reporter_model.r_tab r') ev (n_group n) = Ok g' /\ ninv routing (next_ids ids o) (mkN g' r').
Proof.
  intros N Hsr E.
  destruct (ReporterNames_proof.step_names _ _ _ _ _ _ (ni_rep _ _ _ N) E) as ([K A Hh C] & (hs & ns & -> & T1 & T2)).
  assert (HT : forall id, In (Reporter_model.Halt id) (map Reporter_model.Halt hs ++ ns) -> In id hs).
  { intros id Hi. apply in_app_or in Hi. destruct Hi as [Hi | Hi]; [| destruct (T1 id Hi)].
    apply in_map_iff in Hi. destruct Hi as (y & Ey & Hy). congruence. }
  assert (A' : forall id, nm (Reporter_model.r_tab r') id <> Some (0, true)).
  { intros id X. destruct (A id X) as [Y | ((ok & ts & ->) & Y)]; [exact (ni_anon _ _ _ N id Y) |].
    destruct (ni_ids _ _ _ N id (Hsr _ _ _ eq_refl)) as (z & h & Ez & Z0). exact (Z0 (Y _ _ Ez)). }
  destruct (tell_halts routing (Reporter_model.r_tab r') ns hs (n_group n) _ (ni_group _ _ _ N) (ni_few _ _ _ N) (ni_names _ _ _ N))
    as (g1 & E1 & G1 & F1 & H1).
  assert (H2 : holds (named (Reporter_model.r_tab r')) g1).
  { eapply holds_mono; [| exact H1]. intros s cc (X & z & h & Ez & Z0 & ->).
    destruct (K s z h Ez Z0) as [(h' & Y) | Y]; [exists z, h'; auto | destruct (X (HT s Y))]. }
  destruct (tell_notifies routing _ A' ns g1 G1 F1 H2 T1 T2) as (g' & E' & G' & F' & H').
  exists g'. split; [rewrite E1; exact E' |]. split; cbn [n_group n_rep]; auto.
  - apply (Reporter_proof.step_ok False _ _ _ _ _ _ (ni_rep _ _ _ N)) in E; [exact E |]. destruct o; cbn; auto; intros [].
  - intros id Hi.
    assert (KEEP : In id ids -> (o = Reporter_model.RBye id -> False) ->
      (forall ok nn, o = Reporter_model.RCname ok id nn -> False) -> o <> Reporter_model.REndP ->
      (forall l, o <> Reporter_model.REndG l) -> exists cc h, nm (Reporter_model.r_tab r') id = Some (cc, h) /\ cc <> 0).
    { intros X1 X2 X3 X4 X5. destruct (ni_ids _ _ _ N id X1) as (z & h & Ez & Z0).
      destruct (K id z h Ez Z0) as [(h' & Y) | Y]; [exists z, h'; auto |].
      destruct (Hh id Y) as [Y1 | [(ok & nn & Y1) | [Y1 | (l & Y1)]]]; exfalso; [exact (X2 Y1) | exact (X3 _ _ Y1) | exact (X4 Y1) | exact (X5 _ Y1)]. }
    destruct o; cbn [next_ids] in Hi; try (destruct Hi; fail); try (apply KEEP; auto; intros; discriminate).
    + destruct (ok && negb (name =? 0)) eqn:B.
      * apply andb_true_iff in B. destruct B as [-> B]. apply negb_true_iff, Z.eqb_neq in B.
        destruct (Z.eq_dec id id0) as [-> | Hne].
        -- destruct (C id0 name eq_refl B) as (h & Y). exists name, h. auto.
        -- destruct Hi as [-> | Hi]; [congruence |]. apply KEEP; auto; intros; congruence.
      * apply filter_In in Hi. destruct Hi as [Hi Hne]. apply negb_true_iff, Z.eqb_neq in Hne.
        apply KEEP; auto; intros; congruence.
    + apply filter_In in Hi. destruct Hi as [Hi Hne]. apply negb_true_iff, Z.eqb_neq in Hne.
      apply KEEP; auto; intros; congruence.
Qed.

Lemma ninv_group routing ids n g : ninv routing ids n -> ginv g -> few routing g ->
  holds (named (Reporter_model.r_tab (n_rep n))) g -> ninv routing ids (mkN g (n_rep n)).
Proof. intros N G F H. destruct N. split; auto. Qed.

(* Steps other than reports *)
Lemma quiet_ok fuel routing c ids n o : ninv routing ids n -> (forall r, o <> NReport r) ->
  exists f g', n_step fuel routing c n o = Ok (Some (f, mkN g' (n_rep n))) /\ ninv routing ids (mkN g' (n_rep n)).
Proof.
  intros N Hr. pose proof (ni_group _ _ _ N) as G. pose proof (ni_few _ _ _ N) as F. pose proof (ni_names _ _ _ N) as H.
  destruct o as [made took p | r | alive rtcp | alive]; cbn [n_step].
  - destruct (route_ok routing made took (n_group n) p G F) as (f & g' & E & G' & F' & H' & _). rewrite E. cbn [bind fst snd].
    exists [f], g'. split; auto. apply ninv_group; auto.
  - destruct (Hr r eq_refl).
  - unfold refresh_sessions.
    destruct (refresh_ok alive (g_sess (n_group n)) rtcp (n_group n) G (gi_nodup _ G) (incl_refl _)) as (d & g' & E & G' & _ & _ & I & L & _).
    rewrite E. cbn [bind fst snd]. exists [], g'. split; auto. apply ninv_group; auto.
    + intro R. specialize (F R). lia.
    + eapply holds_incl; eauto.
  - unfold reclock_sessions. rewrite (reclock_refresh alive _ _ 0).
    destruct (refresh_ok (fun x => if alive x then Some 0 else None) (g_sess (n_group n)) 0 (n_group n) G (gi_nodup _ G) (incl_refl _))
      as (d & g' & E & G' & _ & _ & I & L & _).
    rewrite E. cbn [bind fst snd]. exists [], g'. split; auto. apply ninv_group; auto.
    + intro R. specialize (F R). lia.
    + eapply holds_incl; eauto.
Qed.

Lemma run_fine fuel routing c : forall l ids n r ev, ninv routing ids n -> introduced ids (reports l) ->
  Reporter_model.r_run fuel c (n_rep n) (reports l) = Ok (Some (r, ev)) ->
  exists f n' ids', n_run fuel routing c n l = Ok (Some (f, n')) /\ n_rep n' = r /\ ninv routing ids' n'.
Proof.
  induction l as [| o l IH]; intros ids n r ev N I E.
  - cbn in E. injection E as <- <-. exists [], n, ids. auto.
  - assert (X : (exists q, o = NReport q) \/ forall q, o <> NReport q).
    { destruct o; try (right; intros; discriminate). left; eauto. }
    destruct X as [(q & ->) | X].
    + cbn [reports] in *. apply introduced_cons in I. destruct I as [I1 I2].
      apply Reporter_proof.run_cons in E. destruct E as (r1 & e1 & e2 & E1 & E2 & ->).
      destruct (report_ok fuel routing c ids n q r1 e1 N I2 E1) as (g1 & T1 & N1).
      destruct (IH _ (mkN g1 r1) r e2 N1 I1 E2) as (f & n' & ids' & R & Hn & N').
      exists f, n', ids'. splits; auto. cbn [n_run n_step]. rewrite E1. cbn [bind fst snd]. rewrite T1. cbn [bind fst snd]. rewrite R. reflexivity.
    + destruct (quiet_ok fuel routing c ids n o N X) as (f1 & g1 & E1 & N1).
      assert (ER : reports (o :: l) = reports l) by (destruct o; auto; destruct (X o eq_refl)).
      rewrite ER in *.
      destruct (IH _ (mkN g1 (n_rep n)) r ev N1 I E) as (f & n' & ids' & R & Hn & N').
      exists (f1 ++ f), n', ids'. splits; auto. cbn [n_run]. rewrite E1. cbn [bind fst snd]. rewrite R. reflexivity.
Qed.

Lemma ninv_new routing oom local : ninv routing [] (n_new oom local).
Proof.
  split; cbn.
  - apply ginv_new.
  - intros _. cbn. lia.
  - apply Reporter_proof.new_ok.
  - intros r s [].
  - intros id X. discriminate X.
  - intros id [].
Qed.

(* ---- Runs that reached their end ---- *)

Lemma n_run_app fuel routing c : forall l1 l2 n f n2, n_run fuel routing c n (l1 ++ l2) = Ok (Some (f, n2)) ->
  exists f1 n1 f2, n_run fuel routing c n l1 = Ok (Some (f1, n1)) /\ n_run fuel routing c n1 l2 = Ok (Some (f2, n2)) /\ f = f1 ++ f2.
Proof.
  induction l1 as [| o l1 IH]; intros l2 n f n2 H; cbn [app n_run] in *.
  - exists [], n, f. auto.
  - destruct (n_step fuel routing c n o) as [[[f0 n0] |] | |]; try discriminate H. cbn [bind fst snd] in *.
    destruct (n_run fuel routing c n0 (l1 ++ l2)) as [[[f1 n1] |] | |] eqn:E; try discriminate H. cbn [bind] in H. injection H as <- <-.
    destruct (IH _ _ _ _ E) as (fa & na & fb & Ea & Eb & ->).
    exists (f0 ++ fa), na, fb. rewrite Ea. cbn [bind fst snd]. rewrite app_assoc. auto.
Qed.
