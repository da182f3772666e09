From Coq Require Import ZArith List Bool Lia Arith.
From Verif Require Import Base RecvState_model RecvState_spec.
Import ListNotations.
Local Open Scope Z_scope.

Lemma filter_app_len {A} (f : A -> bool) l1 l2 :
  length (filter f (l1 ++ l2)) = (length (filter f l1) + length (filter f l2))%nat.
Proof. rewrite filter_app, app_length. reflexivity. Qed.

Lemma written_app a b : written (a ++ b) = (written a + written b)%nat.
Proof. apply filter_app_len. Qed.
Lemma routed_app a b : routed (a ++ b) = (routed a + routed b)%nat.
Proof. apply filter_app_len. Qed.
Lemma malformed_app a b : malformed (a ++ b) = (malformed a + malformed b)%nat.
Proof. apply filter_app_len. Qed.
Lemma lost_app a b : lost (a ++ b) = (lost a + lost b)%nat.
Proof. apply filter_app_len. Qed.
Lemma left_app e a b : left_queue e (a ++ b) = left_queue e a ++ left_queue e b.
Proof. apply flat_map_app. Qed.

Lemma sessions_from_app es es' n :
  sessions_from n (es ++ es') = sessions_from (sessions_from n es) es'.
Proof. revert n. induction es as [|[]]; intros; cbn; auto. Qed.

Lemma sessions_app es es' : sessions (es ++ es') = sessions_from (sessions es) es'.
Proof. apply sessions_from_app. Qed.

Lemma accepted_from_app es es' pc e :
  accepted_from pc e (es ++ es') = accepted_from pc e es ++ accepted_from (writing_from pc es) e es'.
Proof.
  revert pc. induction es as [|[]]; intros; cbn; auto.
  rewrite IHes, app_assoc. reflexivity.
Qed.

Lemma writing_app es es' pc : writing_from pc (es ++ es') = writing_from (writing_from pc es) es'.
Proof. revert pc. induction es as [|[]]; intros; cbn; auto. Qed.

(* what is in the hands of the pipeline thread *)
Definition hand (e : nat) (f : phase) : list item :=
  match f with
  | Popped e' p | Parsed e' p | Routed e' p => if Nat.eqb e' e then [p] else []
  | _ => []
  end.
Definition nhand (f : phase) : Z :=
  match f with Popped _ _ | Parsed _ _ | Routed _ _ => 1 | _ => 0 end.
Definition qlist (s : st) (e : nat) : list item :=
  match qs s e with Some l => l | None => [] end.

Record inv (es : list ev) (os : list out) (s : st) : Prop := {
  iv_pend : pend s = Z.of_nat (written es) - Z.of_nat (routed os);
  iv_sess : sess s = sessions es;
  iv_pos : 0 <= sess s;
  iv_pc : forall w, wr s w = writing es w;
  iv_ep : forall w e p, wr s w = Some (e, p) -> qs s e <> None;
  iv_fifo : forall e, accepted e es = left_queue e os ++ hand e (ph s) ++ qlist s e;
  iv_asked : ph s = Asked -> sess s = 0
}.

Fixpoint total (s : st) (E : list nat) : Z :=
  match E with [] => 0 | e :: E => Z.of_nat (length (qlist s e)) + total s E end.

Record cnt (es : list ev) (os : list out) (s : st) (W E : list nat) : Prop := {
  ct_W : NoDup W;
  ct_w : forall w, In w W <-> wr s w <> None;
  ct_E : NoDup E;
  ct_e : forall e, In e E <-> qs s e <> None;
  ct_sum : Z.of_nat (written es) =
           Z.of_nat (routed os) + Z.of_nat (malformed os) + Z.of_nat (lost os) +
           nhand (ph s) + Z.of_nat (length W) + total s E
}.

Lemma fupd_eq {A} (f : nat -> A) x a : fupd f x a x = a.
Proof. unfold fupd. now rewrite Nat.eqb_refl. Qed.
Lemma fupd_ne {A} (f : nat -> A) x y a : y <> x -> fupd f x a y = f y.
Proof. unfold fupd. intros. destruct (Nat.eqb_spec y x); congruence. Qed.

Lemma total_ext s s' E : (forall e, In e E -> qlist s' e = qlist s e) -> total s' E = total s E.
Proof.
  induction E; intros H; cbn; auto. rewrite H by (left; auto).
  rewrite IHE; auto. intros; apply H; right; auto.
Qed.

Lemma total_upd s s' E e :
  NoDup E -> In e E -> (forall x, x <> e -> qlist s' x = qlist s x) ->
  total s' E = total s E - Z.of_nat (length (qlist s e)) + Z.of_nat (length (qlist s' e)).
Proof.
  induction E as [|x E IH]; intros N I H; [destruct I|].
  inversion N; subst. cbn. destruct (Nat.eq_dec x e) as [->|D].
  - rewrite (total_ext s s' E). lia. intros y Hy. apply H. intros ->. contradiction.
  - destruct I as [->|I]; [congruence|]. rewrite (IH H3 I H), (H x D). lia.
Qed.

Lemma total_nonneg s E : 0 <= total s E.
Proof. induction E; cbn; lia. Qed.

Lemma remove_len (l : list nat) x : NoDup l -> In x l -> 
  Z.of_nat (length (remove Nat.eq_dec x l)) = Z.of_nat (length l) - 1.
Proof.
  induction l as [|y l IH]; intros N I; [destruct I|]. inversion N; subst. cbn [remove].
  destruct (Nat.eq_dec x y) as [->|D].
  - rewrite notin_remove by auto. cbn [length]. lia.
  - destruct I as [->|I]; [congruence|]. cbn [length]. specialize (IH H2 I). lia.
Qed.

Lemma nodup_remove (l : list nat) x : NoDup l -> NoDup (remove Nat.eq_dec x l).
Proof.
  induction l as [|y l IH]; intros N; cbn; auto. inversion N; subst.
  destruct (Nat.eq_dec x y); auto. constructor; auto.
  intros Q. apply in_remove in Q. tauto.
Qed.

Lemma in_remove_iff (l : list nat) x y : In y (remove Nat.eq_dec x l) <-> In y l /\ y <> x.
Proof.
  split. apply in_remove. intros []. apply in_in_remove; auto.
Qed.

(* invariants of an execution *)
Definition good (es : list ev) (os : list out) (s : st) : Prop :=
  inv es os s /\ exists W E, cnt es os s W E.

Lemma good_new : good [] [] s_new.
Proof.
  split.
  - constructor; cbn; auto; try lia; intros; try discriminate.
  - exists [], []. constructor; cbn; try apply NoDup_nil; auto; split; intros; tauto.
Qed.

Lemma w1 es a : written (es ++ [a]) =
  (written es + match a with WAdd _ _ _ => 1 | _ => 0 end)%nat.
Proof. rewrite written_app. destruct a; reflexivity. Qed.

Lemma lost_map e l : lost (map (OLost e) l) = length l.
Proof. unfold lost. induction l; cbn; auto. Qed.
Lemma routed_map e l : routed (map (OLost e) l) = 0%nat.
Proof. unfold routed. induction l; cbn; auto. Qed.
Lemma malformed_map e l : malformed (map (OLost e) l) = 0%nat.
Proof. unfold malformed. induction l; cbn; auto. Qed.
Lemma left_map e e' l : left_queue e (map (OLost e') l) = if Nat.eqb e' e then l else [].
Proof.
  unfold left_queue. induction l; cbn. now destruct (e' =? e)%nat.
  rewrite IHl. now destruct (e' =? e)%nat.
Qed.

Ltac cnt1 := unfold routed, malformed, lost; cbn [filter length flat_map app map]; cbn [length].
Ltac prep := rewrite ?w1, ?routed_app, ?malformed_app, ?lost_app, ?sessions_app, ?left_app,
  ?routed_map, ?malformed_map, ?lost_map, ?left_map; cbn [sessions_from].

Lemma step_good es os s a s' o :
  good es os s -> calm s a -> step s a = Some (Ok (s', o)) -> good (es ++ [a]) (os ++ o) s'.
Proof.
  intros [I (W & E & C)] K H.
  destruct I as [Ip Is Ipos Ipc Iep If Ia]. destruct C as [CW Cw CE Ce Cs].
  destruct s as [pn sn q wv f]. cbn [pend sess qs wr ph] in *.
  destruct a; cbn [step pend sess qs wr ph] in H.
  - (* WAdd *)
    destruct (wv w) eqn:Ew; [discriminate H|]. destruct (q e) eqn:Ee; [|discriminate H].
    unfold add_pending in H.
    destruct (pn + 1 <? 0) eqn:Ep; [discriminate H|].
    assert (H1 : s' = mkS (pn + 1) sn q (fupd wv w (Some (e, p))) f) by congruence.
    assert (H2 : o = []) by congruence. subst s' o. clear H. rewrite app_nil_r.
    split.
    + constructor; cbn [pend sess qs wr ph]; prep; auto; try lia.
      * intros x. unfold writing in *. rewrite writing_app. cbn. unfold fupd. rewrite Ipc. auto.
      * intros x e' p' Hx. unfold fupd in Hx. destruct (x =? w)%nat; [|eauto].
        assert (e' = e) by congruence. subst. congruence.
      * intros e'. unfold accepted in *. rewrite accepted_from_app. cbn. rewrite app_nil_r. apply If.
    + exists (w :: W), E. constructor; cbn [pend sess qs wr ph]; prep; auto.
      * constructor; auto. rewrite Cw. congruence.
      * intros x. unfold fupd. destruct (Nat.eqb_spec x w); subst; split; intros G;
          try congruence; try (left; reflexivity).
        -- destruct G as [G|G]; [congruence|]. now apply Cw.
        -- right. now apply Cw.
      * cbn [length]. rewrite (total_ext (mkS pn sn q wv f)) by reflexivity. lia.
  - (* WPush *)
    destruct (wv w) as [[e p]|] eqn:Ew; [|discriminate H]. destruct (q e) as [l|] eqn:Ee; [|discriminate H].
    assert (H1 : s' = mkS pn sn (fupd q e (Some (l ++ [p]))) (fupd wv w None) f) by congruence.
    assert (H2 : o = []) by congruence. subst s' o. clear H. rewrite app_nil_r.
    split.
    + constructor; cbn [pend sess qs wr ph]; prep; auto; try lia.
      * intros x. unfold writing in *. rewrite writing_app. cbn. unfold fupd. rewrite Ipc. auto.
      * intros x e' p' Hx. unfold fupd in Hx. destruct (x =? w)%nat; [discriminate Hx|].
        unfold fupd. destruct (e' =? e)%nat; [discriminate|eauto].
      * intros e'. unfold accepted in *. rewrite accepted_from_app. cbn. rewrite app_nil_r.
        fold (writing es). rewrite <- Ipc, Ew, If. unfold qlist. cbn [qs]. unfold fupd.
        rewrite (Nat.eqb_sym e' e). destruct (Nat.eqb_spec e e').
        -- subst. rewrite Ee, !app_assoc. reflexivity.
        -- now rewrite app_nil_r.
    + exists (remove Nat.eq_dec w W), E. constructor; cbn [pend sess qs wr ph]; prep; auto.
      * now apply nodup_remove.
      * intros x. rewrite in_remove_iff. unfold fupd. destruct (Nat.eqb_spec x w); subst; split; intros G; try tauto.
        -- apply Cw. tauto.
        -- split; auto. now apply Cw.
      * intros x. unfold fupd. destruct (Nat.eqb_spec x e); subst; [|apply Ce]. split; [discriminate|].
        intros _. apply Ce. congruence.
      * rewrite remove_len by (auto; apply Cw; congruence).
        rewrite (total_upd (mkS pn sn q wv f) _ E e); auto.
        -- unfold qlist; cbn [qs]. rewrite fupd_eq, Ee, app_length. cbn [length]. lia.
        -- apply Ce. congruence.
        -- intros x Hx. unfold qlist; cbn [qs]. now rewrite fupd_ne.
  - (* PPop *)
    destruct f; try discriminate H. destruct (q e) as [[|p l]|] eqn:Ee; try discriminate H.
    assert (H1 : s' = mkS pn sn (fupd q e (Some l)) wv (Popped e p)) by congruence.
    assert (H2 : o = []) by congruence. subst s' o. clear H. rewrite app_nil_r.
    split.
    + constructor; cbn [pend sess qs wr ph]; prep; auto; try lia; try discriminate.
      * intros x. unfold writing in *. rewrite writing_app. cbn. auto.
      * intros x e' p' Hx. unfold fupd. destruct (e' =? e)%nat; [discriminate|eauto].
      * intros e'. unfold accepted in *. rewrite accepted_from_app. cbn. rewrite app_nil_r, If.
        unfold qlist. cbn [qs]. unfold fupd. cbn [hand].
        rewrite (Nat.eqb_sym e' e). destruct (Nat.eqb_spec e e'); subst; auto. rewrite Ee. reflexivity.
    + exists W, E. constructor; cbn [pend sess qs wr ph nhand] in *; prep; auto.
      * intros x. unfold fupd. destruct (Nat.eqb_spec x e); subst; [|apply Ce]. split; [discriminate|].
        intros _. apply Ce. congruence.
      * rewrite (total_upd (mkS pn sn q wv Free) _ E e); auto.
        -- unfold qlist; cbn [qs]. rewrite fupd_eq, Ee. cbn [length]. lia.
        -- apply Ce. congruence.
        -- intros x Hx. unfold qlist; cbn [qs]. now rewrite fupd_ne.
  - (* PParse *)
    destruct f; try discriminate H. destruct (i_ok p) eqn:Eok.
    + assert (H1 : s' = mkS pn sn q wv (Parsed e p)) by congruence.
      assert (H2 : o = []) by congruence. subst s' o. clear H. rewrite app_nil_r.
      split.
      * constructor; cbn [pend sess qs wr ph]; prep; auto; try lia; try discriminate.
        -- intros x. unfold writing in *. rewrite writing_app. cbn. auto.
        -- intros e'. unfold accepted in *. rewrite accepted_from_app. cbn. rewrite app_nil_r. apply If.
      * exists W, E. constructor; cbn [pend sess qs wr ph nhand] in *; prep; auto.
        rewrite (total_ext (mkS pn sn q wv (Popped e p))) by reflexivity. lia.
    + assert (H1 : s' = mkS pn sn q wv Free) by congruence.
      assert (H2 : o = [OBad e p]) by congruence. subst s' o. clear H.
      split.
      * constructor; cbn [pend sess qs wr ph]; prep; cnt1; auto; try lia; try discriminate.
        -- fold (routed os). lia.
        -- intros x. unfold writing in *. rewrite writing_app. cbn. auto.
        -- intros e'. prep. unfold accepted in *. rewrite accepted_from_app. cbn. rewrite app_nil_r, If.
           cbn [hand app]. rewrite app_nil_r, <- app_assoc. reflexivity.
      * exists W, E. constructor; cbn [pend sess qs wr ph nhand] in *; prep; auto.
        cnt1. rewrite (total_ext (mkS pn sn q wv (Popped e p))) by reflexivity.
        fold (routed os) (malformed os) (lost os). lia.
  - (* PRoute *)
    destruct f; try discriminate H. unfold set_sess in H. destruct (n <? 0) eqn:En; [discriminate H|].
    apply Z.ltb_ge in En. cbn [pend sess qs wr ph] in H.
    assert (H1 : s' = mkS pn n q wv (Routed e p)) by congruence.
    assert (H2 : o = []) by congruence. subst s' o. clear H. rewrite app_nil_r.
    split.
    + constructor; cbn [pend sess qs wr ph]; prep; auto; try lia; try discriminate.
      * intros x. unfold writing in *. rewrite writing_app. cbn. auto.
      * intros e'. unfold accepted in *. rewrite accepted_from_app. cbn. rewrite app_nil_r. apply If.
    + exists W, E. constructor; cbn [pend sess qs wr ph nhand] in *; prep; auto.
      rewrite (total_ext (mkS pn sn q wv (Parsed e p))) by reflexivity. lia.
  - (* PDec *)
    destruct f; try discriminate H. unfold add_pending in H.
    destruct (pn + -1 <? 0) eqn:Ep; [discriminate H|].
    assert (H1 : s' = mkS (pn + -1) sn q wv Free) by congruence.
    assert (H2 : o = [ODone e p]) by congruence. subst s' o. clear H.
    split.
    + constructor; cbn [pend sess qs wr ph]; prep; cnt1; auto; try lia; try discriminate.
      * fold (routed os). lia.
      * intros x. unfold writing in *. rewrite writing_app. cbn. auto.
      * intros e'. prep. unfold accepted in *. rewrite accepted_from_app. cbn. rewrite app_nil_r, If.
        cbn [hand app]. rewrite app_nil_r, <- app_assoc. reflexivity.
    + exists W, E. constructor; cbn [pend sess qs wr ph nhand] in *; prep; auto.
      cnt1. rewrite (total_ext (mkS pn sn q wv (Routed e p))) by reflexivity.
      fold (routed os) (malformed os) (lost os). lia.
  - (* PSess *)
    destruct f; try discriminate H. unfold set_sess in H. destruct (n <? 0) eqn:En; [discriminate H|].
    apply Z.ltb_ge in En. cbn [pend sess qs wr ph] in H.
    assert (H1 : s' = mkS pn n q wv Free) by congruence.
    assert (H2 : o = []) by congruence. subst s' o. clear H. rewrite app_nil_r.
    split.
    + constructor; cbn [pend sess qs wr ph]; prep; auto; try lia; try discriminate.
      * intros x. unfold writing in *. rewrite writing_app. cbn. auto.
      * intros e'. unfold accepted in *. rewrite accepted_from_app. cbn. rewrite app_nil_r. apply If.
    + exists W, E. constructor; cbn [pend sess qs wr ph nhand] in *; prep; auto.
      rewrite (total_ext (mkS pn sn q wv Free)) by reflexivity. lia.
  - (* PNew *)
    destruct f; try discriminate H. destruct (q e) eqn:Ee; try discriminate H.
    assert (H1 : s' = mkS pn sn (fupd q e (Some [])) wv Free) by congruence.
    assert (H2 : o = []) by congruence. subst s' o. clear H. rewrite app_nil_r.
    assert (NE : ~ In e E) by (rewrite Ce; congruence).
    split.
    + constructor; cbn [pend sess qs wr ph]; prep; auto; try lia; try discriminate.
      * intros x. unfold writing in *. rewrite writing_app. cbn. auto.
      * intros x e' p' Hx. unfold fupd. destruct (e' =? e)%nat; [discriminate|eauto].
      * intros e'. unfold accepted in *. rewrite accepted_from_app. cbn. rewrite app_nil_r, If.
        unfold qlist. cbn [qs]. unfold fupd. destruct (Nat.eqb_spec e' e); subst; auto. rewrite Ee. reflexivity.
    + exists W, (e :: E). constructor; cbn [pend sess qs wr ph nhand] in *; prep; auto.
      * constructor; auto.
      * intros x. unfold fupd. destruct (Nat.eqb_spec x e); subst; split; intros G;
          try congruence; try (left; reflexivity).
        -- destruct G as [G|G]; [congruence|]. now apply Ce.
        -- right. now apply Ce.
      * cbn [total]. rewrite (total_ext (mkS pn sn q wv Free)).
        -- unfold qlist at 1; cbn [qs]. rewrite fupd_eq. cbn [length]. lia.
        -- intros x Hx. unfold qlist; cbn [qs]. rewrite fupd_ne; auto. congruence.
  - (* PDel *)
    destruct f; try discriminate H. destruct (q e) as [l|] eqn:Ee; try discriminate H.
    assert (H1 : s' = mkS pn sn (fupd q e None) wv Free) by congruence.
    assert (H2 : o = map (OLost e) l) by congruence. subst s' o. clear H.
    assert (IE : In e E) by (apply Ce; congruence).
    split.
    + constructor; cbn [pend sess qs wr ph]; prep; auto; try lia; try discriminate.
      * intros x. unfold writing in *. rewrite writing_app. cbn. auto.
      * intros x e' p' Hx. unfold fupd. destruct (Nat.eqb_spec e' e); [|eauto].
        subst. exfalso. exact (K x p' Hx).
      * intros e'. prep. unfold accepted in *. rewrite accepted_from_app. cbn. rewrite app_nil_r, If.
        unfold qlist. cbn [qs hand app]. unfold fupd. rewrite (Nat.eqb_sym e' e).
        destruct (Nat.eqb_spec e e'); subst; rewrite ?Ee, ?app_nil_r; reflexivity.
    + exists W, (remove Nat.eq_dec e E). constructor; cbn [pend sess qs wr ph nhand] in *; prep; auto.
      * now apply nodup_remove.
      * intros x. rewrite in_remove_iff. unfold fupd. destruct (Nat.eqb_spec x e); subst; split; intros G; try tauto.
        -- apply Ce. tauto.
        -- split; auto. now apply Ce.
      * assert (T : total (mkS pn sn (fupd q e None) wv Free) (remove Nat.eq_dec e E)
                  = total (mkS pn sn q wv Free) E - Z.of_nat (length l)).
        { clear -CE IE Ee. induction E as [|x E IH]; [destruct IE|]. inversion CE; subst.
          cbn [remove]. destruct (Nat.eq_dec e x) as [->|D].
          - rewrite notin_remove by auto. cbn [total]. unfold qlist at 1. cbn [qs]. rewrite Ee.
            rewrite (total_ext (mkS pn sn q wv Free)); [lia|].
            intros y Hy. unfold qlist; cbn [qs]. rewrite fupd_ne; auto. congruence.
          - destruct IE as [->|IE]; [congruence|]. cbn [total]. rewrite IH by auto.
            unfold qlist. cbn [qs]. rewrite fupd_ne by congruence. lia. }
        rewrite T. lia.
  - (* QSess *)
    destruct f; try discriminate H. destruct (sn =? 0) eqn:En; cbn [negb] in H.
    + assert (H1 : s' = mkS pn sn q wv Asked) by congruence.
      assert (H2 : o = []) by congruence. subst s' o. clear H. rewrite app_nil_r.
      split.
      * constructor; cbn [pend sess qs wr ph]; prep; auto; try lia; try discriminate.
        -- intros x. unfold writing in *. rewrite writing_app. cbn. auto.
        -- intros e'. unfold accepted in *. rewrite accepted_from_app. cbn. rewrite app_nil_r. apply If.
      * exists W, E. constructor; cbn [pend sess qs wr ph nhand] in *; prep; auto.
        rewrite (total_ext (mkS pn sn q wv Free)) by reflexivity. lia.
    + assert (H1 : s' = mkS pn sn q wv Free) by congruence.
      assert (H2 : o = [OState Active]) by congruence. subst s' o. clear H.
      split.
      * constructor; cbn [pend sess qs wr ph]; prep; cnt1; auto; try lia; try discriminate.
        -- fold (routed os). lia.
        -- intros x. unfold writing in *. rewrite writing_app. cbn. auto.
        -- intros e'. prep. unfold accepted in *. rewrite accepted_from_app. cbn. rewrite app_nil_r, If.
           rewrite app_nil_r. reflexivity.
      * exists W, E. constructor; cbn [pend sess qs wr ph nhand] in *; prep; auto.
        cnt1. fold (routed os) (malformed os) (lost os). lia.
  - (* QPend *)
    destruct f; try discriminate H.
    assert (H1 : s' = mkS pn sn q wv Free) by congruence.
    assert (H2 : o = [OState (if negb (pn =? 0) then Active else Idle)]) by congruence. subst s' o. clear H.
    split.
    + constructor; cbn [pend sess qs wr ph]; prep; cnt1; auto; try lia; try discriminate.
      * fold (routed os). lia.
      * intros x. unfold writing in *. rewrite writing_app. cbn. auto.
      * intros e'. prep. unfold accepted in *. rewrite accepted_from_app. cbn. rewrite app_nil_r, If.
        rewrite app_nil_r. reflexivity.
    + exists W, E. constructor; cbn [pend sess qs wr ph nhand] in *; prep; auto.
      cnt1. rewrite (total_ext (mkS pn sn q wv Asked)) by reflexivity.
      fold (routed os) (malformed os) (lost os). lia.
Qed.

Lemma exec_good es os s : exec es os (Ok s) -> good es os s.
Proof.
  intros H. remember (Ok s) as r eqn:E. revert s E. induction H; intros t E.
  - assert (t = s_new) by congruence. subst. apply good_new.
  - assert (t = s') by congruence. subst. eapply step_good; eauto.
  - discriminate E.
Qed.

Lemma exec_safe es os r : exec es os r -> exists s, r = Ok s.
Proof.
  intros H. destruct H; eauto. exfalso.
  pose proof (exec_good _ _ _ H) as [I (W & E & C)].
  destruct I as [Ip _ _ _ _ _ _]. destruct C as [_ _ _ _ Cs].
  pose proof (total_nonneg s E) as T.
  destruct s as [pn sn q wv f]; cbn [pend sess qs wr ph] in *.
  destruct a; cbn [step pend sess qs wr ph] in H1; unfold add_pending, set_sess in H1.
  - destruct (wv w); [discriminate H1|]. destruct (q e); [|discriminate H1].
    destruct (Z.ltb_spec (pn + 1) 0); [|discriminate H1].
    destruct f; cbn [nhand] in Cs; lia.
  - destruct (wv w) as [[e p]|]; [|discriminate H1]. destruct (q e); discriminate H1.
  - destruct f; try discriminate H1. destruct (q e) as [[|]|]; discriminate H1.
  - destruct f; try discriminate H1. destruct (i_ok p); discriminate H1.
  - destruct f; try discriminate H1. destruct (n <? 0); discriminate H1.
  - destruct f; try discriminate H1. destruct (Z.ltb_spec (pn + -1) 0); [|discriminate H1].
    cbn [nhand] in Cs. lia.
  - destruct f; try discriminate H1. destruct (n <? 0); discriminate H1.
  - destruct f; try discriminate H1. destruct (q e); discriminate H1.
  - destruct f; try discriminate H1. destruct (q e); discriminate H1.
  - destruct f; try discriminate H1. destruct (sn =? 0); discriminate H1.
  - destruct f; discriminate H1.
Qed.

Lemma in_lost d e l : ~ In (OState d) (map (OLost e) l).
Proof. intros H. apply in_map_iff in H. destruct H as (x & Hx & _). discriminate Hx. Qed.

Lemma answer es os s a s' o d :
  exec es os (Ok s) -> step s a = Some (Ok (s', o)) -> In (OState d) o ->
  nhand (ph s) = 0 /\ (d = Idle <-> sessions es = 0 /\ written es = routed os).
Proof.
  intros X H I. pose proof (exec_good _ _ _ X) as [[Ip Is _ _ _ _ Ia] _].
  destruct s as [pn sn q wv f]; cbn [pend sess qs wr ph] in *.
  destruct a; cbn [step pend sess qs wr ph] in H; unfold add_pending, set_sess in H.
  - destruct (wv w); [discriminate H|]. destruct (q e); [|discriminate H].
    destruct (pn + 1 <? 0); [discriminate H|]. assert (o = []) by congruence. subst; destruct I.
  - destruct (wv w) as [[e p]|]; [|discriminate H]. destruct (q e); [|discriminate H].
    assert (o = []) by congruence. subst; destruct I.
  - destruct f; try discriminate H. destruct (q e) as [[|]|]; try discriminate H.
    assert (o = []) by congruence. subst; destruct I.
  - destruct f; try discriminate H. destruct (i_ok p).
    + assert (o = []) by congruence. subst; destruct I.
    + assert (o = [OBad e p]) by congruence. subst; destruct I as [I|[]]; discriminate I.
  - destruct f; try discriminate H. destruct (n <? 0); [discriminate H|].
    assert (o = []) by congruence. subst; destruct I.
  - destruct f; try discriminate H. destruct (pn + -1 <? 0); [discriminate H|].
    assert (o = [ODone e p]) by congruence. subst; destruct I as [I|[]]; discriminate I.
  - destruct f; try discriminate H. destruct (n <? 0); [discriminate H|].
    assert (o = []) by congruence. subst; destruct I.
  - destruct f; try discriminate H. destruct (q e); [discriminate H|].
    assert (o = []) by congruence. subst; destruct I.
  - destruct f; try discriminate H. destruct (q e) as [l|]; [|discriminate H].
    assert (o = map (OLost e) l) by congruence. subst. destruct (in_lost _ _ _ I).
  - destruct f; try discriminate H. split; [reflexivity|]. destruct (Z.eqb_spec sn 0); cbn [negb] in H.
    + assert (o = []) by congruence. subst; destruct I.
    + assert (o = [OState Active]) by congruence. subst; destruct I as [I|[]].
      assert (d = Active) by congruence. subst. split; [discriminate|]. intros []. congruence.
  - destruct f; try discriminate H. split; [reflexivity|].
    assert (o = [OState (if negb (pn =? 0) then Active else Idle)]) by congruence. subst o.
    destruct I as [I|[]]. specialize (Ia eq_refl).
    assert (D : d = if negb (pn =? 0) then Active else Idle) by congruence. subst d.
    destruct (Z.eqb_spec pn 0); cbn [negb].
    + split; auto. intros _. split; [congruence|lia].
    + split; [discriminate|]. intros []. lia.
Qed.

Lemma total_zero s E : total s E = 0 -> forall e, In e E -> qlist s e = [].
Proof.
  induction E as [|x E IH]; cbn; intros H e I; [destruct I|].
  pose proof (total_nonneg s E). destruct I as [->|I].
  - destruct (qlist s e); cbn [length] in *; auto; lia.
  - apply IH; auto. lia.
Qed.

(* when the pipeline thread holds no packet: nothing waits iff everything is accounted for *)
Lemma waits_iff es os s : exec es os (Ok s) -> nhand (ph s) = 0 ->
  (nothing_waits es os <->
   (written es = routed os + malformed os + lost os)%nat).
Proof.
  intros X Hf. pose proof (exec_good _ _ _ X) as [[Ip Is _ Iw Iep If Ia] (W & E & C)].
  destruct C as [CW Cw CE Ce Cs]. pose proof (total_nonneg s E) as T.
  assert (Hh : forall e, hand e (ph s) = []) by (intros; destruct (ph s); cbn in *; auto; lia).
  split.
  - intros [N1 N2].
    assert (W = []).
    { destruct W as [|w W]; auto. exfalso. apply (proj1 (Cw w)). left; auto. rewrite Iw. apply N1. }
    subst W. cbn [length] in Cs.
    assert (total s E = 0).
    { clear -N2 If Hh. induction E as [|e E IH]; auto. cbn. rewrite IH.
      specialize (If e). rewrite N2, Hh in If. cbn [app] in If.
      assert (L : length (left_queue e os) = length (left_queue e os ++ qlist s e)) by congruence.
      rewrite app_length in L. lia. }
    lia.
  - intros EQ.
    assert (LW : length W = 0%nat) by lia. assert (LE : total s E = 0) by lia. split.
    + intros w. rewrite <- Iw. destruct (wr s w) eqn:G; auto. exfalso.
      assert (In w W) by (apply Cw; congruence). destruct W; [contradiction|discriminate LW].
    + intros e. rewrite If, Hh. cbn [app].
      assert (Q : qlist s e = []).
      { destruct (in_dec Nat.eq_dec e E) as [i|i].
        - now apply (total_zero s E).
        - unfold qlist. destruct (qs s e) eqn:G; auto. exfalso. apply i, Ce. congruence. }
      rewrite Q, app_nil_r. reflexivity.
Qed.

Lemma accounted es os s : exec es os (Ok s) ->
  (routed os + malformed os + lost os <= written es)%nat.
Proof.
  intros X. pose proof (exec_good _ _ _ X) as [_ (W & E & C)].
  destruct C as [CW Cw CE Ce Cs]. pose proof (total_nonneg s E) as T.
  destruct (ph s); cbn [nhand] in Cs; lia.
Qed.

Lemma prefix es os s e : exec es os (Ok s) -> exists l, accepted e es = left_queue e os ++ l.
Proof. intros X. pose proof (exec_good _ _ _ X) as [[_ _ _ _ _ If _] _]. eexists. apply If. Qed.

Definition fate_of (e : nat) (p : item) : out := if i_ok p then ODone e p else OBad e p.

Lemma steps_app s es os s1 es' os' s2 :
  steps s es os s1 -> steps s1 es' os' s2 -> steps s (es ++ es') (os ++ os') s2.
Proof.
  intros H. induction H; intros G; cbn; auto. rewrite <- app_assoc. econstructor; eauto.
Qed.

(* the session counter after a pull *)
Definition sess_after (s : st) (l : list item) (n : Z) : Z :=
  if existsb i_ok l then n else sess s.

Lemma pull_steps l : forall s e n,
  qs s e = Some l -> ph s = Free -> 0 <= n ->
  Z.of_nat (length (filter i_ok l)) <= pend s ->
  exists s', steps s (pull e l n) (map (fate_of e) l) s' /\
    qs s' e = Some [] /\ ph s' = Free /\ wr s' = wr s /\
    (forall x, x <> e -> qs s' x = qs s x).
Proof.
  induction l as [|p l IH]; intros s e n Hq Hf Hn Hp.
  - exists s. repeat split; auto. constructor.
  - destruct s as [pn sn q wv f]; cbn [pend sess qs wr ph] in *. subst f.
    cbn [filter] in Hp. destruct (i_ok p) eqn:Ep.
    + cbn [length] in Hp.
      destruct (IH (mkS (pn + -1) n (fupd q e (Some l)) wv Free) e n) as (s' & S1 & Q1 & F1 & R1 & O1);
        cbn [pend sess qs wr ph]; auto. apply fupd_eq. lia.
      cbn [pend sess qs wr ph] in *.
      exists s'. split; [|repeat split; auto].
      * cbn [pull map]. rewrite Ep. unfold fate_of at 1. rewrite Ep.
        change (ODone e p :: map (fate_of e) l) with ([] ++ [] ++ [] ++ [ODone e p] ++ map (fate_of e) l).
        eapply ss_cons; [exact I| |eapply ss_cons; [exact I| |eapply ss_cons; [exact I| |eapply ss_cons; [exact I| |exact S1]]]].
        -- cbn [step ph qs pend sess wr]. rewrite Hq. reflexivity.
        -- cbn [step ph qs pend sess wr]. rewrite Ep. reflexivity.
        -- cbn [step ph qs pend sess wr]. unfold set_sess. destruct (Z.ltb_spec n 0); [lia|]. reflexivity.
        -- cbn [step ph qs pend sess wr]. unfold add_pending. destruct (Z.ltb_spec (pn + -1) 0); [lia|]. reflexivity.
      * intros x Hx. rewrite O1 by auto. apply fupd_ne; auto.
    + destruct (IH (mkS pn sn (fupd q e (Some l)) wv Free) e n) as (s' & S1 & Q1 & F1 & R1 & O1);
        cbn [pend sess qs wr ph]; auto. apply fupd_eq.
      cbn [pend sess qs wr ph] in *.
      exists s'. split; [|repeat split; auto].
      * cbn [pull map]. rewrite Ep. unfold fate_of at 1. rewrite Ep.
        change (OBad e p :: map (fate_of e) l) with ([] ++ [OBad e p] ++ map (fate_of e) l).
        eapply ss_cons; [exact I| |eapply ss_cons; [exact I| |exact S1]].
        -- cbn [step ph qs pend sess wr]. rewrite Hq. reflexivity.
        -- cbn [step ph qs pend sess wr]. rewrite Ep. reflexivity.
      * intros x Hx. rewrite O1 by auto. apply fupd_ne; auto.
Qed.

Lemma exec_steps es os s es' os' s' :
  exec es os (Ok s) -> steps s es' os' s' -> exec (es ++ es') (os ++ os') (Ok s').
Proof.
  intros X H. revert es os X. induction H; intros.
  - now rewrite !app_nil_r.
  - specialize (IHsteps (es0 ++ [a]) (os0 ++ o)). rewrite <- !app_assoc in IHsteps. cbn [app] in IHsteps.
    apply IHsteps. econstructor; eauto.
Qed.

Lemma filter_len {A} (f : A -> bool) l : (length (filter f l) <= length l)%nat.
Proof. induction l; cbn; auto. destruct (f a); cbn; lia. Qed.

Lemma total_in s E e : In e E -> Z.of_nat (length (qlist s e)) <= total s E.
Proof.
  induction E as [|x E IH]; cbn; intros I; [destruct I|]. pose proof (total_nonneg s E).
  destruct I as [->|I]; [lia|]. specialize (IH I). lia.
Qed.

Lemma queue_small es os s e l : exec es os (Ok s) -> qs s e = Some l ->
  Z.of_nat (length (filter i_ok l)) <= pend s.
Proof.
  intros X H. pose proof (exec_good _ _ _ X) as [[Ip _ _ _ _ _ _] (W & E & C)].
  destruct C as [CW Cw CE Ce Cs].
  assert (I : In e E) by (apply Ce; congruence).
  pose proof (total_in s E e I) as T. unfold qlist in T. rewrite H in T.
  pose proof (filter_len i_ok l). destruct (ph s); cbn [nhand] in Cs; lia.
Qed.
