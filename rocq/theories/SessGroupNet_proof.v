(* What single events do to a session group, and histories of datagrams. *)
From Coq Require Import ZArith List Bool Lia.
From Verif Require Import Base SessRouter_model SessRouter_spec SessRouter_proof SessRouterRef_proof.
From Verif Require Import SessGroup_model SessGroup_spec SessGroup_proof SessGroupRun_proof.
From Verif Require Reporter_model Reporter_spec Reporter_proof ReporterNames_proof ReporterPacket_proof.
From Verif Require RtcpTrav_model RtcpTrav_proof RtcpTrav_props.
Import ListNotations.
Local Open Scope Z_scope.
Local Open Scope res_scope.

(* ---- Datagrams ---- *)

Lemma body_sdes v : Forall ReporterPacket_proof.body (sdes_ops v).
Proof.
  destruct v as [| | [[[n l] b] |] | |]; cbn [sdes_ops fst snd]; try constructor.
  generalize 0. induction l as [| x l IH]; intros s; cbn [desc_ops]; [constructor |].
  destruct x as [s' | ty text]; [apply IH |]. destruct (negb (ty =? 1)); [apply IH |].
  destruct (match cstr text with [] => true | _ => false end); [apply IH |]. constructor; [exact I | apply IH].
Qed.

Lemma body_blocks s l : Forall ReporterPacket_proof.body (map (block_ops s) l).
Proof. apply Forall_forall. intros o H. apply in_map_iff in H. destruct H as (b & <- & _). exact I. Qed.

Lemma body_reports ts v : Forall ReporterPacket_proof.body (report_ops ts v).
Proof.
  destruct v as [ssrc ntp a b c l | ssrc l | | | [[[n l] b] |]]; cbn [report_ops fst snd]; try constructor; try apply body_blocks; try exact I.
  apply Forall_forall. intros o H. apply in_flat_map in H. destruct H as (x & _ & H).
  destruct x; cbn [xr_ops] in H; try (destruct H as [<- | []]; exact I).
  apply in_map_iff in H. destruct H as (y & <- & _). exact I.
Qed.

Lemma body_bye v : Forall ReporterPacket_proof.body (bye_ops v).
Proof.
  destruct v as [| | | [[[n l] b] |] |]; cbn [bye_ops fst snd]; try constructor.
  apply Forall_forall. intros o H. apply in_flat_map in H. destruct H as (x & _ & H).
  destruct x; cbn in H; try (destruct H; fail). destruct H as [<- | []]. exact I.
Qed.

Lemma body_flat {A} (f : A -> list Reporter_model.rop) l : (forall v, Forall ReporterPacket_proof.body (f v)) -> Forall ReporterPacket_proof.body (flat_map f l).
Proof. intros H. induction l as [| x l IH]; cbn; [constructor |]. apply Forall_app. auto. Qed.

Lemma body_mem l : forall mem, Forall ReporterPacket_proof.body l -> Forall ReporterPacket_proof.body (with_mem mem l).
Proof.
  induction l as [| o l IH]; intros mem H; cbn [with_mem]; [constructor |].
  inversion H as [| ? ? H1 H2]; subst. destruct o; cbn in H1; try contradiction; constructor; try exact I; apply IH; auto.
Qed.

Lemma reports_app a b : reports (a ++ b) = reports a ++ reports b.
Proof. induction a as [| o a IH]; cbn; auto. destruct o; cbn; rewrite ?IH; auto. Qed.
Lemma reports_map l : reports (map NReport l) = l.
Proof. induction l as [| o l IH]; cbn; congruence. Qed.

Lemma input_fine ts i : sane i -> exists ops ls, input_ops ts i = Ok ops /\ reports ops = concat ls /\ Forall ReporterPacket_proof.packet ls.
Proof.
  intros H. destruct i as [made took p | mem from now p buf | alive rtcp | alive]; cbn [input_ops];
    try (eexists _, []; split; [reflexivity |]; split; [reflexivity | constructor]).
  cbn [sane] in H. destruct H as [Hn Hb]. unfold packet_ops.
  destruct (RtcpTrav_props.C15_safe buf Hb) as (w & E & _). rewrite E. cbn [bind].
  destruct w as [v |].
  - eexists _, [_]. split; [reflexivity |]. rewrite reports_map. cbn [concat]. rewrite app_nil_r. split; [reflexivity |].
    constructor; [| constructor]. exists from, now, p. eexists. split; [reflexivity |]. split; auto.
    apply body_mem. apply Forall_app. split; [apply body_flat, body_sdes |].
    apply Forall_app. split; apply body_flat; [apply body_reports | apply body_bye].
  - eexists _, []. split; [reflexivity |]. split; [reflexivity | constructor].
Qed.

Lemma history_fine ts l : Forall sane l -> exists ops ls, history ts l = Ok ops /\ reports ops = concat ls /\ Forall ReporterPacket_proof.packet ls.
Proof.
  induction l as [| i l IH]; intros H; cbn [history].
  - exists [], []. splits; auto.
  - inversion H as [| ? ? H1 H2]; subst. destruct (input_fine ts i H1) as (a & la & Ea & Ra & Pa).
    destruct (IH H2) as (b & lb & Eb & Rb & Pb). rewrite Ea. cbn [bind]. rewrite Eb. cbn [bind].
    exists (a ++ b), (la ++ lb). splits; auto.
    + rewrite reports_app, concat_app. congruence.
    + apply Forall_app. auto.
Qed.

(* ---- From the end of a run ---- *)

Lemma n_run_reports fuel routing c : forall l n f n', n_run fuel routing c n l = Ok (Some (f, n')) ->
  exists ev, Reporter_model.r_run fuel c (n_rep n) (reports l) = Ok (Some (n_rep n', ev)).
Proof.
  induction l as [| o l IH]; intros n f n' H; cbn [n_run reports] in *.
  - injection H as <- <-. eexists. reflexivity.
  - destruct (n_step fuel routing c n o) as [[[f0 n0] |] | |] eqn:E; try discriminate H. cbn [bind fst snd] in H.
    destruct (n_run fuel routing c n0 l) as [[[f1 n1] |] | |] eqn:E1; try discriminate H. cbn [bind fst snd] in H.
    assert (n1 = n') by congruence. subst n1. destruct (IH _ _ _ E1) as (ev & R).
    destruct o as [made took p | o | alive rtcp | alive]; cbn [n_step] in E.
    + destruct (route_transport _ _ _ _ _) as [q | |]; try discriminate E. cbn [bind] in E. injection E as <- <-. cbn in R. eauto.
    + destruct (Reporter_model.r_step fuel c (n_rep n) o) as [[[r0 e0] |] | |] eqn:Er; try discriminate E. cbn [bind fst snd] in E.
      destruct (tell _ _ _) as [g0 | |]; try discriminate E. cbn [bind] in E. injection E as <- <-. cbn in R.
      exists (e0 ++ ev). cbn [Reporter_model.r_run]. rewrite Er. cbn [bind]. rewrite R. reflexivity.
    + destruct (refresh_sessions _ _ _) as [q | |]; try discriminate E. cbn [bind] in E. injection E as <- <-. cbn in R. eauto.
    + destruct (reclock_sessions _ _) as [q | |]; try discriminate E. cbn [bind] in E. injection E as <- <-. cbn in R. eauto.
Qed.

Lemma reached fuel routing c oom local ops f n : introduced [] (reports ops) ->
  n_run fuel routing c (n_new oom local) ops = Ok (Some (f, n)) -> exists ids, ninv routing ids n.
Proof.
  intros I H. destruct (n_run_reports _ _ _ _ _ _ _ H) as (ev & R).
  destruct (run_fine fuel routing c ops [] _ _ _ (ninv_new routing oom local) I R) as (f' & n' & ids & E & _ & N).
  assert (n' = n) by congruence. subst. eauto.
Qed.

Lemma leads_iff g s x : leads g s x <-> find_by_source (g_router g) s = Some x.
Proof.
  unfold leads, route_transport, session_for. split.
  - intros H. specialize (H false false None true). cbn [k_rtp k_addr k_repair] in H.
    destruct (find_by_source (g_router g) s); cbn [bind] in H; congruence.
  - intros H made took addr repair. cbn [k_rtp k_addr]. rewrite H. reflexivity.
Qed.
Lemma leads_from_iff g a x : leads_from g a x <-> find_by_address (g_router g) a = Some x.
Proof.
  unfold leads_from, route_transport, session_for. split.
  - intros H. specialize (H false false true). cbn [k_rtp k_addr k_repair] in H.
    destruct (find_by_address (g_router g) a); cbn [bind] in H; congruence.
  - intros H made took repair. cbn [k_rtp k_addr]. rewrite H. reflexivity.
Qed.

(* ---- Sessions keep their packets ---- *)

Lemma create_keeps made took g p f g' r x : ginv g -> create_session_ made took g p = Ok (f, g') ->
  f <> Failed (Some StNoMem) -> (forall s, k_rtp p = Some s -> find_by_source (g_router g) s = None) ->
  In r (st_routes (g_router g)) -> r_sess r = Some x -> In r (st_routes (g_router g')).
Proof.
  intros G H Hf Hs Hr Hx. unfold create_session_ in H.
  destruct (k_rtp p) as [s |] eqn:Es; [| injection H as <- <-; exact Hr].
  destruct (k_addr p) as [a |]; [| injection H as <- <-; exact Hr].
  destruct (negb made); [injection H as <- <-; exact Hr |].
  destruct (negb took); [injection H as <- <-; exact Hr |]. cbn [g_router g_sess g_mix g_active g_next] in H.
  destruct (add_run (g_router g) (g_next g) s a (gi_router g G)) as (k & st & E & I & _ & _ & D). rewrite E in H. cbn [bind fst snd] in H.
  assert (K : k <> StNoMem -> In r (st_routes st)).
  { intros Hk. destruct D as [(_ & -> & _) | (_ & _ & [[_ D] | D])]; auto; [| congruence].
    inversion D as [r0 H1 H2 H3 H4 ER | st1 H1 H2 ER].
    - apply in_on. exists r. split; auto. destruct (Nat.eqb (r_id r0) (r_id r)) eqn:Ei; auto.
      apply Nat.eqb_eq in Ei. assert (r0 = r) by (eapply id_eq; [apply (i_ids _ (gi_router g G)) | | |]; auto). congruence.
    - apply in_app_iff. left. destruct (unlink_ok (g_router g) s (gi_router g G)) as (st2 & E2 & _ & _ & X).
      assert (st2 = st1) by congruence. subst st2. rewrite X; auto.
      destruct (by_src (st_routes (g_router g)) s) as [q |] eqn:Eq; auto. exfalso.
      apply by_src_iff in Eq; [| apply G]. destruct Eq as [Q1 Q2]. specialize (Hs s eq_refl).
      rewrite (fs_none _ (gi_router g G) s q Q1 Q2) in Hs. exact (H2 q Q1 Q2 Hs). }
  destruct k.
  - destruct (push (g_mix g) (g_next g)) as [m | |]; try discriminate H. cbn [bind] in H.
    destruct (push (g_sess g) (g_next g)) as [l | |]; try discriminate H. cbn [bind] in H.
    destruct (add_active (g_active g) 1) as [n | |]; try discriminate H. cbn [bind] in H.
    assert (E' : g_router g' = st) by (injection H as <- <-; reflexivity). rewrite E'. apply K. discriminate.
  - assert (E' : g_router g' = st) by (injection H as <- <-; reflexivity). rewrite E'. apply K. discriminate.
  - exfalso. apply Hf. congruence.
Qed.

Lemma packet_keeps made took g p f g' r x : ginv g -> route_transport true made took g p = Ok (f, g') ->
  f <> Failed (Some StNoMem) ->
  In r (st_routes (g_router g)) -> r_sess r = Some x -> In r (st_routes (g_router g')).
Proof.
  intros G H Hf Hr Hx. unfold route_transport, session_for in H. cbn [bind] in H.
  destruct (k_rtp p) as [s |] eqn:Es.
  - destruct (find_by_source (g_router g) s) eqn:E; [injection H as <- <-; exact Hr |].
    destruct (match k_addr p with Some a => find_by_address (g_router g) a | None => None end); [injection H as <- <-; exact Hr |].
    destruct (k_repair p); [injection H as <- <-; exact Hr |].
    eapply create_keeps; eauto. intros s' X. congruence.
  - destruct (match k_addr p with Some a => find_by_address (g_router g) a | None => None end); [injection H as <- <-; exact Hr |].
    destruct (k_repair p); [injection H as <- <-; exact Hr |].
    eapply create_keeps; eauto. intros s' X. congruence.
Qed.

Lemma spared_step fuel c ids n o x f n' r : ninv true ids n -> spares x o ->
  n_step fuel true c n o = Ok (Some (f, n')) -> ~ In (Failed (Some StNoMem)) f ->
  In r (st_routes (g_router (n_group n))) -> r_sess r = Some x ->
  ninv true ids n' /\ In r (st_routes (g_router (n_group n'))).
Proof.
  intros N S H Hf Hr Hx. pose proof (ni_group _ _ _ N) as G.
  destruct (quiet_ok fuel true c ids n o N) as (f0 & g0 & E & N').
  { intros q ->. exact S. }
  assert (f0 = f /\ mkN g0 (n_rep n) = n') by (split; congruence). destruct H0 as [<- <-]. split; auto. cbn [n_group].
  destruct o as [made took p | o | alive rtcp | alive]; cbn [n_step spares] in *.
  - destruct (route_transport true made took (n_group n) p) as [[f1 g1] | |] eqn:R; try discriminate E. cbn [bind fst snd] in E.
    assert (g1 = g0 /\ f0 = [f1]) by (split; congruence). destruct H0 as [-> ->].
    eapply packet_keeps; eauto. intros ->. apply Hf. left. auto.
  - destruct S.
  - unfold refresh_sessions in E.
    destruct (refresh_ok alive (g_sess (n_group n)) rtcp (n_group n) G (gi_nodup _ G) (incl_refl _)) as (d & g' & E' & _ & _ & _ & _ & _ & K & _).
    rewrite E' in E. cbn [bind snd] in E. assert (g' = g0) by congruence. subst g'. eapply K; eauto.
  - unfold reclock_sessions in E. rewrite (reclock_refresh alive _ _ 0) in E.
    destruct (refresh_ok (fun x => if alive x then Some 0 else None) (g_sess (n_group n)) 0 (n_group n) G (gi_nodup _ G) (incl_refl _))
      as (d & g' & E' & _ & _ & _ & _ & _ & K & _).
    rewrite E' in E. cbn [bind snd] in E. assert (g' = g0) by congruence. subst g'. eapply K; eauto. rewrite S. discriminate.
Qed.

Lemma spared_run fuel c x r : forall l ids n f n', ninv true ids n -> Forall (spares x) l ->
  n_run fuel true c n l = Ok (Some (f, n')) -> ~ In (Failed (Some StNoMem)) f ->
  In r (st_routes (g_router (n_group n))) -> r_sess r = Some x ->
  ninv true ids n' /\ In r (st_routes (g_router (n_group n'))).
Proof.
  induction l as [| o l IH]; intros ids n f n' N F H Hf Hr Hx; cbn [n_run] in H.
  - injection H as <- <-. auto.
  - inversion F as [| ? ? F1 F2]; subst.
    destruct (n_step fuel true c n o) as [[[f0 n0] |] | |] eqn:E; try discriminate H. cbn [bind fst snd] in H.
    destruct (n_run fuel true c n0 l) as [[[f1 n1] |] | |] eqn:E1; try discriminate H. cbn [bind fst snd] in H.
    assert (n1 = n' /\ f = f0 ++ f1) by (split; congruence). destruct H0 as [-> ->].
    rewrite in_app_iff in Hf.
    destruct (spared_step fuel c ids n o x f0 n0 r N F1 E) as [N0 R0]; auto.
    eapply IH; eauto.
Qed.

(* ---- Goodbyes ---- *)

Lemma halt_more g s g' : ginv g -> halt_recv g s = Ok g' ->
  ginv g' /\
  (forall t, find_by_source (g_router g') t = if t =? s then None else find_by_source (g_router g) t) /\
  (forall x, In x (g_sess g') <-> In x (g_sess g) /\
     (find_by_source (g_router g) s = Some x -> exists t, t <> s /\ find_by_source (g_router g) t = Some x)) /\
  (forall a, find_by_address (g_router g') a =
     match find_by_address (g_router g) a with
     | Some x => if mem x (g_sess g') then Some x else None
     | None => None
     end).
Proof.
  intros G H. unfold halt_recv in H. pose proof (gi_router g G) as IG.
  destruct (unlink_ok (g_router g) s IG) as (st & E & _ & E1 & E2). rewrite E in H. cbn [bind] in H.
  assert (I : inv st) by (eapply unlink_inv; eauto).
  set (g1 := set_router g st) in *.
  assert (SUB := unlink_sub (g_router g) s st IG E).
  assert (G1 : ginv g1).
  { split; try apply G; cbn; auto. intros r x Hr Hx. destruct (SUB r Hr) as (q & Hq & _ & _ & X & _). eapply G; eauto. congruence. }
  destruct (drop_ok (fun _ _ => True) g1 (find_by_source (g_router g) s) G1) as (g2 & E3 & G2 & _ & IN & _ & KEEP & SESS).
  { intros r t _ _ _. exact Logic.I. }
  { intros x Hx. apply (proj1 (find_live g G)) in Hx. auto. }
  assert (g2 = g') by congruence. subst g2.
  (* the routes of g' are those of st *)
  assert (RT : forall r, In r (st_routes (g_router g')) <-> In r (st_routes st)) by (intros r; split; [apply IN | apply KEEP]).
  pose proof (gi_router g' G2) as I2.
  assert (SRC : forall t, t <> s -> forall x, find_by_source (g_router g') t = Some x <-> find_by_source (g_router g) t = Some x).
  { intros t Ht x. rewrite (fs_iff _ I2), (fs_iff _ IG). destruct (by_src (st_routes (g_router g)) s) as [q |] eqn:Eq.
    2: { rewrite (E2 eq_refl) in RT. split; intros (r & X & Y); exists r; split; auto; apply RT; auto. }
    apply by_src_iff in Eq; [| exact IG]. destruct Eq as [Q1 Q2]. specialize (E1 q eq_refl). split.
    - intros (r & X & Y & Z'). apply RT in X. destruct (SUB r X) as (r0 & R1 & _ & _ & R2 & _ & R3). exists r0. splits; auto. congruence.
    - intros (r & X & Y & Z'). destruct (Nat.eqb (length (filter (fun z => negb (z =? s)) (r_srcs q))) 0) eqn:El; rewrite E1 in RT.
      + exists r. splits; auto. apply RT. apply in_others. split; auto. intro D.
        assert (r = q) by (eapply id_eq; [apply (i_ids _ IG) | | |]; auto). subst r.
        apply Nat.eqb_eq in El. apply length_zero_iff_nil in El.
        assert (K : In t (filter (fun z => negb (z =? s)) (r_srcs q))) by (apply filter_In; split; auto; apply negb_true_iff, Z.eqb_neq; auto).
        rewrite El in K. destruct K.
      + exists (if Nat.eqb (r_id q) (r_id r) then cut q s r else r). splits.
        * apply RT. apply in_on. exists r. auto.
        * destruct (Nat.eqb (r_id q) (r_id r)); auto. rewrite srcs_cut. apply filter_In. split; auto. apply negb_true_iff, Z.eqb_neq; auto.
        * destruct (Nat.eqb (r_id q) (r_id r)); auto. rewrite <- Z'. unfold cut. destruct (keyz _ _); reflexivity. }
  assert (SELF : find_by_source (g_router g') s = None).
  { destruct (find_by_source (g_router g') s) eqn:F; auto. exfalso. apply (fs_iff _ I2) in F. destruct F as (r & X & Y & _). apply RT in X.
    destruct (unlink_inv (g_router g) s st IG E) as (_ & _ & _ & _ & NO). exact (proj1 (by_src_none _ I s) NO r X Y). }
  assert (HAS : forall x, find_by_source (g_router g) s = Some x ->
    (has_session st x = true <-> exists t, t <> s /\ find_by_source (g_router g) t = Some x)).
  { intros x Fx. rewrite (hs_iff _ I). pose proof Fx as Fx'. apply (fs_iff _ IG) in Fx'. destruct Fx' as (q & Q1 & Q2 & Q3).
    assert (Eq : by_src (st_routes (g_router g)) s = Some q) by (apply by_src_iff; auto). specialize (E1 q Eq). split.
    - intros (r & X & Y). destruct (Nat.eqb (length (filter (fun z => negb (z =? s)) (r_srcs q))) 0) eqn:El; rewrite E1 in X.
      + apply in_others in X. destruct X as [X X']. exfalso. apply X'. f_equal. eapply (u_sess _ IG); eauto.
      + apply Nat.eqb_neq in El. destruct (filter (fun z => negb (z =? s)) (r_srcs q)) as [| t l] eqn:Ef; [cbn in El; lia |].
        assert (K : In t (filter (fun z => negb (z =? s)) (r_srcs q))) by (rewrite Ef; left; auto).
        apply filter_In in K. destruct K as [K1 K2]. apply negb_true_iff, Z.eqb_neq in K2. exists t. split; auto.
        apply (fs_iff _ IG). exists q. auto.
    - intros (t & Ht & Ft). apply (SRC t Ht) in Ft. apply (fs_iff _ I2) in Ft. destruct Ft as (r & X & _ & Y). exists r. split; auto. }
  split; [exact G2 |]. split; [| split].
  - intros t. destruct (t =? s) eqn:Et; [apply Z.eqb_eq in Et; subst; exact SELF |]. apply Z.eqb_neq in Et.
    destruct (find_by_source (g_router g) t) eqn:F; [apply (SRC t Et); exact F |].
    destruct (find_by_source (g_router g') t) eqn:F'; auto. apply (SRC t Et) in F'. congruence.
  - intros x. rewrite SESS. change (g_sess g1) with (g_sess g). split; intros [Y1 Y2]; split; auto; intros Y3.
    + apply (HAS x Y3). exact (Y2 Y3).
    + apply (HAS x Y3). auto.
  - intros a. assert (ADR : forall x, find_by_address (g_router g') a = Some x <-> find_by_address (g_router g) a = Some x /\ In x (g_sess g')).
    { intros x. split.
      - intros F. split; [| exact (proj2 (find_live g' G2) a x F)]. apply (fa_iff _ I2) in F. destruct F as (r & X & Y & Z'). apply RT in X.
        destruct (SUB r X) as (r0 & R1 & _ & R2 & R3 & _). apply (fa_iff _ IG). exists r0. splits; auto; congruence.
      - intros [F Hx]. apply (fa_iff _ IG) in F. destruct F as (r & X & Y & Z'). apply (fa_iff _ I2).
        destruct (by_src (st_routes (g_router g)) s) as [q |] eqn:Eq.
        2: { exists r. splits; auto. apply RT. rewrite (E2 eq_refl). auto. }
        specialize (E1 q eq_refl). pose proof Eq as Eq'. apply by_src_iff in Eq'; [| exact IG]. destruct Eq' as [Q1 Q2].
        destruct (Nat.eqb (length (filter (fun z => negb (z =? s)) (r_srcs q))) 0) eqn:El; rewrite E1 in RT.
        + destruct (Nat.eq_dec (r_id r) (r_id q)) as [D | D].
          * exfalso. assert (r = q) by (eapply id_eq; [apply (i_ids _ IG) | | |]; auto). subst r.
            apply SESS in Hx. destruct Hx as [_ Hx].
            assert (Fs : find_by_source (g_router g) s = Some x) by (apply (fs_iff _ IG); eauto).
            specialize (Hx Fs). change (g_router g1) with st in Hx. apply (hs_iff _ I) in Hx. destruct Hx as (r' & X' & Y').
            rewrite E1 in X'. apply in_others in X'. destruct X' as [X' D']. apply D'. f_equal. eapply (u_sess _ IG); eauto.
          * exists r. splits; auto. apply RT. apply in_others. auto.
        + exists (if Nat.eqb (r_id q) (r_id r) then cut q s r else r). splits.
          * apply RT. apply in_on. exists r. auto.
          * destruct (Nat.eqb (r_id q) (r_id r)); auto. rewrite <- Y. unfold cut. destruct (keyz _ _); reflexivity.
          * destruct (Nat.eqb (r_id q) (r_id r)); auto. rewrite <- Z'. unfold cut. destruct (keyz _ _); reflexivity. }
    destruct (find_by_address (g_router g) a) as [x |] eqn:F.
    + destruct (mem x (g_sess g')) eqn:M.
      * apply ADR. split; auto. apply mem_in. auto.
      * destruct (find_by_address (g_router g') a) eqn:F'; auto. exfalso. destruct (proj1 (ADR n) eq_refl) as [A1 A2].
        assert (n = x) by congruence. subst. apply mem_in in A2. congruence.
    + destruct (find_by_address (g_router g') a) eqn:F'; auto. destruct (proj1 (ADR n) eq_refl) as [A1 A2]. discriminate A1.
Qed.

(* ---- CNAMEs ---- *)

Definition tagged (g : group) (s : Z) (c : list Z) : Prop :=
  exists r, In r (st_routes (g_router g)) /\ In s (r_srcs r) /\ r_cname r = c.

Lemma link_tagged st s c rs : inv st -> c <> [] -> link_ok st s c rs ->
  (exists r, In r rs /\ In s (r_srcs r) /\ r_cname r = c) /\
  (forall t, (exists r, In r (st_routes st) /\ In t (r_srcs r) /\ r_cname r = c) -> exists r, In r rs /\ In t (r_srcs r) /\ r_cname r = c).
Proof.
  intros I Hc L. inversion L as [r H1 H2 H3 | H1 H2 | r H1 H2 H3 H4 | r H1 H2 H3 | ro rc x a H1 H2 H3 H4 H5 H6 H7 H8]; subst.
  - split; [eauto |]. auto.
  - split.
    + exists (new_route (st_next st) s None (Some c) None). splits; cbn; auto. apply in_app_iff. right. left. auto.
    + intros t (r & X & Y & Z'). exists r. splits; auto. apply in_app_iff. auto.
  - split.
    + exists (w_cn (Some c) (w_cname c r)). splits; auto. apply in_on. exists r. rewrite Nat.eqb_refl. auto.
    + intros t (q & X & Y & Z'). exists q. splits; auto. apply in_on. exists q. split; auto.
      destruct (Nat.eqb (r_id r) (r_id q)) eqn:Ei; auto. apply Nat.eqb_eq in Ei.
      assert (r = q) by (eapply id_eq; [apply (i_ids _ I) | | |]; auto). congruence.
  - split.
    + exists (w_srcs (r_srcs r ++ [s]) r). splits; auto.
      * apply in_on. exists r. rewrite Nat.eqb_refl. auto.
      * cbn. apply in_app_iff. right. left. auto.
    + intros t (q & X & Y & Z'). exists (if Nat.eqb (r_id r) (r_id q) then w_srcs (r_srcs q ++ [s]) q else q). splits.
      * apply in_on. exists q. auto.
      * destruct (Nat.eqb (r_id r) (r_id q)); auto. cbn. apply in_app_iff. auto.
      * destruct (Nat.eqb (r_id r) (r_id q)); auto.
  - split.
    + exists (taken s x a rc). splits; auto.
      * apply in_on. exists rc. rewrite Nat.eqb_refl. split; auto. apply in_others. auto.
      * cbn. apply in_app_iff. right. left. auto.
    + intros t (q & X & Y & Z'). exists (if Nat.eqb (r_id rc) (r_id q) then taken s x a q else q). splits.
      * apply in_on. exists q. split; auto. apply in_others. split; auto. intro D.
        assert (q = ro) by (eapply id_eq; [apply (i_ids _ I) | | |]; auto). subst q. congruence.
      * destruct (Nat.eqb (r_id rc) (r_id q)); auto. cbn. apply in_app_iff. auto.
      * destruct (Nat.eqb (r_id rc) (r_id q)); auto.
Qed.

Lemma notify_tagged (P : Z -> list Z -> Prop) g s c x g' : ginv g -> holds P g -> c <> [] -> (forall d, P s d -> d = c) ->
  notify_recv g s c = Ok (StOK, x, g') -> tagged g' s c /\ (forall t, tagged g t c -> tagged g' t c).
Proof.
  intros G H Hc Hs E. unfold notify_recv in E. pose proof (gi_router g G) as IG.
  destruct (link_run (g_router g) s c IG Hc) as (k & st & L & I & PV & SV & D).
  { intros r Hr Hsr. destruct (r_cname r) eqn:Ec; auto. right. apply Hs. rewrite <- Ec. apply H; auto. congruence. }
  rewrite L in E. cbn [bind fst snd] in E.
  destruct D as [[-> D] | ->].
  2: { discriminate E. }
  set (g1 := set_router g st) in *.
  assert (G1 : ginv g1).
  { split; try apply G; cbn; auto. intros r y Hr Hx. destruct (SV r y Hr Hx) as (q & Hq & X). eapply G; eauto. }
  destruct (drop_ok (fun _ _ => True) g1 (find_by_source (g_router g) s) G1) as (g2 & E3 & G2 & _ & IN & _ & KEEP & SESS).
  { intros r t _ _ _. exact Logic.I. }
  { intros y Hx. apply (proj1 (find_live g G)) in Hx. auto. }
  rewrite E3 in E. cbn [bind] in E. assert (g2 = g') by congruence. subst g2.
  destruct (link_tagged (g_router g) s c (st_routes st) IG Hc D) as [T1 T2]. split.
  - destruct T1 as (r & X & Y). exists r. split; auto.
  - intros t (r & X). destruct (T2 t) as (q & Y & Y'); [exists r; exact X |]. exists q. split; auto.
Qed.

Lemma tagged_same g s t c : ginv g -> c <> [] -> tagged g s c -> tagged g t c -> find_by_source (g_router g) s = find_by_source (g_router g) t.
Proof.
  intros G Hc (r & R1 & R2 & R3) (q & Q1 & Q2 & Q3). assert (r = q) by (eapply (u_cname _ (gi_router g G)); eauto). subst q.
  rewrite (fs_none _ (gi_router g G) s r), (fs_none _ (gi_router g G) t r); auto.
Qed.

(* ---- Deadlines ---- *)

Lemma earliest l : forall next, is_earliest (fold_left earlier l next) (next :: l).
Proof.
  assert (K : forall l d m, is_earliest d m -> is_earliest (fold_left earlier l d) (m ++ l)).
  { clear l. induction l as [| e l IH]; intros d m H; cbn [fold_left]; [rewrite app_nil_r; auto |].
    replace (m ++ e :: l) with ((m ++ [e]) ++ l) by (rewrite <- app_assoc; auto). apply IH.
    unfold earlier. destruct (e =? 0) eqn:E0.
    - apply Z.eqb_eq in E0. subst e. destruct H as [[-> H] | (H1 & H2 & H3)]; [left | right].
      + split; auto. apply Forall_app. split; auto.
      + splits; auto; [apply in_app_iff; auto |]. apply Forall_app. split; auto. constructor; auto. congruence.
    - apply Z.eqb_neq in E0. destruct (d =? 0) eqn:D0.
      + apply Z.eqb_eq in D0. subst d. destruct H as [[_ H] | (H1 & _)]; [| congruence]. right. splits; auto.
        * apply in_app_iff. right. left. auto.
        * apply Forall_app. split; [| constructor; auto; lia]. eapply Forall_impl; [| exact H]. cbn. intros; congruence.
      + apply Z.eqb_neq in D0. destruct H as [[H _] | (H1 & H2 & H3)]; [congruence |]. right. splits.
        * lia.
        * apply in_app_iff. destruct (Z.min_spec d e) as [[_ ->] | [_ ->]]; auto. right. left. auto.
        * apply Forall_app. split; [| constructor; auto; lia]. eapply Forall_impl; [| exact H3]. cbn. intros a Ha Hb. specialize (Ha Hb). lia. }
  intros next. apply (K l next [next]). destruct (Z.eq_dec next 0) as [-> | Hn]; [left | right].
  - split; auto.
  - splits; auto; [left; auto |]. constructor; auto. lia.
Qed.
