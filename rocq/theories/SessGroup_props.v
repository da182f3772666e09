(** C51: sessions of a receiver slot: which packets reach them, when they begin
    and end, and what RTCP reports do to them. *)
From Coq Require Import ZArith List Bool Lia.
From Verif Require Import Base SessRouter_model SessRouter_spec SessRouter_proof SessRouterRef_proof.
From Verif Require Import SessGroup_model SessGroup_spec SessGroup_proof SessGroupRun_proof SessGroupNet_proof.
From Verif Require Reporter_model Reporter_spec Reporter_proof ReporterNames_proof ReporterPacket_proof.
Import ListNotations.
Local Open Scope Z_scope.

(** Any history of transport packets, RTCP datagrams, refreshes and reclocks is
    survived, and the sessions left at its end can be removed, if every sender
    report follows a CNAME for its SSRC in the same datagram and the clock does
    not go back. *)
Theorem C51_safe : forall routing c ts oom local l,
  0 < Reporter_model.rc_timeout c -> Forall sane l ->
  exists ops, history ts l = Ok ops /\
  (introduced [] (reports ops) -> Reporter_spec.on_time 0 (reports ops) ->
   exists F, forall fuel, (F <= fuel)%nat ->
   exists f n g, n_run fuel routing c (n_new oom local) ops = Ok (Some (f, n)) /\
     remove_all_sessions (S (length (g_sess (n_group n)))) (n_group n) = Ok (Some g) /\
     g_sess g = [] /\ g_mix g = [] /\ g_active g = 0 /\
     exists st, remove_all (num_routes (g_router g)) (g_router g) = Ok st).
Proof.
  intros routing c ts oom local l Hd H. destruct (history_fine ts l H) as (ops & ls & E & R & P).
  exists ops. split; auto. intros I T. rewrite R in T.
  destruct (ReporterPacket_proof.packets_run c Hd ls (Reporter_model.r_new local) P (Reporter_proof.new_ok _ _) T eq_refl) as (F & r & ev & X).
  exists F. intros fuel Hf. specialize (X fuel Hf). rewrite <- R in X.
  destruct (run_fine fuel routing c ops [] (n_new oom local) r ev (ninv_new routing oom local) I X) as (f & n & ids & E' & _ & N).
  destruct (remove_all_fine (S (length (g_sess (n_group n)))) (n_group n) (ni_group _ _ _ N)) as (g & Eg & G & Sg); [lia |].
  exists f, n, g. splits; auto.
  - rewrite (gi_mix g G). auto.
  - rewrite (gi_active g G), Sg. auto.
  - destruct (remove_all_ok (num_routes (g_router g)) (g_router g) (gi_router g G) (le_n _)) as (st & Est & _). eauto.
Qed.

(** At any time the mixer mixes each session of the slot exactly once, the count
    of active sessions is their number (so that the receiver counts as active
    exactly if there is a session or a pending packet), and packets with a known
    SSRC or address lead to one of these sessions. *)
Theorem C51_consistent : forall fuel routing c oom local ops f n, introduced [] (reports ops) ->
  n_run fuel routing c (n_new oom local) ops = Ok (Some (f, n)) ->
  let g := n_group n in
  NoDup (g_sess g) /\ g_mix g = g_sess g /\ g_active g = Z.of_nat (length (g_sess g)) /\
  (forall pending, is_active g pending = true <-> g_sess g <> [] \/ pending <> 0) /\
  (forall s x, leads g s x -> In x (g_sess g)) /\ (forall a x, leads_from g a x -> In x (g_sess g)) /\
  (routing = false -> (length (g_sess g) <= 1)%nat).
Proof.
  intros fuel routing c oom local ops f n I E g. destruct (reached _ _ _ _ _ _ _ _ I E) as (ids & N).
  pose proof (ni_group _ _ _ N) as G. fold g in G. splits; try apply G.
  - intros pending. unfold is_active. rewrite (gi_active g G). destruct (g_sess g) as [| x l].
    + cbn. destruct (pending =? 0) eqn:P; [apply Z.eqb_eq in P | apply Z.eqb_neq in P]; cbn; split; auto; try discriminate; intros [X | X]; congruence.
    + cbn [length]. replace (Z.of_nat (S (length l)) =? 0) with false by (symmetry; apply Z.eqb_neq; lia). cbn. split; auto. left. discriminate.
  - intros s x H. apply leads_iff in H. exact (proj1 (find_live g G) s x H).
  - intros a x H. apply leads_from_iff in H. exact (proj2 (find_live g G) a x H).
  - exact (ni_few _ _ _ N).
Qed.

(** A transport packet is delivered only to a session the slot has, and changes
    nothing else; or it creates a session, and then packets with its SSRC, and
    packets without SSRC from its address, go there; or the sessions stay as they
    are. Repair packets create none, nor do packets that belong to a session. *)
Theorem C51_packet : forall fuel routing c oom local ops f n made took p, introduced [] (reports ops) ->
  n_run fuel routing c (n_new oom local) ops = Ok (Some (f, n)) ->
  exists r g', route_transport routing made took (n_group n) p = Ok (r, g') /\
  match r with
  | Delivered x => In x (g_sess (n_group n)) /\ g' = n_group n
  | Created x => k_repair p = false /\ ~ In x (g_sess (n_group n)) /\ g_sess g' = g_sess (n_group n) ++ [x] /\
      exists s a, k_rtp p = Some s /\ k_addr p = Some a /\ leads g' s x /\ leads_from g' a x /\
        (routing = true -> forall y, ~ leads (n_group n) s y /\ ~ leads_from (n_group n) a y)
  | _ => g_sess g' = g_sess (n_group n)
  end.
Proof.
  intros fuel routing c oom local ops f n made took p I E. destruct (reached _ _ _ _ _ _ _ _ I E) as (ids & N).
  destruct (route_ok routing made took (n_group n) p (ni_group _ _ _ N) (ni_few _ _ _ N)) as (r & g' & R & _ & _ & _ & M & _).
  exists r, g'. split; auto. destruct r as [x | x | |]; auto. destruct M as [(s & a & Es & Ea & -> & Sg & F1 & F2) Hn].
  splits; auto.
  - unfold route_transport in R. rewrite Hn in R. cbn [bind] in R. destruct (k_repair p); [discriminate R | auto].
  - exact (fresh_ok _ (ni_group _ _ _ N)).
  - exists s, a. splits; auto; [apply leads_iff; auto | apply leads_from_iff; auto |].
    intros -> y. unfold session_for in Hn. rewrite Es, Ea in Hn. rewrite leads_iff, leads_from_iff.
    destruct (find_by_source (g_router (n_group n)) s); [discriminate Hn |].
    assert (X : find_by_address (g_router (n_group n)) a = None) by congruence. rewrite X. split; discriminate.
Qed.

(** A packet that belongs to no session, is not a repair packet and carries an
    SSRC and an address creates one, if it can be initialized, takes the packet
    and memory suffices. *)
Theorem C51_created : forall fuel c oom local ops f n s a, introduced [] (reports ops) ->
  n_run fuel true c (n_new oom local) ops = Ok (Some (f, n)) ->
  (forall x, ~ leads (n_group n) s x) -> (forall x, ~ leads_from (n_group n) a x) ->
  exists r g', route_transport true true true (n_group n) (mkPkt (Some s) (Some a) false) = Ok (r, g') /\
    (r = Failed (Some StNoMem) \/ r = Created (g_next (n_group n))).
Proof.
  intros fuel c oom local ops f n s a I E Hs Ha. destruct (reached _ _ _ _ _ _ _ _ I E) as (ids & N).
  pose proof (ni_group _ _ _ N) as G. pose proof (gi_router _ G) as IG.
  destruct (route_ok true true true (n_group n) (mkPkt (Some s) (Some a) false) G (ni_few _ _ _ N)) as (r & g' & R & _).
  exists r, g'. split; auto. unfold route_transport, session_for in R. cbn [k_rtp k_addr k_repair bind] in R.
  destruct (find_by_source (g_router (n_group n)) s) as [x |] eqn:Fs; [destruct (Hs x); apply leads_iff; auto |].
  destruct (find_by_address (g_router (n_group n)) a) as [x |] eqn:Fa; [destruct (Ha x); apply leads_from_iff; auto |].
  cbn [bind] in R. unfold create_session_ in R. cbn [k_rtp k_addr negb g_router] in R.
  destruct (add_run (g_router (n_group n)) (g_next (n_group n)) s a IG) as (k & st & A & _ & _ & _ & D). rewrite A in R. cbn [bind fst snd] in R.
  destruct D as [(_ & _ & D) | (_ & _ & [[-> _] | ->])].
  - exfalso. destruct D as [D | D].
    + destruct (by_addr (st_routes (g_router (n_group n))) (Some a)) as [q |] eqn:Q; [| congruence].
      apply by_addr_iff in Q; [| exact IG]. destruct Q as [Q1 Q2].
      destruct (addr_sess _ IG q a Q1 Q2) as (x & Q3). apply (Ha x). apply leads_from_iff. apply (fa_iff _ IG). eauto.
    + destruct (by_sess (st_routes (g_router (n_group n))) (Some (g_next (n_group n)))) as [q |] eqn:Q; [| congruence].
      apply by_sess_iff in Q; [| exact IG]. destruct Q as [Q1 Q2]. exact (fresh_ok _ G (gi_in _ G q _ Q1 Q2)).
  - right. destruct (push _ _); try discriminate R. cbn [bind] in R. destruct (push _ _); try discriminate R. cbn [bind] in R.
    destruct (add_active _ _); try discriminate R. cbn [bind] in R. congruence.
  - left. congruence.
Qed.

(** Once packets of an SSRC, or from an address, go to a session, they continue
    to go there, whatever other packets come and whatever other sessions begin
    and end, until that session ends or a report changes the table. *)
Theorem C51_sticky : forall fuel c oom local ops f n ops' f' n' x, introduced [] (reports ops) ->
  n_run fuel true c (n_new oom local) ops = Ok (Some (f, n)) ->
  Forall (spares x) ops' -> n_run fuel true c n ops' = Ok (Some (f', n')) -> ~ In (Failed (Some StNoMem)) f' ->
  (forall s, leads (n_group n) s x -> leads (n_group n') s x) /\
  (forall a, leads_from (n_group n) a x -> leads_from (n_group n') a x) /\
  (In x (g_sess (n_group n)) -> In x (g_sess (n_group n'))).
Proof.
  intros fuel c oom local ops f n ops' f' n' x I E S E' Hf. destruct (reached _ _ _ _ _ _ _ _ I E) as (ids & N).
  pose proof (gi_router _ (ni_group _ _ _ N)) as IG. splits.
  - intros s H. apply leads_iff in H. apply leads_iff. apply (fs_iff _ IG) in H. destruct H as (r & R1 & R2 & R3).
    destruct (spared_run fuel c x r ops' ids n f' n' N S E' Hf R1 R3) as [N' R']. apply (fs_iff _ (gi_router _ (ni_group _ _ _ N'))). eauto.
  - intros a H. apply leads_from_iff in H. apply leads_from_iff. apply (fa_iff _ IG) in H. destruct H as (r & R1 & R2 & R3).
    destruct (spared_run fuel c x r ops' ids n f' n' N S E' Hf R1 R3) as [N' R']. apply (fa_iff _ (gi_router _ (ni_group _ _ _ N'))). eauto.
  - clear E. revert ids n f' n' N S E' Hf IG. induction ops' as [| o ops' IH]; intros ids n f' n' N S E' Hf IG Hx; cbn [n_run] in E'.
    + injection E' as <- <-. auto.
    + inversion S as [| ? ? S1 S2]; subst.
      destruct (quiet_ok fuel true c ids n o N) as (f0 & g0 & E0 & N0). { intros q ->. exact S1. }
      rewrite E0 in E'. cbn [bind fst snd] in E'.
      destruct (n_run fuel true c (mkN g0 (n_rep n)) ops') as [[[f1 n1] |] | |] eqn:E1; try discriminate E'. cbn [bind fst snd] in E'.
      assert (n1 = n' /\ f' = f0 ++ f1) by (split; congruence). destruct H as [-> ->]. rewrite in_app_iff in Hf.
      eapply (IH ids (mkN g0 (n_rep n)) f1 n'); auto; [apply (gi_router _ (ni_group _ _ _ N0)) |]. cbn [n_group].
      pose proof (ni_group _ _ _ N) as G.
      destruct o as [made took p | o | alive rtcp | alive]; cbn [n_step spares] in *.
      * destruct (route_ok true made took (n_group n) p G (ni_few _ _ _ N)) as (r & g' & R & _ & _ & _ & M & _). rewrite R in E0. cbn [bind snd fst] in E0.
        assert (g' = g0) by congruence. subst g'. destruct r as [y | y | |]; try (rewrite M; auto; fail).
        -- destruct M as [_ ->]. auto.
        -- destruct M as [(s & a & _ & _ & _ & -> & _) _]. apply in_app_iff. auto.
      * destruct S1.
      * unfold refresh_sessions in E0.
        destruct (refresh_ok alive (g_sess (n_group n)) rtcp (n_group n) G (gi_nodup _ G) (incl_refl _)) as (d & g' & X & _ & M & _).
        rewrite X in E0. cbn [bind snd] in E0. assert (g' = g0) by congruence. subst g'. apply M. split; auto. intros [_ Y]. auto.
      * unfold reclock_sessions in E0. rewrite (reclock_refresh alive _ _ 0) in E0.
        destruct (refresh_ok (fun x => if alive x then Some 0 else None) (g_sess (n_group n)) 0 (n_group n) G (gi_nodup _ G) (incl_refl _)) as (d & g' & X & _ & M & _).
        rewrite X in E0. cbn [bind snd] in E0. assert (g' = g0) by congruence. subst g'. apply M. split; auto. rewrite S1. intros [_ Y]. discriminate Y.
Qed.

(** Without routing all packets of a slot go to its only session. *)
Theorem C51_no_routing : forall fuel c oom local ops f n made took p x, introduced [] (reports ops) ->
  n_run fuel false c (n_new oom local) ops = Ok (Some (f, n)) -> In x (g_sess (n_group n)) ->
  g_sess (n_group n) = [x] /\ route_transport false made took (n_group n) p = Ok (Delivered x, n_group n).
Proof.
  intros fuel c oom local ops f n made took p x I E H. destruct (reached _ _ _ _ _ _ _ _ I E) as (ids & N).
  pose proof (ni_few _ _ _ N eq_refl) as L. destruct (g_sess (n_group n)) as [| y [| z l]] eqn:Es; [destruct H | | cbn in L; lia].
  destruct H as [-> | []]. split; auto. unfold route_transport, session_for. rewrite Es. reflexivity.
Qed.

(** After a goodbye its SSRC leads nowhere; all other SSRCs lead where they led
    before; exactly the session that only this SSRC led to ends, and only its
    address is forgotten. *)
Theorem C51_goodbye : forall fuel routing c oom local ops f n s n' f', introduced [] (reports ops) ->
  n_run fuel routing c (n_new oom local) ops = Ok (Some (f, n)) ->
  n_step fuel routing c n (NReport (Reporter_model.RBye s)) = Ok (Some (f', n')) ->
  let g := n_group n in let g' := n_group n' in
  (forall x, ~ leads g' s x) /\
  (forall t x, t <> s -> (leads g' t x <-> leads g t x)) /\
  (forall x, In x (g_sess g') <-> In x (g_sess g) /\ (leads g s x -> exists t, t <> s /\ leads g t x)) /\
  (forall a x, leads_from g' a x <-> leads_from g a x /\ In x (g_sess g')).
Proof.
  intros fuel routing c oom local ops f n s n' f' I E H g g'. destruct (reached _ _ _ _ _ _ _ _ I E) as (ids & N).
  cbn [n_step Reporter_model.r_step] in H. destruct (Reporter_model.in_st (n_rep n) Reporter_model.RProc); [| discriminate H].
  unfold Reporter_model.lift, Reporter_model.process_goodbye in H. cbn [bind fst snd tell] in H.
  destruct (halt_recv (n_group n) s) as [g1 | |] eqn:Eh; try discriminate H. cbn [bind] in H.
  assert (g1 = g') by (unfold g'; injection H as _ <-; reflexivity). subst g1.
  destruct (halt_more g s g' (ni_group _ _ _ N) Eh) as (G' & F1 & F2 & F3). splits.
  - intros x L. apply leads_iff in L. rewrite F1, Z.eqb_refl in L. discriminate L.
  - intros t x Ht. rewrite !leads_iff, F1. destruct (t =? s) eqn:Et; [apply Z.eqb_eq in Et; congruence | tauto].
  - intros x. rewrite F2, leads_iff. split; intros [A B]; split; auto; intros L; destruct (B L) as (t & T1 & T2); exists t; split; auto; apply leads_iff; auto.
  - intros a x. rewrite !leads_from_iff, F3. destruct (find_by_address (g_router g) a) as [y |].
    + destruct (mem y (g_sess g')) eqn:M.
      * apply mem_in in M. split; [intros L; assert (y = x) by congruence; subst; auto | tauto].
      * split; [discriminate |]. intros [L L']. assert (y = x) by congruence. subst. apply mem_in in L'. congruence.
    + split; [discriminate |]. intros [L _]. discriminate L.
Qed.

(** Two SSRCs with the same CNAME, both reported to the slot, lead to the same
    session. *)
Theorem C51_together : forall fuel routing c oom local ops f n s t x y g1 g2, introduced [] (reports ops) ->
  n_run fuel routing c (n_new oom local) ops = Ok (Some (f, n)) ->
  let tab := Reporter_model.r_tab (n_rep n) in
  cname_in tab s <> [] -> cname_in tab t = cname_in tab s ->
  notify_recv (n_group n) s (cname_in tab s) = Ok (StOK, x, g1) -> notify_recv g1 t (cname_in tab t) = Ok (StOK, y, g2) ->
  forall z, leads g2 s z <-> leads g2 t z.
Proof.
  intros fuel routing c oom local ops f n s t x y g1 g2 I E tab Hc Et E1 E2. destruct (reached _ _ _ _ _ _ _ _ I E) as (ids & N).
  rewrite Et in E2. set (cc := cname_in tab s) in *.
  assert (U : forall u, cname_in tab u = cc -> forall d, named tab u d -> d = cc).
  { intros u Hu d (z & h & Ez & _ & ->). rewrite <- Hu. symmetry. eapply cname_in_nm; eauto. }
  destruct (notify_tagged (named tab) (n_group n) s cc x g1 (ni_group _ _ _ N) (ni_names _ _ _ N) Hc (U s eq_refl) E1) as [T1 _].
  destruct (notify_ok (named tab) (n_group n) s cc (ni_group _ _ _ N) (ni_names _ _ _ N) Hc (U s eq_refl)) as (k & x' & g1' & E1' & G1 & H1 & _).
  assert (g1' = g1) by congruence. subst g1'.
  set (P := fun (u : Z) (d : list Z) => named tab u d \/ u = s /\ d = cc) in *.
  assert (U2 : forall d, P t d -> d = cc) by (intros d [D | [_ ->]]; auto; eapply U; eauto).
  destruct (notify_tagged P g1 t cc y g2 G1 H1 Hc U2 E2) as [T2 T3].
  destruct (notify_ok P g1 t cc G1 H1 Hc U2) as (k2 & y' & g2' & E2' & G2 & _).
  assert (g2' = g2) by congruence. subst g2'.
  intros z. rewrite !leads_iff. rewrite (tagged_same g2 s t cc G2 Hc (T3 s T1) T2). tauto.
Qed.

(** A refresh ends exactly the sessions that say so, and its result is the
    earliest deadline of the communicator and of the sessions left. *)
Theorem C51_refresh : forall fuel routing c oom local ops f n alive rtcp, introduced [] (reports ops) ->
  n_run fuel routing c (n_new oom local) ops = Ok (Some (f, n)) ->
  exists d g', refresh_sessions alive rtcp (n_group n) = Ok (d, g') /\
    (forall x, In x (g_sess g') <-> In x (g_sess (n_group n)) /\ alive x <> None) /\
    (forall s x, leads g' s x <-> leads (n_group n) s x /\ alive x <> None) /\
    is_earliest d (rtcp :: flat_map (fun x => match alive x with Some e => [e] | None => [] end) (g_sess (n_group n))).
Proof.
  intros fuel routing c oom local ops f n alive rtcp I E. destruct (reached _ _ _ _ _ _ _ _ I E) as (ids & N).
  pose proof (ni_group _ _ _ N) as G. unfold refresh_sessions.
  destruct (refresh_ok alive (g_sess (n_group n)) rtcp (n_group n) G (gi_nodup _ G) (incl_refl _)) as (d & g' & X & G' & M & _ & IN & _ & K & _ & ->).
  eexists _, g'. split; [exact X |]. splits.
  - intros x. rewrite M. tauto.
  - intros s x. rewrite !leads_iff. split.
    + intros L. assert (L' := proj1 (find_live g' G') s x L). apply M in L'. destruct L' as [L1 L2]. split; [| tauto].
      apply (fs_iff _ (gi_router _ G')) in L. destruct L as (r & R1 & R2 & R3). apply (fs_iff _ (gi_router _ G)). exists r. splits; auto.
    + intros [L A]. apply (fs_iff _ (gi_router _ G)) in L. destruct L as (r & R1 & R2 & R3). apply (fs_iff _ (gi_router _ G')). exists r. splits; auto. eapply K; eauto.
  - apply earliest.
Qed.

(** Defects. One datagram of 28 bytes, a sender report without a source
    description, makes the receiver panic. *)
Definition sr_alone (s : Z) : list Z :=
  [128; 200; 0; 6; 0; 0; 0; s; 0; 0; 0; 1; 0; 0; 0; 0; 0; 0; 0; 1; 0; 0; 0; 1; 0; 0; 0; 1].
Definition sdes (s c : Z) : list Z := [129; 202; 0; 2; 0; 0; 0; s; 1; 1; c; 0].
Definition x_cfg := Reporter_model.mkRc Reporter_model.ReportBack 0 7 1000.
Definition x_part := Reporter_model.mkPart false [].
Definition x_ts (n : Z) : Z := n / 2 ^ 32.

Theorem C51_crash_refuted :
  route_control 20 x_cfg x_ts [] 1 50 x_part (n_new [] 5) (sr_alone 9) = Panic.
Proof. vm_compute. reflexivity. Qed.

(** So does a well-formed datagram, if the table of streams is out of memory when
    it reads the CNAME and not when it reads the sender report. *)
Theorem C51_memory_crash_refuted :
  route_control 20 x_cfg x_ts [false; true] 1 50 x_part (n_new [] 5) (sr_alone 9 ++ sdes 9 97) = Panic /\
  exists n, route_control 20 x_cfg x_ts [] 1 50 x_part (n_new [] 5) (sr_alone 9 ++ sdes 9 97) = Ok (Some ([], n)).
Proof. split; [vm_compute; reflexivity |]. eexists. vm_compute. reflexivity. Qed.

(** When two SSRCs that have a session each turn out to share a CNAME, the session
    of the first stays in the slot and in the mixer although nothing leads to it
    any more. *)
Definition orphans : list nop :=
  [NPacket true true (mkPkt (Some 1) (Some 10) false); NPacket true true (mkPkt (Some 2) (Some 20) false)] ++
  map NReport [Reporter_model.RBeginP 1 50 x_part; Reporter_model.RCname true 1 3; Reporter_model.RSr true 1 4; Reporter_model.REndP;
               Reporter_model.RBeginP 1 60 x_part; Reporter_model.RCname true 2 3; Reporter_model.RSr true 2 4; Reporter_model.REndP].

Theorem C51_orphan_refuted : exists n, introduced [] (reports orphans) /\
  n_run 20 true x_cfg (n_new [] 5) orphans = Ok (Some ([Created 0; Created 1], n)) /\
  In 0%nat (g_sess (n_group n)) /\ (forall s, ~ leads (n_group n) s 0) /\ (forall a, ~ leads_from (n_group n) a 0).
Proof.
  destruct (n_run 20 true x_cfg (n_new [] 5) orphans) as [[[f n] |] | |] eqn:E; vm_compute in E; try discriminate E.
  injection E as <- <-. eexists. split; [cbn; auto 10 |]. split; [vm_compute; reflexivity |]. split; [cbn; auto |]. split.
  - intros s H. apply leads_iff in H. unfold find_by_source in H. cbn in H. destruct s as [| [[] | [] |] |]; cbn in H; discriminate H.
  - intros a H. apply leads_from_iff in H. unfold find_by_address in H. cbn in H.
    destruct a as [| a | a]; cbn in H; try discriminate H. match type of H with context [if ?b then _ else _] => destruct b end; discriminate H.
Qed.

(** The hypotheses are met by real datagrams: two senders, one with a repair
    stream on a second SSRC under the same CNAME; goodbye; refresh. *)
Definition bye (s : Z) : list Z := [129; 203; 0; 1; 0; 0; 0; s].
Definition story : list input :=
  [IMedia true true (mkPkt (Some 1) (Some 10) false);
   IMedia true true (mkPkt (Some 3) (Some 30) false);
   IControl [] 1 50 x_part (sr_alone 1 ++ sdes 1 97);
   IControl [] 1 60 x_part (sr_alone 2 ++ sdes 2 97);
   IMedia true true (mkPkt (Some 2) (Some 20) true);
   IMedia true true (mkPkt None (Some 10) true);
   IMedia true true (mkPkt (Some 4) (Some 40) true);
   IRefresh (fun _ => Some 80) 70;
   IControl [] 1 70 x_part ([128; 201; 0; 1; 0; 0; 0; 1] ++ sdes 1 97 ++ bye 1);
   IMedia true true (mkPkt (Some 2) (Some 20) true);
   IReclock (fun x => Nat.eqb x 0)].

Example story_sane : Forall sane story.
Proof. repeat constructor; cbn; lia. Qed.
Example story_runs : exists ops n, history x_ts story = Ok ops /\ introduced [] (reports ops) /\ Reporter_spec.on_time 0 (reports ops) /\
  n_run 20 true x_cfg (n_new [] 5) ops =
    Ok (Some ([Created 0; Created 1; Delivered 0; Delivered 0; Ignored; Delivered 0], n)) /\
  g_sess (n_group n) = [0%nat] /\ leads (n_group n) 2 0.
Proof.
  destruct (history x_ts story) as [ops | |] eqn:E; vm_compute in E; try discriminate E. injection E as <-.
  match goal with |- exists _ _, Ok ?l = _ /\ _ => exists l end.
  destruct (n_run 20 true x_cfg (n_new [] 5) _) as [[[f n] |] | |] eqn:E; vm_compute in E; try discriminate E.
  injection E as <- <-. eexists. split; [reflexivity |]. split; [cbn; auto 20 |]. split; [cbn; lia |]. split; [vm_compute; reflexivity |].
  split; [reflexivity |]. apply leads_iff. reflexivity.
Qed.
(** Two SSRCs of one sender with a session each are joined: the hypotheses of C51_together. *)
Example together_met : exists n x y g1 g2, n_run 20 true x_cfg (n_new [] 5)
    (NPacket true true (mkPkt (Some 1) (Some 10) false) :: map NReport
       [Reporter_model.RBeginP 1 50 x_part; Reporter_model.RCname true 1 3; Reporter_model.RCname true 2 3; Reporter_model.RSr true 1 4]) = Ok (Some ([Created 0], n)) /\
  notify_recv (n_group n) 1 [3] = Ok (StOK, x, g1) /\ notify_recv g1 2 [3] = Ok (StOK, y, g2) /\
  cname_in (Reporter_model.r_tab (n_rep n)) 1 = [3] /\ cname_in (Reporter_model.r_tab (n_rep n)) 2 = [3] /\ leads g2 2 0.
Proof.
  do 5 eexists. split; [vm_compute; reflexivity |]. split; [vm_compute; reflexivity |]. split; [vm_compute; reflexivity |].
  split; [reflexivity |]. split; [reflexivity |]. apply leads_iff. vm_compute. reflexivity.
Qed.
Example no_routing_met : exists n, n_run 20 false x_cfg (n_new [] 5)
    [NPacket true true (mkPkt (Some 1) (Some 10) false); NPacket true true (mkPkt (Some 2) (Some 20) false)] = Ok (Some ([Created 0; Delivered 0], n)) /\
  In 0%nat (g_sess (n_group n)).
Proof. eexists. split; [vm_compute; reflexivity |]. cbn. auto. Qed.
Print Assumptions C51_safe.
Print Assumptions C51_consistent.
Print Assumptions C51_packet.
Print Assumptions C51_created.
Print Assumptions C51_sticky.
Print Assumptions C51_no_routing.
Print Assumptions C51_goodbye.
Print Assumptions C51_together.
Print Assumptions C51_refresh.
Print Assumptions C51_crash_refuted.
Print Assumptions C51_memory_crash_refuted.
Print Assumptions C51_orphan_refuted.
