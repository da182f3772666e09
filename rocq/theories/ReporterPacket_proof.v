(** Processing of a whole RTCP packet by the reporter always ends. *)
From Verif Require Import Base Base_lemmas Reporter_model Reporter_spec Reporter_proof.
From Coq Require Import Permutation.
Open Scope res_scope.
Local Open Scope Z_scope.

Lemma detect_mono : forall f f' d n t x, detect_timeouts f d n t = Ok (Some x) -> (f <= f')%nat -> detect_timeouts f' d n t = Ok (Some x).
Proof.
  induction f as [|f IH]; intros f' d n t x H Hf; [discriminate H|]; destruct f' as [|f']; [lia|]; cbn [detect_timeouts] in *.
  destruct (rev (t_lru t)) as [|u l]; [exact H|]; destruct (get_uid t u) as [s|]; [|exact H].
  destruct (n - d <? s_upd s); [exact H|]; destruct (negb (s_hasr s) && negb (s_hass s)); [eapply IH; [exact H | lia]|].
  destruct (detect_timeouts f d n (remove_stream t u)) as [[[t1 e1]|]| |] eqn:D; try discriminate H.
  rewrite (IH f' _ _ _ _ D) by lia; exact H.
Qed.

(** Reports inside a packet *)
Definition body (o : rop) : Prop :=
  match o with RCname _ _ _ | RSr _ _ _ | RReception _ _ _ | RDlrr _ _ | RRrtr _ _ | RMetrics _ _ | RBye _ => True | _ => False end.

Lemma coll_st c r id : r_st (detect_collision c r id) = r_st r.
Proof. unfold detect_collision; repeat match goal with |- context [if ?b then _ else _] => destruct b | |- context [match ?b with _ => _ end] => destruct b end; reflexivity. Qed.

Lemma body_step c r o : body o -> r_st r = RProc -> exists r' ev, (forall fuel, r_step fuel c r o = Ok (Some (r', ev))) /\ r_st r' = RProc.
Proof.
  intros B H; assert (S0 : in_st r RProc = true) by (unfold in_st; rewrite H; reflexivity).
  destruct o; cbn [body] in B; try contradiction; cbn [r_step]; rewrite S0; unfold lift.
  - destruct (process_cname c r ok id name) as [r' ev] eqn:E; exists r', ev; split; [reflexivity|]; unfold process_cname in E.
    repeat match type of E with context [if ?b then _ else _] => destruct b | context [match ?b with _ => _ end] => destruct b end;
      injection E as <- <-; cbn [with_tab r_st]; rewrite ?coll_st; cbn [with_tab r_st]; try exact H;
      unfold detect_cname_collision; repeat match goal with |- context [if ?b then _ else _] => destruct b end; exact H.
  - eexists _, _; split; [reflexivity|]; unfold process_sr; destruct (find_create _ _ _ _) as [t [s|]]; cbn [with_tab r_st]; rewrite coll_st; exact H.
  - eexists _, _; split; [reflexivity|]; unfold process_reception; destruct (_ || _); [rewrite coll_st; exact H|].
    destruct (find_create _ _ _ _) as [t [s|]]; cbn [with_tab r_st]; rewrite coll_st; exact H.
  - eexists _, _; split; [reflexivity|]; unfold process_dlrr; destruct (negb _); [rewrite coll_st; exact H|].
    destruct (get _ _) as [s|]; [|rewrite coll_st; exact H]; destruct (s_hass s); cbn [with_tab r_st]; rewrite coll_st; exact H.
  - eexists _, _; split; [reflexivity|]; unfold process_rrtr.
    destruct (get _ _) as [s|]; [|rewrite coll_st; exact H]; destruct (s_hasr s); cbn [with_tab r_st]; rewrite coll_st; exact H.
  - eexists _, _; split; [reflexivity|]; unfold process_metrics; destruct (negb _); [rewrite coll_st; exact H|].
    destruct (get _ _) as [s|]; [|rewrite coll_st; exact H]; destruct (s_hasr s); cbn [with_tab r_st]; rewrite coll_st; exact H.
  - destruct (process_goodbye r id) as [r' ev] eqn:E; exists r', ev; split; [reflexivity|]; unfold process_goodbye in E; injection E as <- <-.
    destruct (get _ _); exact H.
Qed.

Lemma body_run c : forall l r, Forall body l -> r_st r = RProc -> exists r' ev, (forall fuel, r_run fuel c r l = Ok (Some (r', ev))) /\ r_st r' = RProc.
Proof.
  induction l as [|o l IH]; intros r B H; [exists r, []; auto|].
  inversion B as [|? ? B1 B2]; subst; destruct (body_step c r o B1 H) as (r1 & e1 & E1 & H1); destruct (IH r1 B2 H1) as (r2 & e2 & E2 & H2).
  exists r2, (e1 ++ e2); split; [|exact H2]; intros fuel; cbn [r_run]; rewrite E1; cbn [bind]; rewrite E2; reflexivity.
Qed.

Lemma run_join fuel c : forall l1 l2 r r1 e1 r2 e2, r_run fuel c r l1 = Ok (Some (r1, e1)) -> r_run fuel c r1 l2 = Ok (Some (r2, e2)) ->
  r_run fuel c r (l1 ++ l2) = Ok (Some (r2, e1 ++ e2)).
Proof.
  induction l1 as [|o l1 IH]; intros l2 r r1 e1 r2 e2 H1 H2; [cbn in H1; injection H1 as <- <-; exact H2|].
  apply run_cons in H1; destruct H1 as (ra & ea & eb & A & B & ->); cbn [app r_run]; rewrite A; cbn [bind]; rewrite (IH _ _ _ _ _ _ B H2); cbn [bind]; rewrite app_assoc; reflexivity.
Qed.

(** What the communicator tells the reporter about one packet *)
Definition packet (l : list rop) : Prop := exists from now p b, l = RBeginP from now p :: b ++ [REndP] /\ Forall body b /\ 0 < now.

Lemma packet_run c l r : 0 < rc_timeout c -> packet l -> rok True r -> on_time (r_time r) l -> r_st r = RIdle ->
  exists F r' ev, (forall fuel, (F <= fuel)%nat -> r_run fuel c r l = Ok (Some (r', ev))) /\ r_st r' = RIdle.
Proof.
  intros Hd (from & now & p & b & -> & B & Hn) Hk Ht Hi.
  assert (S1 : exists r1, (forall fuel, r_run fuel c r [RBeginP from now p] = Ok (Some (r1, []))) /\ r_st r1 = RProc).
  { cbn [r_run r_step]; unfold begin_; rewrite Hi; destruct (now <=? 0) eqn:E; [apply Z.leb_le in E; lia|]; cbn [bind lift].
    eexists; split; [reflexivity|]; unfold refresh; destruct (t_need _); [|reflexivity]; unfold rebuild_index; destruct (rebuild_recvs _ _ _ _ _ _) as [t i]; reflexivity. }
  destruct S1 as (r1 & E1 & H1); destruct (body_run c b r1 B H1) as (r2 & e2 & E2 & H2).
  assert (E12 : forall fuel, r_run fuel c r (RBeginP from now p :: b) = Ok (Some (r2, [] ++ e2))) by (intros fuel; exact (run_join fuel c [_] b _ _ _ _ _ (E1 fuel) (E2 fuel))).
  destruct (on_time_app O c (RBeginP from now p :: b) [REndP] r r2 _ Hk Ht (E12 O)) as (T1 & _).
  assert (Hk2 : rok True r2) by (eapply (run_ok O c _ True r); [exact Hk | intros _; exact T1 | exact (E12 O)]).
  set (F := S (length (known r2))).
  assert (S3 : exists r3 e3, r_step F c r2 REndP = Ok (Some (r3, e3)) /\ r_st r3 = RIdle /\ forall fuel, (F <= fuel)%nat -> r_step fuel c r2 REndP = Ok (Some (r3, e3))).
  { pose proof (timeouts_spec F (rc_timeout c) (r_time r2) (r_tab r2) Hk2 Hd) as T; cbn [r_step]; unfold in_st; rewrite H2; unfold end_processing.
    destruct (detect_timeouts F (rc_timeout c) (r_time r2) (r_tab r2)) as [[[t e]|]| |] eqn:D; try contradiction; cbn [bind].
    - destruct T as (_ & _ & T & _).
      assert (N : exists n, (if r_time r2 =? 0 then Ok [] else notify t (r_send r2) (r_time r2) (t_lru t)) = Ok n).
      { destruct (r_time r2 =? 0); [eexists; reflexivity|]; destruct (notify_spec (r_time r2) t (r_send r2) T) as (n & -> & _); eexists; reflexivity. }
      destruct N as (n & N); rewrite N; cbn [bind]; eexists _, _; splits; [reflexivity | reflexivity |].
      intros fuel Hf; rewrite (detect_mono F fuel _ _ _ _ D Hf); cbn [bind]; rewrite N; reflexivity.
    - exfalso; assert (Hs : (stale (rc_timeout c) (r_time r2) (t_streams (r_tab r2)) <= length (t_streams (r_tab r2)))%nat).
      { unfold stale; generalize (t_streams (r_tab r2)); intros L; induction L as [|y L IHL]; cbn; [lia|]; destruct (_ : bool); cbn; lia. }
      unfold F, known in T; lia. }
  destruct S3 as (r3 & e3 & _ & H3 & E3); exists F, r3, (([] ++ e2) ++ e3 ++ []); split; [|exact H3].
  intros fuel Hf; change (RBeginP from now p :: b ++ [REndP]) with ((RBeginP from now p :: b) ++ [REndP]).
  eapply run_join; [apply E12|]; cbn [r_run]; rewrite (E3 fuel Hf); reflexivity.
Qed.

Lemma packets_run c : 0 < rc_timeout c -> forall ls r, Forall packet ls -> rok True r -> on_time (r_time r) (concat ls) -> r_st r = RIdle ->
  exists F r' ev, (forall fuel, (F <= fuel)%nat -> r_run fuel c r (concat ls) = Ok (Some (r', ev))).
Proof.
  intros Hd; induction ls as [|l ls IH]; intros r P Hk Ht Hi; [exists O, r, []; auto|].
  inversion P as [|? ? P1 P2]; subst; cbn [concat] in *.
  assert (T1 : on_time (r_time r) l).
  { revert Ht; generalize (r_time r); generalize (concat ls); clear; induction l as [|o l IH]; intros k z H; [exact I|]; cbn [app] in H.
    destruct o; cbn [on_time] in *; eauto; destruct H; split; eauto. }
  destruct (packet_run c l r Hd P1 Hk T1 Hi) as (F1 & r1 & e1 & E1 & H1).
  assert (Hk1 : rok True r1) by (eapply (run_ok F1 c _ True r); [exact Hk | intros _; exact T1 | exact (E1 F1 (le_n _))]).
  destruct (on_time_app F1 c l (concat ls) r r1 _ Hk Ht (E1 F1 (le_n _))) as (_ & T2).
  destruct (IH r1 P2 Hk1 T2 H1) as (F2 & r2 & e2 & E2); exists (Nat.max F1 F2), r2, (e1 ++ e2); intros fuel Hf.
  eapply run_join; [apply E1; lia | apply E2; lia].
Qed.
