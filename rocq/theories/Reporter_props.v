(** C20: the table of known remote streams. *)
From Verif Require Import Base Base_lemmas Reporter_model Reporter_spec Reporter_proof.
From Coq Require Import Permutation Sorted.
Open Scope res_scope.
Local Open Scope Z_scope.

(** At most one entry per source id, after any history of calls at any times. *)
Theorem C20_unique : forall fuel c local l r ev, r_run fuel c (r_new local) l = Ok (Some (r, ev)) -> NoDup (map s_id (known r)).
Proof.
  intros fuel c local l r ev H; destruct (run_ok fuel c l False (r_new local) r ev (new_ok _ _) (fun f => match f with end) H) as (ls & K); apply (ti_id _ _ _ _ K).
Qed.

(** With a clock that does not go back, the end of a session (of processing or of generation) removes exactly the reported streams that were silent for the
    timeout, tells the participant to halt exactly these, keeps all others, and restarts the time of the streams that never reported. At the end of processing the
    participant is also told the news of exactly the streams heard in this session. *)
Theorem C20_ends : forall fuel c local l r ev o r' ev', 0 < rc_timeout c -> on_time 0 l -> r_run fuel c (r_new local) l = Ok (Some (r, ev)) ->
  (o = REndP \/ exists ids, o = REndG ids) -> r_step fuel c r o = Ok (Some (r', ev')) ->
  known r' = after_timeouts (rc_timeout c) (r_time r) (known r) /\
  Permutation ev' (map (fun s => Halt (s_id s)) (filter (expired (rc_timeout c) (r_time r)) (known r)) ++
                   (if match o with REndP => true | _ => false end then flat_map (news (r_send r)) (filter (fun s => s_upd s =? r_time r) (known r')) else [])).
Proof.
  intros fuel c local l r ev o r' ev' Hd Ht H Ho Hs.
  assert (Hk : rok True r) by (eapply (run_ok fuel c l True (r_new local)); [apply new_ok | intros _; exact Ht | exact H]).
  assert (He : ends o = true) by (destruct Ho as [-> | (ids & ->)]; reflexivity).
  destruct (end_step _ _ _ _ _ _ He Hs) as (e1 & e2 & D & -> & _ & _ & _ & _ & _ & Hc).
  pose proof (timeouts_spec fuel (rc_timeout c) (r_time r) (r_tab r) Hk Hd) as T; rewrite D in T; destruct T as (T1 & T2 & T3 & _).
  split; [exact T1|]; apply Permutation_app; [exact T2|]; destruct Ho as [-> | (ids & ->)].
  - destruct Hc as (_ & _ & Hp & Hc).
    assert (Hz : r_time r =? 0 = false).
    { apply Z.eqb_neq; intros E. clear - H Hp E Ht.
      assert (Hpos : forall fuel c l r r' ev, rok True r -> on_time (r_time r) l -> r_run fuel c r l = Ok (Some (r', ev)) -> (r_st r <> RIdle -> 0 < r_time r) -> 0 <= r_time r -> r_st r' <> RIdle -> 0 < r_time r').
      { clear; intros fuel c; induction l as [|o l IH]; intros r r' ev Hk Ht H Hp H0; [cbn in H; injection H as <- <-; exact Hp|].
        apply run_cons in H; destruct H as (r1 & e1 & e2 & H1 & H2 & ->); pose proof (step_time _ _ _ _ _ _ _ Hk H1) as Et.
        assert (T1 : times True r o). { destruct o; cbn [times]; auto; intros _; apply on_time_cons in Ht; cbn [begins] in Ht; tauto. }
        apply on_time_cons in Ht; assert (on_time (r_time r1) l) as Ht' by (rewrite Et; destruct (begins o) as [[now p]|]; tauto).
        eapply (IH r1); eauto; [eapply step_ok; eauto | |].
        - destruct (op_cases o) as [(now & p & Hb) | [He | [(b & ->) | [(x & ->) | (x & Hs & Hb)]]]].
          + rewrite Hb in Et, Ht; destruct Ht as (Ht & _); apply next_later in Ht; lia.
          + destruct (end_step _ _ _ _ _ _ He H1) as (? & ? & _ & _ & Es & _); intros C; contradiction.
          + apply blocks_step in H1; destruct H1 as (_ & Es & ->); cbn [r_time r_st] in *; exact Hp.
          + destruct (bye_step _ _ _ _ _ _ _ Hk H1) as (_ & _ & F & _); destruct F as (-> & -> & _); exact Hp.
          + destruct (proc_does _ _ _ _ _ _ _ _ Hk Hs Hb H1) as (_ & _ & F & _); destruct F as (-> & -> & _); exact Hp.
        - rewrite Et; destruct (begins o) as [[now p]|]; [destruct Ht as (Ht & _); apply next_later in Ht; lia | exact H0]. }
      specialize (Hpos _ _ _ _ _ _ (new_ok True local) Ht H); cbn [r_new r_st r_time] in Hpos; assert (0 < r_time r) by (apply Hpos; [intros C; contradiction | lia | rewrite Hp; discriminate]); lia. }
    rewrite Hz in Hc; destruct (notify_spec (r_time r) (r_tab r') (r_send r) T3) as (n & N1 & N2); rewrite N1 in Hc; injection Hc as <-; exact N2.
  - destruct Hc as (-> & _); constructor.
Qed.

(** The end of processing always comes: no dangling entry, and no more iterations than entries. *)
Theorem C20_terminates : forall fuel fuel' c local l r ev, 0 < rc_timeout c -> on_time 0 l -> r_run fuel c (r_new local) l = Ok (Some (r, ev)) ->
  r_st r = RProc -> (length (known r) < fuel')%nat -> exists r' ev', r_step fuel' c r REndP = Ok (Some (r', ev')).
Proof.
  intros fuel fuel' c local l r ev Hd Ht H Hp Hf.
  assert (Hk : rok True r) by (eapply (run_ok fuel c l True (r_new local)); [apply new_ok | intros _; exact Ht | exact H]).
  pose proof (timeouts_spec fuel' (rc_timeout c) (r_time r) (r_tab r) Hk Hd) as T; cbn [r_step]; unfold in_st; rewrite Hp; unfold end_processing.
  destruct (detect_timeouts fuel' (rc_timeout c) (r_time r) (r_tab r)) as [[[t e]|]| |]; try contradiction; cbn [bind].
  - destruct T as (_ & _ & T & _); destruct (r_time r =? 0); [cbn [bind]; eauto|]; destruct (notify_spec (r_time r) t (r_send r) T) as (n & -> & _); cbn [bind]; eauto.
  - exfalso; assert (Hs : (stale (rc_timeout c) (r_time r) (t_streams (r_tab r)) <= length (t_streams (r_tab r)))%nat)
      by (unfold stale; clear; induction (t_streams (r_tab r)) as [|x l IH]; [constructor|]; cbn [filter length]; destruct (silent _ _ x); cbn [length]; lia).
    unfold known in Hf; lia.
Qed.

(** A report touches the entry of its own stream only; if it is taken into account, this entry exists afterwards and was heard now; otherwise the time when it was
    heard last does not change. The entry goes away only with a BYE or with a different canonical name. *)
Theorem C20_report : forall fuel c local l r ev o id r' ev', r_run fuel c (r_new local) l = Ok (Some (r, ev)) ->
  speaker o = Some id -> o <> RBye id -> r_step fuel c r o = Ok (Some (r', ev')) ->
  (forall id', id' <> id -> get (r_tab r') id' = get (r_tab r) id') /\
  (accepted (r_send r) (r_local r) (get (r_tab r) id) o = true -> mem_ok o = true -> exists s, get (r_tab r') id = Some s /\ s_upd s = r_time r) /\
  (accepted (r_send r) (r_local r) (get (r_tab r) id) o = false ->
     option_map (fun s => (s_uid s, s_upd s)) (get (r_tab r') id) = option_map (fun s => (s_uid s, s_upd s)) (get (r_tab r) id)) /\
  (forall s, get (r_tab r) id = Some s -> ~ farewell s o -> ev' = [] /\ exists s', get (r_tab r') id = Some s' /\ s_uid s' = s_uid s).
Proof.
  intros fuel c local l r ev o id r' ev' H Hs Hb Hst.
  assert (Hk : rok False r) by (eapply (run_ok fuel c l False (r_new local)); [apply new_ok | intros [] | exact H]).
  destruct (proc_does _ _ _ _ _ _ _ _ Hk Hs Hb Hst) as (_ & _ & _ & O & (E1 & E2 & E3 & _) & Ev); splits; auto.
  intros s G Hn; split; [|destruct (E3 s G Hn) as (s' & G' & U' & _); eauto].
  destruct Ev as [-> | (_ & x & Gx & Hx)]; [reflexivity|]; exfalso; apply Hn; assert (x = s) by congruence; subst x; exact Hx.
Qed.

(** BYE removes the entry, and the participant is told, whether the stream was known or not. *)
Theorem C20_bye : forall fuel c local l r ev id r' ev', r_run fuel c (r_new local) l = Ok (Some (r, ev)) -> r_step fuel c r (RBye id) = Ok (Some (r', ev')) ->
  ev' = [Halt id] /\ get (r_tab r') id = None /\ forall id', id' <> id -> get (r_tab r') id' = get (r_tab r) id'.
Proof.
  intros fuel c local l r ev id r' ev' H Hst.
  assert (Hk : rok False r) by (eapply (run_ok fuel c l False (r_new local)); [apply new_ok | intros [] | exact H]).
  destruct (bye_step _ _ _ _ _ _ _ Hk Hst) as (_ & E & _ & O & G); splits; auto.
Qed.

(** Over histories. A stream whose report was taken into account at time T, and that neither says goodbye nor changes its name, is known as long as no session is later than T + timeout... *)
Theorem C20_alive : forall fuel c local l1 l2 o id r ev r1 ev1 r2 ev2, 0 < rc_timeout c -> on_time 0 (l1 ++ o :: l2) ->
  r_run fuel c (r_new local) l1 = Ok (Some (r, ev)) -> speaker o = Some id -> mem_ok o = true -> accepted (r_send r) (r_local r) (get (r_tab r) id) o = true ->
  r_step fuel c r o = Ok (Some (r1, ev1)) -> r_run fuel c r1 l2 = Ok (Some (r2, ev2)) -> Forall (stays id) l2 -> r_time r2 < r_time r + rc_timeout c ->
  In id (map s_id (known r2)).
Proof.
  intros fuel c local l1 l2 o id r ev r1 ev1 r2 ev2 Hd Ht H1 Hs Hm Ha H2 H3 Hl Hlt.
  destruct (on_time_app fuel c l1 (o :: l2) _ _ _ (new_ok _ local) Ht H1) as (T1 & T2).
  assert (Hk : rok True r) by (eapply (run_ok fuel c l1 True (r_new local)); [apply new_ok | intros _; exact T1 | exact H1]).
  assert (Hb : o <> RBye id) by (intros ->; destruct (get (r_tab r) id); discriminate Ha).
  destruct (proc_does _ _ _ _ _ _ _ _ Hk Hs Hb H2) as (_ & K1 & F & _ & (E1 & _) & _); destruct F as (_ & Et & _).
  destruct (E1 Ha (or_introl Hm)) as (s & G & U).
  assert (Ht2 : on_time (r_time r1) l2) by (rewrite Et; destruct o; try discriminate Hs; exact T2).
  destruct (alive fuel c id (r_time r) l2 r1 r2 ev2 K1 Hd Ht2 H3 Hl (Z.eq_le_incl _ _ (eq_sym Et)) Hlt) as (s2 & G2 & _); [exists s; split; [exact G | lia]|].
  apply get_in in G2; destruct G2 as (G2 & <-); apply in_map; exact G2.
Qed.
(** ... and a stream with reports that is not heard any more is halted when a session ends [timeout] or more after it was heard; no entry with reports of it remains. *)
Theorem C20_forgotten : forall fuel c local l1 l2 o id r s ev r1 ev1 r2 ev2, 0 < rc_timeout c -> on_time 0 (l1 ++ l2) ->
  r_run fuel c (r_new local) l1 = Ok (Some (r, ev)) -> In s (known r) -> s_id s = id -> reported s = true ->
  r_run fuel c r l2 = Ok (Some (r1, ev1)) -> Forall (mute id) l2 -> (o = REndP \/ exists ids, o = REndG ids) -> s_upd s + rc_timeout c <= r_time r1 ->
  r_step fuel c r1 o = Ok (Some (r2, ev2)) -> In (Halt id) (ev1 ++ ev2) /\ forall s', In s' (known r2) -> s_id s' = id -> reported s' = false.
Proof.
  intros fuel c local l1 l2 o id r s ev r1 ev1 r2 ev2 Hd Ht H1 Hi Hid Hr H2 Hl Ho Hlate H3.
  destruct (on_time_app fuel c l1 l2 _ _ _ (new_ok _ local) Ht H1) as (T1 & T2).
  assert (Hk : rok True r) by (eapply (run_ok fuel c l1 True (r_new local)); [apply new_ok | intros _; exact T1 | exact H1]).
  assert (Hk1 : rok True r1) by (eapply (run_ok fuel c l2 True r); [exact Hk | intros _; exact T2 | exact H2]).
  assert (He : ends o = true) by (destruct Ho as [-> | (ids & ->)]; reflexivity).
  assert (Hk2 : rok True r2) by (eapply step_ok; [exact Hk1 | | exact H3]; destruct Ho as [-> | (ids & ->)]; exact I).
  assert (G : get (r_tab r) id = Some s) by (subst id; eapply in_get; eauto).
  destruct (end_get _ _ _ _ _ _ Hk1 Hd He H3) as (_ & Gr & Hh).
  destruct (forgotten fuel c id (s_upd s) l2 r r1 ev1 Hk Hd T2 H2 Hl (ex_intro _ s (conj G (conj Hr eq_refl)))) as [(s1 & G1 & R1 & U1) | (A & B)].
  - assert (X : expired (rc_timeout c) (r_time r1) s1 = true) by (unfold expired, silent; rewrite R1; apply Z.leb_le; lia).
    destruct (get_in _ _ _ G1) as (I1 & D1); split; [apply in_or_app; right; rewrite <- D1; apply Hh; assumption|].
    intros s' Hs' Es; exfalso; pose proof (in_get _ _ _ _ Hk2 Hs') as G2; rewrite Es, (Gr id), G1, X in G2; discriminate G2.
  - split; [apply in_or_app; left; exact A|]; intros s' Hs' Es; pose proof (in_get _ _ _ _ Hk2 Hs') as G2; rewrite Es, (Gr id) in G2.
    destruct (get (r_tab r1) id) as [x|] eqn:Gx; [|discriminate G2]; specialize (B x eq_refl); destruct (expired _ _ x); [discriminate G2|]; injection G2 as <-.
    unfold restarted; destruct (silent _ _ x); exact B.
Qed.

(** Witness: a sender of a stream (id 5), reporting back, timeout 1000. Receiver 10 reports at 50 and 700, receiver 11 at 60 only; the participant receives stream 20, which never reports. *)
Definition ex_cfg : rcfg := mkRc ReportBack 0 7 1000.
Definition ex_part : part := mkPart true [20].
Definition ex_packet (id now : Z) : list rop := [RBeginP 1 now ex_part; RCname true id (id + 100); RReception true id 5; RRrtr id 3; REndP].
Definition ex_hist : list rop := ex_packet 10 50 ++ ex_packet 11 60 ++ ex_packet 10 700 ++ [RBeginG 1060 ex_part; RBlocks false].
Definition show (q : res (option (rep * list evt))) : res (option (list (Z * Z) * list evt)) :=
  match q with Ok (Some (r, ev)) => Ok (Some (map (fun s => (s_id s, s_upd s)) (known r), ev)) | Ok None => Ok None | Panic => Panic | UB => UB end.
Example C20_witness : on_time 0 ex_hist /\
  show (r_run 20 ex_cfg (r_new 5) ex_hist) = Ok (Some ([(20, 50); (10, 700); (11, 60)], [NotifySend 10; NotifySend 11; NotifySend 10; Dlrr 1 10; Dlrr 1 11])) /\
  show (r_run 20 ex_cfg (r_new 5) (ex_hist ++ [REndG []])) = Ok (Some ([(20, 1060); (10, 700)], [NotifySend 10; NotifySend 11; NotifySend 10; Dlrr 1 10; Dlrr 1 11; Halt 11])).
Proof. split; [cbn; repeat split; discriminate || reflexivity | split; vm_compute; reflexivity]. Qed.

(** The clock condition is needed. All packets of a batch are processed with the same current time [t]; the reporter then uses the times t, t+1, t, ...: when the packets are from A, B, A,
    the participant is not told the news of the last one. *)
Theorem C20_batch_refuted : exists c local l1 l2 r1 ev1 r2 ev2, 0 < rc_timeout c /\ r_run 20 c (r_new local) l1 = Ok (Some (r1, ev1)) /\
  l2 = [RBeginP 1 60 (mkPart true []); RReception true 10 5; RRrtr 10 3; REndP] /\ r_run 20 c r1 l2 = Ok (Some (r2, ev2)) /\
  (exists s, get (r_tab r2) 10 = Some s /\ s_upd s = r_time r2 /\ s_hasr s = true /\ s_loop s = false) /\ ev2 = [].
Proof.
  pose (p := mkPart true []); pose (pk := fun id => [RBeginP 1 60 p; RReception true id 5; RRrtr id 3; REndP]).
  destruct (r_run 20 ex_cfg (r_new 5) (pk 10 ++ pk 11)) as [[[r1 ev1]|]| |] eqn:E1; try (exfalso; vm_compute in E1; discriminate E1).
  destruct (r_run 20 ex_cfg r1 (pk 10)) as [[[r2 ev2]|]| |] eqn:E2; vm_compute in E1; injection E1 as <- <-; vm_compute in E2; try discriminate E2; injection E2 as <- <-.
  eexists ex_cfg, 5, (pk 10 ++ pk 11), (pk 10), _, _, _, _; split; [reflexivity|]; split; [vm_compute; reflexivity|]; split; [reflexivity|]; split; [vm_compute; reflexivity|].
  split; [eexists; split; [reflexivity|]; vm_compute; auto | reflexivity].
Qed.
(** A clock that goes back (report times are wall clock times): stream 11 is silent for more than the timeout, but is not removed because stream 10 was heard at what is now the future. *)
Theorem C20_clock_refuted : exists c local l r ev s, 0 < rc_timeout c /\ r_run 20 c (r_new local) l = Ok (Some (r, ev)) /\ r_st r = RIdle /\ In s (known r) /\
  expired (rc_timeout c) (r_time r) s = true /\ l = ex_packet 10 100000 ++ ex_packet 11 60 ++ [RBeginP 1 5000 ex_part; REndP].
Proof.
  pose (l := ex_packet 10 100000 ++ ex_packet 11 60 ++ [RBeginP 1 5000 ex_part; REndP]).
  destruct (r_run 20 ex_cfg (r_new 5) l) as [[[r ev]|]| |] eqn:E1; vm_compute in E1; try discriminate E1; injection E1 as <- <-.
  eexists ex_cfg, 5, l, _, _, _; split; [reflexivity|]; split; [vm_compute; reflexivity|]; split; [reflexivity|]; split; [right; right; left; reflexivity|]; split; reflexivity.
Qed.
(** Without a timeout (zero), the first stream that does not report makes the end of processing loop forever. *)
Theorem C20_zero_timeout_refuted : forall fuel, exists c local r ev, rc_timeout c = 0 /\
  r_run 20 c (r_new local) [RBeginP 1 50 (mkPart true [20])] = Ok (Some (r, ev)) /\ r_step fuel c r REndP = Ok None.
Proof.
  intros fuel; pose (c := mkRc ReportBack 0 7 0).
  destruct (r_run 20 c (r_new 5) [RBeginP 1 50 (mkPart true [20])]) as [[[r ev]|]| |] eqn:E1; vm_compute in E1; try discriminate E1; injection E1 as <- <-.
  eexists c, 5, _, _; split; [reflexivity|]; split; [vm_compute; reflexivity|].
  cbn [r_step in_st r_st]; unfold end_processing; cbn [r_time r_tab rc_timeout c]; match goal with |- bind (detect_timeouts _ _ _ ?t) _ = _ => set (tt := t) end.
  assert (L : forall f, detect_timeouts f 0 50 tt = Ok None).
  { induction f as [|f IH]; [reflexivity|]; cbn [detect_timeouts]; change (rev (t_lru tt)) with [0%nat]; cbv iota.
    change (get_uid tt 0) with (Some (mkS 0 20 0 false 0 false 0 None 0 50 false)); cbv iota beta; change (50 - 0 <? _) with false; cbv iota; cbn [s_hasr s_hass negb andb].
    change (update_stream 50 tt 0) with tt; exact IH. }
  rewrite L; reflexivity.
Qed.

Print Assumptions C20_ends.
Print Assumptions C20_alive.
Print Assumptions C20_forgotten.
Print Assumptions C20_report.
Print Assumptions C20_zero_timeout_refuted.
