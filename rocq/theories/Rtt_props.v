(** C58: round trip time and clock offset. *)
From Verif Require Import Base Ntp_model Ntp_proof Rtt_model Rtt_spec Rtt_proof.
Open Scope res_scope.

(** Whatever exchanges the estimator is told about: it never overflows, and what
    it tells is the round trip time and clock offset of the most recent plausible
    one (by the time our report left); nothing if there is none. *)
Theorem C58_latest : forall es, Forall in_range es -> exists st, upd_all rtt_new es = Ok st /\
  (r_has st = true <-> Exists plausible es) /\
  (r_has st = true -> exists i e, nth_error es i = Some e /\ plausible e /\
     (forall j e', nth_error es j = Some e' -> plausible e' -> t1 e' < t1 e \/ (t1 e' = t1 e /\ (i <= j)%nat)) /\
     r_rtt st = on_the_way e /\ r_offset st = Z.quot ((t2 e - t1 e) + (t3 e - t4 e)) 2).
Proof.
  intros es F. destruct (tells_run es rtt_new []) with (2 := F) as (st & E & HL & T).
  { split; [reflexivity|]. left. repeat split; auto. }
  cbn [app] in T. exists st. split; [exact E|]. destruct T as [(T1 & T2 & T3 & T4)|(T1 & i & e & (B1 & B2 & B3) & T2 & T3 & T4)].
  - split; [|intros Q; congruence]. rewrite T1. split; [discriminate|]. intros X. exfalso. rewrite Exists_exists in X. destruct X as (y & Y & P). rewrite Forall_forall in T4. now apply (T4 y).
  - split; [|intros _; exists i, e; auto]. split; [|intros; exact T1]. intros _. apply Exists_exists. exists e. split; [eapply nth_error_In; eauto|exact B2].
Qed.
Print Assumptions C58_latest.

(** the second reply overtakes the first; the third comes from a report sent before *)
Definition some_exchanges := [mkEx 1000 5300 5400 1900; mkEx 2000 6100 6150 2250; mkEx 1500 5700 5800 2400; mkEx 3000 6800 7900 3500].
Example ex_latest : Forall in_range some_exchanges /\
  upd_all rtt_new some_exchanges = Ok (mkRtt true 4000 200 1000 2000) /\ ~ plausible (mkEx 3000 6800 7900 3500).
Proof.
  split; [|split; [reflexivity|unfold plausible, on_the_way; cbn; lia]].
  unfold some_exchanges. repeat constructor; cbn [t1 t2 t3 t4]; lia.
Qed.

(** With a peer whose clock is ahead by any offset, any delays on the way there
    and back and any time in between: the round trip time is right to 8 us down
    and 23 us up (the 32-bit format of the report), and the clock offset is right
    up to half the difference of the delays and 12 us. [cur]: our most recent
    report may be a later one than the one the peer replies to. *)
Theorem C58_accurate : forall st sent there between back offset cur, link_ok st ->
  15261 < sent -> 0 <= there -> 0 <= between <= 65535000000000 -> 0 <= back -> 7631 <= there + back ->
  0 < sent + there + offset -> sent + there + offset + between < 4233462144000000000 ->
  sent + there + between + back < 4233462144000000000 ->
  sent <= cur < 4233462144000000000 -> cur - sent <= 32767000000000 ->
  r_last (l_est st) < sent - 15261 ->
  exists ntp1 blk ntp2 st',
    report_ntp sent = Ok ntp1 /\
    describe_last (sent + there + offset) (ntp64_get (ntp64_set ntp1)) (sent + there + offset + between) = Ok blk /\
    report_ntp (sent + there + offset + between) = Ok ntp2 /\
    process_report st cur blk (ntp64_get (ntp64_set ntp2)) (sent + there + between + back) = Ok st' /\
    r_has (l_est st') = true /\
    there + back - 7631 <= r_rtt (l_est st') <= there + back + 22893 /\
    -7635 <= 2 * (r_offset (l_est st') - offset) - (there - back) <= 22895.
Proof.
  intros st sent there between back offset cur LO H1 H2 H3 H4 H5 H6 H7 H8 H9 H10 H11.
  unfold report_ntp.
  destruct (unix_rt sent ltac:(lia)) as (v1 & E1 & V1 & U1).
  destruct (unix_rt (sent + there + offset + between) ltac:(lia)) as (v2 & E2 & V2 & U2).
  destruct (unix_rt cur ltac:(lia)) as (vc & Ec & Vc & Uc).
  destruct (delay_back between H3) as (vd & Ed & D1 & D2).
  assert (Edes : describe_last (sent + there + offset) (ntp64_get (ntp64_set v1)) (sent + there + offset + between) = Ok (ntp32_set v1, set_delay vd)).
  { unfold describe_last. replace ((0 <? sent + there + offset) && (sent + there + offset <=? sent + there + offset + between)) with true by lia.
    replace (sent + there + offset + between - (sent + there + offset)) with between by lia.
    rewrite int64_ok by lia. cbn [bind]. rewrite Ed. cbn [bind]. rewrite ntp64_rt by exact V1. reflexivity. }
  assert (Ext : ntp_extend vc (ntp32_get (ntp32_set v1)) = Ok (v1 - v1 mod 65536)).
  { replace (ntp32_set v1) with (ntp32_set (v1 - v1 mod 65536)).
    2:{ unfold ntp32_set. rewrite !Z.shiftr_div_pow2 by lia. f_equal. change (2 ^ 16) with 65536. clear. lia. }
    apply near_extend with (t := sent) (t' := cur); auto; lia. }
  set (T1 := ntp_2_unix (v1 - v1 mod 65536)).
  assert (HT1 : sent - 15261 <= T1 <= sent).
  { pose proof (ntp_2_unix_trunc v1 V1). unfold T1. lia. }
  set (T3 := ntp_2_unix v2) in *. set (dl := ntp_2_nanoseconds (ntp32_get (set_delay vd))) in *.
  exists v1, (ntp32_set v1, set_delay vd), v2.
  unfold process_report, process_last. rewrite (proj2 (Z.eqb_neq cur 0)) by lia. rewrite Ec. cbn [bind fst snd]. rewrite Ext. cbn [bind].
  unfold process_reply. cbn [l_last_local l_delay l_est]. rewrite (ntp64_rt v2) by exact V2. fold T1 T3 dl.
  rewrite (proj2 (Z.eqb_neq T1 0)) by lia. rewrite (proj2 (Z.eqb_neq (sent + there + between + back) 0)) by lia. cbn [negb andb].
  rewrite (int64_ok (T3 - dl)) by lia. cbn [bind].
  clearbody T1 T3 dl. destruct LO as (_ & _ & LO & _).
  destruct (update_spec (l_est st) (mkEx T1 (T3 - dl) T3 (sent + there + between + back))) as [(P & L & E)|(N & E)].
  - unfold in_range, ntp_time. cbn [t1 t2 t3 t4]. lia.
  - exact LO.
  - unfold upd_ex, on_the_way in E. cbn [t1 t2 t3 t4] in E. rewrite E. cbn [bind].
    eexists. split; [exact E1|]. split; [exact Edes|]. split; [exact E2|]. split; [reflexivity|].
    cbn [l_est r_has r_rtt r_offset]. split; [reflexivity|]. clear - H2 H3 H4 H5 U2 D1 D2 HT1.
    split; [lia|]. set (x := T3 - dl - T1 + (T3 - (sent + there + between + back))).
    pose proof (Z.quot_rem x 2 ltac:(lia)) as Q. pose proof (Z.rem_bound_abs x 2 ltac:(lia)) as B.
    set (q := Z.quot x 2) in *. set (r := Z.rem x 2) in *. clearbody q r. unfold x in Q. lia.
  - exfalso. apply N. unfold plausible, on_the_way. cbn [t1 t2 t3 t4]. lia.
Qed.
Print Assumptions C58_accurate.

(** a peer whose clock is 3 h 20 min ahead, 10 ms there, 30 ms back *)
Example ex_accurate : link_ok link_new /\ (match report_ntp 1700000000123456789 with Ok ntp1 =>
   match describe_last 1700012000133456789 (ntp64_get (ntp64_set ntp1)) 1700012001633456789, report_ntp 1700012001633456789 with Ok blk, Ok ntp2 =>
     process_report link_new 1700000001123456789 blk (ntp64_get (ntp64_set ntp2)) 1700000001663456789
   | _, _ => Panic end | _ => Panic end) =
  Ok (mkLink 1700000000123443603 1500000000 (mkRtt true 11999990006592 40013186 1700000000123443603 1700000000123443603)).
Proof. split; [unfold link_ok; cbn; lia|]. vm_compute. reflexivity. Qed.

(** Whatever a peer sends, in any sequence of reports: nothing aborts or
    overflows, and the round trip time is never negative. *)
Definition incoming_ok (r : Z * (Z * Z) * Z * Z) : Prop :=
  let '(cur, blk, ntp, now) := r in (cur = 0 \/ local_time cur) /\ local_time now /\
  0 <= fst blk < 4294967296 /\ 0 <= snd blk < 4294967296 /\ 0 <= ntp < 18446744073709551616.
Fixpoint process_all (st : link) (rs : list (Z * (Z * Z) * Z * Z)) : res link :=
  match rs with [] => Ok st | (cur, blk, ntp, now) :: rs => st <- process_report st cur blk ntp now ;; process_all st rs end.

Theorem C58_robust : forall rs, Forall incoming_ok rs -> exists st, process_all link_new rs = Ok st /\ 0 <= r_rtt (l_est st).
Proof.
  intros rs. assert (K : link_ok link_new) by (unfold link_ok; cbn; lia). revert K. generalize link_new.
  induction rs as [|[[[cur blk] ntp] now] rs IH]; intros st K F; cbn [process_all].
  - exists st. split; [reflexivity|]. apply K.
  - inversion F as [|? ? F1 F2]; subst. destruct F1 as (A & B & C & D & E).
    destruct (process_ok st cur blk ntp now K A B C D E) as (st' & -> & K'). cbn [bind]. now apply IH.
Qed.
Print Assumptions C58_robust.

Example ex_robust : Forall incoming_ok [(1700000000000000000, (4294967295, 4294967295), 18446744073709551615, 1700000000100000000)].
Proof. repeat constructor; cbn; lia. Qed.

(** A peer that has not yet received any report of ours says so by a zero LSR
    (LRR); this is taken for a time, and gives a round trip time of hours. *)
Theorem C58_unknown_refuted :
  ~ (forall cur now remote ntp st, local_time cur -> cur <= now -> local_time now -> report_ntp remote = Ok ntp ->
       forall blk, describe_last 0 0 remote = Ok blk -> process_report link_new cur blk ntp now = Ok st -> r_has (l_est st) = false).
Proof.
  intros H. specialize (H 1700000000000000000 1700000001000000000 1700000000900000000 16788979060295755366
    (mkLink 1699971456000000000 0 (mkRtt true 14272399999999 28545000000000 1699971456000000000 1699971456000000000))).
  specialize (H ltac:(unfold local_time; lia) ltac:(lia) ltac:(unfold local_time; lia) ltac:(vm_compute; reflexivity) (0, 0) eq_refl ltac:(vm_compute; reflexivity)).
  cbn in H. discriminate H.
Qed.
Print Assumptions C58_unknown_refuted.
