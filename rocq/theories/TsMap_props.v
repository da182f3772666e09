(* C56: capture times travel from the sender to the receiver. *)
From Coq Require Import Reals ZArith List Bool Lia Lra.
From Flocq Require Import Core.Core.
From Verif Require Import Base Seqnum_model Float32 Ntp_model Ntp_props TimeConv_model TimeConv_spec TimeConv_proof TimeConv_props TsMap_model TsMap_spec TsMap_proof.
Import ListNotations.
Local Open Scope Z_scope.

Definition ts32 (q : Z) : Prop := 0 <= q < 2 ^ 32.
Definition time64 (c : Z) : Prop := 0 <= c < 2 ^ 63.
(* the times an NTP timestamp of a report can stand for: 1968 to 2104 *)
Definition ntp_time (c : Z) : Prop := -61505152000000000 <= c < 4233462144000000000.

(* Sender: whatever packets were sent, a report written for the time [now] says
   which stream timestamp that time corresponds to, reckoned from the last
   packet with known capture time. *)
Theorem C56_sender : forall s ps now, usual s -> 0 < now < 2 ^ 63 ->
  Forall (fun p => time64 (fst p) /\ ts32 (snd p)) ps ->
  exists m, ex_run map0 ps = Ok m /\
    (ex_has m = true <-> last_known ps <> None) /\
    (forall c p, last_known ps = Some (c, p) ->
       exists dn r, ex_mapping s m now = Ok r /\ ts32 r /\ ahead r p dn /\
         ((Rabs (exact_samples (now - c) (s_rate s)) <= IZR (2 ^ 31) * (1 - / 1048576))%R ->
            close dn (exact_samples (now - c) (s_rate s)))).
Proof.
  intros s ps now U Hn F. pose proof U as [V _].
  destruct (ex_run_ok ps map0 None eq_refl) as (m & E & M).
  { eapply Forall_impl; [|exact F]. cbv beta. unfold time64. lia. }
  exists m. split; auto. split.
  - unfold ex_has. destruct (last_known ps) as [[c q]|]; cbn [mapped] in M.
    + subst m. cbn [m_has]. split; auto. discriminate.
    + rewrite M. split; intros H; [discriminate H|congruence].
  - intros c p L. rewrite L in M. cbn [mapped] in M. subst m.
    destruct (last_known_pos ps c p L) as [Pc Ic]. rewrite Forall_forall in F.
    destruct (F _ Ic) as [Fc Fp]. cbn [fst snd] in Fc, Fp. unfold time64, ts32 in *.
    destruct (C55_never_undefined s V) as (_ & _ & _ & D & _).
    destruct (D (now - c)) as (dn & Ed & Rd); [lia|].
    exists dn, (Base.u32 (p + Base.u32 dn)). unfold ex_mapping. cbn [m_has m_capt m_rtp negb].
    rewrite (proj2 (Z.leb_gt now 0)) by lia. unfold ns_arith.
    rewrite (proj2 (Z.leb_le (- 2 ^ 63) (now - c))), (proj2 (Z.ltb_lt (now - c) (2 ^ 63))) by lia.
    cbn [andb bind]. rewrite Ed. cbn [bind]. split; auto. unfold Base.u32, wrapu. split; [apply Z.mod_pos_bound; lia|]. split.
    + split; auto. rewrite Z.mod_mod, Zplus_mod_idemp_r by lia. reflexivity.
    + intros B. apply (C55_delta_to_samples s (now - c) dn U); auto. lia.
Qed.
Print Assumptions C56_sender.

(* 20 packets of 5 ms at 44100 Hz have been sent, two without capture time; the report is written 3 ms after the last one *)
Definition sent : list (Z * Z) :=
  map (fun i => (if (i =? 3) || (i =? 19) then 0 else 1700000000000000000 + i * 5000000, (4294967000 + i * 220) mod 2 ^ 32))
      (map Z.of_nat (seq 0 20)).
Example ex_sender : exists m, ex_run map0 sent = Ok m /\ last_known sent = Some (1700000000090000000, 3664) /\
  ex_mapping cd m (1700000000098000000) = Ok (3664 + 353).
Proof.
  eexists. split; [vm_compute; reflexivity|]. split; vm_compute; reflexivity.
Qed.

(* Receiver: whatever reports and packets arrive, in whatever order, nothing
   overflows, a packet gets the capture time that follows from the last report
   received with a positive time, and none as long as there was no such report. *)
Fixpoint expected (rate : Z) (known : list (Z * Z)) (es : list rev) (cts : list Z) : Prop :=
  match es, cts with
  | [], [] => True
  | Mapping c q :: es, cts => expected rate (known ++ [(c, q)]) es cts
  | Packet q :: es, r :: cts =>
      match last_known known with None => r = 0 | Some (c, p) => follows rate c p q r end /\ expected rate known es cts
  | _, _ => False
  end.

Lemma in_read_ok s m c p q : usual s -> 0 < c < 4233462144000000000 -> ts32 p -> ts32 q -> m = mkMap true c p ->
  exists d, in_read s m 0 q = Ok (c + d) /\ close d (exact_ns (stream_timestamp_diff q p) (s_rate s)).
Proof.
  intros U Hc Hp Hq ->. pose proof U as [V Hr2]. pose proof (diff_ahead q p Hq Hp) as [A _].
  set (k := stream_timestamp_diff q p) in *.
  destruct (C55_never_undefined s V) as (_ & _ & _ & _ & _ & _ & _ & D).
  destruct (D k A) as (d & Ed & Rd). pose proof V as [Hr Hch].
  assert (R1 : (1 <= IZR (s_rate s))%R) by (apply IZR_le; lia).
  assert (XB : (Rabs (exact_ns k (s_rate s)) <= 2147483648000000000)%R).
  { unfold exact_ns, Rdiv. rewrite !Rabs_mult, (Rabs_right (/ _)), (Rabs_right 1000000000); try lra.
    2:{ apply Rle_ge. left. apply Rinv_0_lt_compat. lra. }
    apply Rle_trans with (2147483648 * 1000000000 * 1)%R; [|lra]. apply Rmult_le_compat.
    - apply Rmult_le_pos; [apply Rabs_pos|lra].
    - left. apply Rinv_0_lt_compat. lra.
    - apply Rmult_le_compat_r; [lra|]. rewrite <- abs_IZR. apply IZR_le. lia.
    - rewrite <- Rinv_1. apply Rinv_le; lra. }
  destruct (C55_samples_to_duration s k d U) as (_ & _ & K).
  { change (IZR (2 ^ 62)) with 4611686018427387904%R. lra. }
  specialize (K A Ed). exists d. split; auto.
  assert (DB : Z.abs d <= 3000000000000000000).
  { apply le_IZR. rewrite abs_IZR. unfold close in K.
    replace (IZR d) with ((IZR d - exact_ns k (s_rate s)) + exact_ns k (s_rate s))%R by ring.
    eapply Rle_trans; [apply Rabs_triang|]. pose proof (Rabs_pos (exact_ns k (s_rate s))). lra. }
  unfold in_read. cbn [Z.eqb negb m_has m_rtp m_capt]. fold k. rewrite Ed. cbn [bind]. unfold ns_arith.
  rewrite (proj2 (Z.leb_le (- 2 ^ 63) (c + d))), (proj2 (Z.ltb_lt (c + d) (2 ^ 63))) by lia. reflexivity.
Qed.

Lemma in_update_ok m known c q : mapped m (last_known known) ->
  mapped (in_update m c q) (last_known (known ++ [(c, q)])).
Proof.
  intros M. rewrite last_known_app. cbn [last_known]. unfold in_update.
  destruct (Z.leb_spec c 0); destruct (Z.ltb_spec 0 c); try lia; auto. reflexivity.
Qed.

Theorem C56_receiver : forall s es, usual s ->
  Forall (fun e => match e with Mapping c q => ntp_time c /\ ts32 q | Packet q => ts32 q end) es ->
  exists m cts, in_run s map0 es = Ok (m, cts) /\ expected (s_rate s) [] es cts.
Proof.
  intros s es U F.
  enough (G : forall known m, mapped m (last_known known) -> Forall (fun x => ntp_time (fst x) /\ ts32 (snd x)) known ->
    exists m' cts, in_run s m es = Ok (m', cts) /\ expected (s_rate s) known es cts) by (apply G; [reflexivity|constructor]).
  induction es as [|[c q|q] es IH]; intros known m M K.
  - exists m, []. split; [reflexivity|]. exact I.
  - inversion F as [|? ? F1 F2]; subst. cbn [in_run expected]. apply IH; auto.
    + now apply in_update_ok.
    + apply Forall_app. split; auto.
  - inversion F as [|? ? F1 F2]; subst. cbn [in_run expected].
    destruct (IH F2 known m M K) as (m' & cts & E & X).
    assert (RD : exists r, in_read s m 0 q = Ok r /\ match last_known known with None => r = 0 | Some (c, p) => follows (s_rate s) c p q r end).
    { destruct (last_known known) as [[c p]|] eqn:L; cbn [mapped] in M.
      - destruct (last_known_pos known c p L) as [Pc Ic]. rewrite Forall_forall in K. destruct (K _ Ic) as [Kc Kp].
        cbn [fst snd] in Kc, Kp. unfold ntp_time in Kc.
        destruct (in_read_ok s m c p q U) as (d & Er & C); auto; try lia.
        exists (c + d). split; auto. exists (stream_timestamp_diff q p), d. split; auto. now apply diff_ahead.
      - exists 0. split; auto. unfold in_read. cbn [Z.eqb negb]. rewrite M. reflexivity. }
    destruct RD as (r & Er & Hr). rewrite Er. cbn [bind]. rewrite E. cbn [bind fst snd].
    exists m', (r :: cts). split; auto.
Qed.
Print Assumptions C56_receiver.

Example ex_receiver : exists m,
  in_run cd map0 [Packet 100; Mapping (-5) 7; Packet 320; Mapping 1700000000098000000 4017; Packet 4017; Packet 4458; Packet 3576] =
  Ok (m, [0; 0; 1700000000098000000; 1700000000108000000; 1700000000088000000]).
Proof. eexists. vm_compute. reflexivity. Qed.

(* End to end: the receiver's idea of the capture time of a packet differs from
   what the sender's reference packet says by at most 0.6 of a sample, a quarter
   of a millionth of the distances involved, and 2 nanoseconds. *)
Theorem C56_end_to_end : forall s ps now m r v m0 m' c p q k t,
  usual s -> Forall (fun x => time64 (fst x) /\ ts32 (snd x)) ps ->
  ex_run map0 ps = Ok m -> last_known ps = Some (c, p) ->
  (* the sender writes a report *)
  2 <= now < 4233462144000000000 -> ex_mapping s m now = Ok r -> unix_2_ntp now = Ok v ->
  (* the receiver gets it, then a packet [k] samples ahead of the sender's reference packet *)
  m' = in_update m0 (ntp_2_unix v) r ->
  ts32 q -> ahead q p k -> Z.abs k <= 2 ^ 30 ->
  (Rabs (exact_samples (now - c) (s_rate s)) <= IZR (2 ^ 29))%R ->
  in_read s m' 0 q = Ok t ->
  (Rabs (IZR t - (IZR c + exact_ns k (s_rate s))) <=
   6 / 10 * exact_ns 1 (s_rate s) + (Rabs (IZR (now - c)) + Rabs (exact_ns k (s_rate s) - IZR (now - c))) / 4000000 + 2)%R.
Proof.
  intros s ps now m r v m0 m' c p q k t U F E L Hn Er Ev Em Hq Ak Hk Hy Et.
  pose proof U as [V Hr2]. pose proof V as [Hr Hch].
  destruct (C56_sender s ps now U ltac:(lia) F) as (m1 & E1 & _ & S0). assert (m1 = m) by congruence. subst m1.
  destruct (S0 c p L) as (dn & r1 & Er1 & Tr & Adn & Cdn). assert (r1 = r) by congruence. subst r1.
  set (y := exact_samples (now - c) (s_rate s)) in *.
  change (IZR (2 ^ 29)) with 536870912%R in Hy.
  assert (Cy : close dn y). { apply Cdn. change (IZR (2 ^ 31)) with 2147483648%R. lra. }
  destruct (C21_unix_round_trip now ltac:(lia)) as (v1 & Ev1 & _ & Bv). assert (v1 = v) by congruence. subst v1.
  set (T := ntp_2_unix v) in *.
  assert (EM : m' = mkMap true T r).
  { rewrite Em. unfold in_update. rewrite (proj2 (Z.leb_gt T 0)) by lia. reflexivity. }
  destruct (in_read_ok s m' T r q U ltac:(lia) Tr Hq EM) as (d & Ed & Cd).
  assert (t = T + d) by congruence. subst t.
  assert (DN : (Rabs (IZR dn) <= 536871100)%R).
  { unfold close in Cy. replace (IZR dn) with ((IZR dn - y) + y)%R by ring. eapply Rle_trans; [apply Rabs_triang|]. lra. }
  rewrite <- abs_IZR in DN. apply le_IZR in DN.
  assert (KD : stream_timestamp_diff q r = k - dn).
  { apply ahead_unique with (q := q) (p := r). now apply diff_ahead.
    destruct Ak as [_ Ak]. destruct Adn as [_ Adn]. split; [lia|]. unfold ts32 in *.
    change (2 ^ 32) with 4294967296 in *. rewrite Ak.
    assert (X : (r + (k - dn)) mod 4294967296 = ((r mod 4294967296) + (k - dn)) mod 4294967296) by (now rewrite Zplus_mod_idemp_l).
    rewrite X, Adn, Zplus_mod_idemp_l. f_equal. ring. }
  rewrite KD in Cd.
  assert (R1 : (1 <= IZR (s_rate s))%R) by (apply IZR_le; lia).
  set (P := exact_ns 1 (s_rate s)).
  assert (PE : P = (1000000000 / IZR (s_rate s))%R) by (unfold P, exact_ns; lra).
  assert (PP : (0 < P)%R). { rewrite PE. unfold Rdiv. apply Rmult_lt_0_compat; [lra|]. apply Rinv_0_lt_compat. lra. }
  assert (XE : forall j, exact_ns j (s_rate s) = (IZR j * P)%R) by (intros j; rewrite PE; unfold exact_ns; field; lra).
  assert (YE : (y * P)%R = IZR (now - c)) by (rewrite PE; unfold y, exact_samples; field; lra).
  unfold close in Cy, Cd. rewrite XE in Cd. rewrite XE.
  rewrite minus_IZR in Cd. rewrite plus_IZR. rewrite <- YE.
  assert (B1 : (Rabs (IZR T - IZR now) <= 1)%R). { rewrite <- minus_IZR, <- abs_IZR. apply IZR_le. lia. }
  assert (NE : IZR now = (IZR c + y * P)%R) by (rewrite YE, minus_IZR; lra).
  (* the errors *)
  set (e1 := (IZR dn - y)%R) in *. set (z := (IZR k * P - y * P)%R).
  assert (ZE : ((IZR k - IZR dn) * P = z - e1 * P)%R) by (unfold z, e1; ring).
  rewrite ZE in Cd.
  replace (IZR T + IZR d - (IZR c + IZR k * P))%R with ((IZR T - IZR now) + (IZR d - (z - e1 * P)) + (- (e1 * P)))%R by (rewrite NE; unfold z; ring).
  assert (QP : (Rabs (e1 * P) <= Rabs (y * P) / 4194304 + P / 2)%R).
  { rewrite !Rabs_mult, (Rabs_right P) by lra. nra. }
  assert (QZ : (Rabs (z - e1 * P) <= Rabs z + Rabs (e1 * P))%R).
  { unfold Rminus. eapply Rle_trans; [apply Rabs_triang|]. rewrite Rabs_Ropp. lra. }
  eapply Rle_trans; [apply Rabs_triang|]. rewrite Rabs_Ropp.
  pose proof (Rabs_triang (IZR T - IZR now) (IZR d - (z - e1 * P))) as QT.
  pose proof (Rabs_pos (y * P)). pose proof (Rabs_pos z). lra.
Qed.
Print Assumptions C56_end_to_end.

(* a packet 400 samples (9.07 ms) after the sender's reference packet *)
Example ex_end : exists m v t, ex_run map0 sent = Ok m /\ ex_mapping cd m 1700000000098000000 = Ok 4017 /\
  unix_2_ntp 1700000000098000000 = Ok v /\ in_read cd (in_update map0 (ntp_2_unix v) 4017) 0 4064 = Ok t /\
  t - 1700000000090000000 = 9065759 /\ ahead 4064 3664 400.
Proof.
  do 3 eexists. do 4 (split; [vm_compute; reflexivity|]). split; [vm_compute; reflexivity|].
  split; [lia|reflexivity].
Qed.

(* Between two reports, later packets never get earlier capture times. *)
Theorem C56_order : forall s m p q q' k k' t t', valid s -> ts32 q -> ts32 q' -> ts32 p -> m_rtp m = p -> m_has m = true ->
  ahead q p k -> ahead q' p k' -> k <= k' ->
  in_read s m 0 q = Ok t -> in_read s m 0 q' = Ok t' -> t <= t'.
Proof.
  intros s m p q q' k k' t t' V Hq Hq' Hp Em Hm A A' L.
  rewrite <- (ahead_unique q p _ k (diff_ahead q p Hq Hp) A) in L. rewrite <- (ahead_unique q' p _ k' (diff_ahead q' p Hq' Hp) A') in L.
  pose proof (diff_ahead q p Hq Hp) as [B _]. pose proof (diff_ahead q' p Hq' Hp) as [B' _].
  destruct (C55_monotone s V) as (_ & _ & _ & _ & _ & D).
  unfold in_read. cbn [Z.eqb negb]. rewrite Hm, Em.
  destruct (stream_timestamp_delta_2_ns s (stream_timestamp_diff q p)) as [d| |] eqn:E; cbn [bind]; try discriminate.
  destruct (stream_timestamp_delta_2_ns s (stream_timestamp_diff q' p)) as [d'| |] eqn:E'; cbn [bind]; try discriminate.
  unfold ns_arith. destruct (_ && _); [|discriminate]. destruct (_ && _); [|discriminate].
  intros X X'. assert (t = m_capt m + d) by congruence. assert (t' = m_capt m + d') by congruence.
  specialize (D _ _ d d' (conj (proj1 B) L) (proj2 B') E E'). lia.
Qed.
Print Assumptions C56_order.
