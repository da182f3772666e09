(** C19: generation of RTCP reports. C48: the schedule of reports. *)
From Coq Require Import Lia.
From Verif Require Import Base Base_lemmas RtcpTrav_model RtcpBuild_model RtcpBuild_spec RtcpBuild_proof RtcpBuild_props RtcpFit_proof Communicator_model Communicator_spec Communicator_proof CommunicatorLoop_proof.
Open Scope res_scope.
Local Open Scope nat_scope.

(** A call of generate_reports for which any two streams fit one packet. If a BYE is due (after a
    collision of source ids) there must be a destination and memory for the first packet. *)
Definition call_ok (cfg : wcfg) (x : call) : Prop :=
  env_ok (cl_env x) /\ cfg_ok cfg (cl_env x) /\ two_fit cfg (cl_cap x) (cl_env x) /\
  (e_bye (cl_env x) = true -> 0 < e_dests (cl_env x) /\ io_alloc (cl_io x 0) = true).
(** For any sequence of such calls, with any numbers of streams and destinations, changing between
    calls, and any packet sizes: every call returns. If it returns success, every destination got a
    packet, all packets are well formed, and together they describe every stream of the destination
    exactly once, in order, in every kind of block. It does return success if no allocation, composer
    or writer fails. *)
Theorem C19_complete cfg h : Forall (call_ok cfg) h ->
  exists n, forall fuel, n <= fuel -> exists outs, generations fuel cfg k_new h = Ok (Some outs) /\
    Forall2 (fun x o => (fst o = StOk -> told_all cfg (cl_env x) (snd o)) /\ ((forall i, cl_io x i = io_good) -> fst o = StOk)) h outs.
Proof.
  intros F. assert (G : forall k, max_ok k -> exists n, forall fuel, n <= fuel -> exists outs, generations fuel cfg k h = Ok (Some outs) /\
    Forall2 (fun x o => (fst o = StOk -> told_all cfg (cl_env x) (snd o)) /\ ((forall i, cl_io x i = io_good) -> fst o = StOk)) h outs).
  2:{ apply G. unfold max_ok. cbn. lia. }
  induction F as [|x h (O1 & O2 & O3 & O4) F IH]; intros k Mx.
  - exists 0. intros fuel _. exists []. split; [reflexivity|constructor].
  - (* the limit left by the first call does not depend on the fuel, but it suffices to bound the rest for all of them *)
    assert (B : exists n, forall k', 2 <= k_max k' <= k_max k -> forall fuel, n <= fuel -> exists outs, generations fuel cfg k' h = Ok (Some outs) /\
      Forall2 (fun x o => (fst o = StOk -> told_all cfg (cl_env x) (snd o)) /\ ((forall i, cl_io x i = io_good) -> fst o = StOk)) h outs).
    { assert (Bm : forall M, M <= 31 -> exists n, forall k', 2 <= k_max k' <= M -> forall fuel, n <= fuel -> exists outs, generations fuel cfg k' h = Ok (Some outs) /\
        Forall2 (fun x o => (fst o = StOk -> told_all cfg (cl_env x) (snd o)) /\ ((forall i, cl_io x i = io_good) -> fst o = StOk)) h outs).
      { induction M as [|M IHM]; intros HM; [exists 0; intros; lia|]. destruct (IHM ltac:(lia)) as [n1 H1]. destruct (le_lt_dec 2 (S M)) as [L|L].
        - destruct (IH (set_max k_new (S M))) as [n2 H2]; [unfold max_ok; cbn; lia|]. exists (n1 + n2). intros k' Hk fuel Hf. destruct (Nat.eq_dec (k_max k') (S M)) as [E|E]; [|apply H1; lia].
          destruct (H2 fuel ltac:(lia)) as (outs & R & Q). exists outs. split; [|exact Q]. rewrite <- R. destruct h as [|y h']; [reflexivity|]. cbn [generations]. unfold gen_packets. cbn [set_max k_max]. rewrite E. reflexivity.
        - exists 0. intros; lia. }
      apply Bm. unfold max_ok in Mx. lia. }
    destruct B as [n Hn]. exists (n + later (cl_env x) 0 + 41). intros fuel Hf. cbn [generations].
    destruct (gen_run cfg (cl_cap x) (cl_env x) (cl_io x) O1 O2 O3 k Mx O4 fuel ltac:(lia)) as (c' & st & l & -> & R1 & R2 & R3). cbn [bind].
    destruct (Hn c' R1 fuel ltac:(lia)) as (outs & -> & Q). cbn [bind]. exists ((st, l) :: outs). split; [reflexivity|]. constructor; [split; assumption|exact Q].
Qed.
Print Assumptions C19_complete.

(** Whatever is generated, packets do not exceed the size limit. *)
Lemma payload_fits t cfg cap e : forall fuel c c' l, packet_payload fuel t cfg cap e c = Ok (Some (c', Some l)) -> length l <= cap.
Proof.
  induction fuel as [|fuel IH]; intros c c' l H; cbn [packet_payload] in H; [discriminate|]. cbv zeta in H.
  destruct (w_run _ _) as [b| |] eqn:R; cbn [bind] in H; [|discriminate..]. destruct (w_destroy b); cbn [bind] in H; [|discriminate..].
  destruct (negb (w_ok b)); [destruct (_ <=? 1); [discriminate|exact (IH _ _ _ H)]|]. assert (l = w_result b) by congruence. subst l. exact (proj2 (C16_bounds _ _ _ _ R)).
Qed.
Theorem C19_bounds fuel t cfg cap e io c c' st l : gen_packets fuel t cfg cap e io c = Ok (Some (c', st, l)) -> Forall (fun p => length (snd p) <= cap) l.
Proof.
  assert (G : forall fuel n c bye c' bye' st l, gen_loop fuel t cfg cap e io n c bye = Ok (Some (c', bye', st, l)) -> Forall (fun p => length (snd p) <= cap) l).
  { clear. induction fuel as [|fuel IH]; intros n c bye c' bye' st l H; cbn [gen_loop] in H; [discriminate|]. destruct (continue_gen e c) as [c1 go]. cbv beta iota in H. destruct go; cbn [negb] in H; [|assert (l = []) as -> by congruence; constructor].
    unfold gen_packet in H. destruct (negb (io_alloc (io n))); [cbn [bind] in H; cbv beta iota in H; assert (l = []) as -> by congruence; constructor|].
    destruct (packet_payload (S fuel) t cfg cap e c1) as [r| |] eqn:P; cbn [bind] in H; [|discriminate..]. destruct r as [[c2 [bytes|]]|]; [|assert (l = []) as -> by congruence; constructor|discriminate].
    destruct (negb (io_buffer (io n))); [assert (l = []) as -> by congruence; constructor|]. destruct (negb (io_prepare (io n))); [assert (l = []) as -> by congruence; constructor|].
    destruct (negb (io_write (io n))); [assert (l = []) as -> by congruence; constructor|].
    destruct (gen_loop fuel _ _ _ _ _ _ _ _) as [[[[[c3 b3] s3] l3]|]| |] eqn:R; cbn [bind] in H; [|discriminate..]. cbv beta iota in H. injection H as _ _ _ <-. constructor; [exact (payload_fits _ _ _ _ _ _ _ _ P)|exact (IH _ _ _ _ _ _ _ R)]. }
  intros H. unfold gen_packets in H. destruct (gen_loop _ _ _ _ _ _ _ _ _) as [[[[[c3 b3] s3] l3]|]| |] eqn:R; cbn [bind] in H; [|discriminate..]. cbv beta iota in H. destruct (_ && _); [discriminate|]. assert (l = l3) by congruence. subst l. exact (G _ _ _ _ _ _ _ _ R).
Qed.
Print Assumptions C19_bounds.

(** *** What happens otherwise *)
Definition all_on : wcfg := mkCfg true true true.
Definition sid (i : nat) : Z := Z.of_nat i mod 65536.
Definition a_rin (d i : nat) : rin := mkRin (sid i) 0 0 5 6 7 8.
(** A receiver of [n] streams with one destination *)
Definition receiver (n : nat) (bye : bool) : env :=
  mkEnv false true 1 (fun _ => 0) (fun _ => n) bye 7 [97; 98]%Z (mkSr 7 1 2 3 4) 9 a_rin (fun _ i => mkDin (sid i) 1 1)
    (fun _ i => mkMin (sid i) 1 2 3 4 5) (fun _ i => mkYin 0 (sid i) (Some 1%Z) None None None) (fun _ i => mkQin 0 (sid i) None None).
(** A sender with one destination and [n] receivers there *)
Definition sender (n : nat) : env :=
  mkEnv true false 1 (fun _ => n) (fun _ => 0) false 7 [97; 98]%Z (mkSr 7 1 2 3 4) 9 a_rin (fun _ i => mkDin (sid i) 1 1)
    (fun _ i => mkMin (sid i) 1 2 3 4 5) (fun _ i => mkYin 0 (sid i) (Some 1%Z) None None None) (fun _ i => mkQin 0 (sid i) None None).
Definition fine (_ : nat) : io := io_good.

(** a state from which each packet leads to the same state: generation never ends *)
Lemma forever t cfg cap e c l : continue_gen e c = (c, true) -> (forall fuel, packet_payload (S fuel) t cfg cap e c = Ok (Some (c, Some l))) ->
  forall fuel n bye, gen_loop fuel t cfg cap e fine n c bye = Ok None.
Proof.
  intros H1 H2. induction fuel as [|fuel IH]; intros n bye; cbn [gen_loop]; [reflexivity|]. rewrite H1. cbn [negb]. unfold gen_packet. cbn [fine io_good io_alloc io_buffer io_prepare io_write negb]. rewrite H2. cbn [bind]. rewrite IH. reflexivity.
Qed.
(** packets written up to a given number of iterations, when the loop does not end *)
Lemma start_forever t cfg cap e c l k n0 : continue_gen e (mkComm 0 0 0 0 0 0 k) = (c, true) -> continue_gen e (set_max c n0) = (set_max c n0, true) ->
  (forall fuel, packet_payload (S (S fuel)) t cfg cap e c = Ok (Some (set_max c n0, Some l))) -> (exists x, packet_payload 1 t cfg cap e c = Ok x /\ (x = None \/ x = Some (set_max c n0, Some l))) ->
  (forall fuel, packet_payload (S fuel) t cfg cap e (set_max c n0) = Ok (Some (set_max c n0, Some l))) ->
  forall fuel k0, k_max k0 = k -> gen_packets fuel t cfg cap e fine k0 = Ok None.
Proof.
  intros H1 H2 H3 (x & H4 & H5) H6 fuel k0 <-. unfold gen_packets. destruct fuel as [|fuel]; [reflexivity|]. cbn [gen_loop]. rewrite H1. cbn [negb]. unfold gen_packet. cbn [fine io_good io_alloc io_buffer io_prepare io_write negb].
  pose proof (forever t cfg cap e (set_max c n0) l H2 H6) as Fv. destruct fuel as [|fuel].
  - rewrite H4. destruct H5 as [-> | ->]; reflexivity.
  - rewrite H3. cbn [bind]. rewrite Fv. reflexivity.
Qed.
(** Two streams, and a buffer with room for a packet about one of them but not about both
    (communicator.cpp:639 sets a limit of one, 524 and 537 let no stream pass that limit): generation
    never ends; it writes packets about no stream at all. *)
Definition cap1 : nat := need all_on (receiver 2 false) 0 1.
Theorem C19_small_refuted : need all_on (receiver 2 false) 0 1 <= cap1 /\ need all_on (receiver 2 false) 0 2 > cap1 /\
  forall fuel, gen_packets fuel PtReports all_on cap1 (receiver 2 false) fine k_new = Ok None.
Proof.
  split; [reflexivity|]. split; [vm_compute; lia|]. intros fuel. eapply (start_forever _ _ _ _ _ _ 31 1); [vm_compute; reflexivity|reflexivity| | | |reflexivity].
  - intros f. vm_compute. reflexivity.
  - eexists. split; [vm_compute; reflexivity|]. left. reflexivity.
  - intros f. vm_compute. reflexivity.
Qed.
Print Assumptions C19_small_refuted.
(** No stream fits: the first call fails with "no space"; the limit of one it leaves behind
    (communicator.cpp:630) makes the next call run forever, whatever the size of its packets. *)
Theorem C19_nospace_refuted : exists c, (exists fuel, gen_packets fuel PtReports all_on 60 (receiver 1 false) fine k_new = Ok (Some (c, StNoSpace, []))) /\
  forall fuel, gen_packets fuel PtReports all_on (Z.to_nat 1500) (receiver 1 false) fine c = Ok None.
Proof.
  eexists. split; [exists 5; vm_compute; reflexivity|]. intros fuel. eapply (start_forever _ _ _ _ _ _ 1 1); [vm_compute; reflexivity|reflexivity| | | |reflexivity].
  - intros f. vm_compute. reflexivity.
  - eexists. split; [vm_compute; reflexivity|]. right. reflexivity.
  - intros f. vm_compute. reflexivity.
Qed.
Print Assumptions C19_nospace_refuted.
(** generate_goodbye() by a sender that has heard from a receiver never ends: goodbye packets describe
    no stream, but the loop waits until all are described (communicator.cpp:463). *)
Theorem C19_goodbye_refuted : forall fuel, gen_packets fuel PtGoodbye all_on (Z.to_nat 1500) (sender 1) fine k_new = Ok None.
Proof.
  intros fuel. eapply (start_forever _ _ _ _ _ _ 31 31); [vm_compute; reflexivity|reflexivity| | | |reflexivity].
  - intros f. vm_compute. reflexivity.
  - eexists. split; [vm_compute; reflexivity|]. right. reflexivity.
  - intros f. vm_compute. reflexivity.
Qed.
Print Assumptions C19_goodbye_refuted.
(** With extended reports disabled, a sender that has heard from a receiver never finishes its reports. *)
Theorem C19_noxr_refuted : forall fuel, gen_packets fuel PtReports (mkCfg true true false) (Z.to_nat 1500) (sender 1) fine k_new = Ok None.
Proof.
  intros fuel. eapply (start_forever _ _ _ _ _ _ 31 31); [vm_compute; reflexivity|reflexivity| | | |reflexivity].
  - intros f. vm_compute. reflexivity.
  - eexists. split; [vm_compute; reflexivity|]. right. reflexivity.
  - intros f. vm_compute. reflexivity.
Qed.
Print Assumptions C19_noxr_refuted.
(** After a collision of source ids, failure to allocate the first packet aborts the program
    (reporter.cpp:1273). *)
Theorem C19_collision_refuted : gen_packets 100 PtReports all_on (Z.to_nat 1500) (receiver 1 true) (fun _ => mkIo false true true true) k_new = Panic.
Proof. vm_compute. reflexivity. Qed.
Print Assumptions C19_collision_refuted.

(** Non-trivial calls meet the hypotheses: 70 streams in packets of 1500 bytes with a BYE, and 35
    streams in packets with room for two, while memory is short. *)
Lemma sid_ok i : (0 <= sid i < 65536)%Z. Proof. unfold sid. apply Z.mod_pos_bound. lia. Qed.
Lemma receiver_ok n bye : env_ok (receiver n bye).
Proof.
  unfold env_ok, receiver, text_ok, is_u. cbn [e_ssrc e_cname e_ntp e_sr e_rep e_dlrr e_meas e_delay e_queue si_ssrc si_ntp si_rtp si_packets si_octets].
  split; [lia|]. split; [split; [cbn; lia|repeat constructor; lia]|]. split; [discriminate|]. split; [lia|]. split; [repeat split; lia|].
  intros d i. pose proof (sid_ok i) as Hs. unfold rin_ok, din_ok, xin_ok, is_u, is_odur, is_dur. cbn [a_rin ri_ssrc ri_fract ri_seq ri_jitter ri_lsr ri_dlsr di_ssrc di_lrr di_dlrr mi_ssrc mi_first mi_ifirst mi_ilast mi_idur mi_cdur yi_flag yi_ssrc yi_mean yi_min yi_max yi_e2e qi_flag qi_ssrc qi_lat qi_stall].
  repeat split; try exact I; lia.
Qed.
Lemma receiver_fit n bye cap : need all_on (receiver n bye) 0 2 <= cap -> two_fit all_on cap (receiver n bye).
Proof.
  intros H s r L Hs Hr. assert (s = 0) as -> by (destruct s; [reflexivity|discriminate (Hs ltac:(lia))]). etransitivity; [apply (need_mono all_on (receiver n bye) 0 r 0 2); lia|exact H].
Qed.
Definition two_calls : list call :=
  [mkCall (receiver 70 true) (Z.to_nat 1500) fine; mkCall (receiver 35 false) (need all_on (receiver 35 false) 0 2) (fun n => mkIo (n <? 9) true true true)].
Example C19_witness : Forall (call_ok all_on) two_calls.
Proof.
  constructor; [|constructor; [|constructor]]; unfold call_ok; cbn [cl_env cl_cap cl_io].
  - split; [apply receiver_ok|]. split; [repeat split; cbn; tauto|]. split; [apply receiver_fit; vm_compute; lia|]. intros _. split; [cbn; lia|reflexivity].
  - split; [apply receiver_ok|]. split; [repeat split; cbn; tauto|]. split; [apply receiver_fit; lia|discriminate].
Qed.
Example C19_run :
  match generations 200 all_on k_new two_calls with
  | Ok (Some [(StOk, a); (StNoMem, b)]) => (length a, length b, length (found metrics_in 0 a)) = (5, 9, 210) /\ map rb_ssrc (found reports_in 0 a) = map Z.of_nat (seq 0 70)
  | _ => False
  end.
Proof. vm_compute. split; reflexivity. Qed.

(** *** C48 *)
(** Calls of generate_reports at times [ts]; the times at which reports were generated *)
Fixpoint ticks (interval deadline : Z) (ts : list Z) : res (Z * list Z) :=
  match ts with
  | [] => Ok (deadline, [])
  | t :: ts => r <- k_tick interval deadline t ;; q <- ticks interval (fst r) ts ;; Ok (fst q, if snd r then t :: snd q else snd q)
  end.
Open Scope Z_scope.
(** the [n]th slot of a grid starting at [t0] *)
Definition slot (interval t0 t : Z) : Z := (t - t0) / interval.
(** For any times of calls, not decreasing: reports are generated at the first call, and then exactly at
    the first call in each later slot of the grid of multiples of the interval counted from the first
    call; so never twice in a slot, and without drift. *)
Fixpoint fresh_slots (interval t0 : Z) (last : Z) (ts : list Z) : list Z :=
  match ts with
  | [] => []
  | t :: ts => if last <? slot interval t0 t then t :: fresh_slots interval t0 (slot interval t0 t) ts else fresh_slots interval t0 last ts
  end.
Fixpoint nondecreasing (t : Z) (ts : list Z) : Prop := match ts with [] => True | x :: r => t <= x /\ nondecreasing x r end.
Lemma ticks_from interval t0 : 0 < interval -> 0 < t0 -> forall ts last t, t0 <= t -> nondecreasing t ts -> 0 <= last ->
  exists d, ticks interval (t0 + (last + 1) * interval) ts = Ok (d, fresh_slots interval t0 last ts) /\ exists k, d = t0 + k * interval.
Proof.
  intros I0 T0. induction ts as [|t ts IH]; intros last t1 H1 Nd Hl; cbn [ticks fresh_slots].
  - eexists. split; [reflexivity|]. exists (last + 1). reflexivity.
  - destruct Nd as [N1 N2]. unfold k_tick. destruct (Z.leb_spec t 0); [lia|]. destruct (Z.eqb_spec (t0 + (last + 1) * interval) 0); [nia|]. unfold slot at 1 2.
    destruct (Z.ltb_spec t (t0 + (last + 1) * interval)) as [L|L]; cbn [bind fst snd].
    + destruct (Z.ltb_spec last ((t - t0) / interval)) as [L2|L2]; [assert ((t - t0) / interval < last + 1) by (apply Z.div_lt_upper_bound; lia); lia|].
      destruct (IH last t ltac:(lia) N2 Hl) as (d & -> & E). cbn [bind fst snd]. exists d. split; [reflexivity|exact E].
    + assert (G : last + 1 <= (t - t0) / interval) by (apply Z.div_le_lower_bound; lia).
      destruct (Z.ltb_spec last ((t - t0) / interval)); [|lia]. destruct (Z.eqb_spec interval 0); [lia|]. cbn [bind fst snd].
      assert (Er : t + interval - Z.rem (t - (t0 + (last + 1) * interval)) interval = t0 + ((t - t0) / interval + 1) * interval).
      { rewrite Z.rem_mod_nonneg by lia. replace (t - (t0 + (last + 1) * interval)) with (t - t0 + (- (last + 1)) * interval) by lia. rewrite Z.mod_add by lia. pose proof (Z.div_mod (t - t0) interval ltac:(lia)). lia. }
      rewrite Er. destruct (IH ((t - t0) / interval) t ltac:(lia) N2 ltac:(lia)) as (d & E & F). rewrite E. cbn [bind fst snd]. exists d. split; [reflexivity|exact F].
Qed.
Theorem C48_schedule interval t0 ts : 0 < interval -> 0 < t0 -> nondecreasing t0 ts ->
  exists d, ticks interval 0 (t0 :: ts) = Ok (d, t0 :: fresh_slots interval t0 0 ts).
Proof.
  intros I0 T0 Nd. cbn [ticks]. unfold k_tick. destruct (Z.leb_spec t0 0); [lia|]. cbn [Z.eqb]. destruct (Z.ltb_spec t0 t0); [lia|]. destruct (Z.eqb_spec interval 0); [lia|]. cbn [bind fst snd].
  rewrite Z.sub_diag, Z.rem_0_l by lia. destruct (ticks_from interval t0 I0 T0 ts 0 t0 ltac:(lia) Nd ltac:(lia)) as (d & E & _). replace (t0 + interval - 0) with (t0 + (0 + 1) * interval) by lia. rewrite E. cbn [bind fst snd]. exists d. reflexivity.
Qed.
Print Assumptions C48_schedule.
Example C48_witness : ticks 200 0 [1000; 1100; 1250; 1399; 1401; 2000]%Z = Ok (2200, [1000; 1250; 1401; 2000])%Z.
Proof. reflexivity. Qed.

Local Open Scope nat_scope.
(** A participant without streams says goodbye to every destination, once, in order. *)
Lemma goodbye_loop cfg cap e b u : e_sending e = false -> e_receiving e = false ->
  w_run (w_new cfg cap) (fst (fst (goodbye_payload cfg e))) = Ok b -> w_destroy b = Ok u -> w_ok b = true ->
  forall k fuel n i mx bye, k + S i = e_dests e -> k < fuel -> exists c', gen_loop fuel PtGoodbye cfg cap e fine n (mkComm (e_dests e) i 0 0 0 0 mx) bye =
    Ok (Some (c', match k with 0 => bye | _ => true end, StOk, map (fun j => (j, w_result b)) (seq (S i) k))).
Proof.
  intros S0 R W D O. induction k as [|k IH]; intros fuel n i mx bye K F; (destruct fuel as [|fuel]; [lia|]); cbn [gen_loop]; unfold continue_gen; cbn [k_sn k_si k_rn k_ri k_dn k_di k_max Nat.leb andb];
    (destruct (Nat.eqb_spec (e_dests e) 0); [lia|]).
  - destruct (Nat.leb_spec (e_dests e) (i + 1)); [|lia]. cbn [negb seq map]. eexists. reflexivity.
  - destruct (Nat.leb_spec (e_dests e) (i + 1)); [lia|]. cbn [negb]. rewrite S0, R. unfold gen_packet. cbn [fine io_good io_alloc negb packet_payload payload_of].
    rewrite W. cbn [bind]. rewrite D. cbn [bind]. rewrite O. cbn [negb bind fine io_good io_buffer io_prepare io_write k_di k_dn k_sn k_si k_rn k_ri k_max goodbye_payload fst snd Nat.add].
    replace (i + 1) with (S i) by lia. rewrite orb_true_r.
    destruct (IH fuel (n + 1) (S i) mx true ltac:(lia) ltac:(lia)) as [c' E]. rewrite E. cbn [bind seq map]. exists c'. destruct k; reflexivity.
Qed.
Theorem C19_goodbye cfg cap e b u c fuel : e_sending e = false -> e_receiving e = false -> e_bye e = true -> 0 < e_dests e < fuel ->
  w_run (w_new cfg cap) (fst (fst (goodbye_payload cfg e))) = Ok b -> w_destroy b = Ok u -> w_ok b = true ->
  exists c', gen_packets fuel PtGoodbye cfg cap e fine c = Ok (Some (c', StOk, map (fun j => (j, w_result b)) (seq 0 (e_dests e)))).
Proof.
  intros S0 R B N W D O. unfold gen_packets. destruct fuel as [|fuel]; [lia|]. cbn [gen_loop]. unfold continue_gen. cbn [k_sn k_si k_rn k_ri k_dn k_di k_max Nat.leb andb Nat.eqb].
  destruct (Nat.leb_spec (e_dests e) 0); [lia|]. cbn [negb]. rewrite S0, R. unfold gen_packet. cbn [fine io_good io_alloc negb packet_payload payload_of].
  rewrite W. cbn [bind]. rewrite D. cbn [bind]. rewrite O. cbn [negb bind fine io_good io_buffer io_prepare io_write k_di k_dn k_sn k_si k_rn k_ri k_max goodbye_payload fst snd Nat.add orb].
  destruct (goodbye_loop cfg cap e b u S0 R W D O (e_dests e - 1) fuel 1 0 (k_max c) true ltac:(lia) ltac:(lia)) as [c' E]. rewrite E. cbn [bind].
  assert (X : (match e_dests e - 1 with 0 => true | S _ => true end) = true) by (destruct (e_dests e - 1); reflexivity). rewrite X, B. cbn [andb negb].
  exists c'. destruct (e_dests e) as [|k]; [lia|]. cbn [seq map]. replace (S k - 1) with k by lia. reflexivity.
Qed.
Print Assumptions C19_goodbye.
Definition leaving : env :=
  mkEnv false false 3 (fun _ => 0) (fun _ => 0) true 7 [97; 98]%Z (mkSr 7 1 2 3 4) 9 a_rin (fun _ i => mkDin (sid i) 1 1)
    (fun _ i => mkMin (sid i) 1 2 3 4 5) (fun _ i => mkYin 0 (sid i) (Some 1%Z) None None None) (fun _ i => mkQin 0 (sid i) None None).
Example C19_goodbye_case : exists b u c', w_run (w_new all_on 100) (fst (fst (goodbye_payload all_on leaving))) = Ok b /\ w_destroy b = Ok u /\ w_ok b = true /\
  gen_packets 10 PtGoodbye all_on 100 leaving fine k_new = Ok (Some (c', StOk, map (fun j => (j, w_result b)) [0; 1; 2])) /\
  w_result b = [128; 201; 0; 1; 0; 0; 0; 7; 129; 202; 0; 3; 0; 0; 0; 7; 1; 2; 97; 98; 0; 0; 0; 0; 129; 203; 0; 1; 0; 0; 0; 7]%Z.
Proof. do 3 eexists. split; [vm_compute; reflexivity|]. split; [vm_compute; reflexivity|]. split; [reflexivity|]. split; vm_compute; reflexivity. Qed.
