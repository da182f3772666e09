(** C39: the depacketizer puts every received sample at its place in time. *)
From Verif Require Import Base Base_lemmas Seqnum_model RtpFilter_proof Depacketizer_model Depacketizer_spec Depacketizer_proof.
Open Scope res_scope.

(** Every history of packet arrivals and frame reads runs without a panic and
    yields exactly the frames of the sample-by-sample player. *)
Theorem C39_refines : forall nch ops, Forall (op_ok nch) ops ->
  exists s, dz_run nch dz_new ops = Ok (fst (play_ops nch player0 ops), s).
Proof. intros nch ops F. destruct (run_ok nch ops dz_new player0 R0 F) as (s & E & _). eauto. Qed.

(** Every frame has exactly the requested length. *)
Theorem C39_length : forall nch ops fs s, Forall (op_ok nch) ops -> dz_run nch dz_new ops = Ok (fs, s) ->
  map (fun f => length (df_out f)) fs = flat_map (fun op => match op with DRead raw => [(raw / nch)%nat] | DArrive _ => [] end) ops.
Proof.
  intros nch ops fs s F H. destruct (run_ok nch ops dz_new player0 R0 F) as (s' & E & _). rewrite E in H.
  match type of H with Ok (?a, _) = Ok (?b, _) => assert (X : b = a) by congruence end. rewrite X. clear.
  generalize player0. induction ops as [|[p|raw] ops IH]; intros y; cbn [play_ops flat_map]; auto.
  pose proof (play_length (raw / nch) y) as L. destruct (play (raw / nch) y) as [l y1]. specialize (IH y1).
  destruct (play_ops nch y1 ops) as [fs' y2]. cbn [fst map frame_of df_out app] in *. rewrite map_length, L, IH. reflexivity.
Qed.

(** The clock: once started it advances by one for every output sample, whatever
    arrives. [y] is the player after any history and [i] further samples. *)
Definition after (nch : nat) (ops : list dz_op) (i : nat) : player := snd (play i (snd (play_ops nch player0 ops))).
Theorem C39_clock : forall nch ops i j t, py_t (after nch ops i) = Some t -> py_t (after nch ops (i + j)) = Some (t + Z.of_nat j).
Proof.
  intros nch ops i j t. unfold after. rewrite play_add. cbn [snd]. set (y := snd (play i _)). clearbody y. revert t y.
  induction j as [|j IH]; intros t y Ht; [cbn; now rewrite Z.add_0_r|].
  cbn [play]. assert (E : py_t (snd (play1 y)) = Some (t + 1)) by (unfold play1; now rewrite Ht).
  destruct (play1 y) as [x y1]. cbn [snd] in E. specialize (IH _ _ E). destruct (play j y1). cbn [snd] in *. rewrite IH. f_equal. lia.
Qed.

(** next_timestamp() is the RTP time of the next sample to be output; zero as
    long as no packet was played. *)
Theorem C39_next_timestamp : forall nch ops fs s, Forall (op_ok nch) ops -> dz_run nch dz_new ops = Ok (fs, s) ->
  dz_next_timestamp s = match py_t (after nch ops 0) with Some t => t mod 2 ^ 32 | None => 0 end.
Proof.
  intros nch ops fs s F H. destruct (run_ok nch ops dz_new player0 R0 F) as (s' & E & _ & _ & R2). rewrite E in H.
  assert (s' = s) by congruence. subst s'. unfold dz_next_timestamp, after. cbn [play snd].
  destruct (py_t (snd (play_ops nch player0 ops))) as [t|].
  - destruct R2 as (-> & -> & _). reflexivity.
  - destruct R2 as (-> & _). reflexivity.
Qed.

(** A sample taken from a packet at time [t] is the sample of a received packet
    that covers [t], the packet being at its RTP timestamp modulo 2^32. *)
Theorem C39_sound : forall nch ops i v y', play1 (after nch ops i) = (Some v, y') ->
  exists t x p, py_t y' = Some (t + 1) /\ In p (arrived ops) /\ pl_smp x = dp_smp p /\ (pl_pos x - dp_ts p) mod 2 ^ 32 = 0 /\
    pl_pos x <= t < pl_end x /\ nth_error (pl_smp x) (Z.to_nat (t - pl_pos x)) = Some v.
Proof.
  intros nch ops i v y' H. pose proof (play_inv _ i _ (ops_inv nch ops [] player0 inv0)) as I. fold (after nch ops i) in I. cbn [app] in I.
  pose proof (play1_inv _ _ I) as J. rewrite H in J. cbn [snd] in J.
  unfold play1 in H. fold (time_of (after nch ops i)) in H. destruct (time_of (after nch ops i)) as [t|]; [|discriminate].
  revert H. set (z := if finished t _ then _ else _). intros H. exists t.
  assert (Hs : sample_at t (py_cur z) = Some v) by congruence.
  assert (Hy : y' = mkPlayer (Some (t + 1)) (py_cur z) (py_q z) (py_taken z) (py_late z)) by congruence. clear H. subst y'.
  destruct (py_cur z) as [x|] eqn:Ex; [|discriminate]. cbn [sample_at] in Hs. destruct (Z.ltb_spec t (pl_pos x)); [discriminate|].
  destruct J as [_ J2 J3 _]. cbn in J2, J3. specialize (J3 x eq_refl). destruct (J2 x J3) as (p & P1 & P2 & P3).
  exists x, p. split; [reflexivity|]. split; [exact P1|]. split; [exact P2|]. split; [exact P3|]. split; [|exact Hs].
  assert (Z.to_nat (t - pl_pos x) < length (pl_smp x))%nat by (apply nth_error_Some; congruence). unfold pl_end. lia.
Qed.

(** Silence at time [t] means that no packet taken so far covers [t] (or that no
    packet has arrived yet). *)
Theorem C39_complete : forall nch ops i y', play1 (after nch ops i) = (None, y') ->
  match py_t y' with
  | None => py_q y' = [] /\ py_taken y' = []
  | Some t' => forall x, In x (py_taken y') -> ~ (pl_pos x <= t' - 1 < pl_end x)
  end.
Proof.
  intros nch ops i y' H. pose proof (play_inv _ i _ (ops_inv nch ops [] player0 inv0)) as I. fold (after nch ops i) in I. cbn [app] in I.
  unfold play1 in H. fold (time_of (after nch ops i)) in H. destruct (time_of (after nch ops i)) as [t|] eqn:Et.
  - revert H. set (z := if finished t _ then _ else _). intros H.
    assert (Hs : sample_at t (py_cur z) = None) by congruence.
    assert (Hy : y' = mkPlayer (Some (t + 1)) (py_cur z) (py_q z) (py_taken z) (py_late z)) by congruence. clear H. subst y'. cbn [py_t py_taken].
    assert (J : forall x, In x (py_taken z) -> py_cur z = Some x \/ pl_end x <= t).
    { subst z. destruct (finished t (py_cur (after nch ops i))) eqn:F.
      - assert (J : py_inv (arrived ops) (take t (py_q (after nch ops i)) (py_taken (after nch ops i)) (py_late (after nch ops i)))).
        { destruct I as [I1 I2 I3 I4]. apply take_inv; auto. intros x Hx. unfold time_of in Et. destruct (py_t (after nch ops i)) as [t'|].
          - injection Et as ->. destruct (I4 x Hx) as [E|E]; [|exact E]. rewrite E in F. cbn in F. lia.
          - destruct I4 as [I4 _]. rewrite I4 in Hx. destruct Hx. }
        destruct J as [_ _ _ J4]. rewrite take_t in J4. exact J4.
      - destruct I as [I1 I2 I3 I4]. unfold time_of in Et. destruct (py_t (after nch ops i)) as [t'|].
        + injection Et as ->. exact I4.
        + destruct I4 as [I4 I5]. rewrite I5 in F. discriminate. }
    intros x Hx. destruct (J x Hx) as [E|E]; [|lia]. rewrite E in Hs. cbn [sample_at] in Hs.
    destruct (Z.ltb_spec t (pl_pos x)); [lia|]. apply nth_error_None in Hs. unfold pl_end. lia.
  - assert (Hy : y' = after nch ops i) by congruence. subst y'. unfold time_of in Et. destruct I as [_ _ _ I4].
    destruct (py_t (after nch ops i)); [discriminate|]. destruct (py_q (after nch ops i)); [|discriminate]. tauto.
Qed.

(** Packets that come too late change nothing: with every packet of a history
    ending at or before the clock, the next frame is what it would have been. *)
Theorem C39_late : forall t q tk la, (forall p, In p q -> pl_end (place t p) <= t) ->
  forall n, map render (fst (play n (mkPlayer (Some t) None q tk la))) = repeat 0 n.
Proof.
  intros t q tk la H n. destruct n as [|n]; [reflexivity|]. rewrite play_take by reflexivity.
  assert (E : exists tk' la', take t q tk la = mkPlayer (Some t) None [] tk' la').
  { revert tk la. induction q as [|p q IH]; intros tk la; cbn [take]; [eauto|]. cbv zeta.
    assert (pl_end (place t p) <= t) by (apply H; now left). replace (_ <=? _) with true by lia. apply IH. intros p' Hp'. apply H. now right. }
  destruct E as (tk' & la' & ->). rewrite play_silent. cbn [fst]. apply render_none.
Qed.

(** The restriction on empty packets is needed: an empty packet exactly 2^31 away
    from the stream position stops the process. *)
Theorem C39_crash_refuted : exists ops, Forall (fun op => match op with DArrive p => 0 <= dp_ts p < 2 ^ 32 | DRead _ => True end) ops /\
  dz_run 1 dz_new ops = Panic.
Proof.
  exists [DArrive (mkDpkt 0 [7]); DRead 1; DArrive (mkDpkt (2 ^ 31 + 1) []); DRead 1]. split; [|vm_compute; reflexivity].
  repeat constructor; cbn; lia.
Qed.
(** A frame that is not a whole number of samples per channel also does. *)
Theorem C39_frame_size : forall nch raw s, (raw mod nch <> 0)%nat -> dz_read nch raw s = Panic.
Proof. intros nch raw s H. unfold dz_read. destruct (Nat.eqb_spec (raw mod nch) 0); [contradiction|reflexivity]. Qed.

(** Non-vacuity: a wrapped clock, a gap, an overlap, a late packet and two channels. *)
Definition c39_ops : list dz_op :=
  [ DRead 4; DArrive (mkDpkt 4294967294 [1; 2; 3]); DArrive (mkDpkt 3 [4; 5; 6]); DRead 8; DArrive (mkDpkt 2 [8; 9]); DArrive (mkDpkt 4 [10; 11; 12; 13]); DRead 10 ].
Example c39_ok : Forall (op_ok 2) c39_ops.
Proof. repeat constructor; cbn; lia. Qed.
Example c39_run : match dz_run 2 dz_new c39_ops with Ok (fs, _) => map df_out fs = [[0; 0]; [1; 2; 3; 0]; [0; 4; 5; 6; 12]] /\
  map df_not_blank fs = [false; true; true] /\ map df_not_complete fs = [true; true; true] /\ map df_drops fs = [false; false; true] | _ => False end.
Proof. vm_compute. repeat split. Qed.
Example c39_next : match dz_run 2 dz_new c39_ops with Ok (_, s) => dz_next_timestamp s = 7 | _ => False end.
Proof. vm_compute. reflexivity. Qed.
Example c39_sound_case : exists y', play1 (after 2 c39_ops 1) = (None, y') /\ play1 (after 2 c39_ops 0) = (Some 13, snd (play1 (after 2 c39_ops 0))).
Proof. eexists. split; vm_compute; reflexivity. Qed.

Print Assumptions C39_refines.
Print Assumptions C39_length.
Print Assumptions C39_clock.
Print Assumptions C39_next_timestamp.
Print Assumptions C39_sound.
Print Assumptions C39_complete.
Print Assumptions C39_late.
Print Assumptions C39_crash_refuted.
Print Assumptions C39_frame_size.
