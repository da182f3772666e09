(** C41: the watchdog kills a session exactly when it should. *)
From Verif Require Import Base Base_lemmas Seqnum_model RtpFilter_proof Watchdog_model Watchdog_spec Watchdog_proof.
Open Scope res_scope.

(** For every sequence of frames not longer than a detection window, and with
    windows that stay aligned when the 32-bit position wraps (or no wrap):
    reading never fails, frame number [i] is passed on iff none of the preceding
    frames was a reason to die, and the session is alive at the end iff none was. *)
Theorem C41_exact : forall c s0 fs, conf_ok c -> wd_new c = Some s0 -> Forall (frame_ok c) fs ->
  (wc_drops c <> 0 -> 2 ^ 32 mod wc_window c = 0 \/ endpos fs < 2 ^ 32) ->
  exists bs s, wd_run c s0 fs = Ok (bs, s) /\ length bs = length fs /\
    (forall i, (i < length fs)%nat -> nth_error bs i = Some true <-> forall n, (n < i)%nat -> ~ must_die c (firstn (S n) fs)) /\
    (ws_alive s = true <-> forall n, (n < length fs)%nat -> ~ must_die c (firstn (S n) fs)).
Proof. intros c s0 fs C N F W. exact (run_spec c C fs [] s0 (inv_new c C s0 N) (Forall_nil _) F W). Qed.

(** Once dead, always dead: nothing is passed on any more. *)
Theorem C41_stays_dead : forall c s fs, ws_alive s = false -> wd_run c s fs = Ok (repeat false (length fs), s).
Proof. intros. now apply run_dead. Qed.

(** The warm-up is never counted as silence: a session that has not produced audio
    and whose last frame began before the end of the warm-up is not silent, and
    the silence of a session without audio is counted from the end of the warm-up. *)
Theorem C41_warmup : forall m w p, 0 < m -> Forall (fun f => ~ flag FlagNotBlank f) p -> silent_for m w p ->
  endpos (removelast p) >= w /\ endpos p >= w + m.
Proof.
  intros m w p Hm F [(j & f & H1 & H2 & _)|(_ & H1 & H2)]; [|split; lia].
  exfalso. rewrite Forall_forall in F. apply (F f); [eapply nth_error_In; eauto|exact H2].
Qed.

(** Refused configurations. *)
Theorem C41_config : forall c, wd_new c = None <-> wc_drops c <> 0 /\ (wc_window c < 1 \/ wc_window c > wc_drops c).
Proof.
  intros c. unfold wd_new. destruct (Z.eqb_spec (wc_drops c) 0), (Z.ltb_spec (wc_window c) 1), (Z.ltb_spec (wc_drops c) (wc_window c)); cbn;
    split; intros HH; try discriminate; try reflexivity; try lia.
Qed.

(** Neither restriction can be dropped. A clean window is overlooked ... *)
Definition has_clean_window (c : wconf) (fs : list wframe) : Prop :=
  exists k j, 0 <= k /\ completes (wc_window c) fs k j /\ endpos fs - fend fs j < wc_drops c /\ ~ choppy (wc_window c) fs k.
(** ... in a frame longer than a window ... *)
Theorem C41_long_frame_refuted : exists c s0 fs bs s, conf_ok c /\ wd_new c = Some s0 /\ wd_run c s0 fs = Ok (bs, s) /\ ws_alive s = false /\
  wc_blank c = 0 /\ has_clean_window c fs.
Proof.
  exists (mkWconf 0 6 2 0 0). eexists. exists [mkWframe 1 14; mkWframe 4 2; mkWframe 1 14]. eexists _, _.
  split; [unfold conf_ok; cbn; lia|]. split; [reflexivity|]. split; [vm_compute; reflexivity|]. split; [reflexivity|]. split; [reflexivity|].
  exists 1, 1%nat. split; [lia|]. split; [unfold completes, fstart, fend, endpos; cbn; lia|]. split; [unfold fend, endpos; cbn; lia|].
  intros [(j & f & H1 & [H2 H3] & H4) _]. unfold overlaps, fstart, fend, endpos in *. cbn [wc_window] in *.
  destruct j as [|[|[|j]]]; cbn in H1, H2, H3; try lia; [|destruct j; discriminate].
  injection H1 as <-. vm_compute in H4. discriminate.
Qed.
(** ... and after the 32-bit position wrapped, when windows are not aligned any more. *)
Theorem C41_wrap_refuted : exists c s0 fs bs s, conf_ok c /\ wd_new c = Some s0 /\ Forall (frame_ok c) fs /\ wd_run c s0 fs = Ok (bs, s) /\ ws_alive s = false /\
  wc_blank c = 0 /\ has_clean_window c fs.
Proof.
  set (w := 536870911). exists (mkWconf 0 (2 * w) w 0 0). eexists.
  exists (repeat (mkWframe w 2) 8 ++ [mkWframe w 14; mkWframe w 2]). eexists _, _.
  split; [unfold conf_ok, w; cbn; lia|]. split; [reflexivity|]. split.
  { repeat (constructor; [unfold frame_ok, w; cbn; lia|]). constructor. }
  split; [vm_compute; reflexivity|]. split; [reflexivity|]. split; [reflexivity|].
  exists 9, 9%nat. split; [lia|]. split; [unfold completes, fstart, fend, endpos, w; cbn; lia|]. split; [unfold fend, endpos, w; cbn; lia|].
  intros [(j & f & H1 & [H2 H3] & H4) _]. unfold overlaps, fstart, fend, endpos, w in *. cbn [wc_window] in *.
  do 10 (destruct j as [|j]; [cbn in H1, H2, H3; try lia|]).
  - injection H1 as <-. vm_compute in H4. discriminate.
  - cbn in H1. destruct j; discriminate.
Qed.

(** Non-vacuity: dead by silence after a warm-up; dead by choppy playback; alive. *)
Definition c41_conf : wconf := mkWconf 4 6 2 3 21.
Definition fB : wframe := mkWframe 1 0.       (* blank *)
Definition fA : wframe := mkWframe 2 2.       (* audio *)
Definition fD : wframe := mkWframe 1 14.      (* audio, incomplete, drops *)
Example c41_conf_ok : conf_ok c41_conf. Proof. unfold conf_ok, c41_conf. cbn. lia. Qed.
Example c41_frames_ok : Forall (frame_ok c41_conf) [fB; fB; fB; fB; fA; fD; fD; fB]. Proof. repeat constructor; unfold frame_ok; cbn; lia. Qed.
Definition c41_run (fs : list wframe) : option (list bool * bool) :=
  match wd_new c41_conf with Some s => match wd_run c41_conf s fs with Ok (bs, s') => Some (bs, ws_alive s') | _ => None end | None => None end.
Example c41_silence : c41_run [fB; fB; fB; fB; fB; fB; fB; fA] = Some ([true; true; true; true; true; true; true; false], false).
Proof. vm_compute. reflexivity. Qed.
Example c41_choppy : c41_run [fD; fD; fD; fD; fD; fD; fA] = Some ([true; true; true; true; true; true; false], false).
Proof. vm_compute. reflexivity. Qed.
Example c41_alive : c41_run [fB; fB; fB; fA; fD; fD; fA; fA; fD; fA; fB; fB] = Some (repeat true 12, true).
Proof. vm_compute. reflexivity. Qed.

Print Assumptions C41_exact.
Print Assumptions C41_stays_dead.
Print Assumptions C41_warmup.
Print Assumptions C41_config.
Print Assumptions C41_long_frame_refuted.
Print Assumptions C41_wrap_refuted.
