(** C38: the packetizer preserves samples. *)
From Verif Require Import Base Base_lemmas Packetizer_model Packetizer_spec Packetizer_proof.

(** Any frames, any flush points, any pattern of allocation failures: no panic,
    and the packets are the ones [expected] gives for the frames, each cut short
    at the point where a packet could not be allocated; nothing is cut if
    allocation succeeds. The metrics count packets and payload bytes. *)
Theorem C38_stream : forall e ops, env_ok e -> Forall (op_ok e) ops ->
  exists s ops', pz_run e pz_new ops = Ok s /\ Forall2 (shorter e) ops' ops /\
    ((forall i, pz_alloc e i = true) -> ops' = ops) /\
    pz_out s = expected e [] ops' /\
    pz_pcount s = Z.of_nat (length (pz_out s)) /\
    pz_paycount s = fold_right (fun p n => pz_bytes e (pk_dur p) + n) 0 (pz_out s).
Proof.
  intros e ops EO F. destruct (run_spec e EO ops pz_new [] [] 0%nat (rep_new e)) as (s & ops' & A & B & C & D & E1 & E2); auto.
  exists s, ops'. auto 10.
Qed.

Lemma cut_concat : forall {A} n f (l : list A), (0 < n)%nat -> (length l <= f)%nat -> concat (cut f n l) = l.
Proof.
  intros A n f. induction f as [|f IH]; intros l N L.
  - destruct l; [reflexivity|cbn in L; lia].
  - destruct l as [|x l]; [reflexivity|]. cbn [cut concat]. rewrite IH; auto; [apply firstn_skipn|]. rewrite skipn_length. cbn [length] in *. lia.
Qed.
Lemma all_samples : forall e l, env_ok e -> concat (map pk_samples (all_packets e l)) = map fst l.
Proof.
  intros e l EO. unfold all_packets. rewrite map_map. cbn [packet_of pk_samples]. rewrite <- concat_map. f_equal. apply cut_concat; auto. apply c_pos. auto.
Qed.

(** After a final flush, the payloads concatenated are the samples written. *)
Theorem C38_samples : forall e ops s, env_ok e -> (forall i, pz_alloc e i = true) -> Forall (op_ok e) ops ->
  pz_run e pz_new (ops ++ [PFlush]) = Ok s -> concat (map pk_samples (pz_out s)) = written ops.
Proof.
  intros e ops s EO AL F R. destruct (C38_stream e (ops ++ [PFlush]) EO) as (s' & ops' & A & B & C & D & _).
  { apply Forall_app. split; auto. repeat constructor. }
  assert (s = s') by congruence. subst s'. rewrite D, (C AL).
  assert (G : forall ops cur, concat (map pk_samples (expected e cur (ops ++ [PFlush]))) = map fst cur ++ written ops).
  { clear - EO. induction ops as [|[l c|] ops IH]; intros cur; cbn [expected app].
    - rewrite map_app, concat_app, all_samples by auto. unfold full_packets. rewrite firstn_nil. reflexivity.
    - rewrite IH, map_app, label_fst, <- app_assoc. reflexivity.
    - rewrite map_app, concat_app, all_samples, IH by auto. reflexivity. }
  rewrite G. reflexivity.
Qed.

(** Without a flush every packet has exactly the configured length. *)
Theorem C38_full_length : forall e ops s, env_ok e -> Forall (op_ok e) ops -> ~ In PFlush ops ->
  pz_run e pz_new ops = Ok s ->
  Forall (fun p => pk_dur p = pz_spp e /\ length (pk_samples p) = (pz_spp e * pz_nch e)%nat /\ pk_pad p = 0) (pz_out s).
Proof.
  intros e ops s EO F NF R. destruct (C38_stream e ops EO F) as (s' & ops' & A & B & _ & D & _).
  assert (s = s') by congruence. subst s'. rewrite D. clear - B NF EO.
  assert (G : forall cur, Forall (fun p => pk_dur p = pz_spp e /\ length (pk_samples p) = (pz_spp e * pz_nch e)%nat /\ pk_pad p = 0) (full_packets e cur)).
  { intros cur. unfold full_packets, all_packets. apply Forall_map. pose proof (len_full e EO cur) as L. revert L. generalize (firstn (full_part e cur) cur) as l. generalize (length cur / per_packet e)%nat as q.
    pose proof (c_pos e EO) as CP. pose proof (nch_pos e EO) as NP.
    induction q as [|q IH]; intros l L.
    - destruct l; [constructor|cbn in L; lia].
    - destruct l as [|x l]; [cbn in L; lia|]. change (length (x :: l)) with (S (length l)). cbn [cut]. constructor.
      + assert (LF : length (firstn (per_packet e) (x :: l)) = per_packet e) by (rewrite firstn_length, L; cbn [Nat.mul]; lia).
        unfold packet_of. cbn [pk_dur pk_samples pk_pad]. rewrite map_length, LF. unfold per_packet. rewrite Nat.div_mul by lia. split; auto. split; auto. lia.
      + rewrite (cut_fuel (per_packet e) CP _ (length (skipn (per_packet e) (x :: l)))); [apply IH| |auto].
        * rewrite skipn_length, L. cbn [Nat.mul]. lia.
        * rewrite skipn_length. cbn [length]. lia. }
  generalize (@nil (Z * Z)) as cur. revert NF. induction B as [|o' o ops' ops S B IH]; intros NF cur; cbn [expected]; auto.
  destruct o' as [l' c'|], o as [l c|]; cbn in S; try contradiction.
  - apply IH. intros X. apply NF. now right.
  - exfalso. apply NF. now left.
Qed.

(** With flushes, every packet holds 1 to [spp] samples per channel and is
    padded to the full payload size. *)
Theorem C38_padded : forall e ops s, env_ok e -> Forall (op_ok e) ops -> pz_run e pz_new ops = Ok s ->
  Forall (fun p => (length (pk_samples p) = pk_dur p * pz_nch e)%nat /\ (1 <= pk_dur p <= pz_spp e)%nat /\ pz_bytes e (pk_dur p) + pk_pad p = pz_bytes e (pz_spp e)) (pz_out s).
Proof.
  intros e ops s EO F R. destruct (C38_stream e ops EO F) as (s' & ops' & A & B & _ & D & _).
  assert (s = s') by congruence. subst s'. rewrite D. clear - B EO.
  pose proof (c_pos e EO) as CP. pose proof (nch_pos e EO) as NP. pose proof (spp_pos e EO) as SP.
  set (P := fun p => (length (pk_samples p) = pk_dur p * pz_nch e)%nat /\ (1 <= pk_dur p <= pz_spp e)%nat /\ pz_bytes e (pk_dur p) + pk_pad p = pz_bytes e (pz_spp e)).
  assert (G : forall f l t, length l = (t * pz_nch e)%nat -> Forall P (map (packet_of e) (cut f (per_packet e) l))).
  { induction f as [|f IH]; intros l t L; [constructor|]. destruct l as [|x l]; [constructor|]. cbn [cut map].
    assert (T0 : (0 < t)%nat) by (cbn [length] in L; nia).
    assert (LF : length (firstn (per_packet e) (x :: l)) = (Nat.min (pz_spp e) t * pz_nch e)%nat).
    { rewrite firstn_length, L. unfold per_packet. apply Nat.mul_min_distr_r. }
    constructor.
    - unfold P, packet_of. cbn [pk_dur pk_samples pk_pad]. rewrite map_length, LF, Nat.div_mul by lia. split; auto. split; lia.
    - apply (IH _ (t - pz_spp e)%nat). rewrite skipn_length, L. unfold per_packet. nia. }
  assert (H : forall ops' ops, Forall2 (shorter e) ops' ops -> forall cur t, length cur = (t * pz_nch e)%nat -> Forall P (expected e cur ops')).
  { clear B ops ops'. intros ops' ops B. induction B as [|o' o ops' ops S B IH]; intros cur t L; cbn [expected].
    - unfold full_packets, all_packets. apply (G _ _ (t / pz_spp e * pz_spp e)%nat). rewrite firstn_length, Nat.min_l by (apply full_le; auto). rewrite (full_part_eq e EO cur t L). unfold per_packet. lia.
    - destruct o' as [l' c'|], o as [l c|]; cbn in S; try contradiction.
      + destruct S as (_ & _ & M). pose proof (Nat.div_mod (length l') (pz_nch e) ltac:(lia)) as DM.
        apply (IH _ (t + length l' / pz_nch e)%nat). rewrite app_length, label_len, L. lia.
      + apply Forall_app. split; [apply (G _ _ t L)|apply (IH _ 0%nat); reflexivity]. }
  apply (H _ _ B [] 0%nat). reflexivity.
Qed.

(** When the conversion to nanoseconds is additive, a packet that starts [k]
    samples into a frame carries the capture time of that position. *)
Theorem C38_timestamp : forall e cts r q, env_ok e -> cts <> 0 -> (r < pz_spp e)%nat ->
  pz_ns e 0 = 0 -> (forall a b, pz_ns e (a + b) = pz_ns e a + pz_ns e b) ->
  stamp e cts r (r + q * pz_spp e) = cts + pz_ns e (r + q * pz_spp e).
Proof.
  intros e cts r q EO C R Z0 Add. unfold stamp. replace (cts =? 0) with false by lia. replace (r + q * pz_spp e - r)%nat with (q * pz_spp e)%nat by lia.
  rewrite Nat.div_mul by (pose proof (spp_pos e EO); lia). rewrite Add.
  assert (G : pz_ns e (q * pz_spp e) = Z.of_nat q * pz_ns e (pz_spp e)).
  { induction q as [|q IH]; [exact Z0|]. replace (S q * pz_spp e)%nat with (pz_spp e + q * pz_spp e)%nat by lia. rewrite Add, IH. lia. }
  rewrite G. destruct (Nat.eqb_spec r 0) as [->|]; lia.
Qed.

(** A composer that cannot pad makes flush() panic. *)
Definition ex_env (pad : bool) : pz_env := mkPzEnv 3 2 (fun n => Z.of_nat n * 4) (fun n => Z.of_nat n * 10) (fun _ => true) (fun _ => pad).
Theorem C38_unpaddable_refuted : pz_run (ex_env false) pz_new [PWrite [1; 2] 100; PFlush] = Panic.
Proof. vm_compute. reflexivity. Qed.

Example C38_ex_env : env_ok (ex_env true).
Proof. constructor; cbn; auto; lia. Qed.
Example C38_ex : exists s, pz_run (ex_env true) pz_new [PWrite [1; 2; 3; 4] 100; PWrite [5; 6; 7; 8; 9; 10; 11; 12; 13; 14] 500; PFlush; PWrite [15; 16] 0; PFlush] = Ok s /\
  pz_out s = [mkPzPkt [1; 2; 3; 4; 5; 6] 100 3 0; mkPzPkt [7; 8; 9; 10; 11; 12] 510 3 0; mkPzPkt [13; 14] 540 1 8; mkPzPkt [15; 16] 0 1 8].
Proof. eexists. split; vm_compute; reflexivity. Qed.
Example C38_ex_spec : expected (ex_env true) [] [PWrite [1; 2; 3; 4] 100; PWrite [5; 6; 7; 8; 9; 10; 11; 12; 13; 14] 500; PFlush; PWrite [15; 16] 0; PFlush] =
  [mkPzPkt [1; 2; 3; 4; 5; 6] 100 3 0; mkPzPkt [7; 8; 9; 10; 11; 12] 510 3 0; mkPzPkt [13; 14] 540 1 8; mkPzPkt [15; 16] 0 1 8].
Proof. vm_compute. reflexivity. Qed.

Print Assumptions C38_stream.
Print Assumptions C38_samples.
Print Assumptions C38_full_length.
Print Assumptions C38_padded.
Print Assumptions C38_timestamp.
Print Assumptions C38_unpaddable_refuted.
