From Verif Require Import Base RtpFilter_spec RtpFilter_proof Counter_model.

(** Positions within half of the 32-bit range of the highest one. *)
Fixpoint near32 (hi : Z) (zs : list Z) : Prop :=
  match zs with
  | [] => True
  | z :: zs' => Z.abs (z - hi) < 2147483648 /\ near32 (Z.max hi z) zs'
  end.

Definition pinv (b : Z) (s : pc) (M : Z) : Prop :=
  pc_first s = false /\ pc_begin s = b /\ b <= M /\ pc_lo s = M mod 4294967296 /\
  pc_hi s = 4294967295 * (M / 4294967296) /\
  (b <= M - M / 4294967296 -> pc_counter s = M - M / 4294967296 - b).

Lemma s32_u32_small x y : Z.abs (x - y) < 2147483648 ->
  s32 (u32 (x mod 4294967296 - y mod 4294967296)) = x - y.
Proof.
  intros H. pose proof (s32_range (u32 (x mod 4294967296 - y mod 4294967296))).
  pose proof (s32_mod (u32 (x mod 4294967296 - y mod 4294967296))).
  pose proof (u32_mod (x mod 4294967296 - y mod 4294967296)). lia.
Qed.

Lemma pc_step b s M z : 0 <= b < 4294967296 -> pinv b s M -> Z.abs (z - M) < 2147483648 ->
  Z.max M z < 9223372036854775808 -> pinv b (pc_update s b (z mod 4294967296)) (Z.max M z).
Proof.
  intros Hb (F & B & P & L & H & C) Hz HM. unfold pc_update. rewrite F, B, Z.eqb_refl. cbn [orb negb].
  rewrite L, (s32_u32_small z M Hz).
  unfold pinv. cbn [pc_first pc_begin pc_lo pc_hi pc_counter].
  split; [reflexivity|]. split; [reflexivity|]. split; [lia|].
  assert (U : forall x, 0 <= x < 18446744073709551616 -> u64 x = x).
  { intros. unfold u64, wrapu. change (2^64) with 18446744073709551616. lia. }
  destruct (0 <? z - M) eqn:E; cbn [andb].
  - replace (Z.max M z) with z in * by lia. split; [reflexivity|].
    assert (Hh : (if z mod 4294967296 <? M mod 4294967296 then u64 (pc_hi s + 4294967295) else pc_hi s)
                 = 4294967295 * (z / 4294967296)).
    { rewrite H. destruct (z mod 4294967296 <? M mod 4294967296) eqn:Ew.
      - replace (z / 4294967296) with (M / 4294967296 + 1) by lia. rewrite U by lia. lia.
      - replace (z / 4294967296) with (M / 4294967296) by lia. reflexivity. }
    rewrite Hh. split; [reflexivity|]. intros Hle.
    assert (K : 4294967295 * (z / 4294967296) + z mod 4294967296 = z - z / 4294967296) by lia.
    rewrite K. rewrite (U (z - z / 4294967296)) by lia. replace (b <=? z - z / 4294967296) with true by lia.
    apply U. lia.
  - replace (Z.max M z) with M in * by lia. split; [auto|]. split; [auto|]. intros Hle.
    rewrite H.
    assert (K : 4294967295 * (M / 4294967296) + M mod 4294967296 = M - M / 4294967296) by lia.
    rewrite K. rewrite (U (M - M / 4294967296)) by lia. replace (b <=? M - M / 4294967296) with true by lia.
    apply U. lia.
Qed.

Lemma pc_gen b : 0 <= b < 4294967296 -> forall zs s M, pinv b s M -> near32 M zs ->
  maxl M zs < 9223372036854775808 ->
  pinv b (fold_left (fun s e => pc_update s b e) (map (fun z => z mod 4294967296) zs) s) (maxl M zs).
Proof.
  intros Hb. induction zs as [|z zs IH]; intros s M Hi Hn HM; cbn in *; [exact Hi|].
  destruct Hn as [H1 H2]. pose proof (maxl_ge zs (Z.max M z)). unfold maxl in *.
  apply (IH _ (Z.max M z)); auto. apply pc_step; auto. lia.
Qed.

Lemma pc_first_step b e : 0 <= b <= e -> e < 4294967296 -> pinv b (pc_update pc_init b e) e.
Proof.
  intros Hb He. unfold pc_update. cbn [pc_init pc_first pc_begin pc_hi pc_lo pc_counter orb].
  rewrite Z.sub_diag. change (0 <? s32 (u32 0)) with false. cbn [andb].
  unfold pinv. cbn [pc_first pc_begin pc_lo pc_hi pc_counter].
  replace (e / 4294967296) with 0 by lia. rewrite Z.mod_small by lia.
  assert (U : forall x, 0 <= x < 18446744073709551616 -> u64 x = x).
  { intros. unfold u64, wrapu. change (2^64) with 18446744073709551616. lia. }
  rewrite (U (0 + e)) by lia. replace (b <=? 0 + e) with true by lia. rewrite U by lia.
  repeat split; lia.
Qed.

Lemma pc_spec b e zs : 0 <= b <= e -> e < 4294967296 -> near32 e zs ->
  let M := maxl e zs in M < 9223372036854775808 -> b <= M - M / 4294967296 ->
  pc_run b (map (fun z => z mod 4294967296) (e :: zs)) = M - M / 4294967296 - b.
Proof.
  intros Hb He Hn M HM Hle. unfold pc_run. cbn [map fold_left]. rewrite (Z.mod_small e) by lia.
  apply (pc_gen b ltac:(lia) zs _ e (pc_first_step b e Hb He) Hn HM). exact Hle.
Qed.
