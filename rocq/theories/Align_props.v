(** C44: alignment helpers. *)
From Verif Require Import Base Align_model.

(** [align_as size a] is the smallest multiple of [a] that is at least [size]. *)
Theorem C44_align : forall size a,
  0 <= size -> 0 < a -> size + a <= 2 ^ 64 ->
  let r := align_as size a in
  (a | r) /\ size <= r /\ (forall m, (a | m) -> size <= m -> r <= m).
Proof.
  intros size a H0 Ha Hb r. subst r. unfold align_as, u64, wrapu.
  change (2 ^ 64) with 18446744073709551616 in *.
  destruct (Z.eqb_spec a 0); [lia|].
  pose proof (Z.div_mod size a ltac:(lia)) as E. pose proof (Z.mod_pos_bound size a ltac:(lia)).
  destruct (Z.eqb_spec (size mod a) 0) as [Ez|Nz].
  - split; [exists (size / a); lia|]. split; [lia|]. auto.
  - rewrite (Z.mod_small (a - size mod a)) by lia.
    rewrite Z.mod_small by lia.
    split; [exists (size / a + 1); lia|]. split; [lia|].
    intros m [k ->] Hm.
    assert (size / a < k) by nia. nia.
Qed.
Print Assumptions C44_align.

(** [pad_as size a] is the least number of bytes that makes the total a multiple. *)
Theorem C44_pad : forall size a,
  0 <= size -> 0 < a -> size + a <= 2 ^ 64 ->
  let r := pad_as size a in
  0 <= r < a /\ (a | size + r).
Proof.
  intros size a H0 Ha Hb r. subst r. unfold pad_as, u64, wrapu.
  change (2 ^ 64) with 18446744073709551616 in *.
  destruct (Z.eqb_spec a 0); [lia|].
  pose proof (Z.div_mod size a ltac:(lia)) as E. pose proof (Z.mod_pos_bound size a ltac:(lia)).
  pose proof (Z.div_pos size a H0 Ha) as Hq. assert (0 <= size / a * a) by (apply Z.mul_nonneg_nonneg; lia).
  remember (size / a) as q eqn:Eq. remember (size mod a) as m eqn:Em. clear Eq Em.
  assert (q * a = size - m) as Q by lia. rewrite Q.
  rewrite (Z.mod_small (size - m)) by lia. cbv zeta.
  destruct (Z.ltb_spec (size - m) size).
  - rewrite (Z.mod_small (size - m + a)) by lia.
    rewrite Z.mod_small by lia. split; [lia|]. exists (q + 1). lia.
  - rewrite Z.mod_small by lia. split; [lia|]. exists q. lia.
Qed.
Print Assumptions C44_pad.

(** The two helpers agree. *)
Theorem C44_agree : forall size a,
  0 <= size -> 0 <= a -> size + a <= 2 ^ 64 -> align_as size a = size + pad_as size a.
Proof.
  intros size a H0 Ha Hb. destruct (Z.eq_dec a 0) as [->|Hn].
  { unfold align_as, pad_as. cbn. lia. }
  pose proof (C44_align size a H0 ltac:(lia) Hb) as A. pose proof (C44_pad size a H0 ltac:(lia) Hb) as B.
  cbv zeta in *. destruct A as (A1 & A2 & A3). destruct B as (B1 & B2).
  assert (align_as size a <= size + pad_as size a) by (apply A3; [auto|lia]).
  destruct A1 as [k1 E1]. destruct B2 as [k2 E2].
  assert (k1 <= k2) by (apply Z.mul_le_mono_pos_r with a; lia).
  assert (k2 < k1 + 1) by (apply Z.mul_lt_mono_pos_r with a; lia).
  assert (k1 = k2) by lia. subst k2. lia.
Qed.
Print Assumptions C44_agree.

(** Alignment 0 means "no alignment". *)
Theorem C44_zero : forall size, align_as size 0 = size /\ pad_as size 0 = 0.
Proof. intros; split; reflexivity. Qed.
Print Assumptions C44_zero.

(** The bound [size + a <= 2^64] is needed: near the end of the address space
    the result wraps around. *)
Theorem C44_overflow_refuted : exists size a,
  0 <= size < 2 ^ 64 /\ 0 < a < 2 ^ 64 /\ align_as size a < size.
Proof. exists (2 ^ 64 - 1), 16. vm_compute. repeat split; congruence. Qed.
Print Assumptions C44_overflow_refuted.

Example C44_ex : align_as 13 8 = 16 /\ pad_as 13 8 = 3 /\ align_as 16 8 = 16.
Proof. vm_compute. auto. Qed.
