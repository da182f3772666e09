(** C75: the identity of a participant. *)
From Coq Require Import Lia.
From Verif Require Import Base Base_lemmas Random_model Random_proof Identity_model Identity_spec Identity_proof.
Local Open Scope Z_scope.
Local Open Scope res_scope.

(** The UUID is text of the right form, whatever the generator gives; only the 37 characters
    of it are written; it shows the low bits of 16 results of the generator, all but the six
    bits that are fixed. *)
Theorem C75_uuid : forall clk st k buf, 0 <= st < 2 ^ 32 -> (37 <= length buf)%nat ->
  exists g' t, uuid_generate clk (st, k) buf = Ok (g', t ++ [0] ++ skipn 37 buf) /\ uuid4 t /\
    uuid_bytes t = versioned 0 (outputs clk 16 (st, k)).
Proof.
  intros clk st k buf G H. assert (L := outputs_len clk 16 (st, k)).
  exists (skip clk 16 (st, k)), (txt (versioned 0 (outputs clk 16 (st, k)))). split; [apply uuid_eq; [exact G|exact H]|].
  split; [apply txt_form, L|]. apply txt_bytes; [rewrite versioned_len; exact L|apply versioned_bytes].
Qed.
Example uuid_ok : uuid_generate (fun _ => 12345) (0, 0%nat) (repeat 7 40) = Ok ((3816278985, 16%nat),
  [57; 54; 49; 57; 102; 53; 50; 52; 45; 56; 100; 56; 53; 45; 52; 99; 51; 57; 45; 98; 57; 56; 101; 45; 48; 97; 55; 56; 102; 48; 101; 54; 100; 57; 52; 56; 0; 7; 7; 7]).
Proof. vm_compute. reflexivity. Qed.

(** A buffer that is too small aborts before anything is written or drawn. *)
Theorem C75_small_buffer : forall clk g buf, (length buf < 37)%nat -> uuid_generate clk g buf = Panic.
Proof. intros clk g buf H. unfold uuid_generate. apply Nat.ltb_lt in H. change (36 + 1)%nat with 37%nat. rewrite H. reflexivity. Qed.
Example small_buffer_ok : (length (repeat 0 36) < 37)%nat.
Proof. rewrite repeat_length. lia. Qed.

Lemma ssrc_eq clk i g : good g -> change_ssrc clk i g = Ok (after_draw clk g, {| id_cname := id_cname i; id_ssrc := 1 + mix (state_of clk g) mod (2 ^ 32 - 1) |}).
Proof.
  intros G. unfold change_ssrc. rewrite ranged_eq by (exact G || lia). cbn [bind].
  replace (2 ^ 32 - 1 - 1 + 1) with (2 ^ 32 - 1) by lia. reflexivity.
Qed.

(** Making an identity never aborts; the SSRC is not zero; the CNAME is a UUID and ends
    with a zero character. *)
Theorem C75_identity : forall clk st k fresh, 0 <= st < 2 ^ 32 -> length fresh = 37%nat ->
  exists g' i t, identity_new clk fresh (st, k) = Ok (g', i) /\ 0 < id_ssrc i < 2 ^ 32 /\ id_cname i = t ++ [0] /\ uuid4 t.
Proof.
  intros clk st k fresh G H. destruct (C75_uuid clk st k fresh G) as (_ & _ & _ & _ & _); [lia|].
  unfold identity_new. rewrite uuid_eq by (exact G || lia). cbn [bind].
  rewrite ssrc_eq by (apply skip_good; exact G). eexists. eexists. exists (txt (versioned 0 (outputs clk 16 (st, k)))).
  split; [reflexivity|]. cbn [id_ssrc id_cname].
  assert (P : 0 <= mix (state_of clk (skip clk 16 (st, k))) mod (2 ^ 32 - 1) < 2 ^ 32 - 1) by (apply Z.mod_pos_bound; lia).
  split; [lia|]. split; [rewrite skipn_all2 by lia; reflexivity|]. apply txt_form, outputs_len.
Qed.
Example identity_ok : exists g' i, identity_new (fun _ => 12345) (repeat 7 37) (0, 0%nat) = Ok (g', i) /\ id_ssrc i = 1433228291.
Proof. eexists. eexists. split; [vm_compute; reflexivity|reflexivity]. Qed.

Lemma mod_inj a b : 0 < a < 2 ^ 32 -> 0 < b < 2 ^ 32 -> a mod (2 ^ 32 - 1) = b mod (2 ^ 32 - 1) -> a = b.
Proof. change (2 ^ 32 - 1) with 4294967295. change (2 ^ 32) with 4294967296. lia. Qed.
Lemma mix_pos s : 0 < s < 2 ^ 32 -> 0 < mix s < 2 ^ 32.
Proof.
  intros H. pose proof (mix_range s ltac:(lia)) as R. assert (N : mix s <> 0); [|lia].
  intros E. assert (Z : s = 0); [|lia]. apply mix_inj; [lia|lia|]. rewrite E. reflexivity.
Qed.
Lemma skip_state clk m g : (forall j, (j <= m)%nat -> fst (skip clk j g) <> 0) -> good g ->
  fst (skip clk m g) = (fst g + Z.of_nat m * 0x9E3779B9) mod 2 ^ 32.
Proof.
  revert g. induction m as [|m IH]; intros g N G.
  - cbn [skip]. rewrite Z.mul_0_l, Z.add_0_r, Z.mod_small by exact G. reflexivity.
  - cbn [skip]. rewrite IH; [|intros j J; apply (N (Datatypes.S j)); lia|apply after_good].
    pose proof (N 0%nat ltac:(lia)) as N0. cbn [skip] in N0. unfold after_draw. cbn [fst]. unfold state_of.
    replace (fst g =? 0) with false by lia. unfold u32, wrapu. rewrite Zplus_mod_idemp_l. f_equal. lia.
Qed.

(** Changing the SSRC gives another one than the generator gave any time before, with any
    number of other draws in between, as long as it has not gone through all its states or
    been seeded again. *)
Theorem C75_new_ssrc : forall clk i i' g m, 0 <= fst g < 2 ^ 32 -> (1 <= m)%nat -> Z.of_nat m < 2 ^ 32 ->
  (forall j, (j <= m)%nat -> fst (skip clk j g) <> 0) ->
  exists g1 g2 a b, change_ssrc clk i g = Ok (g1, a) /\ change_ssrc clk i' (skip clk m g) = Ok (g2, b) /\ id_ssrc a <> id_ssrc b /\
    id_cname a = id_cname i /\ id_cname b = id_cname i'.
Proof.
  intros clk i i' g m G M1 M2 N. rewrite ssrc_eq by exact G. rewrite ssrc_eq by (apply skip_good; exact G).
  do 4 eexists. split; [reflexivity|]. split; [reflexivity|]. cbn [id_ssrc id_cname]. split; [|split; reflexivity].
  pose proof (N 0%nat ltac:(lia)) as N0. cbn [skip] in N0. pose proof (N m ltac:(lia)) as Nm.
  assert (S0 : state_of clk g = fst g) by (unfold state_of; replace (fst g =? 0) with false by lia; reflexivity).
  assert (Sm : state_of clk (skip clk m g) = fst (skip clk m g)) by (unfold state_of; replace (fst (skip clk m g) =? 0) with false by lia; reflexivity).
  rewrite S0, Sm. pose proof (skip_good clk m g G) as Gm. unfold good in Gm.
  intros E. assert (E2 : mix (fst g) mod (2 ^ 32 - 1) = mix (fst (skip clk m g)) mod (2 ^ 32 - 1)) by lia.
  apply mod_inj in E2; [|apply mix_pos; lia|apply mix_pos; lia]. apply mix_inj in E2; [|exact G|exact Gm].
  rewrite skip_state in E2 by assumption. change (2 ^ 32) with 4294967296 in *.
  assert (K : exists q, Z.of_nat m * 0x9E3779B9 = 4294967296 * q).
  { exists ((fst g + Z.of_nat m * 0x9E3779B9) / 4294967296). pose proof (Z.div_mod (fst g + Z.of_nat m * 0x9E3779B9) 4294967296 ltac:(lia)). lia. }
  destruct K as (q & K). assert (Inv : 0x9E3779B9 * 340573321 = 1 + 4294967296 * 210485888) by reflexivity.
  assert (D : Z.of_nat m = 4294967296 * (q * 340573321 - Z.of_nat m * 210485888)) by nia. lia.
Qed.
Example new_ssrc_ok : forall j, (j <= 3)%nat -> fst (skip (fun _ => 0) j (12345, 0%nat)) <> 0.
Proof. intros j J. do 4 (destruct j as [|j]; [vm_compute; congruence|]). lia. Qed.

(** Two processes whose clocks differ by a multiple of 2^32 ns, which is 4.3 s, have the same
    CNAME and SSRC, and all processes together have at most 2^32 CNAMEs at one time. *)
Lemma clock_states clk clk' : (forall n, u32 (clk' n) = u32 (clk n)) -> forall g, state_of clk' g = state_of clk g /\ after_draw clk' g = after_draw clk g.
Proof. intros H g. unfold after_draw, state_of. rewrite H. split; reflexivity. Qed.
Lemma clock_outputs clk clk' : (forall n, u32 (clk' n) = u32 (clk n)) -> forall n g, outputs clk' n g = outputs clk n g /\ skip clk' n g = skip clk n g.
Proof.
  intros H n. induction n as [|n IH]; intros g; cbn [outputs skip]; [split; reflexivity|].
  destruct (clock_states clk clk' H g) as [-> ->]. destruct (IH (after_draw clk g)) as [-> ->]. split; reflexivity.
Qed.
Theorem C75_same_identity : forall clk d fresh st k, 0 <= st < 2 ^ 32 -> length fresh = 37%nat ->
  identity_new (fun n => clk n + 2 ^ 32 * d n) fresh (st, k) = identity_new clk fresh (st, k).
Proof.
  intros clk d fresh st k G L. set (clk' := fun n => clk n + 2 ^ 32 * d n).
  assert (H : forall n, u32 (clk' n) = u32 (clk n)).
  { intros n. unfold clk', u32, wrapu. rewrite Z.mul_comm. apply Z_mod_plus_full. }
  unfold identity_new. rewrite !uuid_eq by (exact G || lia). destruct (clock_outputs clk clk' H 16 (st, k)) as [-> ->]. cbn [bind].
  rewrite !ssrc_eq by (apply skip_good; exact G). destruct (clock_states clk clk' H (skip clk 16 (st, k))) as [-> ->]. reflexivity.
Qed.
Theorem C75_unique_refuted :
  ~ forall t t' fresh g i g' i', t <> t' -> length fresh = 37%nat ->
      identity_new (fun n => t) fresh (0, 0%nat) = Ok (g, i) -> identity_new (fun n => t') fresh (0, 0%nat) = Ok (g', i') ->
      id_cname i <> id_cname i' \/ id_ssrc i <> id_ssrc i'.
Proof.
  intros H. destruct (C75_identity (fun _ => 12345) 0 0 (repeat 7 37)) as (g & i & _ & E & _); [lia|apply repeat_length|].
  pose proof (C75_same_identity (fun _ => 12345) (fun _ => 1) (repeat 7 37) 0 0 ltac:(lia) (repeat_length _ _)) as S. cbv beta in S. rewrite E in S.
  destruct (H 12345 (12345 + 2 ^ 32 * 1) (repeat 7 37) g i g i); [lia|apply repeat_length|exact E|exact S|congruence|congruence].
Qed.
Theorem C75_few : forall clk k fresh (l : list identity), length fresh = 37%nat -> NoDup l ->
  (forall i, In i l -> exists st g, 0 <= st < 2 ^ 32 /\ identity_new clk fresh (st, k) = Ok (g, i)) ->
  Z.of_nat (length l) <= 2 ^ 32.
Proof.
  intros clk k fresh l L N H. set (n := Z.to_nat (2 ^ 32)). assert (Hn : Z.of_nat n = 2 ^ 32) by (unfold n; rewrite Z2Nat.id; lia).
  clearbody n.
  set (of := fun j : nat => match identity_new clk fresh (Z.of_nat j, k) with Ok (_, i) => i | _ => {| id_cname := []; id_ssrc := 0 |} end).
  assert (I : incl l (map of (seq 0 n))).
  { intros i Hi. destruct (H i Hi) as (st & g & R & E). apply in_map_iff. exists (Z.to_nat st). split.
    - unfold of. rewrite Z2Nat.id by lia. rewrite E. reflexivity.
    - apply in_seq. lia. }
  pose proof (NoDup_incl_length N I) as Q. rewrite map_length, seq_length in Q. lia.
Qed.
Example few_ok : exists a b g g', identity_new (fun _ => 0) (repeat 7 37) (1, 0%nat) = Ok (g, a) /\
  identity_new (fun _ => 0) (repeat 7 37) (2, 0%nat) = Ok (g', b) /\ NoDup [a; b].
Proof.
  do 4 eexists. split; [vm_compute; reflexivity|]. split; [vm_compute; reflexivity|].
  constructor; [intros [E|[]]; apply (f_equal id_ssrc) in E; vm_compute in E; congruence|]. constructor; [intros []|constructor].
Qed.

Print Assumptions C75_uuid.
Print Assumptions C75_small_buffer.
Print Assumptions C75_identity.
Print Assumptions C75_new_ssrc.
Print Assumptions C75_same_identity.
Print Assumptions C75_unique_refuted.
Print Assumptions C75_few.
