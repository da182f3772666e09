From Coq Require Import Reals ZArith List Bool Lia Lra.
From Flocq Require Import Core.Core.
From Verif Require Import Base Seqnum_model Seqnum_proof Float32 TimeConv_model TimeConv_spec TimeConv_proof TimeConv_props TsMap_model TsMap_spec.
Import ListNotations.
Local Open Scope Z_scope.

Lemma last_known_app a b : last_known (a ++ b) = match last_known b with Some x => Some x | None => last_known a end.
Proof.
  induction a as [|[c q] a IH]; cbn [app last_known].
  - destruct (last_known b); auto.
  - rewrite IH. destruct (last_known b); auto.
Qed.

Lemma last_known_pos ps c q : last_known ps = Some (c, q) -> 0 < c /\ In (c, q) ps.
Proof.
  induction ps as [|[c' q'] ps IH]; cbn [last_known]; [discriminate|].
  destruct (last_known ps) as [[c1 q1]|].
  - intros E. destruct (IH E). split; auto. now right.
  - destruct (0 <? c') eqn:P; [|discriminate]. intros E. assert (c' = c /\ q' = q) by (split; congruence).
    destruct H as [-> ->]. apply Z.ltb_lt in P. split; auto. now left.
Qed.

Definition mapped (m : tsmap) (o : option (Z * Z)) : Prop :=
  match o with Some (c, q) => m = mkMap true c q | None => m_has m = false end.

Lemma ex_run_ok ps : forall m o, mapped m o -> Forall (fun p => 0 <= fst p) ps ->
  exists m', ex_run m ps = Ok m' /\ mapped m' (match last_known ps with Some x => Some x | None => o end).
Proof.
  induction ps as [|[c q] ps IH]; intros m o Hm F.
  - exists m. cbn. auto.
  - inversion F as [|? ? F1 F2]; subst. cbn [fst] in F1. cbn [ex_run ex_write last_known].
    rewrite (proj2 (Z.ltb_ge c 0)) by lia.
    destruct (Z.eqb_spec c 0) as [->|N]; cbn [negb bind].
    + destruct (IH m o Hm F2) as (m' & E & M). exists m'. split; auto. destruct (last_known ps); auto.
    + destruct (IH (mkMap true c q) (Some (c, q)) eq_refl F2) as (m' & E & M). exists m'. split; auto.
      rewrite (proj2 (Z.ltb_lt 0 c)) by lia. destruct (last_known ps); auto.
Qed.

Lemma diff_ahead q p : 0 <= q < 2 ^ 32 -> 0 <= p < 2 ^ 32 -> ahead q p (stream_timestamp_diff q p).
Proof.
  intros Hq Hp. unfold ahead, stream_timestamp_diff, s32, Base.u32, wraps, wrapu. rewrite Z.mod_mod by lia.
  change (2 ^ (32 - 1)) with 2147483648. change (2 ^ 31) with 2147483648. change (2 ^ 32) with 4294967296 in *.
  pose proof (Z.mod_pos_bound (q - p) 4294967296 ltac:(lia)) as B.
  pose proof (Z.div_mod (q - p) 4294967296 ltac:(lia)) as D.
  set (y := (q - p) mod 4294967296) in *. set (z := (q - p) / 4294967296) in *. cbv zeta.
  destruct (Z.ltb_spec y 2147483648) as [E|E]; (split; [lia|]).
  - replace (p + y) with (q + (- z) * 4294967296) by lia. rewrite Z.mod_add by lia. reflexivity.
  - replace (p + (y - 4294967296)) with (q + (- z - 1) * 4294967296) by lia. rewrite Z.mod_add by lia. reflexivity.
Qed.

Lemma ahead_unique q p k k' : ahead q p k -> ahead q p k' -> k = k'.
Proof. unfold ahead. intros [A B] [C D]. rewrite B in D. change (2 ^ 31) with 2147483648 in *. change (2 ^ 32) with 4294967296 in *. clear B. lia. Qed.
