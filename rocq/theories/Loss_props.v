(* C59: fraction of packets lost, as reported to the sender. *)
From Coq Require Import Reals ZArith List Bool Lia Lra.
From Verif Require Import Base Float32 TimeConv_model Loss_model Loss_proof.
Import ListNotations.
Local Open Scope Z_scope.
Local Open Scope res_scope.

(* the codes put into consecutive reports; packets expected and lost so far at each *)
Fixpoint report_all (st : loss) (hs : list (Z * Z)) : res (list Z) :=
  match hs with
  | [] => Ok []
  | (total, lost) :: hs => r <- report_loss st total lost ;; ks <- report_all (snd r) hs ;; Ok (fst r :: ks)
  end.

Definition counts_ok (h : Z * Z) : Prop := 0 <= fst h < 2 ^ 64 /\ - 2 ^ 62 <= snd h < 2 ^ 62.

(* Every report carries a code from 0 to 255 for the packets since the previous
   report (the first: since the beginning): 0 if none was expected or the number
   of lost packets did not grow (duplicates can make it shrink); otherwise within
   1/256 of the fraction, as seen by the peer ... *)
Theorem C59_accurate : forall hs, Forall counts_ok hs -> exists ks, report_all loss_new hs = Ok ks /\ length ks = length hs /\
  forall i t l t' l' k, nth_error ((0, 0) :: hs) i = Some (t, l) -> nth_error hs i = Some (t', l') -> nth_error ks i = Some k ->
    0 <= k <= 255 /\ f32_fin (fract_loss k) = true /\
    (t' <= t \/ l' <= l -> f32_val (fract_loss k) = 0%R) /\
    (t < t' -> l < l' -> let x := (IZR (l' - l) / IZR (t' - t))%R in
       (Rmin 1 x * (1 - / 4194304) - / 256 <= f32_val (fract_loss k) <= x * (1 + / 4194304))%R).
Proof.
  intros hs F. unfold loss_new.
  assert (K : counts_ok (0, 0)) by (unfold counts_ok; cbn; lia). revert K.
  generalize (0, 0). induction hs as [|[t1 l1] hs IH]; intros [t0 l0] K.
  - exists []. split; [reflexivity|]. split; [reflexivity|]. intros i; destruct i; discriminate.
  - inversion F as [|? ? F1 F2]; subst. destruct (IH F2 (t1, l1) F1) as (ks & E & L & P). unfold counts_ok in K, F1. cbn [fst snd] in K, F1.
    cbn [report_all]. rewrite report_val by tauto. cbn [bind fst snd]. rewrite E. cbn [bind].
    eexists. split; [reflexivity|]. split; [cbn; congruence|].
    intros i t l t' l' k H1 H2 H3. destruct i as [|i].
    2:{ apply (P i); auto. }
    cbn in H1, H2, H3. assert (t = t0 /\ l = l0 /\ t' = t1 /\ l' = l1) as (-> & -> & -> & ->) by (repeat split; congruence).
    assert (Q : k = if (t0 <? t1) && (l0 <? l1) then Z.min 255 (Flocq.Core.Raux.Zfloor (256 * ratio (l1 - l0) (t1 - t0))) else 0) by congruence. clear H1 H2 H3.
    destruct (Z.ltb_spec t0 t1) as [T|T], (Z.ltb_spec l0 l1) as [S|S]; cbn [andb] in Q.
    + destruct (code_bounds (l1 - l0) (t1 - t0) ltac:(lia) ltac:(lia)) as [C1 C2]. rewrite <- Q in C1, C2.
      destruct (decode k C1) as [D1 D2]. split; [exact C1|]. split; [exact D1|]. split; [lia|]. intros _ _. rewrite D2. exact C2.
    + destruct (decode k ltac:(lia)) as [D1 D2]. split; [lia|]. split; [exact D1|]. split; [|lia]. intros _. rewrite D2, Q. lra.
    + destruct (decode k ltac:(lia)) as [D1 D2]. split; [lia|]. split; [exact D1|]. split; [|lia]. intros _. rewrite D2, Q. lra.
    + destruct (decode k ltac:(lia)) as [D1 D2]. split; [lia|]. split; [exact D1|]. split; [|lia]. intros _. rewrite D2, Q. lra.
Qed.
Print Assumptions C59_accurate.

(* ... and exactly what RFC 3550 asks for, the fraction rounded down to 1/256, if
   no more than 65536 packets were expected since the previous report. *)
Theorem C59_exact : forall t l t' l', counts_ok (t, l) -> counts_ok (t', l') -> t < t' <= t + 65536 -> l < l' <= l + 16777216 ->
  report_loss (t, l) t' l' = Ok (Z.min 255 (256 * (l' - l) / (t' - t)), (t', l')).
Proof.
  intros t l t' l' [H1 H2] [H3 H4] T L. cbn [fst snd] in *. rewrite report_val by assumption.
  rewrite (proj2 (Z.ltb_lt t t')), (proj2 (Z.ltb_lt l l')) by lia. cbn [andb]. rewrite ratio_exact by lia. reflexivity.
Qed.
Print Assumptions C59_exact.

(* nothing, 5 of 100 lost, none, a duplicate, more lost than expected *)
Example ex_loss : Forall counts_ok [(0, 0); (100, 5); (200, 5); (300, 4); (310, 40)] /\
  report_all loss_new [(0, 0); (100, 5); (200, 5); (300, 4); (310, 40)] = Ok [0; 12; 0; 0; 255].
Proof. split; [repeat constructor; cbn; lia|vm_compute; reflexivity]. Qed.

(* For longer intervals the rounding can go up to the next 1/256. *)
Theorem C59_exact_refuted :
  ~ (forall t l t' l', counts_ok (t, l) -> counts_ok (t', l') -> t < t' -> l < l' ->
       report_loss (t, l) t' l' = Ok (Z.min 255 (256 * (l' - l) / (t' - t)), (t', l'))).
Proof.
  intros H. specialize (H 0 0 4294967297 16777216 ltac:(split; cbn; lia) ltac:(split; cbn; lia) ltac:(lia) ltac:(lia)).
  vm_compute in H. discriminate H.
Qed.
Print Assumptions C59_exact_refuted.
