From Verif Require Import Base Base_lemmas Spsc_model Spsc_spec Spsc_proof.
Open Scope res_scope.

(** Under every interleaving of the producer and the consumer, no element is
    read before it is complete or overwritten while live ([Ok]), the consumer
    receives the produced elements in order without loss or duplication, and at
    most [n] elements are stored. *)
Theorem C25_fifo : forall n ls,
  0 <= n < 2 ^ 31 -> positions_ok n (push_calls ls) ->
  exists outs s, sr_run n sr_new ls = Ok (outs, s) /\
    popped outs = firstn (length (popped outs)) (pushed outs) /\
    (length (pushed outs) <= length (popped outs) + Z.to_nat n)%nat.
Proof.
  intros n ls Hn HP. destruct (run_sinv n _ Hn HP ls sr_new [] [] (new_sinv n ltac:(lia))) as (outs & s & E & I & _).
  { cbn [len length pend sr_new sr_prod]. unfold len, pend. cbn. lia. }
  exists outs, s. split; [auto|]. cbn [app] in I. destruct I as [LE PRE _ _ _ _ _]. unfold len in LE. split; [auto|lia].
Qed.
Print Assumptions C25_fifo.

(** A push is refused exactly if [n] completed pushes have not been popped,
    and a pop finds nothing exactly if all completed pushes have been popped. *)
Theorem C25_full_empty : forall n ls outs s,
  0 <= n < 2 ^ 31 -> positions_ok n (push_calls ls + 1) -> sr_run n sr_new ls = Ok (outs, s) ->
  (forall v, sr_prod s = PIdle ->
     exists o s', sr_step n s (LPush v) = Some (Ok (o, s')) /\
       (o = RPush v false <-> length (pushed outs) = (length (popped outs) + Z.to_nat n)%nat)) /\
  (sr_cons s = CIdle ->
     exists o s', sr_step n s LPop = Some (Ok (o, s')) /\
       (o = RPop None <-> popped outs = pushed outs)).
Proof.
  intros n ls outs s Hn HP E.
  destruct (run_sinv n _ Hn HP ls sr_new [] [] (new_sinv n ltac:(lia))) as (outs1 & s1 & E1 & I & B).
  { cbn [len length pend sr_new sr_prod]. unfold len, pend. cbn. lia. }
  rewrite E in E1. injection E1 as <- <-. cbn [app] in *. change (len []) with 0 in B. change (pend sr_new) with 0 in B.
  split.
  - intros v Hv. destruct (sr_step n s (LPush v)) as [r|] eqn:ES.
    2:{ exfalso. destruct s as [a b cc p c]. cbn in Hv. subst p. cbn in ES. discriminate. }
    destruct (step_sinv n _ s _ _ (LPush v) r Hn HP I ltac:(change (push_calls [LPush v]) with 1; lia) ES) as (o & s' & -> & I' & _ & F).
    exists o, s'. split; [auto|]. split.
    + intros ->. unfold len in F. lia.
    + intros HL. destruct s as [rd wr cells p c]. cbn [sr_prod] in Hv. subst p. cbn [sr_step] in ES.
      unfold begin_write in ES. cbn [sr_wr sr_rd] in ES. unfold chunk_count in ES.
      pose proof (v_rd _ _ _ _ I) as RD. pose proof (v_wr _ _ _ _ I) as WR. cbn [sr_rd sr_wr] in *.
      assert (ED : u32 (wr - rd) = len (pushed outs) + 1 - len (popped outs)).
      { rewrite WR, RD. unfold u32, wrapu, len. rewrite p32. change (2 ^ 31) with 2147483648 in Hn. lia. }
      rewrite ED in ES. unfold len in ES. destruct (Z.geb_spec (Z.of_nat (length (pushed outs)) + 1 - Z.of_nat (length (popped outs))) (n + 1)); [congruence|lia].
  - intros Hc. destruct (sr_step n s LPop) as [r|] eqn:ES.
    2:{ exfalso. destruct s as [a b cc p c]. cbn in Hc. subst c. cbn in ES. discriminate. }
    destruct (step_sinv n _ s _ _ LPop r Hn HP I ltac:(change (push_calls [LPop]) with 0; lia) ES) as (o & s' & -> & I' & _ & F).
    exists o, s'. split; [auto|]. split.
    + intros ->. pose proof (v_pre _ _ _ _ I) as PRE. rewrite PRE. apply firstn_all2. unfold len in F. lia.
    + intros HE. destruct s as [rd wr cells p c]. cbn [sr_cons] in Hc. subst c. cbn [sr_step] in ES.
      unfold begin_read in ES. cbn [sr_wr sr_rd] in ES.
      pose proof (v_rd _ _ _ _ I) as RD. pose proof (v_wr _ _ _ _ I) as WR. cbn [sr_rd sr_wr] in *.
      assert (ED : u32 (rd + 1) = wr). { rewrite WR, RD, HE. unfold u32, wrapu. rewrite p32. lia. }
      rewrite ED, Z.eqb_refl in ES. congruence.
Qed.
Print Assumptions C25_full_empty.

(** A consumer that finds an element gets the oldest one within three more
    steps of its own, whatever the producer does meanwhile. *)
Theorem C25_pop_delivers : forall n ls outs s v k,
  0 <= n < 2 ^ 31 -> positions_ok n (push_calls ls) -> sr_run n sr_new ls = Ok (outs, s) ->
  sr_cons s = CDestroyed v k ->
  exists s', sr_step n s LEndRead = Some (Ok (RPop (Some v), s')) /\
    nth_error (pushed outs) (length (popped outs)) = Some v.
Proof.
  intros n ls outs s v k Hn HP E Hc.
  destruct (run_sinv n _ Hn HP ls sr_new [] [] (new_sinv n ltac:(lia))) as (outs1 & s1 & E1 & I & B).
  { cbn [len length pend sr_new sr_prod]. unfold len, pend. cbn. lia. }
  rewrite E in E1. injection E1 as <- <-. cbn [app] in *. pose proof (v_cons _ _ _ _ I) as CO. rewrite Hc in CO.
  destruct CO as (_ & L & <-). destruct s as [rd wr cells p c]. cbn [sr_cons] in Hc. subst c.
  eexists. split; [reflexivity|]. unfold len in L. apply nth_error_nth'. lia.
Qed.
Print Assumptions C25_pop_delivers.

(** With a number of chunks that does not divide 2^32, the chunk sequence is
    broken when the positions wrap around: a buffer for 2 elements destroys
    its contents after 2^32 - 2 push/pop pairs. *)
Definition pair (v : Z) : list slabel := [LPush v; LConstruct; LConstructed; LEndWrite; LPop; LCopy; LDestroy; LEndRead].
Fixpoint pairs (k : nat) : list slabel := match k with O => [] | S k' => pair 7 ++ pairs k' end.
Definition clean (s : spsc) (x : Z) : Prop :=
  sr_rd s = x /\ sr_wr s = u32 (x + 1) /\ (forall k, sr_cells s k = Empty) /\ sr_prod s = PIdle /\ sr_cons s = CIdle.
Lemma pair_clean s x : 0 <= x < 2 ^ 32 -> clean s x ->
  exists outs s', (forall ls, sr_run 2 s (pair 7 ++ ls) = (y <- sr_run 2 s' ls ;; Ok (outs ++ fst y, snd y))) /\ clean s' (u32 (x + 1)).
Proof.
  intros Hx (E1 & E2 & E3 & E4 & E5). destruct s as [rd wr cells p c]. cbn [sr_rd sr_wr sr_cells sr_prod sr_cons] in *. subst.
  rewrite p32 in Hx. set (k := u32 (x + 1) mod 3).
  assert (H1 : u32 (u32 (x + 1) - x) = 1) by (unfold u32, wrapu; rewrite p32; lia).
  assert (H2 : (u32 (x + 1) =? u32 (u32 (x + 1) + 1)) = false) by (unfold u32, wrapu; rewrite p32; lia).
  exists [RNone; RNone; RNone; RPush 7 true; RNone; RNone; RNone; RPop (Some 7)],
    (mkSpsc (u32 (x + 1)) (u32 (u32 (x + 1) + 1)) (set_cell (set_cell (set_cell cells k Torn) k (Full 7)) k Empty) PIdle CIdle).
  split.
  - intros ls. unfold pair. cbn [app sr_run sr_step]. unfold begin_write. cbn [sr_wr sr_rd]. rewrite H1. unfold chunk_count.
    change (1 >=? 2 + 1) with false. cbn iota. cbn [bind fst snd sr_step]. rewrite E3. cbn [bind fst snd sr_step].
    unfold begin_read. cbn [sr_wr sr_rd]. rewrite H2. cbn [bind fst snd sr_step]. unfold chunk_count. change (2 + 1) with 3. fold k.
    assert (C1 : set_cell (set_cell cells k Torn) k (Full 7) k = Full 7) by (unfold set_cell; rewrite Z.eqb_refl; auto).
    rewrite !C1. cbn [bind fst snd sr_step]. rewrite !C1. cbn [bind fst snd sr_step].
    destruct (sr_run 2 _ ls) as [[o s2]| |]; reflexivity.
  - split; [reflexivity|]. split; [reflexivity|]. split; [|split; reflexivity].
    intros j. cbn [sr_cells]. unfold set_cell. destruct (j =? k); auto.
Qed.
Lemma pairs_clean : forall k x s, 0 <= x -> x + Z.of_nat k < 2 ^ 32 -> clean s x ->
  exists outs s', (forall ls, sr_run 2 s (pairs k ++ ls) = (y <- sr_run 2 s' ls ;; Ok (outs ++ fst y, snd y))) /\ clean s' (x + Z.of_nat k).
Proof.
  induction k; intros x s H0 H1 HC.
  - exists [], s. rewrite Z.add_0_r. split; [|auto]. intros ls. cbn [pairs app]. destruct (sr_run 2 s ls) as [[o s2]| |]; reflexivity.
  - destruct (pair_clean s x ltac:(lia) HC) as (o1 & s1 & R1 & C1).
    assert (E : u32 (x + 1) = x + 1) by (unfold u32, wrapu; apply Z.mod_small; lia). rewrite E in C1.
    destruct (IHk (x + 1) s1 ltac:(lia) ltac:(lia) C1) as (o2 & s2 & R2 & C2).
    exists (o1 ++ o2), s2. split; [|replace (x + Z.of_nat (S k)) with (x + 1 + Z.of_nat k) by lia; auto].
    intros ls. cbn [pairs]. rewrite <- app_assoc, R1, R2. destruct (sr_run 2 s2 ls) as [[o s3]| |]; cbn [bind fst snd]; try reflexivity.
    rewrite app_assoc. reflexivity.
Qed.
Theorem C25_wrap_refuted : exists ls, sr_run 2 sr_new ls = UB.
Proof.
  set (k := Z.to_nat (2 ^ 32 - 2)).
  exists (pairs k ++ [LPush 1; LConstruct; LConstructed; LEndWrite; LPush 2; LConstruct]).
  assert (HK : Z.of_nat k = 4294967294) by (unfold k; rewrite Z2Nat.id by (rewrite p32; lia); reflexivity).
  destruct (pairs_clean k 0 sr_new) as (outs & s & R & HC); [lia|rewrite p32, HK; lia| |].
  { split; [reflexivity|]. split; [reflexivity|]. split; [|split; reflexivity]. intros; reflexivity. }
  rewrite R, HK in *. clear R HK. destruct HC as (E1 & E2 & E3 & E4 & E5).
  destruct s as [rd wr cells p c]. cbn [sr_rd sr_wr sr_cells sr_prod sr_cons] in *. subst.
  change (0 + 4294967294) with 4294967294. change (u32 (4294967294 + 1)) with 4294967295.
  cbn [sr_run sr_step]. unfold begin_write, chunk_count. cbn [sr_wr sr_rd].
  change (u32 (4294967295 - 4294967294) >=? 2 + 1) with false. cbn iota. change (4294967295 mod (2 + 1)) with 0.
  cbn [bind fst snd sr_step]. rewrite E3. cbn [bind fst snd sr_step]. change (u32 (4294967295 + 1)) with 0.
  cbn [sr_wr sr_rd]. change (u32 (0 - 4294967294) >=? 2 + 1) with false. cbn iota. change (0 mod (2 + 1)) with 0.
  cbn [bind fst snd sr_step]. unfold set_cell. cbn [Z.eqb]. reflexivity.
Qed.
Print Assumptions C25_wrap_refuted.

(** Interleaved calls on a buffer for one element. *)
Example C25_ex :
  let ls := [LPush 5; LPop; LConstruct; LConstructed; LPop; LEndWrite; LPush 6; LPop; LCopy; LPush 6; LDestroy; LEndRead; LPush 6; LPop] in
  positions_ok 1 (push_calls ls) /\
  match sr_run 1 sr_new ls with
  | Ok (outs, _) => outs = [RNone; RPop None; RNone; RNone; RPop None; RPush 5 true; RPush 6 false; RNone; RNone; RPush 6 false; RNone; RPop (Some 5); RNone; RPop None]
  | _ => False end.
Proof. cbv zeta. split; [right; vm_compute; reflexivity|]. vm_compute. reflexivity. Qed.
