(** C29: seqlock readers never return a torn value. *)
From Coq Require Import Lia.
From Verif Require Import Base Seqlock_model Seqlock_spec Seqlock_proof.

(** A load attempt of thread [t] starts after the schedule [ls1], runs
    interleaved with anything else ([ls2]) and succeeds: it returns exactly the
    value of the last store completed before it started, no store completed
    meanwhile, and the version tells how many stores there were. Fewer than
    2^31 stores complete during one attempt. *)
Theorem C29_no_tearing : forall ls1 ls2 v0 o1 s1 t o2 s2 v ver s3,
  permitted (ls1 ++ ls2) ->
  sl_run (sl_new v0) ls1 = (o1, s1) -> sl_th s1 t = TIdle ->
  sl_run s1 (LBegin t :: ls2) = (o2, s2) -> Forall (fun o => ~ ends_load t o) o2 ->
  stores o2 < 2 ^ 31 ->
  sl_step s2 (LStep t) = Some (SLoaded t v ver, s3) ->
  v = committed v0 o1 /\ stores o2 = 0 /\ ver = u32 (2 * stores o1).
Proof. exact load_exact. Qed.

(** The version is 32 bits wide: a load overtaken by exactly 2^31 stores
    succeeds with a mix of two values. *)
Theorem C29_wrap_refuted : exists ls2 o2 s2 s3,
  sl_run (sl_new [0; 0]) (LBegin 1 :: ls2) = (o2, s2) /\ Forall (fun o => ~ ends_load 1 o) o2 /\ stores o2 = 2 ^ 31 /\
  sl_step s2 (LStep 1) = Some (SLoaded 1 [0; 1] 0, s3).
Proof.
  destruct (wrap_torn (Z.to_nat (2 ^ 31))) as (o2 & s2 & s3 & H).
  - rewrite Z2Nat.id; [reflexivity|apply Z.pow_nonneg; lia].
  - eexists _, o2, s2, s3. exact H.
Qed.

(** Two threads never replace the value at the same time. *)
Theorem C29_one_writer : forall v0 ls outs s, permitted ls -> sl_run (sl_new v0) ls = (outs, s) ->
  forall t u v v' a a' i i', sl_th s t = TCopy v a i -> sl_th s u = TCopy v' a' i' -> t = u.
Proof. exact one_holder. Qed.

(** While nobody is in the middle of a store, a load attempt that runs alone
    succeeds with the last stored value, and so does a try_store, whose value
    the next such load returns. *)
Theorem C29_uncontended : forall v0 ls outs s t v, permitted ls -> sl_run (sl_new v0) ls = (outs, s) -> quiet s ->
  sl_th s t = TIdle -> length v = length v0 ->
  (exists o, fst (sl_run s (one_load t (length v0))) = o ++ [SLoaded t (committed v0 outs) (u32 (2 * stores outs))]) /\
  (exists o, fst (sl_run s (one_store t v)) = o ++ [SStored t v (u32 (2 * stores outs + 2))]) /\
  (exists o, fst (sl_run s (one_store t v ++ one_load t (length v0))) = o ++ [SLoaded t v (u32 (2 * stores outs + 2))]).
Proof.
  intros v0 ls outs s t v P R Q T L. destruct (reach_quiet _ _ _ _ P R Q) as (E & V & LV & W).
  assert (UU : u32 (sl_ver s + 2) = u32 (2 * stores outs + 2)).
  { rewrite W. unfold u32, wrapu. now rewrite Zplus_mod_idemp_l. }
  pose proof (load_alone t s T E) as HL. rewrite LV, V, W in HL.
  destruct (store_alone t v s T E) as (S1 & S2 & S3 & S4 & S5); [congruence|].
  fold (one_store t v) in *. rewrite UU in *.
  split; [|split].
  - eexists (SNone :: _). exact HL.
  - eexists (SNone :: SNone :: _). exact S1.
  - rewrite run_app. cbn [fst]. set (r := sl_run s (one_store t v)) in *.
    pose proof (load_alone t (snd r) S4) as H2. rewrite S2, S3 in H2. unfold one_load. rewrite <- L, H2.
    + rewrite app_comm_cons. rewrite app_assoc. eexists; reflexivity.
    + rewrite even_u32, Z.even_add, Z.even_mul. reflexivity.
Qed.

(** A torn copy (the reader has read the first byte before and the second one
    after a store) is rejected; a load after the store succeeds. *)
Example C29_ex :
  fst (sl_run (sl_new [1; 2]) ([LBegin 1; LStep 1] ++ one_store 0 [3; 4] ++ [LStep 1; LStep 1] ++ one_load 2 2)) =
    [SNone; SNone; SNone; SNone; SNone; SNone; SStored 0 [3; 4] 2; SNone; SLoadFailed 1; SNone; SNone; SNone; SLoaded 2 [3; 4] 2].
Proof. reflexivity. Qed.
(** The hypotheses of C29_no_tearing are met by a load that starts after a
    store and overlaps a try_store of another thread that has not begun to
    write. *)
Example C29_ex2 : exists s1 o2 s2 s3,
  permitted (one_store 0 [3; 4] ++ [LStep 1; LTry 2 [5; 6]; LStep 1]) /\
  sl_run (sl_new [1; 2]) (one_store 0 [3; 4]) = ([SNone; SNone; SNone; SNone; SStored 0 [3; 4] 2], s1) /\ sl_th s1 1 = TIdle /\
  sl_run s1 [LBegin 1; LStep 1; LTry 2 [5; 6]; LStep 1] = (o2, s2) /\
  Forall (fun o => ~ ends_load 1 o) o2 /\ stores o2 = 0 /\ sl_step s2 (LStep 1) = Some (SLoaded 1 [3; 4] 2, s3).
Proof.
  eexists _, _, _, _. split; [|split; [reflexivity|split; [reflexivity|split; [reflexivity|split; [|split; reflexivity]]]]].
  - left. intros t v H. cbn in H. intuition congruence.
  - repeat constructor; cbn; tauto.
Qed.
(** A single writer using exclusive_store is permitted. *)
Example C29_ex3 : permitted [LExcl 0 [1; 1]; LBegin 1; LStep 0; LStep 1; LStep 0].
Proof. right. exists O. cbn. intros l t H E. intuition subst; cbn in E; congruence. Qed.

Print Assumptions C29_no_tearing.
Print Assumptions C29_wrap_refuted.
Print Assumptions C29_one_writer.
Print Assumptions C29_uncontended.
