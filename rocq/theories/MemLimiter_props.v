From Verif Require Import Base Base_lemmas MemLimiter_model MemLimiter_spec MemLimiter_proof.

(** Under every schedule of any number of threads, what is held never exceeds
    the limit, the reported amount is what is held, and nothing panics. *)
Theorem C26_limit : forall limit ls,
  0 < limit < 2 ^ 64 -> permitted limit ml_new 0 ls ->
  exists outs s, ml_run limit ml_new ls = Ok (outs, s) /\ 0 <= held outs <= limit /\ ml_acquired s = held outs.
Proof.
  intros limit ls HL P. assert (I : minv limit ml_new 0) by (split; [reflexivity|]; split; [lia|]; intros; exact I).
  destruct (run_inv limit HL ls ml_new 0 I P) as (outs & s & E & (E1 & E2 & _)). exists outs, s.
  rewrite Z.add_0_l in *. auto.
Qed.
Print Assumptions C26_limit.

(** A request is refused only if granting it at the moment of the check would
    have exceeded the limit. *)
Theorem C26_refusal_justified : forall limit ls t,
  0 < limit < 2 ^ 64 -> permitted limit ml_new 0 ls ->
  forall outs s n s', ml_run limit ml_new ls = Ok (outs, s) ->
  ml_step limit s (LLoad t) = Some (Ok (MRefused n, s')) -> held outs + n > limit.
Proof.
  intros limit ls t HL P outs s n s' E ES.
  assert (I : minv limit ml_new 0) by (split; [reflexivity|]; split; [lia|]; intros; exact I).
  destruct (run_inv limit HL ls ml_new 0 I P) as (outs1 & s1 & E1 & I1). rewrite E1 in E. injection E as -> ->.
  destruct (step_inv limit s _ (LLoad t) _ HL I1 ES Logic.I) as (o & s2 & E2 & _ & Q). injection E2 as <- <-. cbn in Q. lia.
Qed.
Print Assumptions C26_refusal_justified.

(** A call that runs without interference is granted exactly if the amount
    fits. *)
Theorem C26_uncontended : forall limit ls t n outs s,
  0 < limit < 2 ^ 64 -> permitted limit ml_new 0 ls -> ml_run limit ml_new ls = Ok (outs, s) ->
  ml_threads s t = MIdle -> sane limit n ->
  exists outs' s', ml_run limit s [LAcquire t n; LLoad t; LCas t] = Ok (outs', s') /\
    (if held outs + n <=? limit then outs' = [MNone; MNone; MAcquired n] else outs' = [MNone; MRefused n]).
Proof.
  intros limit ls t n outs s HL P E Ht (Hn & Hs).
  assert (I : minv limit ml_new 0) by (split; [reflexivity|]; split; [lia|]; intros; exact I).
  destruct (run_inv limit HL ls ml_new 0 I P) as (outs1 & s1 & E1 & (I1 & I2 & _)). rewrite E1 in E. injection E as -> ->.
  rewrite Z.add_0_l in *. rewrite p64 in *.
  cbn [ml_run ml_step]. rewrite Ht. destruct (Z.eqb_spec n 0); [lia|]. cbn [bind snd fst].
  cbn [ml_step set_thread ml_threads ml_acquired]. rewrite Nat.eqb_refl. rewrite I1.
  rewrite u64_small by (rewrite p64; lia). destruct (Z.ltb_spec 0 limit); [|lia]. cbn [andb].
  destruct (Z.ltb_spec limit (held outs + n)), (Z.leb_spec (held outs + n) limit); try lia; cbn [bind snd fst].
  - cbn [ml_step set_thread ml_threads ml_acquired]. rewrite Nat.eqb_refl. eexists _, _. split; reflexivity.
  - cbn [ml_step set_thread ml_threads ml_acquired]. rewrite Nat.eqb_refl. rewrite I1, Z.eqb_refl. cbn [bind snd fst].
    eexists _, _. split; reflexivity.
Qed.
Print Assumptions C26_uncontended.

(** Releasing more than is held is detected. *)
Theorem C26_over_release : forall limit ls t n outs s,
  0 < limit < 2 ^ 64 -> permitted limit ml_new 0 ls -> ml_run limit ml_new ls = Ok (outs, s) ->
  ml_threads s t = MIdle -> held outs < n < 2 ^ 64 -> ml_step limit s (LRelease t n) = Some Panic.
Proof.
  intros limit ls t n outs s HL P E Ht Hn.
  assert (I : minv limit ml_new 0) by (split; [reflexivity|]; split; [lia|]; intros; exact I).
  destruct (run_inv limit HL ls ml_new 0 I P) as (outs1 & s1 & E1 & (I1 & I2 & _)). rewrite E1 in E. injection E as -> ->.
  rewrite Z.add_0_l in *. cbn [ml_step]. rewrite Ht, I1. destruct (Z.eqb_spec n 0); [auto|].
  unfold u64, wrapu. rewrite p64 in *.
  destruct (Z.ltb_spec (((held outs - n) mod 18446744073709551616 + n) mod 18446744073709551616) ((held outs - n) mod 18446744073709551616)); [auto|].
  exfalso. lia.
Qed.
Print Assumptions C26_over_release.

(** Without the bound on requests the counter wraps around and the limit is
    exceeded: two requests for almost all the address space succeed. *)
Definition wrap_schedule : list mlabel :=
  [LAcquire 0 100; LLoad 0; LCas 0; LAcquire 0 (2 ^ 64 - 50); LLoad 0; LCas 0].
Theorem C26_huge_request_refuted : exists outs s,
  ml_run 100 ml_new wrap_schedule = Ok (outs, s) /\ held outs > 100 /\ ml_acquired s = 50.
Proof.
  eexists _, _. split; [cbn [ml_run wrap_schedule ml_step ml_new ml_threads set_thread Nat.eqb]; vm_compute; reflexivity|].
  vm_compute. split; reflexivity.
Qed.
Print Assumptions C26_huge_request_refuted.

(** The arena wrapped with a limiter charges exactly the live blocks: the
    total allocated size of live blocks never exceeds the limit, and a failure
    of the inner arena leaves the charge unchanged. *)
Theorem C26_arena : forall sz limit ops a,
  0 < limit < 2 ^ 64 -> (forall n, sane limit (sz n)) ->
  la_run sz limit (mkLa 0 []) ops = Ok a -> la_acquired a = total (la_live a) /\ 0 <= la_acquired a <= limit.
Proof.
  intros sz limit ops a HL HS. rewrite p64 in HL.
  assert (HI : forall ops a0, la_acquired a0 = total (la_live a0) -> 0 <= la_acquired a0 <= limit -> Forall (fun b => 0 < snd b) (la_live a0) ->
    forall a, la_run sz limit a0 ops = Ok a -> la_acquired a = total (la_live a) /\ 0 <= la_acquired a <= limit).
  { clear ops a. induction ops as [|o ops IH]; intros a0 H1 H2 H3 a E; cbn [la_run] in E.
    - injection E as <-. auto.
    - destruct o as [size ans|p]; cbn [la_step] in E.
      + unfold la_allocate, ml_acquire in E. destruct (HS size) as (S1 & S2). rewrite p64 in S2.
        destruct (Z.eqb_spec (sz size) 0); [lia|]. rewrite u64_small in E by (rewrite p64; lia).
        destruct (Z.ltb_spec 0 limit); [|lia]. cbn [andb] in E.
        destruct (Z.ltb_spec limit (la_acquired a0 + sz size)); cbn [bind fst snd] in E; [eauto|].
        destruct ans as [p|]; cbn [bind snd] in E.
        * eapply IH; [| | |exact E]; cbn [la_acquired la_live]; [|lia|constructor; auto].
          cbn [total fold_right snd]. fold (total (la_live a0)). lia.
        * unfold ml_release in E. destruct (Z.eqb_spec (sz size) 0); [lia|].
          rewrite (u64_small (_ - _)) in E by (rewrite p64; lia). rewrite (u64_small (_ + _)) in E by (rewrite p64; lia).
          destruct (Z.ltb_spec (la_acquired a0 + sz size - sz size + sz size) (la_acquired a0 + sz size - sz size)); [lia|].
          cbn [bind snd] in E. eapply IH; [| | |exact E]; cbn [la_acquired la_live]; auto; lia.
      + unfold la_deallocate in E. destruct (la_find (la_live a0) p) as [(n, l)|] eqn:EF; [|discriminate].
        destruct (find_total _ _ _ _ EF) as (T1 & T2).
        assert (HF : Forall (fun b => 0 < snd b) l).
        { rewrite Forall_forall in *. intros x Hx. apply H3, T2. auto. }
        assert (0 < n). { rewrite Forall_forall in H3. apply (H3 (p, n)). apply T2. auto. }
        pose proof (total_nonneg l HF).
        unfold ml_release in E. destruct (Z.eqb_spec n 0); [lia|].
        rewrite (u64_small (_ - _)) in E by (rewrite p64; lia). rewrite (u64_small (_ + _)) in E by (rewrite p64; lia).
        destruct (Z.ltb_spec (la_acquired a0 - n + n) (la_acquired a0 - n)); [lia|].
        cbn [bind] in E. eapply IH; [| | |exact E]; cbn [la_acquired la_live]; auto; lia. }
  apply HI; cbn; auto; lia.
Qed.
Print Assumptions C26_arena.

(** Three threads: two compete for 60 of 100, the loser retries and is
    refused. *)
Example C26_ex :
  let ls := [LAcquire 0 60; LAcquire 1 60; LLoad 0; LLoad 1; LCas 1; LCas 0; LLoad 0; LRelease 2 10] in
  permitted 100 ml_new 0 ls /\
  match ml_run 100 ml_new ls with Ok (outs, _) => outs = [MNone; MNone; MNone; MNone; MAcquired 60; MNone; MRefused 60; MReleased 10] | _ => False end.
Proof. cbv zeta. split; [|vm_compute; reflexivity]. vm_compute. intuition congruence. Qed.
Example C26_arena_ex : exists a, la_run (fun n => n + 8) 100 (mkLa 0 []) [LaAlloc 40 (Some 1000); LaAlloc 40 None; LaAlloc 60 (Some 2000); LaFree 1000; LaAlloc 80 (Some 3000)] = Ok a
  /\ la_live a = [(3000, 88)].
Proof. eexists. split; vm_compute; reflexivity. Qed.
