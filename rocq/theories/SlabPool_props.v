From Verif Require Import Base Base_lemmas Align_model Align_props SlabPool_model SlabPool_spec SlabPool_proof.

(** Objects users hold never overlap, not even with the guard zones around
    them, are aligned, and lie in memory obtained from the arena (or in the
    memory embedded in the pool). *)
Theorem C31_separate : forall c pre min_bytes h s,
  good_conf c pre -> reach c pre min_bytes h s ->
  NoDup (outstanding h) /\
  (forall p, In p (outstanding h) -> p mod 8 = 0 /\
     exists b, In b (pre :: sp_slabs s) /\ within (p - 8, 8 + guard_end (sc_obj c)) b) /\
  (forall p q, In p (outstanding h) -> In q (outstanding h) -> p <> q ->
     apart (p - 8, 8 + guard_end (sc_obj c)) (q - 8, 8 + guard_end (sc_obj c))).
Proof.
  intros c pre m h s G R. pose proof G as (Ho & Hm & _). pose proof (reach_inv c pre Ho Hm m h s G R) as I.
  destruct (slot_size_spec _ Ho) as (SE & SM & SG).
  assert (IN : forall p, In p (outstanding h) -> In (p - 16) (slots_of (outstanding h) s)).
  { intros p Hp. unfold slots_of. rewrite in_app_iff. right. apply (in_map (fun p => p - 16)). auto. }
  split; [|split].
  - pose proof (i_nodup _ _ _ _ _ I) as N. unfold slots_of in N. apply nodup_app_inv in N. destruct N as (_ & N).
    apply NoDup_map_inv in N. auto.
  - intros p Hp. destruct (i_block _ _ _ _ _ I _ (IN p Hp)) as (H1 & H2 & b & Hb & Hw).
    split; [lia|]. exists b. split; [auto|]. unfold within in *. cbn [fst snd] in *. lia.
  - intros p q Hp Hq Hne. pose proof (i_apart _ _ _ _ _ I _ _ (IN p Hp) (IN q Hq) ltac:(lia)) as AP.
    unfold apart in *. cbn [fst snd] in *. lia.
Qed.
Print Assumptions C31_separate.

(** Returning an object whose guard zone was left alone succeeds, and the
    next allocation reuses its memory without asking the arena. *)
Theorem C31_reuse : forall c pre min_bytes h s p,
  good_conf c pre -> reach c pre min_bytes h s -> In p (outstanding h) ->
  (forall x, in_guard (sc_obj c) p x -> guard_content h p x = 0x7b) ->
  exists s', sp_step c s (SFree p) = Ok (OUnit, s') /\ sp_fails s' = sp_fails s /\
    forall ans, exists s'', sp_step c s' (SAlloc ans) = Ok (OPtr (Some p), s'') /\ sp_slabs s'' = sp_slabs s.
Proof.
  intros c pre m h s p G R Hp HG. pose proof G as (Ho & Hm & _). pose proof (reach_inv c pre Ho Hm m h s G R) as I.
  pose proof (proj2 (intact_spec c pre Ho _ _ _ _ I Hp) HG) as Hi.
  destruct (free_inv c pre Ho _ _ _ _ I Hp (or_introl Hi)) as (s' & E & E1 & E2 & E3 & _).
  exists s'. cbn [sp_step]. rewrite E. cbn [bind]. split; [auto|]. rewrite Hi in E3. split; [lia|].
  intros ans. unfold sp_allocate. rewrite E1. rewrite E1. replace (p - 16 + 16) with p by lia.
  eexists. split; [reflexivity|]. cbn [sp_slabs]. auto.
Qed.
Print Assumptions C31_reuse.

(** A byte changed within 8 bytes of an object is detected when the object is
    returned: the process stops, or the failure is counted if it runs without
    the overflow guard. *)
Theorem C31_overflow : forall c pre min_bytes h s p x,
  good_conf c pre -> reach c pre min_bytes h s -> In p (outstanding h) ->
  (p - 8 <= x < p \/ p + sc_obj c <= x < p + sc_obj c + 8) -> guard_content h p x <> 0x7b ->
  if sc_overflow_guard c then sp_step c s (SFree p) = Panic
  else exists s', sp_step c s (SFree p) = Ok (OUnit, s') /\ sp_fails s' = sp_fails s + 1.
Proof.
  intros c pre m h s p x G R Hp Hx HG. pose proof G as (Ho & Hm & _). pose proof (reach_inv c pre Ho Hm m h s G R) as I.
  assert (Hi : intact c s p = false).
  { destruct (intact c s p) eqn:E; [|auto]. exfalso. apply HG.
    apply (proj1 (intact_spec c pre Ho _ _ _ _ I Hp) E). unfold in_guard, guard_end. lia. }
  destruct (sc_overflow_guard c) eqn:Eg; cbn [sp_step].
  - rewrite (free_corrupt c pre _ _ _ _ I Hp Hi Eg). auto.
  - destruct (free_inv c pre Ho _ _ _ _ I Hp (or_intror Eg)) as (s' & E & E1 & E2 & E3 & _).
    rewrite E. cbn [bind]. exists s'. rewrite Hi in E3. auto.
Qed.
Print Assumptions C31_overflow.

(** Returning something that is not an outstanding object of this pool, or
    returning an object twice, stops the process under the ownership guard. *)
Theorem C31_foreign : forall c pre min_bytes h s p,
  good_conf c pre -> reach c pre min_bytes h s -> ~ In p (outstanding h) -> p <> 0 ->
  if sc_ownership_guard c then sp_step c s (SFree p) = Panic
  else exists s', sp_step c s (SFree p) = Ok (OUnit, s') /\ sp_fails s' = sp_fails s + 1 /\
    sp_free s' = sp_free s /\ sp_bytes s' = sp_bytes s /\ sp_owner s' = sp_owner s.
Proof.
  intros c pre m h s p G R Hp H0. pose proof G as (Ho & Hm & _). pose proof (reach_inv c pre Ho Hm m h s G R) as I.
  destruct (sc_ownership_guard c) eqn:Eg; cbn [sp_step].
  - rewrite (free_foreign c pre Ho _ _ _ _ I Hp Eg). auto.
  - unfold sp_deallocate. destruct (Z.eqb_spec p 0); [lia|].
    destruct (Z.eqb_spec (sp_owner s (p - 16)) self) as [E|E]; cbn [negb].
    { apply (i_owner _ _ _ _ _ I) in E. rewrite in_map_iff in E. destruct E as (q & E & Hq).
      replace q with p in Hq by lia. tauto. }
    rewrite Eg. cbn [bind]. eexists. split; [reflexivity|]. auto.
Qed.
Print Assumptions C31_foreign.

(** Allocation fails only if no returned or reserved memory is left and the
    arena refuses; otherwise the object is one users did not hold. *)
Theorem C31_allocate : forall c pre min_bytes h s ans,
  good_conf c pre -> reach c pre min_bytes h s -> honest c pre s (SAlloc ans) ->
  exists r s', sp_step c s (SAlloc ans) = Ok (OPtr r, s') /\
    match r with
    | Some p => ~ In p (outstanding h)
    | None => ans = None /\ sp_free s = []
    end.
Proof.
  intros c pre m h s ans G R HO. pose proof G as (Ho & Hm & _). pose proof (reach_inv c pre Ho Hm m h s G R) as I.
  pose proof (alloc_cases c pre Ho Hm _ _ s ans I HO) as AC. cbn [sp_step].
  destruct (sp_allocate c s ans) as [r s']. exists r, s'. split; [auto|]. destruct r; tauto.
Qed.
Print Assumptions C31_allocate.

(** After a successful reservation of [n] objects, [n] allocations succeed
    even if the arena refuses everything. *)
Theorem C31_reserve : forall c pre min_bytes h s n anss s',
  good_conf c pre -> reach c pre min_bytes h s -> honest c pre s (SReserve (Z.of_nat n) anss) ->
  sp_step c s (SReserve (Z.of_nat n) anss) = Ok (OBool true, s') ->
  exists ps s'', sp_run c s' (repeat (SAlloc None) n) = Ok (map (fun p => OPtr (Some p)) ps, s'') /\ length ps = n.
Proof.
  intros c pre m h s n anss s' G R HO E. pose proof G as (Ho & Hm & _). pose proof (reach_inv c pre Ho Hm m h s G R) as I.
  assert (HN : Z.of_nat n <= nfree s').
  { cbn [sp_step] in E. unfold sp_reserve in E. destruct (Z.ltb_spec (nfree s) (Z.of_nat n)) as [L|L].
    - pose proof (reserve_loop_inv c pre Ho Hm _ _ (Z.of_nat n) anss _ (cur_inv c pre Ho _ _ _ (Z.of_nat n - nfree s) I) HO) as (_ & HR).
      destruct (reserve_loop _ _ _ _) as [b s1]. injection E as -> <-. auto.
    - injection E as <-. auto. }
  unfold nfree in HN. destruct (run_allocs c n s') as (ps & s'' & H1 & H2 & _); [lia|]. exists ps, s''. auto.
Qed.
Print Assumptions C31_reserve.

(** No block requested from the arena is larger than the configured maximum,
    unless a single object needs more. *)
Theorem C31_slab_limit : forall c pre min_bytes h s b,
  good_conf c pre -> reach c pre min_bytes h s -> In b (sp_slabs s) -> sc_max_bytes c <> 0 ->
  snd b <= Z.max (sc_max_bytes c) (40 + guard_end (sc_obj c)).
Proof.
  intros c pre m h s b G R Hb Hne. pose proof G as (Ho & Hm & _). pose proof (reach_inv c pre Ho Hm m h s G R) as I.
  destruct (i_slabs _ _ _ _ _ I b Hb); [lia|]. destruct (slot_size_spec _ Ho) as (SE & _). unfold slab_hdr_size in *. lia.
Qed.
Print Assumptions C31_slab_limit.

(** Destroying the pool stops the process iff objects are outstanding (with
    the leak guard), else it gives every block back to the arena. *)
Theorem C31_destroy : forall c pre min_bytes h s,
  good_conf c pre -> reach c pre min_bytes h s ->
  (outstanding h <> [] -> sp_destroy true s = Panic) /\
  (outstanding h = [] -> sp_destroy true s = Ok (map fst (sp_slabs s))).
Proof.
  intros c pre m h s G R. pose proof G as (Ho & Hm & _). pose proof (reach_inv c pre Ho Hm m h s G R) as I.
  pose proof (i_used _ _ _ _ _ I) as U. unfold sp_destroy. split; intros H.
  - destruct (outstanding h); [congruence|]. cbn [length] in U. destruct (Z.eqb_spec (sp_used s) 0); [lia|auto].
  - rewrite H in U. cbn in U. rewrite U. auto.
Qed.
Print Assumptions C31_destroy.

(** A pool whose smallest and largest slab sizes are equal cannot be built
    unless they are a whole number of slots: one is rounded up and the other
    down. *)
Theorem C31_equal_limits_refuted :
  sp_new (mkSc 8 100 true true) 100 0 0 = Panic /\ is_ok (sp_new (mkSc 8 88 true true) 88 0 0).
Proof. split; [vm_compute; reflexivity|]. eexists. reflexivity. Qed.
Print Assumptions C31_equal_limits_refuted.

(** Two objects of 20 bytes, the second overrun by one byte. *)
Definition ex_conf := mkSc 20 1000 true true.
Example C31_ex : good_conf ex_conf (0, 0) /\
  exists s, reach ex_conf (0, 0) 0
    [(SWrite 1156 0, OUnit); (SAlloc (Some 1096), OPtr (Some 1136)); (SAlloc (Some 1024), OPtr (Some 1064))] s
  /\ outstanding [(SWrite 1156 0, OUnit); (SAlloc (Some 1096), OPtr (Some 1136)); (SAlloc (Some 1024), OPtr (Some 1064))] = [1136; 1064].
Proof.
  split; [repeat split; cbn; lia|]. eexists. split; [|reflexivity].
  eapply reach_step; [eapply reach_step; [eapply reach_step; [apply reach_new; reflexivity| | |reflexivity]| | |reflexivity]| | |reflexivity].
  - exact Logic.I.
  - split; [|exact Logic.I]. split; [vm_compute; reflexivity|]. split; [vm_compute; reflexivity|].
    constructor; [right; vm_compute; congruence|constructor].
  - exact Logic.I.
  - split; [|exact Logic.I]. split; [vm_compute; reflexivity|]. split; [vm_compute; reflexivity|].
    constructor; [right; vm_compute; congruence|]. constructor; [right; vm_compute; congruence|constructor].
  - exists 1136. split; [left; reflexivity|]. vm_compute. intuition congruence.
  - exact Logic.I.
Qed.
Example C31_ex_content :
  guard_content [(SWrite 1156 0, OUnit); (SAlloc (Some 1096), OPtr (Some 1136)); (SAlloc (Some 1024), OPtr (Some 1064))] 1136 1156 = 0.
Proof. reflexivity. Qed.
