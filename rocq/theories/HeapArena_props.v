(** C71: memory of the heap arena holds what was put in it, and which misuse of it is
    caught. *)
From Verif Require Import Base HeapArena_model HeapArena_spec HeapArena_proof.
Local Open Scope res_scope.

Ltac told_of S R := pose proof (run_told _ [] _ _ _ told0 S R) as T; cbn [app] in T.

(** Memory in use holds the byte last stored there and, before that, the pattern it was
    prepared with, whatever else was allocated, stored or given back in between. *)
Theorem C71_memory : forall os h w p a n i,
  Forall sized os -> h_run world0 os = Ok (h, w) ->
  in_use h p a n -> -16 <= i < n + 16 ->
  exists v, byte_at h p i = Some v /\ h_step w (Load p i) = Ok (RVal v, w).
Proof.
  intros os h w p a n i S R U I. told_of S R.
  destruct (in_use_look _ _ _ _ _ T U) as (c & LK & E1 & E2).
  destruct (look_in_use _ _ _ _ T LK) as (_ & NE & LV).
  destruct (t_chunk _ _ T p c NE) as (_ & SZ & MM). destruct (MM LV) as [ML MB].
  exists (m_byte (k_mem c) (can + i)). rewrite E2 in *. split; [apply MB; auto|].
  cbn [h_step]. unfold h_load. rewrite LK. cbn [bind]. rewrite ML. unfold can in *.
  destruct (Z.leb_spec 0 (16 + i)); [|lia]. destruct (Z.ltb_spec (16 + i) (16 + n + 16)); [|lia]. reflexivity.
Qed.
Print Assumptions C71_memory.

(** Memory that is asked for is either refused, and nothing changes, or is memory nobody
    ever had, in use from now on. *)
Theorem C71_fresh : forall os h w a n given r w',
  Forall sized os -> h_run world0 os = Ok (h, w) -> 0 <= n < 2 ^ 64 ->
  h_step w (Alloc a n given) = Ok (r, w') ->
  r = RPtr None /\ w' = w \/
  exists p, r = RPtr (Some p) /\ status h p = None /\ in_use (h ++ [(Alloc a n given, r)]) p a n.
Proof.
  intros os h w a n given r w' S R N H. told_of S R. cbn [h_step] in H.
  destruct (h_allocate w a n given) as [(p, w1)| |] eqn:E; cbn [bind fst snd] in H; try discriminate H.
  injection H as <- <-. destruct (alloc_ok _ _ _ _ _ _ _ T N E) as [_ [[-> ->]|[-> NN]]]; auto.
  right. exists (length (chunks w)). split; auto. split.
  - apply (t_none _ _ T). apply nth_error_None. lia.
  - unfold in_use. rewrite status_snoc, Nat.eqb_refl. auto.
Qed.
Print Assumptions C71_fresh.

(** Giving memory back to the arena it came from is stopped if and only if that guard is
    on and some byte within 16 bytes around the memory was changed. Otherwise the memory
    is no longer in use; a change that is not stopped is counted. *)
Theorem C71_overrun : forall os h w p a n,
  Forall sized os -> h_run world0 os = Ok (h, w) -> in_use h p a n ->
  let g := snd (fst (guards_on h)) in
  (h_step w (Dealloc a (Some p)) = Panic <-> g = true /\ overrun h p n) /\
  (forall r w', h_step w (Dealloc a (Some p)) = Ok (r, w') ->
     ~ (exists b m, in_use (h ++ [(Dealloc a (Some p), r)]) p b m) /\
     (overrun h p n -> forall b, n_fails w' b = n_fails w b + (if b =? a then 1 else 0)) /\
     (~ overrun h p n -> n_fails w' = n_fails w)) /\
  (~ (g = true /\ overrun h p n) -> exists w', h_step w (Dealloc a (Some p)) = Ok (RDone, w')).
Proof.
  intros os h w p a n S R U g. told_of S R. subst g. rewrite (t_guard _ _ T). cbn [fst snd].
  destruct (proj2 (dealloc_eq h w p a n a T U) eq_refl) as (bad & w1 & B & D & _ & _ & F & _).
  cbn [h_step]. rewrite D.
  assert (X : bad && g_over w = true <-> g_over w = true /\ overrun h p n).
  { rewrite <- B, andb_true_iff. tauto. }
  destruct (bad && g_over w) eqn:E; cbn [bind].
  - repeat split; try tauto; try discriminate.
  - split; [|split].
    + split; [discriminate|]. intros Q. apply X in Q. discriminate Q.
    + intros r w' Q. injection Q as <- <-. split; [|split].
      * intros (b & m & V). unfold in_use in *. rewrite status_snoc, U, Nat.eqb_refl, Z.eqb_refl in V.
        cbn [andb] in V. discriminate V.
      * intros O b. rewrite F. rewrite (proj2 B O). unfold upz. destruct (Z.eqb_spec b a) as [->|]; lia.
      * intros O. rewrite F. destruct bad; auto. destruct O. apply B. auto.
    + intros _. eauto.
Qed.
Print Assumptions C71_overrun.

(** Memory of another arena is neither measured nor given back: the call is stopped, or
    with that guard off, everything stays as it was except for a count of failures. *)
Theorem C71_foreign : forall os h w p a n b,
  Forall sized os -> h_run world0 os = Ok (h, w) -> in_use h p a n -> b <> a ->
  (snd (guards_on h) = true ->
     h_step w (Dealloc b (Some p)) = Panic /\ h_step w (SizeOf b (Some p)) = Panic) /\
  (snd (guards_on h) = false -> exists w',
     h_step w (Dealloc b (Some p)) = Ok (RDone, w') /\ h_step w (SizeOf b (Some p)) = Ok (RVal 0, w') /\
     chunks w' = chunks w /\ n_allocs w' = n_allocs w /\
     (forall x, n_fails w' x = n_fails w x + (if x =? b then 1 else 0)) /\
     in_use (h ++ [(Dealloc b (Some p), RDone)]) p a n).
Proof.
  intros os h w p a n b S R U NB. told_of S R. rewrite (t_guard _ _ T). cbn [fst snd].
  pose proof (proj1 (dealloc_eq h w p a n b T U) (not_eq_sym NB)) as D.
  destruct (in_use_look _ _ _ _ _ T U) as (c & LK & E1 & E2).
  assert (Z1 : h_allocated_size w b (Some p) = if g_own w then Panic else Ok (0, report w b)).
  { unfold h_allocated_size. rewrite LK. cbn [bind]. rewrite E1. destruct (Z.eqb_spec a b); [congruence|]. auto. }
  cbn [h_step]. rewrite D, Z1. split; intros G; rewrite G; cbn [bind fst snd]; auto.
  exists (report w b). repeat split.
  - intros x. cbn. unfold upz. destruct (Z.eqb_spec x b) as [->|]; lia.
  - unfold in_use in *. rewrite status_snoc, U. destruct (Z.eqb_spec a b); [congruence|]. rewrite andb_false_r. auto.
Qed.
Print Assumptions C71_foreign.

(** The number of allocations of an arena is how many pointers it returned and did not
    get back; its end is stopped if and only if that guard is on and there are some. *)
Theorem C71_count : forall os h w a,
  Forall sized os -> h_run world0 os = Ok (h, w) ->
  h_step w (Count a) = Ok (RVal (Z.of_nat (length (in_use_of h a))), w) /\
  (h_step w (Destroy a) = Panic <-> fst (fst (guards_on h)) = true /\ in_use_of h a <> []) /\
  (forall p, In p (in_use_of h a) <-> exists n, in_use h p a n).
Proof.
  intros os h w a S R. told_of S R. pose proof (in_use_count h w a T) as C. rewrite (t_guard _ _ T). cbn [fst snd].
  cbn [h_step]. rewrite C. split; auto. split.
  - unfold h_destroy. rewrite C. destruct (in_use_of h a) as [|x l]; cbn [length].
    + cbn. split; [discriminate|]. intros [_ Q]. congruence.
    + destruct (Z.eqb_spec (Z.of_nat (Datatypes.S (length l))) 0); [lia|]. cbn [negb].
      destruct (g_leak w); cbn [bind]; split; auto; try discriminate; try (intros [Q _]; discriminate Q).
      intros _. split; auto. discriminate.
  - intros p. unfold in_use_of, in_use. rewrite filter_In, in_seq. split.
    + intros [_ Q]. destruct (status h p) as [[[b n] l]|]; [|discriminate Q].
      apply andb_true_iff in Q. destruct Q as [Q ->]. apply Z.eqb_eq in Q. subst. eauto.
    + intros (n & Q). split.
      * rewrite (t_ret _ _ T). cbn [Nat.add]. split; [lia|].
        destruct (Nat.lt_ge_cases p (length (chunks w))) as [|GE]; auto.
        apply nth_error_None in GE. rewrite (t_none _ _ T p GE) in Q. discriminate Q.
      * rewrite Q, Z.eqb_refl. auto.
Qed.
Print Assumptions C71_count.

(** The size reported for memory is what the heap was asked for: 48 bytes more than the
    program asked the arena for, as it was told beforehand. *)
Theorem C71_size : forall os h w p a n,
  Forall sized os -> h_run world0 os = Ok (h, w) -> in_use h p a n ->
  h_step w (SizeOf a (Some p)) = Ok (RVal (n + 48), w) /\ compute_allocated_size n = n + 48.
Proof.
  intros os h w p a n S R U. told_of S R.
  destruct (in_use_look _ _ _ _ _ T U) as (c & LK & E1 & E2).
  destruct (look_in_use _ _ _ _ T LK) as (_ & NE & LV).
  destruct (t_chunk _ _ T p c NE) as (_ & SZ & _). rewrite E2 in SZ.
  assert (Q : compute_allocated_size n = n + 48).
  { unfold compute_allocated_size, u64, wrapu, hdr, can. rewrite Z.mod_small; lia. }
  split; auto. cbn [h_step]. unfold h_allocated_size. rewrite LK. cbn [bind].
  rewrite E1, Z.eqb_refl, E2, Q. reflexivity.
Qed.
Print Assumptions C71_size.

(** A program that uses memory it has, within 16 bytes around it, and does not ask for
    nearly 2^64 bytes, never makes the arena touch memory that is not its own. *)
Theorem C71_safe : forall os h w o,
  Forall sized os -> h_run world0 os = Ok (h, w) -> fair h o -> h_step w o <> UB.
Proof.
  intros os h w o S R F. told_of S R. destruct o; cbn [h_step fair] in *; try discriminate.
  - unfold h_allocate. destruct given as [junk|]; [|discriminate].
    assert (Q : u64 (hdr + can + size + can) = size + 48).
    { unfold u64, wrapu, hdr, can. rewrite Z.mod_small; lia. }
    rewrite Q. unfold hdr, can. destruct (Z.ltb_spec (size + 48) 16); [lia|].
    destruct (fill_def (mkMem (size + 48 - 16) junk) 0 16 canary) as (m1 & F1); cbn [m_len]; try lia.
    rewrite F1. cbn [bind]. apply fill_any in F1; [|lia]. cbn [m_len] in F1. destruct F1 as [F1 _].
    destruct (fill_def m1 16 size before_use) as (m2 & F2); try lia.
    rewrite F2. cbn [bind]. apply fill_any in F2; [|lia]. destruct F2 as [F2 _].
    destruct (fill_def m2 (16 + size) 16 canary) as (m3 & F3); try lia.
    rewrite F3. discriminate.
  - destruct p as [p|]; [|discriminate]. destruct F as (b & n & U).
    destruct (dealloc_eq h w p b n a T U) as [D1 D2]. destruct (Z.eq_dec b a) as [E|E].
    + destruct (D2 E) as (bad & w1 & _ & D & _). rewrite D. destruct (bad && g_over w); discriminate.
    + rewrite (D1 E). destruct (g_own w); discriminate.
  - destruct p as [p|]; [|discriminate]. destruct F as (b & n & U).
    destruct (in_use_look _ _ _ _ _ T U) as (c & LK & E1 & E2). unfold h_allocated_size. rewrite LK. cbn [bind].
    destruct (negb (k_owner c =? a)); [destruct (g_own w)|]; discriminate.
  - destruct F as (b & n & U & I).
    destruct (in_use_look _ _ _ _ _ T U) as (c & LK & E1 & E2).
    destruct (look_in_use _ _ _ _ T LK) as (_ & NE & LV).
    destruct (t_chunk _ _ T p c NE) as (_ & SZ & MM). destruct (MM LV) as [ML _]. rewrite E2 in *.
    unfold h_store. rewrite LK. cbn [bind]. unfold can in *. rewrite ML.
    destruct (Z.leb_spec 0 (16 + i)); [|lia]. destruct (Z.ltb_spec (16 + i) (16 + n + 16)); [|lia]. cbn [andb].
    destruct (fill_def (k_mem c) (16 + i) 1 v) as (m & FM); try lia. rewrite FM. discriminate.
  - destruct F as (b & n & U & I).
    destruct (C71_memory os h w p b n i S R U I) as (v & _ & L). cbn [h_step] in L.
    destruct (h_load w p i); cbn [bind] in *; try discriminate.
  - unfold h_destroy. destruct (negb (n_allocs w a =? 0)); [destruct (g_leak w)|]; discriminate.
Qed.
Print Assumptions C71_safe.

(** A size of nearly 2^64 wraps around: the heap is asked for a few bytes, and the arena
    writes far beyond them. *)
Theorem C71_huge_refuted : forall a n junk, 2 ^ 64 - 48 <= n < 2 ^ 64 ->
  h_step world0 (Alloc a n (Some junk)) = UB.
Proof.
  intros a n junk N. cbn [h_step]. unfold h_allocate.
  assert (Q : u64 (hdr + can + n + can) = n + 48 - 2 ^ 64).
  { unfold u64, wrapu, hdr, can. replace (16 + 16 + n + 16) with (n + 48 - 2 ^ 64 + 1 * 2 ^ 64) by lia.
    rewrite Z_mod_plus_full. apply Z.mod_small. lia. }
  rewrite Q. unfold hdr, can. destruct (Z.ltb_spec (n + 48 - 2 ^ 64) 16); [reflexivity|].
  unfold fill at 1. cbn [m_len]. cbn [Z.leb Z.compare andb].
  destruct (Z.leb_spec (0 + 16) (n + 48 - 2 ^ 64 - 16)); cbn [bind]; [|reflexivity].
  unfold fill. cbn [m_len]. destruct (Z.leb_spec (16 + n) (n + 48 - 2 ^ 64 - 16)); [lia|].
  rewrite andb_false_r. destruct (Z.eqb_spec n 0); [lia|]. reflexivity.
Qed.
Print Assumptions C71_huge_refuted.

(** Giving memory back twice is not caught: the arena reads its header, which is no
    longer its own. *)
Theorem C71_twice_refuted : forall os h w p a n b,
  Forall sized os -> h_run world0 os = Ok (h, w) -> status h p = Some (a, n, false) ->
  h_step w (Dealloc b (Some p)) = UB.
Proof.
  intros os h w p a n b S R U. told_of S R. cbn [h_step]. unfold h_deallocate, look.
  destruct (nth_error (chunks w) p) as [c|] eqn:E; [|reflexivity].
  rewrite (proj1 (t_chunk _ _ T p c E)) in U. assert (k_live c = false) by congruence.
  rewrite H. reflexivity.
Qed.
Print Assumptions C71_twice_refuted.

(** Two arenas. The first gets 4 bytes, the second 2; one byte past the end is written;
    the first is given back with the guard off, the other stays. *)
Definition demo : list op :=
  [Alloc 1 4 (Some (fun _ => 9)); Alloc 2 2 (Some (fun _ => 5)); Alloc 1 3 None;
   Store 0 3 77; Store 1 0 33; Store 0 4 88].
Definition demo2 : list op := demo ++ [Guards true false false; Dealloc 1 (Some 0%nat)].

Example C71_demo_sized : Forall sized demo2.
Proof. unfold demo2, demo. cbn [app]. repeat constructor; cbn; lia. Qed.

Definition hist_of (os : list op) := match h_run world0 os with Ok (h, _) => h | _ => [] end.
Definition world_of (os : list op) := match h_run world0 os with Ok (_, w) => w | _ => world0 end.

Example C71_demo : let h := hist_of demo in let w := world_of demo in h_run world0 demo = Ok (h, w) /\
  in_use h 0 1 4 /\ in_use h 1 2 2 /\ byte_at h 0 3 = Some 77 /\ byte_at h 0 0 = Some 0x7a /\
  in_use_of h 1 = [0%nat] /\ guards_on h = (false, true, true) /\
  h_step w (Dealloc 1 (Some 0%nat)) = Panic /\ h_step w (Load 1 0) = Ok (RVal 33, w) /\
  h_step w (SizeOf 2 (Some 1%nat)) = Ok (RVal 50, w) /\ h_step w (SizeOf 1 (Some 1%nat)) = Panic.
Proof. repeat split; vm_compute; reflexivity. Qed.

Example C71_demo_overrun : overrun (hist_of demo) 0 4 /\ ~ overrun (hist_of demo) 1 2.
Proof.
  split.
  - exists 4. split; [lia|]. vm_compute. discriminate.
  - intros (i & I & N). apply N.
    assert (H : hist_of demo = [(Alloc 1 4 (Some (fun _ => 9)), RPtr (Some 0%nat));
      (Alloc 2 2 (Some (fun _ => 5)), RPtr (Some 1%nat)); (Alloc 1 3 None, RPtr None);
      (Store 0 3 77, RDone); (Store 1 0 33, RDone); (Store 0 4 88, RDone)]) by (vm_compute; reflexivity).
    rewrite H. unfold byte_at. cbn [fold_left Nat.eqb andb].
    destruct (Z.eqb_spec 0 i); [lia|]. destruct (Z.leb_spec 0 i), (Z.ltb_spec i 2); cbn [andb]; auto; lia.
Qed.

Example C71_demo2 : let h := hist_of demo2 in let w := world_of demo2 in h_run world0 demo2 = Ok (h, w) /\
  status h 0 = Some (1, 4, false) /\ in_use h 1 2 2 /\ guards_on h = (true, false, false) /\
  h_step w (Fails 1) = Ok (RVal 1, w) /\ h_step w (Destroy 2) = Panic /\
  h_step w (Count 1) = Ok (RVal 0, w) /\ h_step w (Dealloc 1 (Some 0%nat)) = UB.
Proof. repeat split; vm_compute; reflexivity. Qed.

Example C71_demo_fair : fair (hist_of demo2) (Store 1 (-16) 0) /\ fair (hist_of demo2) (Dealloc 1 (Some 1%nat)).
Proof.
  assert (U : in_use (hist_of demo2) 1 2 2) by (vm_compute; reflexivity).
  split; exists 2, 2; [split; [exact U|lia]|exact U].
Qed.
