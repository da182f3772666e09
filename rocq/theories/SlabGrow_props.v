(** C31, continued: how much memory the pool asks the arena for. *)
From Verif Require Import Base Base_lemmas Align_model Align_props SlabPool_model SlabPool_spec SlabPool_proof.

(** Bytes of a block with room for [n] objects: a header of 24 bytes, and for each object 16 bytes before
    it and its guard zone after it. *)
Definition room (c : sp_conf) (n : Z) : Z := 24 + n * (guard_end (sc_obj c) + 16).
(** The most objects per block: whatever fits the configured maximum, but at least one. *)
Definition capped (c : sp_conf) (n : Z) : Z :=
  if sc_max_bytes c =? 0 then n else Z.min n (Z.max 1 ((sc_max_bytes c - 24) / (guard_end (sc_obj c) + 16))).

Section Lemmas.
  Variables (c : sp_conf).
  Hypothesis (Ho : 0 <= sc_obj c < 2 ^ 32).
  Let ss := guard_end (sc_obj c) + 16.
  Lemma ss_pos : 24 <= ss. Proof. unfold ss, guard_end. lia. Qed.
  Lemma ss_eq : slot_size (sc_obj c) = ss. Proof. destruct (slot_size_spec _ Ho) as (E & _). exact E. Qed.
  Lemma room_eq n : slot_offset (sc_obj c) n = room c n.
  Proof. unfold slot_offset, room. rewrite ss_eq. reflexivity. Qed.
  Lemma per_down size : 0 <= size -> slots_per_slab (sc_obj c) size false = Z.max 1 ((size - 24) / ss).
  Proof.
    intros H. unfold slots_per_slab, slab_hdr_size. rewrite ss_eq. pose proof ss_pos as P. clearbody ss.
    destruct (Z.ltb_spec size 24). { assert ((size - 24) / ss < 0) by (apply Z.div_lt_upper_bound; lia). lia. }
    destruct (Z.ltb_spec (size - 24) ss). { rewrite Z.div_small by lia. lia. }
    rewrite Z.add_0_r. assert (1 <= (size - 24) / ss) by (apply Z.div_le_lower_bound; lia). lia.
  Qed.
  Lemma per_up size : 0 <= size -> let n := slots_per_slab (sc_obj c) size true in 1 <= n /\ (size <= 24 + n * ss) /\ (n = 1 \/ 24 + (n - 1) * ss < size).
  Proof.
    intros H n. unfold n, slots_per_slab, slab_hdr_size. rewrite ss_eq. pose proof ss_pos as P. clearbody ss.
    destruct (Z.ltb_spec size 24); [lia|]. destruct (Z.ltb_spec (size - 24) ss); [lia|].
    set (q := (size - 24 + (ss - 1)) / ss). assert (E : size - 24 + (ss - 1) = ss * q + (size - 24 + (ss - 1)) mod ss) by (apply Z.div_mod; lia).
    pose proof (Z.mod_pos_bound (size - 24 + (ss - 1)) ss ltac:(lia)) as R. set (r := (size - 24 + (ss - 1)) mod ss) in *. clearbody q r.
    split; [|split; [|right]]; nia.
  Qed.
  Lemma max_capped : 0 <= sc_max_bytes c -> forall n, (if (max_slots c <? n) && negb (max_slots c =? 0) then max_slots c else n) = capped c n.
  Proof.
    intros H n. unfold max_slots, capped. destruct (Z.eqb_spec (sc_max_bytes c) 0) as [E|E]; [rewrite andb_false_r; reflexivity|].
    rewrite per_down by exact H. fold ss. set (q := (sc_max_bytes c - 24) / ss). clearbody q. destruct (Z.eqb_spec (Z.max 1 q) 0); [lia|]. cbn [negb]. rewrite andb_true_r. destruct (Z.ltb_spec (Z.max 1 q) n); lia.
  Qed.
  Lemma capped_idem n : capped c (capped c n) = capped c n.
  Proof. unfold capped. destruct (_ =? 0); [reflexivity|]. lia. Qed.
  Lemma capped_mono n m : n <= m -> capped c n <= capped c m.
  Proof. unfold capped. destruct (_ =? 0); lia. Qed.
  Lemma capped_le n : capped c n <= n. Proof. unfold capped. destruct (_ =? 0); lia. Qed.
  (** the loop doubles until the wish or the limit is reached *)
  Lemma loop_doubles d : 0 <= sc_max_bytes c -> capped c d = d -> forall fuel cur, 1 <= cur -> capped c cur = cur -> d <= cur * 2 ^ Z.of_nat fuel ->
    exists j, 0 <= j /\ increase_loop fuel (max_slots c) cur d = capped c (cur * 2 ^ j) /\ d <= capped c (cur * 2 ^ j) /\ (j = 0 \/ cur * 2 ^ (j - 1) < d).
  Proof.
    intros Hm Hd. induction fuel as [|f IH]; intros cur H1 H2 H3; cbn [increase_loop].
    - exists 0. rewrite Z.pow_0_r, Z.mul_1_r, H2. cbn in H3. repeat split; try lia.
    - destruct (Z.ltb_spec cur d) as [L|L]; [|exists 0; rewrite Z.pow_0_r, Z.mul_1_r, H2; repeat split; lia].
      destruct ((max_slots c <? cur * 2) && negb (max_slots c =? 0)) eqn:C.
      + pose proof (max_capped Hm (cur * 2)) as E. rewrite C in E. exists 1. rewrite Z.pow_1_r. split; [lia|]. split; [exact E|]. split; [|right; rewrite Z.pow_0_r; lia].
        pose proof (max_capped Hm d) as Ed. apply andb_true_iff in C. destruct C as [C1 C2]. rewrite C2, andb_true_r in Ed. rewrite Hd in Ed. destruct (Z.ltb_spec (max_slots c) d); lia.
      + pose proof (max_capped Hm (cur * 2)) as E. rewrite C in E. destruct (IH (cur * 2)) as (j & J0 & J1 & J2 & J3); [lia|symmetry; exact E| |].
        { rewrite Nat2Z.inj_succ, Z.pow_succ_r in H3 by lia. lia. }
        assert (Ej : cur * 2 * 2 ^ j = cur * 2 ^ (j + 1)) by (rewrite Z.pow_add_r by lia; lia). rewrite Ej in *.
        exists (j + 1). split; [lia|]. split; [exact J1|]. split; [exact J2|]. right. replace (j + 1 - 1) with j by lia. destruct J3 as [->|J3]; [rewrite Z.pow_0_r; lia|].
        destruct (Z.eq_dec j 0) as [->|Jn]; [rewrite Z.pow_0_r; lia|].
        assert (Ep : 2 ^ j = 2 * 2 ^ (j - 1)) by (rewrite <- Z.pow_succ_r by lia; f_equal; lia). rewrite Ep. lia.
  Qed.
  Lemma cur_ok pre m h s : good_conf c pre -> reach c pre m h s -> 1 <= sp_cur s /\ capped c (sp_cur s) = sp_cur s.
  Proof.
    intros G R. pose proof G as (_ & Hm & _). pose proof (reach_inv c pre Ho Hm m h s G R) as I. destruct (i_cur _ _ _ _ _ I) as [A B].
    split; [exact A|]. rewrite <- max_capped by exact Hm. destruct B as [-> |B]; [rewrite andb_false_r; reflexivity|]. destruct (Z.ltb_spec (max_slots c) (sp_cur s)); [lia|reflexivity].
  Qed.
End Lemmas.

(** The first block: as large as the configured minimum (or the embedded memory, if that is larger), but
    not above the maximum, with at most one object more than needed; one object if nothing is configured. *)
Theorem C31_first : forall c pre min_bytes s, good_conf c pre -> 0 <= min_bytes -> sp_new c min_bytes (fst pre) (snd pre) = Ok s ->
  let want := Z.max min_bytes (snd pre) in
  let want := if sc_max_bytes c =? 0 then want else Z.min want (sc_max_bytes c) in
  exists n, slab_bytes c s = room c n /\ 1 <= n /\ want <= room c n /\ (n = 1 \/ room c (n - 1) < want).
Proof.
  intros c pre m s (Ho & Hm & Hp & _) H0 E want0 want. assert (W : clamp m (snd pre) (sc_max_bytes c) = want).
  { unfold clamp, want, want0. destruct (Z.eqb_spec (snd pre) 0) as [P|P]; cbn [negb]; rewrite ?andb_false_r, ?andb_true_r.
    - rewrite P, Z.max_l by lia. destruct (Z.eqb_spec (sc_max_bytes c) 0); cbn [negb]; rewrite ?andb_false_r, ?andb_true_r; [reflexivity|]. destruct (Z.ltb_spec (sc_max_bytes c) m); lia.
    - destruct (Z.ltb_spec m (snd pre)); (destruct (Z.eqb_spec (sc_max_bytes c) 0); cbn [negb]; rewrite ?andb_false_r, ?andb_true_r; [lia|]); match goal with |- context [sc_max_bytes c <? ?x] => destruct (Z.ltb_spec (sc_max_bytes c) x) end; lia. }
  unfold sp_new in E. rewrite W in E. assert (Wn : 0 <= want) by (unfold want, want0; destruct (_ =? 0); lia). cbv zeta in E.
  exists (sp_cur s). set (cur := if want =? 0 then 1 else slots_per_slab (sc_obj c) want true) in *.
  assert (Ec : sp_cur s = cur). { destruct (negb (0 <? cur)); [discriminate E|]. destruct (negb _); [discriminate E|]. destruct (0 <? snd pre); [destruct (fst pre =? 0); [discriminate E|]|]; (match type of E with Ok ?x = _ => assert (X : x = s) by congruence; rewrite <- X; reflexivity end). }
  unfold slab_bytes. rewrite (room_eq c Ho). split; [reflexivity|]. rewrite Ec. unfold cur. destruct (Z.eqb_spec want 0) as [Z0|Z0].
  - pose proof (ss_pos c). unfold room. lia.
  - apply (per_up c Ho want Wn).
Qed.
Print Assumptions C31_first.

(** When an allocation asks the arena, the next block asked for has room for twice as many objects, up to
    the configured maximum; a refusal changes nothing. *)
Theorem C31_grow : forall c pre min_bytes h s ans r s', good_conf c pre -> reach c pre min_bytes h s -> sp_free s = [] ->
  sp_step c s (SAlloc ans) = Ok (r, s') -> exists n, slab_bytes c s = room c n /\
    match ans with
    | Some a => sp_slabs s' = sp_slabs s ++ [(a, room c n)] /\ slab_bytes c s' = room c (capped c (2 * n))
    | None => s' = s
    end.
Proof.
  intros c pre m h s ans r s' G R F E. pose proof G as (Ho & Hm & _). destruct (cur_ok c Ho pre m h s G R) as [C1 C2]. exists (sp_cur s). unfold slab_bytes. rewrite !(room_eq c Ho). split; [reflexivity|].
  cbn [sp_step] in E. unfold sp_allocate in E. rewrite F in E. destruct ans as [a|]; cbn [allocate_new_slab snd] in E.
  - cbn [sp_free] in E. rewrite F in E. cbn [app] in E. destruct (Z.to_nat (sp_cur s)) as [|k] eqn:K; [lia|]. 
    destruct (map (fun i => a + slot_offset (sc_obj c) i) (zseq (S k))) as [|x fr] eqn:M. { apply (f_equal (@length Z)) in M. rewrite map_length, zseq_length in M. discriminate M. }
    match type of E with Ok (_, ?x) = _ => assert (X : x = s') by congruence end. rewrite <- X. cbn [sp_slabs sp_cur]. unfold slab_bytes. rewrite (room_eq c Ho). split; [reflexivity|]. f_equal.
    unfold increase_slab_size. rewrite (max_capped c Ho Hm). set (d := capped c (sp_cur s * 2)).
    assert (D : d <= sp_cur s * 2) by apply capped_le. assert (Dd : capped c d = d) by apply capped_idem.
    destruct (loop_doubles c Ho d Hm Dd 64 (sp_cur s) C1 C2) as (j & J0 & J1 & J2 & J3). { change (2 ^ Z.of_nat 64) with 18446744073709551616. lia. }
    rewrite J1. destruct (Z.eq_dec j 0) as [->|Jn].
    + rewrite Z.pow_0_r, Z.mul_1_r, C2 in J2 |- *. rewrite (Z.mul_comm 2). fold d. assert (capped c (sp_cur s) <= d) by (apply capped_mono; lia). rewrite C2 in H. lia.
    + assert (j = 1). { destruct J3 as [?|J3]; [lia|]. destruct (Z.le_gt_cases j 1); [lia|]. assert (2 ^ 1 <= 2 ^ (j - 1)) by (apply Z.pow_le_mono_r; lia). nia. }
      subst j. rewrite Z.pow_1_r, Z.mul_comm. reflexivity.
  - rewrite F in E. congruence.
Qed.
Print Assumptions C31_grow.

(** A reservation that needs the arena first asks for a block with room for what is missing: the current
    block size doubled as often as needed and not more often, up to the maximum. *)
Theorem C31_reserve_block : forall c pre min_bytes h s n a anss r s', good_conf c pre -> reach c pre min_bytes h s -> nfree s < n < 2 ^ 64 ->
  sp_step c s (SReserve n (Some a :: anss)) = Ok (r, s') ->
  exists cur k more, slab_bytes c s = room c cur /\ 0 <= k /\ sp_slabs s' = sp_slabs s ++ (a, room c (capped c (cur * 2 ^ k))) :: more /\
    (capped c (n - nfree s) <= capped c (cur * 2 ^ k)) /\ (k = 0 \/ cur * 2 ^ (k - 1) < n - nfree s).
Proof.
  intros c pre m h s n a anss r s' G R L E. pose proof G as (Ho & Hm & _). destruct (cur_ok c Ho pre m h s G R) as [C1 C2]. exists (sp_cur s).
  cbn [sp_step] in E. unfold sp_reserve in E. destruct (Z.ltb_spec (nfree s) n); [|lia].
  set (d := capped c (n - nfree s)) in *. assert (Hd : capped c d = d) by apply capped_idem.
  assert (N0 : 0 <= nfree s) by (unfold nfree; lia).
  destruct (loop_doubles c Ho d Hm Hd 64 (sp_cur s) C1 C2) as (j & J0 & J1 & J2 & J3). { pose proof (capped_le c (n - nfree s)). fold d in H0. change (2 ^ Z.of_nat 64) with (2 ^ 64). nia. }
  exists j. set (s1 := mkSp _ _ _ _ _ _ _) in E. assert (Cu : sp_cur s1 = capped c (sp_cur s * 2 ^ j)). { unfold s1. cbn [sp_cur]. unfold increase_slab_size. rewrite (max_capped c Ho Hm). fold d. exact J1. }
  assert (Gen : forall l s2, exists more, sp_slabs (snd (reserve_loop c s2 n l)) = sp_slabs s2 ++ more).
  { induction l as [|x l IH]; intros s2; cbn [reserve_loop]; [exists []; rewrite app_nil_r; reflexivity|].
    destruct x as [x|]; cbn [allocate_new_slab negb]; [|exists []; rewrite app_nil_r; reflexivity].
    destruct (_ <? n); [|eexists [_]; reflexivity]. match goal with |- context [reserve_loop c ?t n l] => destruct (IH t) as [more ->] end. cbn [sp_slabs]. rewrite <- app_assoc. eexists. reflexivity. }
  cbn [reserve_loop] in E. cbn [allocate_new_slab negb] in E. set (s2 := mkSp _ _ _ _ _ _ _) in E.
  assert (S2 : sp_slabs s2 = sp_slabs s ++ [(a, room c (capped c (sp_cur s * 2 ^ j)))]). { unfold s2. cbn [sp_slabs]. unfold slab_bytes. rewrite Cu, (room_eq c Ho). reflexivity. }
  assert (X : exists more, sp_slabs s' = sp_slabs s2 ++ more).
  { destruct (nfree s2 <? n).
    - destruct (Gen anss s2) as [more Em]. destruct (reserve_loop c s2 n anss) as [b s3]. cbn [snd] in Em. exists more. rewrite <- Em. f_equal. congruence.
    - exists []. rewrite app_nil_r. f_equal. congruence. }
  destruct X as [more Em]. exists more. unfold slab_bytes. rewrite (room_eq c Ho). split; [reflexivity|]. split; [exact J0|]. split; [rewrite Em, S2, <- app_assoc; reflexivity|]. split; [exact J2|].
  destruct J3 as [J3|J3]; [left; exact J3|right]. pose proof (capped_le c (n - nfree s)). fold d in H0. lia.
Qed.
Print Assumptions C31_reserve_block.

(** A reservation fails only if the arena refuses; the arena is not asked if enough is free. *)
Theorem C31_reserve_result : forall c s n anss r s', sp_step c s (SReserve n anss) = Ok (r, s') ->
  (n <= nfree s -> r = OBool true /\ s' = s) /\
  (nfree s < n -> exists b, r = OBool b /\ (b = true <-> n <= nfree s') /\ (b = false -> In None anss \/ exists as_, anss = map Some as_)).
Proof.
  intros c s n anss r s' E. cbn [sp_step] in E. unfold sp_reserve in E. destruct (Z.ltb_spec (nfree s) n) as [L|L]; split; intros H; try lia.
  2:{ assert (s' = s) by congruence. assert (r = OBool true) by congruence. auto. }
  set (s1 := mkSp _ _ _ _ _ _ _) in E. assert (L1 : nfree s1 < n) by exact L. clearbody s1. clear s L H. revert s1 L1 r s' E. induction anss as [|x l IH]; intros s1 L1 r s' E; cbn [reserve_loop] in E.
  - assert (s' = s1) by congruence. assert (r = OBool false) by congruence. subst. exists false. split; [reflexivity|]. split; [split; [discriminate|lia]|]. intros _. right. exists []. reflexivity.
  - destruct x as [x|]; cbn [allocate_new_slab negb] in E.
    + set (s2 := mkSp _ _ _ _ _ _ _) in E. destruct (Z.ltb_spec (nfree s2) n) as [L2|L2].
      * destruct (IH s2 L2 r s' E) as (b & H1 & H2 & H3). exists b. split; [exact H1|]. split; [exact H2|]. intros Hb. destruct (H3 Hb) as [K|[as_ K]]; [left; right; exact K|right; exists (x :: as_); cbn; rewrite K; reflexivity].
      * assert (X : s2 = s') by congruence. assert (r = OBool true) by congruence. subst r. exists true. split; [reflexivity|]. split; [|discriminate]. rewrite <- X. split; [intros _; exact L2|reflexivity].
    + assert (s' = s1) by congruence. assert (r = OBool false) by congruence. subst. exists false. split; [reflexivity|]. split; [split; [discriminate|lia]|]. intros _. left. left. reflexivity.
Qed.
Print Assumptions C31_reserve_result.

(** Without a maximum one block is enough for any reservation. *)
Theorem C31_reserve_once : forall c pre min_bytes h s n a anss r s', good_conf c pre -> reach c pre min_bytes h s -> sc_max_bytes c = 0 -> nfree s < n < 2 ^ 64 ->
  sp_step c s (SReserve n (Some a :: anss)) = Ok (r, s') -> r = OBool true /\ length (sp_slabs s') = S (length (sp_slabs s)).
Proof.
  intros c pre m h s n a anss r s' G R M L E. pose proof G as (Ho & Hm & _). destruct (cur_ok c Ho pre m h s G R) as [C1 C2].
  cbn [sp_step] in E. unfold sp_reserve in E. destruct (Z.ltb_spec (nfree s) n); [|lia].
  assert (N0 : 0 <= nfree s) by (unfold nfree; lia). assert (Cp : forall x, capped c x = x) by (intros x; unfold capped; rewrite M; reflexivity).
  destruct (loop_doubles c Ho (n - nfree s) Hm (Cp _) 64 (sp_cur s) C1 C2) as (j & J0 & J1 & J2 & J3). { change (2 ^ Z.of_nat 64) with (2 ^ 64). nia. }
  set (s1 := mkSp _ _ _ _ _ _ _) in E. assert (Cu : n - nfree s <= sp_cur s1). { unfold s1. cbn [sp_cur]. unfold increase_slab_size. rewrite (max_capped c Ho Hm), Cp, J1. exact J2. }
  cbn [reserve_loop] in E. cbn [allocate_new_slab negb] in E. set (s2 := mkSp _ _ _ _ _ _ _) in E.
  assert (F : n <= nfree s2). { unfold nfree, s2. cbn [sp_free]. rewrite app_length, map_length, zseq_length. unfold nfree in Cu. change (sp_free s1) with (sp_free s). lia. }
  destruct (Z.ltb_spec (nfree s2) n); [lia|]. split; [congruence|]. assert (X : s2 = s') by congruence. rewrite <- X. unfold s2. cbn [sp_slabs]. rewrite app_length. cbn [length]. unfold s1. cbn [sp_slabs]. lia.
Qed.
Print Assumptions C31_reserve_once.

(** A pool of 20-byte objects (48 bytes each with guards) in blocks of 100 to 500 bytes: two objects
    first, then four, then eight, then nine at most. *)
Definition ex_c := mkSc 20 500 true true.
Example C31_grow_ex : guard_end 20 + 16 = 48 /\ good_conf ex_c (0, 0) /\
  exists s, sp_new ex_c 100 0 0 = Ok s /\ slab_bytes ex_c s = room ex_c 2 /\ capped ex_c 4 = 4 /\ capped ex_c 16 = 9.
Proof. split; [reflexivity|]. split; [repeat split; cbn; lia|]. eexists. split; [vm_compute; reflexivity|]. repeat split; vm_compute; reflexivity. Qed.
