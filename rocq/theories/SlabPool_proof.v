From Coq Require Import FinFun Permutation.
From Verif Require Import Base Base_lemmas Align_model Align_props SlabPool_model SlabPool_spec.

Lemma slot_size_spec obj : 0 <= obj < 2 ^ 32 ->
  slot_size obj = guard_end obj + 16 /\ slot_size obj mod 8 = 0 /\ 24 + obj <= slot_size obj.
Proof.
  intros H. change (2 ^ 32) with 4294967296 in H. unfold slot_size, guard_end, unaligned_slot_size.
  rewrite (Z.max_r 24 (8 + 8 + obj + 8)) by lia.
  destruct (C44_align (8 + 8 + obj + 8) 8) as ((k & Hk) & H2 & H3); [lia|lia|change (2 ^ 64) with 18446744073709551616; lia|].
  rewrite Hk in *.
  specialize (H3 (24 + obj + (- obj) mod 8)). 
  assert (exists z, 24 + obj + (- obj) mod 8 = z * 8) as Hz by (exists ((24 + obj + (- obj) mod 8) / 8); lia).
  specialize (H3 Hz ltac:(lia)).
  split; [|split]; lia.
Qed.

Lemma pad_spec obj : 0 <= obj < 2 ^ 32 -> slot_size obj - unaligned_slot_size obj + 8 = guard_end obj - obj.
Proof. intros H. destruct (slot_size_spec obj H) as (E & _). unfold unaligned_slot_size. lia. Qed.

Lemma zseq_in n i : In i (zseq n) <-> 0 <= i < Z.of_nat n.
Proof.
  induction n; cbn [zseq].
  - cbn. lia.
  - rewrite in_app_iff, IHn. cbn [In]. lia.
Qed.
Lemma zseq_nodup n : NoDup (zseq n).
Proof.
  induction n; cbn [zseq]; [constructor|].
  rewrite <- (rev_involutive (_ ++ _)). apply NoDup_rev. rewrite rev_app_distr. cbn. constructor.
  - rewrite <- in_rev, zseq_in. lia.
  - apply NoDup_rev. auto.
Qed.
Lemma zseq_length n : length (zseq n) = n.
Proof. induction n; cbn [zseq]; auto. rewrite app_length. cbn. lia. Qed.

Lemma fill_in f lo n v x : lo <= x < lo + n -> fill f lo n v x = v.
Proof. unfold fill. intros. replace ((lo <=? x) && (x <? lo + n)) with true by lia. auto. Qed.
Lemma fill_out f lo n v x : x < lo \/ lo + n <= x -> fill f lo n v x = f x.
Proof. unfold fill. intros. replace ((lo <=? x) && (x <? lo + n)) with false by lia. auto. Qed.

Lemma nodup_app {A} (l1 l2 : list A) : NoDup l1 -> NoDup l2 -> (forall x, In x l1 -> ~ In x l2) -> NoDup (l1 ++ l2).
Proof.
  induction l1 as [|x l1 IH]; intros H1 H2 H3; cbn [app]; auto. inversion H1; subst. constructor.
  - rewrite in_app_iff. intros [|]; [auto|]. apply (H3 x); [left; auto|auto].
  - apply IH; auto. intros y Hy. apply H3. right; auto.
Qed.

Lemma nodup_app_inv {A} (l1 l2 : list A) : NoDup (l1 ++ l2) -> NoDup l1 /\ NoDup l2.
Proof.
  induction l1 as [|x l1 IH]; cbn [app]; intros H; [split; [constructor|auto]|]. inversion H; subst.
  destruct (IH H3). split; [|auto]. constructor; [|auto]. rewrite in_app_iff in H2. tauto.
Qed.

Definition slots_of (U : list Z) (s : sp) : list Z := sp_free s ++ map (fun p => p - 16) U.

Record inv (c : sp_conf) (pre : Z * Z) (U : list Z) (G : Z -> Z -> Z) (s : sp) : Prop := mkInv {
  i_nodup : NoDup (slots_of U s);
  i_block : forall a, In a (slots_of U s) -> 0 < a /\ a mod 8 = 0 /\
      exists b, In b (pre :: sp_slabs s) /\ within (a, slot_size (sc_obj c)) b;
  i_apart : forall a b, In a (slots_of U s) -> In b (slots_of U s) -> a <> b ->
      apart (a, slot_size (sc_obj c)) (b, slot_size (sc_obj c));
  i_owner : forall a, sp_owner s a = self <-> In a (map (fun p => p - 16) U);
  i_used : sp_used s = Z.of_nat (length U);
  i_cur : 1 <= sp_cur s /\ (max_slots c = 0 \/ sp_cur s <= max_slots c);
  i_bytes : forall p x, In p U -> in_guard (sc_obj c) p x -> sp_bytes s x = G p x;
  i_slabs : forall b, In b (sp_slabs s) ->
      sc_max_bytes c = 0 \/ snd b <= Z.max (sc_max_bytes c) (slab_hdr_size + slot_size (sc_obj c)) }.

Lemma max_slots_bound c n : 0 <= sc_obj c < 2 ^ 32 -> 0 <= sc_max_bytes c -> 1 <= n ->
  (max_slots c = 0 \/ n <= max_slots c) ->
  sc_max_bytes c = 0 \/ slot_offset (sc_obj c) n <= Z.max (sc_max_bytes c) (slab_hdr_size + slot_size (sc_obj c)).
Proof.
  intros Ho Hm Hn H. destruct (slot_size_spec _ Ho) as (_ & _ & Hs).
  unfold max_slots, slots_per_slab, slot_offset, slab_hdr_size in *.
  destruct (Z.eqb_spec (sc_max_bytes c) 0); [auto|right].
  destruct (Z.ltb_spec (sc_max_bytes c) 24) as [L|L].
  { assert (n = 1) by lia. subst. lia. }
  destruct (Z.ltb_spec (sc_max_bytes c - 24) (slot_size (sc_obj c))) as [L'|L'].
  { assert (n = 1) by lia. subst. lia. }
  rewrite Z.add_0_r in H.
  assert (1 <= (sc_max_bytes c - 24) / slot_size (sc_obj c)) by (apply Z.div_le_lower_bound; lia).
  destruct H as [H|H]; [lia|].
  assert (n * slot_size (sc_obj c) <= sc_max_bytes c - 24).
  { pose proof (Z.mul_div_le (sc_max_bytes c - 24) (slot_size (sc_obj c)) ltac:(lia)). nia. }
  lia.
Qed.

Lemma max_slots_nonneg c : 0 <= sc_obj c < 2 ^ 32 -> 0 <= max_slots c.
Proof.
  intros Ho. destruct (slot_size_spec _ Ho) as (_ & _ & Hs). unfold max_slots, slots_per_slab.
  destruct (_ =? 0); [lia|]. destruct (Z.ltb_spec (sc_max_bytes c) slab_hdr_size); [lia|].
  destruct (Z.ltb_spec (sc_max_bytes c - slab_hdr_size) (slot_size (sc_obj c))); [lia|].
  apply Z.div_pos; lia.
Qed.

Lemma increase_loop_spec m d : forall fuel cur, 0 <= m -> 1 <= cur -> (m = 0 \/ cur <= m) ->
  1 <= increase_loop fuel m cur d /\ (m = 0 \/ increase_loop fuel m cur d <= m) /\ cur <= increase_loop fuel m cur d.
Proof.
  induction fuel; intros cur Hm Hc H; cbn [increase_loop]; [lia|].
  destruct (Z.ltb_spec cur d); [|lia].
  destruct (Z.ltb_spec m (cur * 2)); cbn [andb].
  - destruct (Z.eqb_spec m 0); cbn [negb].
    + destruct (IHfuel (cur * 2)); [lia..|]. lia.
    + lia.
  - destruct (IHfuel (cur * 2)); [lia..|]. lia.
Qed.

Lemma increase_spec c cur d : 0 <= sc_obj c < 2 ^ 32 -> 1 <= cur -> (max_slots c = 0 \/ cur <= max_slots c) ->
  1 <= increase_slab_size c cur d /\ (max_slots c = 0 \/ increase_slab_size c cur d <= max_slots c).
Proof.
  intros Ho Hc H. pose proof (max_slots_nonneg c Ho). unfold increase_slab_size.
  set (d' := if _ && _ then _ else _). clearbody d'.
  pose proof (increase_loop_spec (max_slots c) d' 64 cur H0 Hc H). tauto.
Qed.

(** A run of consecutive slots. *)
Lemma run_slots ss base n : 0 < ss -> ss mod 8 = 0 -> base mod 8 = 0 -> 0 < base \/ n = 0%nat ->
  let L := map (fun i => base + i * ss) (zseq n) in
  NoDup L /\ (forall a, In a L -> 0 < a /\ a mod 8 = 0 /\ base <= a /\ a + ss <= base + Z.of_nat n * ss) /\
  (forall a b, In a L -> In b L -> a <> b -> apart (a, ss) (b, ss)).
Proof.
  intros Hs Hm Hb Hp L. subst L. split; [|split].
  - apply FinFun.Injective_map_NoDup; [|apply zseq_nodup]. intros i j E. nia.
  - intros a Ha. rewrite in_map_iff in Ha. destruct Ha as (i & <- & Hi). rewrite zseq_in in Hi.
    split; [nia|]. split; [|nia]. destruct (Z.mod_divide ss 8) as [D _]; [lia|]. destruct (D Hm) as (k & ->).
    rewrite Z.mul_assoc, Z.mod_add by lia. auto.
  - intros a b Ha Hb' Hne. rewrite in_map_iff in *. destruct Ha as (i & <- & Hi). destruct Hb' as (j & <- & Hj).
    unfold apart. cbn [fst snd]. destruct (Z.lt_trichotomy i j) as [|[|]]; [left; nia|subst; lia|right; nia].
Qed.

Section pool.
  Variable c : sp_conf.
  Variable pre : Z * Z.
  Hypothesis Ho : 0 <= sc_obj c < 2 ^ 32.
  Hypothesis Hmax : 0 <= sc_max_bytes c.
  Let ss := slot_size (sc_obj c).

  Lemma guard_in_slot p x : in_guard (sc_obj c) p x -> p - 8 <= x < p - 16 + ss.
  Proof. destruct (slot_size_spec _ Ho) as (E & _ & L). unfold in_guard, ss. intros [|]; lia. Qed.

  Lemma slab_inv U G s a : inv c pre U G s -> fresh (pre :: sp_slabs s) (a, slab_bytes c s) ->
    inv c pre U G (snd (allocate_new_slab c s (Some a))) /\
    (length (sp_free s) < length (sp_free (snd (allocate_new_slab c s (Some a)))))%nat.
  Proof.
    intros I (Ha & Hal & Hf). cbn [fst] in *. destruct I as [N B A O UD CU BY SL].
    destruct (slot_size_spec _ Ho) as (SE & SM & SG). fold ss in SE, SM, SG.
    destruct (run_slots ss (a + 24) (Z.to_nat (sp_cur s)) ltac:(lia) SM ltac:(lia) ltac:(lia)) as (R1 & R2 & R3).
    assert (EQ : map (fun i => a + slot_offset (sc_obj c) i) (zseq (Z.to_nat (sp_cur s)))
      = map (fun i => a + 24 + i * ss) (zseq (Z.to_nat (sp_cur s)))).
    { apply map_ext. intros. unfold slot_offset, slab_hdr_size, ss. lia. }
    rewrite Forall_forall in Hf.
    assert (SB : slab_bytes c s = 24 + sp_cur s * ss) by reflexivity.
    assert (OLD : forall x, In x (slots_of U s) -> apart (x, ss) (a, slab_bytes c s)).
    { intros x Hx. destruct (B x Hx) as (_ & _ & b & Hb & Hw). specialize (Hf b Hb).
      unfold apart, within in *. cbn [fst snd] in *. fold ss in Hw. lia. }
    assert (NEW : forall x, In x (map (fun i => a + 24 + i * ss) (zseq (Z.to_nat (sp_cur s)))) -> a <= x /\ x + ss <= a + slab_bytes c s).
    { intros x Hx. destruct (R2 x Hx) as (_ & _ & ? & ?). rewrite SB. lia. }
    cbn [allocate_new_slab snd]. rewrite EQ. clear EQ.
    set (L := map (fun i => a + 24 + i * ss) (zseq (Z.to_nat (sp_cur s)))) in *.
    assert (IN : forall x, In x ((sp_free s ++ L) ++ map (fun p => p - 16) U) <-> In x (slots_of U s) \/ In x L).
    { intros x. unfold slots_of. rewrite !in_app_iff. tauto. }
    assert (DIS : forall x, In x (slots_of U s) -> ~ In x L).
    { intros x H1 H2. specialize (OLD x H1). specialize (NEW x H2). unfold apart in OLD. cbn [fst snd] in OLD. lia. }
    split.
    2:{ cbn [sp_free]. rewrite app_length. unfold L. rewrite map_length, zseq_length. lia. }
    constructor; cbn [sp_free sp_used sp_slabs sp_cur sp_fails sp_owner sp_bytes]; unfold slots_of in *;
      cbn [sp_free sp_used sp_slabs sp_cur sp_fails sp_owner sp_bytes].
    - apply (Permutation.Permutation_NoDup (l := L ++ (sp_free s ++ map (fun p => p - 16) U))).
      + rewrite <- (app_assoc (sp_free s)). rewrite !app_assoc. apply Permutation.Permutation_app_tail.
        apply Permutation.Permutation_app_comm.
      + apply nodup_app; auto. intros x H1 H2. exact (DIS x H2 H1).
    - intros x Hx. apply IN in Hx. destruct Hx as [Hx|Hx].
      + destruct (B x Hx) as (? & ? & b & Hb & Hw). split; [auto|]. split; [auto|]. exists b. split; [|auto].
        cbn [In] in Hb |- *. rewrite in_app_iff. tauto.
      + destruct (R2 x Hx) as (? & ? & ? & ?). split; [auto|]. split; [auto|].
        exists (a, slab_bytes c s). split; [right; rewrite in_app_iff; right; left; auto|].
        unfold within; cbn [fst snd]. fold ss. rewrite SB. lia.
    - intros x y Hx Hy Hne. fold ss. apply IN in Hx. apply IN in Hy. destruct Hx as [Hx|Hx], Hy as [Hy|Hy]; auto.
      + specialize (OLD x Hx). specialize (NEW y Hy). unfold apart in *; cbn [fst snd] in *. lia.
      + specialize (OLD y Hy). specialize (NEW x Hx). unfold apart in *; cbn [fst snd] in *. lia.
    - intros x. rewrite <- O. unfold fill. destruct (Z.leb_spec a x); cbn [andb]; [|tauto].
      destruct (Z.ltb_spec x (a + slab_bytes c s)); [|tauto]. split; [discriminate|]. intros Hx. apply O in Hx.
      assert (Hs : In x (sp_free s ++ map (fun p => p - 16) U)) by (rewrite in_app_iff; auto).
      specialize (OLD x Hs). unfold apart in OLD; cbn [fst snd] in OLD. lia.
    - auto.
    - apply increase_spec; tauto.
    - intros p x Hp Hx. rewrite <- (BY p x Hp Hx). apply fill_out.
      assert (Hs : In (p - 16) (sp_free s ++ map (fun p => p - 16) U)).
      { rewrite in_app_iff. right. apply (in_map (fun p => p - 16)). auto. }
      specialize (OLD _ Hs). unfold apart in OLD; cbn [fst snd] in OLD. pose proof (guard_in_slot p x Hx). lia.
    - intros b Hb. rewrite in_app_iff in Hb. destruct Hb as [Hb|[Hb|[]]]; [auto|]. subst b. cbn [snd].
      apply max_slots_bound; tauto.
  Qed.

  (** Handing out the first free slot. *)
  Lemma take_inv U G s a fr : inv c pre U G s -> sp_free s = a :: fr ->
    forall s', sp_allocate c s None = (Some (a + 16), s') -> 
    inv c pre ((a + 16) :: U) (fun q x => if q =? a + 16 then canary_byte else G q x) s'.
  Proof.
    intros I EF s' E. destruct I as [N B A O UD CU BY SL]. destruct (slot_size_spec _ Ho) as (SE & SM & SG). fold ss in SE, SM, SG.
    unfold sp_allocate in E. rewrite EF in E. rewrite EF in E. injection E as <-.
    assert (IN : forall x, In x (fr ++ map (fun p => p - 16) (a + 16 :: U)) <-> In x (slots_of U s)).
    { intros x. unfold slots_of. rewrite EF, !in_app_iff. cbn [map In]. replace (a + 16 - 16) with a by lia. tauto. }
    assert (SA : In a (slots_of U s)) by (unfold slots_of; rewrite EF; left; auto).
    assert (NU : ~ In a (map (fun p => p - 16) U)).
    { unfold slots_of in N. rewrite EF in N. cbn [app] in N. inversion N; subst. rewrite in_app_iff in *. tauto. }
    constructor; unfold slots_of; cbn [sp_free sp_used sp_slabs sp_cur sp_fails sp_owner sp_bytes].
    - unfold slots_of in N. rewrite EF in N. cbn [map]. replace (a + 16 - 16) with a by lia.
      apply (Permutation.Permutation_NoDup (l := (a :: fr) ++ map (fun p => p - 16) U)); [|auto].
      cbn [app]. apply Permutation.Permutation_middle.
    - intros x Hx. apply IN in Hx. auto.
    - intros x y Hx Hy. apply IN in Hx. apply IN in Hy. auto.
    - intros x. cbn [map In]. replace (a + 16 - 16) with a by lia. rewrite <- O. unfold fill.
      destruct (Z.leb_spec a x); cbn [andb]; [destruct (Z.ltb_spec x (a + 1))|].
      + assert (x = a) by lia. subst. intuition.
      + split; [tauto|]. intros [|]; [lia|auto].
      + split; [tauto|]. intros [|]; [lia|auto].
    - cbn [length]. lia.
    - auto.
    - intros p x Hp Hx. pose proof (pad_spec _ Ho) as PS. pose proof (guard_in_slot p x Hx) as GS.
      destruct (Z.eqb_spec p (a + 16)) as [->|Hne].
      + unfold in_guard in Hx. destruct Hx as [Hx|Hx].
        * rewrite fill_out by lia. rewrite fill_out by lia. apply fill_in. lia.
        * apply fill_in. rewrite PS. lia.
      + destruct Hp as [Hp|Hp]; [congruence|]. rewrite <- (BY p x Hp Hx).
        assert (AP : apart (p - 16, ss) (a, ss)).
        { apply A; auto; [|lia]. unfold slots_of. rewrite in_app_iff. right. apply (in_map (fun p => p - 16)). auto. }
        unfold apart in AP. cbn [fst snd] in AP.
        assert (guard_end (sc_obj c) - sc_obj c >= 8) by (unfold guard_end; lia).
        rewrite fill_out by (rewrite PS; lia). rewrite fill_out by lia. apply fill_out. lia.
    - auto.
  Qed.

  Lemma check_canary_spec f lo n : check_canary f lo n = true <-> forall x, lo <= x < lo + n -> f x = canary_byte.
  Proof.
    unfold check_canary. rewrite forallb_forall. split.
    - intros H x Hx. specialize (H (x - lo)). rewrite zseq_in in H. specialize (H ltac:(lia)).
      replace (lo + (x - lo)) with x in H by lia. lia.
    - intros H i Hi. rewrite zseq_in in Hi. rewrite H by lia. apply Z.eqb_refl.
  Qed.

  (** The guard check sees exactly the guard zone. *)
  Definition intact (s : sp) (p : Z) : bool :=
    check_canary (sp_bytes s) (p - 16 + 8) 8 &&
    check_canary (sp_bytes s) (p + sc_obj c) (slot_size (sc_obj c) - unaligned_slot_size (sc_obj c) + 8).
  Lemma intact_spec U G s p : inv c pre U G s -> In p U ->
    intact s p = true <-> (forall x, in_guard (sc_obj c) p x -> G p x = canary_byte).
  Proof.
    intros I Hp. unfold intact. rewrite andb_true_iff, !check_canary_spec, (pad_spec _ Ho). split.
    - intros (H1 & H2) x Hx. rewrite <- (i_bytes _ _ _ _ _ I p x Hp Hx). destruct Hx; [apply H1|apply H2]; lia.
    - intros H. split; intros x Hx; (rewrite (i_bytes _ _ _ _ _ I p x Hp); [apply H|]); unfold in_guard; lia.
  Qed.

  Lemma free_inv U G s p : inv c pre U G s -> In p U -> (intact s p = true \/ sc_overflow_guard c = false) ->
    exists s', sp_deallocate c s p = Ok s' /\ sp_free s' = (p - 16) :: sp_free s /\
      sp_slabs s' = sp_slabs s /\ sp_fails s' = sp_fails s + (if intact s p then 0 else 1) /\
      inv c pre (remove Z.eq_dec p U) G s'.
  Proof.
    intros I Hp Hi. pose proof I as I0. destruct I as [N B A O UD CU BY SL].
    destruct (slot_size_spec _ Ho) as (SE & SM & SG). fold ss in SE, SM, SG.
    assert (SP : In (p - 16) (map (fun p => p - 16) U)) by (apply (in_map (fun p => p - 16)); auto).
    assert (SA : In (p - 16) (slots_of U s)) by (unfold slots_of; rewrite in_app_iff; auto).
    destruct (B _ SA) as (Hpos & _).
    unfold sp_deallocate. destruct (Z.eqb_spec p 0); [lia|].
    apply O in SP as OW. rewrite OW. rewrite Z.eqb_refl. cbn [negb].
    fold (intact s p). destruct (negb (intact s p) && sc_overflow_guard c) eqn:Eg.
    { exfalso. destruct (intact s p), (sc_overflow_guard c); cbn in Eg; destruct Hi; congruence. }
    assert (HU : (1 <= length U)%nat) by (destruct U; [inversion Hp|cbn; lia]).
    destruct (Z.eqb_spec (sp_used s) 0) as [E0|E0]; [lia|].
    eexists. split; [reflexivity|]. cbn [sp_free sp_slabs sp_fails].
    split; [reflexivity|]. split; [reflexivity|]. split; [destruct (intact s p); lia|].
    assert (NDU : NoDup (map (fun p => p - 16) U)) by (unfold slots_of in N; apply nodup_app_inv in N; tauto).
    assert (NDU' : NoDup U) by (apply NoDup_map_inv in NDU; auto).
    assert (INM : forall V x, In x (map (fun p => p - 16) V) <-> In (x + 16) V).
    { intros V x. rewrite in_map_iff. split; [intros (y & E & Hy); replace (x + 16) with y by lia; auto|].
      intros Hx. exists (x + 16). split; [lia|auto]. }
    assert (INR : forall x, In x (remove Z.eq_dec p U) <-> In x U /\ x <> p).
    { intros x. split; [intros Hx; apply in_remove in Hx; tauto|]. intros (? & ?). apply in_in_remove; auto. }
    assert (IN : forall x, In x ((p - 16 :: sp_free s) ++ map (fun p => p - 16) (remove Z.eq_dec p U)) <-> In x (slots_of U s)).
    { intros x. unfold slots_of. rewrite in_app_iff. cbn [In]. rewrite in_app_iff, !INM, INR.
      destruct (Z.eq_dec x (p - 16)) as [->|]; [|intuition lia].
      replace (p - 16 + 16) with p by lia. intuition. }
    constructor; unfold slots_of; cbn [sp_free sp_used sp_slabs sp_cur sp_fails sp_owner sp_bytes].
    - cbn [app]. constructor.
      + rewrite in_app_iff, INM, INR. replace (p - 16 + 16) with p by lia. intros [Hf|Hf]; [|tauto].
        unfold slots_of in N. revert N Hf SP. generalize (sp_free s). generalize (map (fun p => p - 16) U).
        intros l2 l1 N Hf SP. induction l1 as [|y l1 IH]; [inversion Hf|]. cbn [app] in N. inversion N; subst.
        destruct Hf as [->|Hf]; [|auto]. rewrite in_app_iff in *. tauto.
      + unfold slots_of in N. apply nodup_app.
        * apply nodup_app_inv in N; tauto.
        * apply FinFun.Injective_map_NoDup; [intros ? ?; lia|]. 
          clear -NDU'. induction U as [|y U IH]; cbn [remove]; [constructor|]. inversion NDU'; subst.
          destruct (Z.eq_dec p y); [apply IH; auto|]. constructor; [|apply IH; auto].
          intros Hx. apply in_remove in Hx. tauto.
        * intros x H1 H2. rewrite INM, INR in H2. destruct H2 as (H2 & _). rewrite <- (INM U) in H2.
          clear -N H1 H2. induction (sp_free s) as [|y l IH]; [inversion H1|]. cbn [app] in N. inversion N; subst.
          destruct H1 as [->|H1]; [|auto]. rewrite in_app_iff in *. tauto.
    - intros x Hx. apply IN in Hx. auto.
    - intros x y Hx Hy. apply IN in Hx. apply IN in Hy. auto.
    - intros x. rewrite INM, INR. unfold fill.
      destruct (Z.leb_spec (p - 16) x); cbn [andb]; [destruct (Z.ltb_spec x (p - 16 + 1))|].
      + assert (x = p - 16) by lia. subst. split; [discriminate|]. lia.
      + rewrite O, INM. split; [|tauto]. split; [auto|lia].
      + rewrite O, INM. split; [|tauto]. split; [auto|lia].
    - assert (HL : S (length (remove Z.eq_dec p U)) = length U).
      { clear -NDU' Hp. induction U as [|y U IH]; [inversion Hp|]. inversion NDU'; subst. cbn [remove].
        destruct (Z.eq_dec p y) as [->|Hn].
        - rewrite notin_remove by auto. auto.
        - destruct Hp; [congruence|]. cbn [length]. rewrite IH; auto. }
      lia.
    - auto.
    - intros q x Hq Hx. apply INR in Hq. destruct Hq as (Hq & Hne). rewrite <- (BY q x Hq Hx).
      pose proof (guard_in_slot q x Hx) as GS.
      assert (AP : apart (q - 16, ss) (p - 16, ss)).
      { apply A; auto; [|lia]. unfold slots_of. rewrite in_app_iff. right. apply (in_map (fun p => p - 16)). auto. }
      unfold apart in AP. cbn [fst snd] in AP. rewrite fill_out by lia. apply fill_out. unfold guard_end in *. lia.
    - auto.
  Qed.

  Lemma free_foreign U G s p : inv c pre U G s -> ~ In p U -> sc_ownership_guard c = true -> sp_deallocate c s p = Panic.
  Proof.
    intros I Hp Hg. unfold sp_deallocate. destruct (Z.eqb_spec p 0); [auto|].
    destruct (Z.eqb_spec (sp_owner s (p - 16)) self) as [E|E]; cbn [negb]; [|rewrite Hg; auto].
    apply (i_owner _ _ _ _ _ I) in E. rewrite in_map_iff in E. destruct E as (q & E & Hq).
    replace q with p in Hq by lia. tauto.
  Qed.
  Lemma free_corrupt U G s p : inv c pre U G s -> In p U -> intact s p = false -> sc_overflow_guard c = true ->
    sp_deallocate c s p = Panic.
  Proof.
    intros I Hp Hi Hg. unfold sp_deallocate. destruct (Z.eqb_spec p 0); [auto|].
    rewrite (proj2 (i_owner _ _ _ _ _ I (p - 16))) by (apply (in_map (fun p => p - 16)); auto).
    rewrite Z.eqb_refl. cbn [negb]. fold (intact s p). rewrite Hi, Hg. auto.
  Qed.

  Lemma write_inv U G s x b : inv c pre U G s ->
    (exists p, In p U /\ p - 8 <= x < p + guard_end (sc_obj c)) ->
    inv c pre U (fun q y => if x =? y then b else G q y)
      (mkSp (sp_free s) (sp_used s) (sp_slabs s) (sp_cur s) (sp_fails s) (sp_owner s) (fill (sp_bytes s) x 1 b)).
  Proof.
    intros [N B A O UD CU BY SL] _.
    constructor; unfold slots_of; cbn [sp_free sp_used sp_slabs sp_cur sp_fails sp_owner sp_bytes]; auto.
    intros p y Hp Hy. destruct (Z.eqb_spec x y) as [->|].
    - apply fill_in. lia.
    - rewrite fill_out by lia. auto.
  Qed.

  Lemma reserve_loop_inv U G n : forall anss s, inv c pre U G s -> honest_answers c pre s anss ->
    inv c pre U G (snd (reserve_loop c s n anss)) /\
    (fst (reserve_loop c s n anss) = true -> n <= nfree (snd (reserve_loop c s n anss))).
  Proof.
    induction anss as [|ans anss IH]; intros s I H; cbn [reserve_loop].
    - split; [auto|discriminate].
    - cbn [honest_answers] in H. destruct H as (H1 & H2). destruct ans as [a|].
      + destruct (slab_inv U G s a I H1) as (I' & _).
        destruct (allocate_new_slab c s (Some a)) as [ok s1] eqn:E. cbn [snd] in *.
        assert (ok = true) by (cbn in E; congruence). subst ok. cbn [negb].
        destruct (Z.ltb_spec (nfree s1) n); [apply IH; auto|]. cbn [fst snd]. split; [auto|lia].
      + cbn. split; [auto|discriminate].
  Qed.

  Lemma cur_inv U G s d : inv c pre U G s ->
    inv c pre U G (mkSp (sp_free s) (sp_used s) (sp_slabs s) (increase_slab_size c (sp_cur s) d) (sp_fails s) (sp_owner s) (sp_bytes s)).
  Proof.
    intros [N B A O UD CU BY SL]. constructor; auto. cbn [sp_cur]. apply increase_spec; tauto.
  Qed.

  Lemma alloc_cases U G s ans : inv c pre U G s -> honest_answers c pre s [ans] ->
    match sp_allocate c s ans with
    | (Some p, s') =>
        inv c pre (p :: U) (fun q x => if q =? p then canary_byte else G q x) s' /\ ~ In p U
    | (None, s') => s' = s /\ sp_free s = [] /\ ans = None
    end.
  Proof.
    intros I (H & _).
    assert (TK : forall s, inv c pre U G s -> forall a fr, sp_free s = a :: fr ->
      match sp_allocate c s None with (Some p, s') => p = a + 16 /\
        inv c pre (p :: U) (fun q x => if q =? p then canary_byte else G q x) s' /\ ~ In p U | _ => False end).
    { clear s I H. intros s I a fr EF. destruct (sp_allocate c s None) as [o s'] eqn:E.
      assert (EO : o = Some (a + 16)) by (unfold sp_allocate in E; rewrite EF in E; rewrite EF in E; congruence). subst o.
      split; [auto|]. split; [apply (take_inv U G s a fr I EF s' E)|].
      pose proof (i_nodup _ _ _ _ _ I) as N. unfold slots_of in N. rewrite EF in N. cbn [app] in N. inversion N; subst.
      intros Hx. apply H1. rewrite in_app_iff. right. rewrite in_map_iff. exists (a + 16). split; [lia|auto]. }
    destruct (sp_free s) as [|a fr] eqn:EF.
    - destruct ans as [a|].
      + destruct (slab_inv U G s a I H) as (I' & HL).
        assert (EE : sp_allocate c s (Some a) = sp_allocate c (snd (allocate_new_slab c s (Some a))) None).
        { unfold sp_allocate at 1. rewrite EF. unfold sp_allocate.
          destruct (sp_free (snd (allocate_new_slab c s (Some a)))) eqn:E2; [|rewrite E2; reflexivity].
          cbn [length] in HL. lia. }
        rewrite EE. destruct (sp_free (snd (allocate_new_slab c s (Some a)))) as [|a1 fr1] eqn:E2; [cbn [length] in HL; lia|].
        specialize (TK _ I' a1 fr1 E2). destruct (sp_allocate _ _ None) as [[p|] s']; [tauto|tauto].
      + unfold sp_allocate. rewrite EF. cbn. rewrite EF. auto.
    - assert (EE : sp_allocate c s ans = sp_allocate c s None) by (unfold sp_allocate; rewrite EF; reflexivity).
      rewrite EE. specialize (TK s I a fr EF). destruct (sp_allocate c s None) as [[p|] s']; tauto.
  Qed.

  Lemma new_inv min_bytes s : 0 <= snd pre -> fst pre mod 8 = 0 -> (0 < snd pre -> 0 < fst pre) ->
    sp_new c min_bytes (fst pre) (snd pre) = Ok s -> inv c pre [] (fun _ _ => canary_byte) s.
  Proof.
    intros Hp Ha Hpos E. destruct (slot_size_spec _ Ho) as (SE & SM & SG). fold ss in SE, SM, SG.
    unfold sp_new in E. fold ss in E. set (cur := if _ =? 0 then 1 else _) in E. clearbody cur.
    destruct (Z.ltb_spec 0 cur); cbn [negb] in E; [|discriminate].
    destruct ((cur <=? max_slots c) || (max_slots c =? 0)) eqn:Em; cbn [negb] in E; [|discriminate].
    destruct (Z.ltb_spec 0 (snd pre)).
    - destruct (Z.eqb_spec (fst pre) 0); [lia|]. injection E as <-.
      destruct (run_slots ss (fst pre) (Z.to_nat (snd pre / ss)) ltac:(lia) SM Ha ltac:(lia)) as (R1 & R2 & R3).
      assert (0 <= snd pre / ss) by (apply Z.div_pos; lia).
      pose proof (Z.mul_div_le (snd pre) ss ltac:(lia)).
      constructor; unfold slots_of; cbn [sp_free sp_used sp_slabs sp_cur sp_fails sp_owner sp_bytes map app length]; rewrite ?app_nil_r; auto.
      + intros a Hin. destruct (R2 a Hin) as (? & ? & ? & ?). split; [auto|]. split; [auto|].
        exists pre. split; [left; auto|]. unfold within. cbn [fst snd]. fold ss. lia.
      + intros a. cbn. split; [discriminate|tauto].
      + lia.
      + intros ? ? [].
      + intros ? [].
    - injection E as <-. constructor; unfold slots_of; cbn [sp_free sp_used sp_slabs sp_cur sp_fails sp_owner sp_bytes map app length In]; try tauto; try lia.
      + constructor.
      + intros a. split; [discriminate|tauto].
  Qed.

  Lemma inv_ext U G G' s : inv c pre U G s -> (forall p x, In p U -> in_guard (sc_obj c) p x -> G p x = G' p x) -> inv c pre U G' s.
  Proof. intros [N B A O UD CU BY SL] H. constructor; auto. intros p x Hp Hx. rewrite <- H; auto. Qed.

  Lemma step_inv h s o r s' : inv c pre (outstanding h) (guard_content h) s -> permitted (sc_obj c) h o -> honest c pre s o ->
    sp_step c s o = Ok (r, s') -> inv c pre (outstanding ((o, r) :: h)) (guard_content ((o, r) :: h)) s'.
  Proof.
    intros I P HO E. destruct o as [ans|p|n anss|x b]; cbn [sp_step] in E.
    - pose proof (alloc_cases _ _ s ans I HO) as AC. destruct (sp_allocate c s ans) as [[p|] s1]; injection E as <- <-; cbn [outstanding].
      + destruct AC as (I' & _). eapply inv_ext; [exact I'|]. intros q x _ _. cbn [guard_content]. rewrite (Z.eqb_sym q p). reflexivity.
      + destruct AC as (-> & _). exact I.
    - cbn [permitted] in P. destruct (sp_deallocate c s p) as [s1| |] eqn:E1; cbn [bind] in E; [|discriminate..]. injection E as <- <-.
      assert (HI : intact s p = true \/ sc_overflow_guard c = false).
      { destruct (intact s p) eqn:Ei; [auto|]. destruct (sc_overflow_guard c) eqn:Eg; [|auto].
        rewrite (free_corrupt _ _ _ _ I P Ei Eg) in E1. discriminate. }
      destruct (free_inv _ _ _ _ I P HI) as (s2 & E2 & _ & _ & _ & I'). rewrite E2 in E1. injection E1 as <-. exact I'.
    - unfold sp_reserve in E. cbn [honest] in HO. destruct (nfree s <? n).
      + pose proof (reserve_loop_inv _ _ n anss _ (cur_inv _ _ _ (n - nfree s) I) HO) as (I' & _).
        destruct (reserve_loop _ _ _ _) as [b s1]. injection E as <- <-. exact I'.
      + injection E as <- <-. exact I.
    - injection E as <- <-. eapply inv_ext; [apply (write_inv _ _ s x b I P)|]. intros q y _ _. reflexivity.
  Qed.

  Lemma reach_inv min_bytes h s : good_conf c pre -> reach c pre min_bytes h s -> inv c pre (outstanding h) (guard_content h) s.
  Proof.
    intros (_ & _ & G1 & G2 & G3). induction 1.
    - cbn [outstanding]. eapply inv_ext; [eapply new_inv; eauto|]. intros ? ? [].
    - eapply step_inv; eauto.
  Qed.

  Lemma run_allocs n s : (n <= length (sp_free s))%nat ->
    exists ps s', sp_run c s (repeat (SAlloc None) n) = Ok (map (fun p => OPtr (Some p)) ps, s') /\ length ps = n /\ sp_slabs s' = sp_slabs s.
  Proof.
    revert s. induction n; intros s Hn.
    - exists [], s. auto.
    - destruct (sp_free s) as [|a fr] eqn:EF; [cbn in Hn; lia|]. cbn [length] in Hn.
      cbn [repeat sp_run sp_step]. destruct (sp_allocate c s None) as [o s1] eqn:E.
      assert (ES : o = Some (a + 16) /\ sp_free s1 = fr /\ sp_slabs s1 = sp_slabs s).
      { unfold sp_allocate in E. rewrite EF in E. rewrite EF in E. injection E as <- <-. auto. }
      destruct ES as (-> & E2 & E3). cbn [bind snd fst].
      destruct (IHn s1) as (ps & s2 & H1 & H2 & H3); [rewrite E2; lia|]. rewrite H1. cbn [bind fst snd].
      exists ((a + 16) :: ps), s2. cbn [map length]. rewrite H2, H3, E3. auto.
  Qed.
End pool.
