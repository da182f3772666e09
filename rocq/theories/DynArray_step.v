(** Every call of the dynamic array against its specification. *)
From Verif Require Import Base DynArray_model DynArray_spec DynArray_proof.
Local Open Scope res_scope.

Set Implicit Arguments.

Section Step.
Variable V : Type.
Variable dflt : V.
Variable E : nat.
Variable sz : Z.
Hypothesis SZ : 0 < sz <= 2 ^ 32.
Hypothesis ES : Z.of_nat E * sz <= 2 ^ 62.

Notation st := (arr V).
Notation INV := (@INV V E sz).
Notation can_have := (can_have E sz).

Lemma can_dec : forall ok m, can_have ok m \/ ~ can_have ok m.
Proof.
  intros. unfold DynArray_spec.can_have.
  destruct (Z.leb_spec m (Z.of_nat E)); [left; lia|].
  destruct ok; [|right; intros [|[]]; [lia|congruence]].
  destruct (Z.leb_spec (m * sz) (2 ^ 62)); [left|right]; [right; auto|].
  intros [|[]]; lia.
Qed.

Lemma filled_nil : forall n, filled (@nil V) n = repeat None n.
Proof. intros. unfold filled. cbn. rewrite Nat.sub_0_r. auto. Qed.

Lemma u64_id : forall x, 0 <= x < 2 ^ 64 -> u64 x = x.
Proof. intros. unfold u64, wrapu. apply Z.mod_small. auto. Qed.

Lemma alloc_ok : forall ok (s : st) m, 0 <= m -> m * sz < 2 ^ 64 ->
  (m <= Z.of_nat E /\ allocate E sz ok s m = Some (PEmb, s)) \/
  (Z.of_nat E < m /\ can_have ok m /\ m * sz <= 2 ^ 62 /\
   allocate E sz ok s m =
   Some (PHeap (length (hp s)),
         MkArr (emb s) (hp s ++ [Some (repeat None (Z.to_nat m))])
               (data s) (size s) (cap s) (made s) (gone s) (copies s))) \/
  (~ can_have ok m /\ allocate E sz ok s m = None).
Proof.
  intros ok s m M W. unfold allocate, DynArray_spec.can_have.
  destruct (Z.leb_spec m (Z.of_nat E)); [left; auto|right].
  rewrite u64_id by (split; [apply Z.mul_nonneg_nonneg; lia|auto]).
  rewrite Z.div_mul by lia. unfold arena_max.
  destruct ok; cbn [andb].
  - destruct (Z.leb_spec (m * sz) (2 ^ 62)).
    + left. split; [lia|]. split; [right; auto|]. split; auto.
    + right. split; auto. intros [|[]]; lia.
  - right. split; auto. intros [|[]]; [lia|congruence].
Qed.

Lemma grow_ok : forall ok s l c m, INV s l c -> 0 <= m -> m * sz < 2 ^ 64 ->
  (m <= c /\ grow E sz ok s m = Ok (true, s)) \/
  (c < m /\ can_have ok m /\
   exists s', grow E sz ok s m = Ok (true, s') /\ INV s' l m /\
     copies s <= copies s' <= copies s + Z.of_nat (length l)) \/
  (c < m /\ ~ can_have ok m /\ grow E sz ok s m = Ok (false, s)).
Proof.
  intros ok s l c m I M W. pose proof I as (A & B & C & G & D).
  unfold grow. rewrite B. destruct (Z.leb_spec m c); [left; auto|right].
  destruct (alloc_ok ok s M W) as [[L K]|[[L [CH [B2 K]]]|[NC K]]]; rewrite K; clear K.
  3:{ right. auto. }
  - left. split; auto. split. { left. auto. }
    destruct (data s) as [[|n]|] eqn:P.
    + cbn [ptr_is bind]. eexists. split; [reflexivity|]. destruct D as (D1 & D2 & D3).
      split; [|cbn; lia]. unfold DynArray_proof.INV. cbn. rewrite P.
      repeat split; auto; lia.
    + destruct D as (D1 & D2 & D3 & D4). lia.
    + cbn [ptr_is]. destruct D as (D1 & D2 & D3).
      assert (Ln : l = []) by (destruct l; auto; cbn [length] in C; lia).
      rewrite A, Ln. cbn [length]. change (Z.to_nat (Z.of_nat 0)) with 0%nat.
      cbn [copy_up bind]. rewrite A, Ln. cbn [length].
      change (Z.to_nat (Z.of_nat 0)) with 0%nat. cbn [destroy_down bind]. rewrite P.
      cbn [bind]. eexists. split; [reflexivity|]. subst l. split; [|cbn; lia].
      unfold DynArray_proof.INV. cbn. rewrite D2, D3, Nat.sub_0_r. cbn in G, A.
      repeat split; auto; lia.
  - left. split; auto. split; auto.
    set (s1 := MkArr (emb s) (hp s ++ [Some (repeat None (Z.to_nat m))])
               (data s) (size s) (cap s) (made s) (gone s) (copies s)).
    set (np := PHeap (length (hp s))).
    assert (CN : cells s1 np = Some (filled [] (Z.to_nat m))).
    { apply cells_heap. cbn [hp s1]. rewrite nth_error_app2, Nat.sub_diag by lia.
      rewrite filled_nil. auto. }
    destruct (data s) as [p|] eqn:P.
    + assert (DP : data s1 = Some p) by (unfold s1; cbn; auto).
      destruct (INV_cells I P) as (I1 & I2 & I3).
      assert (NE : p <> np /\ cells s1 p = Some (filled l (room_of E s)) /\
                   ptr_is (data s1) np = false).
      { rewrite DP. unfold np. destruct p as [|n].
        - split; [congruence|]. split; auto.
        - apply cells_heap in I1. pose proof (nth_lt _ _ I1) as LT.
          split; [intros X; assert (n = length (hp s)) by congruence; lia|].
          split; [|cbn; lia]. apply cells_heap. cbn [hp s1].
          rewrite nth_error_app1 by auto. auto. }
      destruct NE as (NE & C1 & PI). rewrite PI.
      assert (Sz : Z.to_nat (size s1) = length l) by (unfold s1; cbn [size]; lia).
      rewrite Sz.
      pose proof (@copy_up_ok V l s1 p np [] (room_of E s) (Z.to_nat m) DP NE C1 CN) as CU.
      cbn [length] in CU. change (Z.of_nat 0) with 0 in CU. rewrite CU by (cbn [length]; lia). clear CU. cbn [app].
      cbn [bind]. set (s2 := bump (set_cells s1 np (filled l (Z.to_nat m)))
             (Z.of_nat (length l)) 0 (Z.of_nat (length l))).
      assert (D2 : data s2 = Some p).
      { unfold s2. cbn [data bump]. rewrite data_set. auto. }
      assert (C2 : cells s2 p = Some (filled l (room_of E s))).
      { unfold s2. rewrite cells_bump, cells_set_other by congruence. auto. }
      assert (S2 : Z.to_nat (size s2) = length l).
      { unfold s2. cbn [size bump]. rewrite size_set. auto. }
      rewrite S2.
      pose proof (@destroy_down_ok V l s2 p [] (room_of E s) D2 C2) as DD.
      cbn [length] in DD. change (Z.of_nat 0) with 0 in DD. rewrite DD by lia. clear DD. cbn [bind].
      set (s3 := bump (set_cells s2 p (filled [] (room_of E s))) 0
                   (Z.of_nat (length l)) 0).
      assert (D3 : data s3 = Some p).
      { unfold s3. cbn [data bump]. rewrite data_set. auto. }
      rewrite D3. destruct p as [|n].
      * cbn [deallocate bind]. eexists. split; [reflexivity|].
        destruct D as (E1 & E2 & E3). unfold room_of in *. rewrite P in *.
        split.
        -- unfold DynArray_proof.INV, s3, s2, s1, np. cbn.
           rewrite E3. cbn. rewrite Nat.sub_0_r. repeat split; auto; try lia. rewrite P. auto.
        -- unfold s3, s2, s1, np. cbn. lia.
      * destruct D as (E1 & E2 & E3 & E4).
        assert (L0 : length (hp s) = S n).
        { rewrite E4, app_length, repeat_length. cbn. lia. }
        assert (HP : hp s3 = repeat None n ++ [Some (filled [] (room_of E s));
                       Some (filled l (Z.to_nat m))]).
        { unfold s3, s2, s1, np. cbn [hp bump set_cells]. rewrite L0, E4.
          rewrite <- app_assoc. cbn [app].
          clear. induction n; cbn; auto. f_equal. auto. }
        unfold deallocate. rewrite HP.
        assert (N3 : forall x y : option (block V),
          nth_error (repeat None n ++ [x; y]) n = Some x).
        { intros. rewrite nth_error_app2; rewrite repeat_length; [|lia].
          rewrite Nat.sub_diag. auto. }
        rewrite N3. cbn [bind]. eexists. split; [reflexivity|]. split.
        -- unfold DynArray_proof.INV. unfold set_cap, set_data.
           cbn [size cap made gone data emb hp].
           split. { unfold s3, s2, s1, np. cbn. lia. }
           split; auto. split; [lia|].
           split. { unfold s3, s2, s1, np. cbn. lia. }
           unfold np. rewrite L0. split; [lia|]. split; auto.
           split. { unfold s3, s2, s1, np. cbn. auto. }
           change (repeat (@None (block V)) (S n)) with (None :: repeat (@None (block V)) n).
           rewrite repeat_cons, <- app_assoc. cbn [app].
           clear. induction n; cbn; auto. f_equal. auto.
        -- unfold s3, s2, s1, np. cbn. lia.
    + destruct D as (D1 & D2 & D3).
      assert (Ln : l = []) by (destruct l; auto; cbn [length] in C; lia).
      assert (Sz : size s1 = 0) by (unfold s1; cbn; rewrite A, Ln; auto).
      assert (PI : ptr_is (data s1) np = false) by auto. rewrite PI, Sz.
      change (Z.to_nat 0) with 0%nat. cbn [copy_up bind]. rewrite Sz.
      change (Z.to_nat 0) with 0%nat. cbn [destroy_down bind].
      assert (Dn : data s1 = None) by auto. rewrite Dn. cbn [bind].
      eexists. split; [reflexivity|]. subst l. split; [|cbn; lia].
      unfold DynArray_proof.INV, s1, np. cbn. rewrite D3. cbn. rewrite Nat.sub_0_r, D2.
      cbn in G, A. repeat split; auto; lia.
Qed.

Lemma enlarge_next : forall c0 c, 0 <= c <= 2 ^ 62 -> enlarge c0 c = next_size c0 c.
Proof.
  intros. unfold enlarge, next_size. destruct (c0 <? 1024).
  - destruct (Z.eqb_spec c 0); [subst; auto|]. rewrite u64_id; lia.
  - rewrite u64_id; lia.
Qed.

Lemma next_capacity_ok : forall f c0 m c,
  0 <= c -> (c0 < 1024 \/ 1024 <= c) -> m <= 2 ^ 62 + 1 -> m - c <= Z.of_nat f ->
  exists w, next_capacity f c0 m c = Some w /\ first_fit c0 m c w /\ m <= w /\
    (w = c \/ w <= Z.max 2 (2 * (m - 1))).
Proof.
  induction f; intros c0 m c C K M F.
  - exists c. cbn. destruct (Z.leb_spec m c); [|lia].
    split; auto. split; [constructor; lia|]. split; auto.
  - cbn [next_capacity]. destruct (Z.leb_spec m c).
    { exists c. split; auto. split; [constructor; lia|]. split; auto. }
    rewrite enlarge_next by lia.
    assert (GT : c < next_size c0 c <= Z.max 2 (2 * c)).
    { unfold next_size. destruct (Z.ltb_spec c0 1024); lia. }
    destruct (IHf c0 m (next_size c0 c)) as (w & W1 & W2 & W3 & W4); try lia.
    exists w. split; auto. split; [constructor 2; auto|]. split; auto. right. lia.
Qed.

Lemma grow_exp_ok : forall ok s l c m, INV s l c -> 0 <= m ->
  m * sz <= 2 ^ 62 + sz ->
  exists w, first_fit c m c w /\
  ((m <= c /\ grow_exp E sz ok s m = Ok (true, s)) \/
  (c < m /\ can_have ok w /\ w <= Z.max 2 (2 * (m - 1)) /\ m <= w /\
   exists s', grow_exp E sz ok s m = Ok (true, s') /\ INV s' l w /\
     copies s <= copies s' <= copies s + Z.of_nat (length l)) \/
  (c < m /\ ~ can_have ok w /\ grow_exp E sz ok s m = Ok (false, s))).
Proof.
  intros ok s l c m I M W. pose proof I as (A & B & C & G & D). unfold grow_exp.
  rewrite B. destruct (Z.leb_spec m c).
  { exists c. split; [constructor; auto|]. left. auto. }
  assert (MB : m <= 2 ^ 62 + 1) by nia.
  destruct (@next_capacity_ok (Z.to_nat m) c m c) as (w & W1 & W2 & W3 & W4); try lia.
  exists w. split; auto. right. rewrite W1.
  assert (WB : w <= Z.max 2 (2 * (m - 1))) by (destruct W4; lia).
  assert (WZ : w * sz < 2 ^ 64).
  { destruct (Z.leb_spec m 2).
    - assert (w <= 2) by lia. nia.
    - assert (w * sz <= 2 * (m * sz)) by nia. nia. }
  destruct (@grow_ok ok s l c w I) as [[X Y]|[[X [Y [s' [Z1 Z2]]]]|[X [Y Z1]]]]; auto; try lia.
  left. split; auto. split; auto. split; auto. split; auto. exists s'. auto.
Qed.

Lemma INV_cap : forall s l c, INV s l c -> c * sz <= 2 ^ 62 /\ 0 <= c.
Proof.
  intros s l c (A & B & C & G & D). split; [|lia]. destruct (data s) as [[|]|].
  - destruct D as (D1 & D2 & D3). nia.
  - tauto.
  - destruct D as (D1 & D2 & D3). subst c. rewrite D1. lia.
Qed.

Lemma len_nil : forall A (l : list A), Z.of_nat (length l) = 0 -> l = [].
Proof. destruct l; cbn [length]; auto; lia. Qed.

Lemma INV_data : forall s l c, INV s l c -> 0 < c -> exists p, data s = Some p.
Proof.
  intros s l c (A & B & C & G & D) P. destruct (data s) as [p|]; eauto. lia.
Qed.

(** Writing one more element at the end of an array with room for it. *)
Lemma push_tail : forall s l c v, INV s l c -> Z.of_nat (length l) < c ->
  exists s', (p <- deref (data s) ;;
     s2 <- construct s p (size s) v ;; Ok (true, set_size s2 (size s2 + 1)))
    = Ok (true, s') /\ INV s' (l ++ [v]) c /\ copies s' = copies s.
Proof.
  intros s l c v I L. destruct (INV_data I) as [p P]; [lia|].
  destruct (INV_cells I P) as (I1 & I2 & I3). pose proof I as (A & B & C & G & D).
  rewrite P. cbn [deref bind]. rewrite A.
  rewrite (@construct_ok V s p l (room_of E s) v I1) by lia. cbn [bind].
  eexists. split; [reflexivity|]. split.
  - pose proof (@INV_set V E sz s l c p (l ++ [v]) 1 0 I P) as J.
    rewrite app_length in J. cbn [length] in J.
    assert (Sz : size (bump (set_cells s p (filled (l ++ [v]) (room_of E s))) 1 0 0) + 1 =
                 Z.of_nat (length l + 1)).
    { cbn [size bump]. rewrite size_set. lia. }
    rewrite Sz. apply J; lia.
  - cbn. rewrite copies_set. lia.
Qed.

Lemma push_ok : forall ok s l c v a, INV s l c ->
  (a = Lit v \/ (exists p i, data s = Some p /\ a = Ref _ p (Z.of_nat i) /\
     nth_error l i = Some v /\ Z.of_nat (length l) < c)) ->
  exists w, first_fit c (Z.of_nat (length l) + 1) c w /\
  exists b c' s', push_back E sz ok s a = Ok (b, s') /\
    room E sz ok c (Z.of_nat (length l) + 1) w b c' /\
    INV s' (if b then l ++ [v] else l) c' /\
    copies s <= copies s' <= copies s + (if c' =? c then 0 else Z.of_nat (length l)).
Proof.
  intros ok s l c v a I HA. pose proof I as (A & B & C & G & D).
  destruct (INV_cap I) as [CB C0].
  unfold push_back. rewrite A.
  assert (CL : Z.of_nat (length l) <= 2 ^ 62) by nia.
  rewrite u64_id by lia.
  destruct (@grow_exp_ok ok s l c (Z.of_nat (length l) + 1) I) as (w & FF & K); [lia|nia|].
  exists w. split; auto.
  destruct K as [[K1 K2]|[[K1 [K2 [K3 [K4 [s' [K5 [K6 K7]]]]]]]|[K1 [K2 K3]]]].
  - rewrite K2. cbn [bind negb].
    destruct (@push_tail s l c v I) as (s' & T1 & T2 & T3); [lia|].
    destruct (INV_data I) as [p P]; [lia|].
    exists true, c, s'. split; [|split; [constructor; auto|split; [auto|destruct (c =? c); lia]]].
    rewrite <- T1, P. cbn [deref bind]. destruct HA as [HA|(q & i & Q1 & Q2 & Q3 & Q4)].
    + rewrite HA. auto.
    + rewrite Q2. destruct (INV_cells I P) as (I1 & I2 & I3).
      assert (QP : q = p) by congruence. rewrite QP.
      rewrite (@get_ok V s p l (room_of E s) i v); auto.
  - destruct HA as [HA|(q & i & Q1 & Q2 & Q3 & Q4)]; [|lia].
    rewrite K5, HA. cbn [bind negb].
    destruct (@push_tail s' l w v K6) as (s'' & T1 & T2 & T3); [lia|].
    exists true, w, s''. split; [auto|].
    split; [constructor 2; auto|split; [auto|]]. destruct (Z.eqb_spec w c); lia.
  - rewrite K3. cbn [bind negb]. exists false, c, s. split; auto.
    split; [constructor 3; auto|split; [auto|]]. destruct (c =? c); lia.
Qed.

Lemma split_last : forall A (l : list A), l <> [] -> exists t v, l = t ++ [v].
Proof. intros A l H. destruct (exists_last H) as (t & v & X). eauto. Qed.

Lemma pop_ok : forall s t v c, INV s (t ++ [v]) c ->
  exists s', pop_back s = Ok s' /\ INV s' t c /\ copies s' = copies s.
Proof.
  intros s t v c I. pose proof I as (A & B & C & G & D). unfold pop_back.
  rewrite app_length in *. cbn [length] in *. rewrite A.
  destruct (Z.eqb_spec (Z.of_nat (length t + 1)) 0); [lia|].
  destruct (INV_data I) as [p P]; [lia|]. rewrite P. cbn [deref bind].
  destruct (INV_cells I P) as (I1 & I2 & I3). rewrite app_length in I3. cbn [length] in I3.
  replace (Z.of_nat (length t + 1) - 1) with (Z.of_nat (length t)) by lia.
  rewrite (@destruct_ok V s p t (room_of E s) v I1) by lia. cbn [bind].
  eexists. split; [reflexivity|]. split.
  - assert (Sz : size (bump (set_cells s p (filled t (room_of E s))) 0 1 0) - 1 =
                 Z.of_nat (length t)).
    { cbn [size bump]. rewrite size_set. lia. }
    rewrite Sz. apply (@INV_set V E sz s (t ++ [v]) c p t 0 1 I P); [lia|].
    rewrite app_length. cbn [length]. lia.
  - cbn. rewrite copies_set. lia.
Qed.

(** The part of [resize] after the memory is there. *)
Lemma resize_tail : forall s l c n, INV s l c -> 0 <= n <= c ->
  exists s', (s2 <- make_more dflt (Z.to_nat (n - size s)) (size s) s ;;
     s3 <- destroy_down (Z.to_nat (size s - n)) n s2 ;; Ok (true, set_size s3 n))
    = Ok (true, s') /\ INV s' (sized dflt l n) c /\ copies s' = copies s.
Proof.
  intros s l c n I N. pose proof I as (A & B & C & G & D). rewrite A. unfold sized.
  destruct (Z.eqb_spec c 0).
  { assert (L0 : l = []) by (apply len_nil; lia). assert (N0 : n = 0) by lia.
    rewrite L0, N0. cbn [length]. cbn. exists (set_size s 0).
    split; auto. split; auto. subst l. unfold DynArray_proof.INV in *. cbn in *. auto. }
  destruct (INV_data I) as [p P]; [lia|].
  destruct (INV_cells I P) as (I1 & I2 & I3).
  destruct (Z.leb_spec (Z.of_nat (length l)) n).
  - replace (Z.to_nat (Z.of_nat (length l) - n)) with 0%nat by lia.
    rewrite (@make_more_ok V dflt _ s p l (room_of E s)) by (auto; lia).
    cbn [bind destroy_down]. rewrite firstn_all2 by lia.
    replace (Z.to_nat (n - Z.of_nat (length l))) with (Z.to_nat n - length l)%nat by lia.
    eexists. split; [reflexivity|]. split; [|cbn; rewrite copies_set; lia].
    set (l' := l ++ repeat dflt (Z.to_nat n - length l)).
    assert (LL : Z.of_nat (length l') = n).
    { unfold l'. rewrite app_length, repeat_length. lia. }
    pose proof (@INV_set V E sz s l c p l' (Z.of_nat (Z.to_nat n - length l)) 0 I P) as J.
    rewrite LL in J. apply J; lia.
  - replace (Z.to_nat (n - Z.of_nat (length l))) with 0%nat by lia. cbn [make_more bind].
    replace (Z.to_nat n - length l)%nat with 0%nat by lia. cbn [repeat]. rewrite app_nil_r.
    set (l1 := firstn (Z.to_nat n) l). set (l2 := skipn (Z.to_nat n) l).
    assert (LL : l = l1 ++ l2) by (unfold l1, l2; rewrite firstn_skipn; auto).
    assert (L1 : Z.of_nat (length l1) = n) by (unfold l1; rewrite firstn_length; lia).
    assert (L2 : Z.to_nat (Z.of_nat (length l) - n) = length l2).
    { rewrite LL, app_length. lia. }
    rewrite L2. rewrite LL in I1.
    assert (LN : (length l1 + length l2 <= room_of E s)%nat).
    { rewrite <- app_length, <- LL. lia. }
    pose proof (@destroy_down_ok V l2 s p l1 (room_of E s) P I1 LN) as DD.
    rewrite L1 in DD. rewrite DD. cbn [bind].
    eexists. split; [reflexivity|]. split; [|cbn; rewrite copies_set; lia].
    pose proof (@INV_set V E sz s l c p l1 0 (Z.of_nat (length l2)) I P) as J.
    rewrite L1 in J. apply J; [lia|]. rewrite LL, app_length. lia.
Qed.

Lemma resize_ok : forall ok s l c n, INV s l c -> 0 <= n -> n * sz <= 2 ^ 62 ->
  exists b c' s', resize dflt E sz ok s n = Ok (b, s') /\ room E sz ok c n n b c' /\
    INV s' (if b then sized dflt l n else l) c'.
Proof.
  intros ok s l c n I N W. unfold resize.
  destruct (@grow_ok ok s l c n I N) as [[X Y]|[[X [Y [s' [Z1 [Z2 Z3]]]]]|[X [Y Z1]]]]; try lia.
  - rewrite Y. cbn [bind negb]. destruct (@resize_tail s l c n I) as (s' & T1 & T2 & T3); [lia|].
    exists true, c, s'. split; auto. split; auto. constructor; auto.
  - rewrite Z1. cbn [bind negb].
    destruct (@resize_tail s' l n n Z2) as (s'' & T1 & T2 & T3); [lia|].
    exists true, n, s''. split; auto. split; auto. constructor 2; auto.
  - rewrite Z1. cbn [bind negb]. exists false, c, s. split; auto. split; auto.
    constructor 3; auto.
Qed.

Lemma clear_ok : forall s l c, INV s l c ->
  exists s', clear dflt E sz s = Ok s' /\ INV s' [] c.
Proof.
  intros s l c I. unfold clear.
  destruct (INV_cap I) as [CB C0].
  destruct (@resize_ok true s l c 0 I) as (b & c' & s' & R1 & R2 & R3); try lia.
  rewrite R1. cbn [bind snd]. exists s'. split; auto.
  destruct R2; try lia. exact R3.
Qed.

Lemma upd_map : forall A B (f : A -> B) l r i v, (i < length l)%nat ->
  upd (map f l ++ r) i (f v) = map f (firstn i l ++ v :: skipn (S i) l) ++ r.
Proof.
  induction l; cbn [length]; intros; [lia|]. destruct i; auto.
  cbn [upd map app firstn]. rewrite IHl by lia. auto.
Qed.

Lemma put_elem_ok : forall s l c i v w p, INV s l c -> data s = Some p ->
  nth_error l i = Some w ->
  exists s', put s p (Z.of_nat i) (Some v) = Ok s' /\
    INV s' (firstn i l ++ v :: skipn (S i) l) c /\ copies s' = copies s.
Proof.
  intros s l c i v w p I P N. pose proof I as (A & B & C & G & D).
  destruct (INV_cells I P) as (I1 & I2 & I3). pose proof (nth_lt _ _ N) as LT.
  rewrite (@put_ok V s p _ i (Some v) I1) by (rewrite len_filled; lia).
  eexists. split; [reflexivity|]. split; [|rewrite copies_set; auto].
  set (l' := firstn i l ++ v :: skipn (S i) l).
  assert (LL : length l' = length l).
  { unfold l'. rewrite app_length, firstn_length. cbn [length]. rewrite skipn_length. lia. }
  assert (F : upd (filled l (room_of E s)) i (Some v) = filled l' (room_of E s)).
  { unfold filled at 1. rewrite upd_map by auto. unfold filled. fold l'. rewrite LL. auto. }
  rewrite F. pose proof (@INV_set V E sz s l c p l' 0 0 I P) as J.
  replace (set_cells s p (filled l' (room_of E s))) with
    (set_size (bump (set_cells s p (filled l' (room_of E s))) 0 0 0) (Z.of_nat (length l'))).
  { apply J; lia. }
  rewrite bump_0. apply arr_ext; cbn; auto. rewrite size_set, LL. auto.
Qed.

Lemma elem_some : forall (l : list V) i v, elem l i = Some v ->
  exists k, i = Z.of_nat k /\ nth_error l k = Some v /\ i < Z.of_nat (length l).
Proof.
  intros l i v H. unfold elem in H. destruct (Z.ltb_spec i 0); [discriminate|].
  exists (Z.to_nat i). split; [lia|]. split; auto. pose proof (nth_lt _ _ H). lia.
Qed.

Lemma elem_dec : forall (l : list V) i, 0 <= i ->
  Z.of_nat (length l) <= i \/ exists v, elem l i = Some v.
Proof.
  intros l i H. unfold elem. destruct (Z.ltb_spec i 0); [lia|].
  destruct (nth_error l (Z.to_nat i)) eqn:X; [right; eauto|left].
  apply nth_error_None in X. lia.
Qed.

Lemma at_ok : forall s l c i v, INV s l c -> elem l i = Some v ->
  exists p k, data s = Some p /\ i = Z.of_nat k /\ nth_error l k = Some v /\
    at_ s i = Ok (p, i) /\ get_at s p i = Ok v.
Proof.
  intros s l c i v I H. destruct (elem_some _ _ H) as (k & K1 & K2 & K3).
  pose proof I as (A & B & C & G & D). destruct (INV_data I) as [p P]; [lia|].
  destruct (INV_cells I P) as (I1 & I2 & I3). exists p, k. split; auto. split; auto.
  split; auto. split.
  - unfold at_. rewrite A, P. destruct (Z.leb_spec (Z.of_nat (length l)) i); [lia|]. auto.
  - rewrite K1. eapply get_ok; eauto.
Qed.

(** Every call. *)
Lemma call_ok : forall s l c x, INV s l c -> sane sz x -> ~ misuse l x ->
  ~ moves_itself l c x ->
  exists a s' l' c', do_call dflt E sz s x = Ok (a, s') /\
    step dflt E sz l c x a l' c' /\ INV s' l' c'.
Proof.
  intros s l c x I SA MU MO. pose proof I as (A & B & C & G & D).
  destruct x as [v ok|i ok| |n ok| |n ok|n ok|i|i v| | | | |]; cbn [sane misuse moves_itself do_call] in *.
  - destruct (@push_ok ok s l c v (Lit v) I) as (w & FF & b & c' & s' & P1 & P2 & P3 & _); auto.
    rewrite P1. cbn [bind fst snd]. destruct b; do 4 eexists; (split; [reflexivity|]);
    (split; [|eauto]); econstructor; eauto.
  - destruct (elem_dec l SA) as [|[v EV]]; [lia|].
    destruct (@at_ok s l c i _ I EV) as (p & k & A1 & A2 & A3 & A4 & A5).
    rewrite A4. cbn [bind fst snd].
    destruct (@push_ok ok s l c v (Ref _ p i) I) as (w & FF & b & c' & s' & P1 & P2 & P3 & _).
    { right. exists p, k. rewrite A2. repeat split; auto. lia. }
    rewrite P1. cbn [bind fst snd]. destruct b; do 4 eexists; (split; [reflexivity|]);
    (split; [|eauto]); econstructor; eauto; econstructor; eauto.
  - destruct (split_last MU) as (t & v & X). rewrite X in I.
    destruct (@pop_ok s t v c I) as (s' & P1 & P2 & _). rewrite P1. cbn [bind].
    do 4 eexists. split; [reflexivity|]. split; [|eauto]. econstructor; eauto.
  - destruct (@resize_ok ok s l c n I) as (b & c' & s' & R1 & R2 & R3); try tauto.
    rewrite R1. cbn [bind fst snd]. destruct b; do 4 eexists; (split; [reflexivity|]);
    (split; [|eauto]); econstructor; eauto.
  - destruct (clear_ok I) as (s' & R1 & R2). rewrite R1. cbn [bind].
    do 4 eexists. split; [reflexivity|]. split; [|eauto]. econstructor; eauto.
  - destruct (@grow_ok ok s l c n I) as [[X Y]|[[X [Y [s' [Z1 [Z2 Z3]]]]]|[X [Y Z1]]]]; try lia.
    + rewrite Y. cbn [bind fst snd]. do 4 eexists. split; [reflexivity|]. split; [|eauto].
      constructor. constructor. auto.
    + rewrite Z1. cbn [bind fst snd]. do 4 eexists. split; [reflexivity|]. split; [|eauto].
      constructor. constructor 2; auto.
    + rewrite Z1. cbn [bind fst snd]. do 4 eexists. split; [reflexivity|]. split; [|eauto].
      constructor. constructor 3; auto.
  - destruct (@grow_exp_ok ok s l c n I) as (w & FF & K); try lia.
    destruct K as [[K1 K2]|[[K1 [K2 [K3 [K4 [s' [K5 [K6 K7]]]]]]]|[K1 [K2 K3]]]].
    + rewrite K2. cbn [bind fst snd]. do 4 eexists. split; [reflexivity|]. split; [|eauto].
      econstructor; eauto. constructor. auto.
    + rewrite K5. cbn [bind fst snd]. do 4 eexists. split; [reflexivity|]. split; [|eauto].
      econstructor; eauto. constructor 2; auto.
    + rewrite K3. cbn [bind fst snd]. do 4 eexists. split; [reflexivity|]. split; [|eauto].
      econstructor; eauto. constructor 3; auto.
  - destruct (elem_dec l SA) as [|[v EV]]; [lia|].
    destruct (@at_ok s l c i _ I EV) as (p & k & A1 & A2 & A3 & A4 & A5).
    rewrite A4. cbn [bind fst snd]. rewrite A5. cbn [bind].
    do 4 eexists. split; [reflexivity|]. split; [|eauto]. econstructor; eauto.
  - destruct (elem_dec l SA) as [|[w EV]]; [lia|].
    destruct (@at_ok s l c i _ I EV) as (p & k & A1 & A2 & A3 & A4 & A5).
    rewrite A4. cbn [bind fst snd]. rewrite A5. cbn [bind].
    destruct (@put_elem_ok s l c k v w p I A1 A3) as (s' & P1 & P2 & P3).
    rewrite <- A2 in P1. rewrite P1. cbn [bind]. do 4 eexists. split; [reflexivity|].
    split; [econstructor; eauto|]. rewrite A2, Nat2Z.id. auto.
  - destruct l as [|v t] eqn:L; [congruence|]. unfold front. rewrite A. cbn [length].
    destruct (Z.eqb_spec (Z.of_nat (S (length t))) 0); [lia|].
    destruct (INV_data I) as [p P]. { cbn [length] in C. lia. }
    destruct (INV_cells I P) as (I1 & I2 & I3). rewrite P. cbn [deref bind fst snd].
    change 0 with (Z.of_nat 0). rewrite (@get_ok V s p (v :: t) (room_of E s) 0 v I1) by auto.
    cbn [bind]. do 4 eexists. split; [reflexivity|]. split; [|eauto]. econstructor; eauto.
  - destruct (split_last MU) as (t & v & X). unfold back. rewrite A.
    rewrite X, app_length. cbn [length].
    destruct (Z.eqb_spec (Z.of_nat (length t + 1)) 0); [lia|].
    destruct (INV_data I) as [p P]. { rewrite X, app_length in C. cbn [length] in C. lia. }
    destruct (INV_cells I P) as (I1 & I2 & I3). rewrite P. cbn [deref bind fst snd].
    replace (Z.of_nat (length t + 1) - 1) with (Z.of_nat (length t)) by lia.
    rewrite (@get_ok V s p l (room_of E s) (length t) v I1)
      by (rewrite X, nth_error_app2, Nat.sub_diag by lia; auto).
    cbn [bind]. do 4 eexists. split; [reflexivity|]. rewrite <- X. split; [|eauto].
    econstructor; eauto.
  - rewrite A. do 4 eexists. split; [reflexivity|]. split; [|eauto]. econstructor; eauto.
  - do 4 eexists. split; [reflexivity|]. split; [|eauto]. econstructor; eauto.
    rewrite A. destruct l; cbn [length]; split; intros; try lia; auto.
    congruence.
  - rewrite B. do 4 eexists. split; [reflexivity|]. split; [|eauto]. econstructor; eauto.
Qed.

(** Misuse ends in a panic. *)
Lemma misuse_ok : forall s l c x, INV s l c -> misuse l x ->
  do_call dflt E sz s x = Panic.
Proof.
  intros s l c x (A & B & C & G & D) M.
  assert (AT : forall i, Z.of_nat (length l) <= i -> at_ s i = Panic).
  { intros i Hi. unfold at_. rewrite A. destruct (Z.leb_spec (Z.of_nat (length l)) i); auto. lia. }
  destruct x; cbn [misuse] in M; try contradiction; cbn [do_call];
    try (rewrite AT by auto; auto); rewrite M in A; cbn in A;
    unfold pop_back, front, back; rewrite A; auto.
Qed.

Lemma destroy_ok : forall s l c, INV s l c ->
  exists s', destroy dflt E sz s = Ok s' /\ emb s' = repeat None E /\
    Forall (fun b => b = None) (hp s') /\ made s' = gone s'.
Proof.
  intros s l c I. unfold destroy. destruct (clear_ok I) as (s1 & R1 & R2).
  rewrite R1. cbn [bind]. destruct R2 as (A & B & C & G & D). cbn in G.
  destruct (data s1) as [[|n]|] eqn:P.
  - destruct D as (D1 & D2 & D3). cbn [deallocate]. exists s1. split; auto.
    rewrite D2, D3, filled_nil. split; auto. split; [constructor|lia].
  - destruct D as (D1 & D2 & D3 & D4). cbn [deallocate]. rewrite D4, nth_last.
    eexists. split; [reflexivity|]. cbn. split; auto. split; [|lia].
    rewrite upd_last. apply Forall_app. split; [|auto].
    clear. induction n; cbn; auto.
  - destruct D as (D1 & D2 & D3). exists s1. split; auto. rewrite D3. split; auto.
    split; [constructor|lia].
Qed.

Lemma INV_fresh : INV (fresh V E) [] 0.
Proof. unfold DynArray_proof.INV. cbn. repeat split; auto. lia. Qed.

End Step.
