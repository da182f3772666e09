(** The world explained by the history. *)
From Verif Require Import Base HeapArena_model HeapArena_spec.
Local Open Scope res_scope.

Lemma nth_put_same : forall l p c, (p < length l)%nat -> nth_error (put l p c) p = Some c.
Proof. induction l as [|x l IH]; intros [|p] c H; cbn in *; auto; try lia. apply IH. lia. Qed.
Lemma nth_put_other : forall l p q c, q <> p -> nth_error (put l p c) q = nth_error l q.
Proof. induction l as [|x l IH]; intros [|p] [|q] c H; cbn in *; auto; try congruence. Qed.
Lemma length_put : forall l p c, length (put l p c) = length l.
Proof. induction l as [|x l IH]; intros [|p] c; cbn; auto. Qed.

Definition mine (a : Z) (c : chunk) : bool := (k_owner c =? a) && k_live c.
Definition cnt (a : Z) (l : list chunk) : Z := Z.of_nat (length (filter (mine a) l)).

Lemma cnt_app : forall a l c, cnt a (l ++ [c]) = cnt a l + (if mine a c then 1 else 0).
Proof.
  intros. unfold cnt. rewrite filter_app, app_length, Nat2Z.inj_add. cbn [filter].
  destruct (mine a c); auto.
Qed.

Lemma cnt_cons : forall a x l, cnt a (x :: l) = (if mine a x then 1 else 0) + cnt a l.
Proof. intros. unfold cnt. cbn [filter]. destruct (mine a x); cbn [length]; lia. Qed.

Lemma cnt_put : forall a l p c d, nth_error l p = Some c ->
  cnt a (put l p d) = cnt a l - (if mine a c then 1 else 0) + (if mine a d then 1 else 0).
Proof.
  induction l as [|x l IH]; intros [|p] c d H; cbn in H; try discriminate H.
  - assert (x = c) by congruence. subst. cbn [put]. rewrite !cnt_cons. lia.
  - cbn [put]. rewrite !cnt_cons. rewrite (IH p c d H). lia.
Qed.

Lemma cnt_pos : forall a l p c, nth_error l p = Some c -> mine a c = true -> 0 < cnt a l.
Proof.
  induction l as [|x l IH]; intros [|p] c H M; cbn in H; try discriminate H; rewrite cnt_cons.
  - assert (x = c) by congruence. subst. rewrite M. unfold cnt. lia.
  - specialize (IH p c H M). destruct (mine a x); lia.
Qed.

Lemma filter_index : forall (f : chunk -> bool) l (g : nat -> bool) k,
  (forall p c, nth_error l p = Some c -> g (k + p)%nat = f c) ->
  length (filter g (seq k (length l))) = length (filter f l).
Proof.
  induction l as [|x l IH]; intros g k H; cbn [length seq filter]; auto.
  pose proof (H O x eq_refl) as H0. rewrite Nat.add_0_r in H0. rewrite H0.
  assert (R : length (filter g (seq (S k) (length l))) = length (filter f l)).
  { apply IH. intros p c N. specialize (H (S p) c N). rewrite Nat.add_succ_r in H. exact H. }
  destruct (f x); cbn [length]; auto.
Qed.

Record told (h : list (op * resp)) (w : world) : Prop := {
  t_chunk : forall p c, nth_error (chunks w) p = Some c ->
    status h p = Some (k_owner c, k_size c, k_live c) /\ 0 <= k_size c < 2 ^ 64 - 48 /\
    (k_live c = true -> m_len (k_mem c) = can + k_size c + can /\
       forall i, -16 <= i < k_size c + 16 -> byte_at h p i = Some (m_byte (k_mem c) (can + i)));
  t_none : forall p, nth_error (chunks w) p = None -> status h p = None;
  t_ret : returned h = length (chunks w);
  t_count : forall a, n_allocs w a = cnt a (chunks w);
  t_guard : guards_on h = (g_leak w, g_over w, g_own w) }.

Lemma told0 : told [] world0.
Proof. constructor; cbn; auto; intros [|p] c H; discriminate H. Qed.

Lemma status_snoc : forall h e p, status (h ++ [e]) p =
  match e with
    | (Alloc a n _, RPtr (Some q)) => if Nat.eqb q p then Some (a, n, true) else status h p
    | (Dealloc b (Some q), _) =>
        match status h p with
        | Some (a, n, _) => if Nat.eqb q p && (a =? b) then Some (a, n, false) else status h p
        | None => None
        end
    | _ => status h p end.
Proof. intros. unfold status. rewrite fold_left_app. reflexivity. Qed.

Lemma byte_snoc : forall h e p i, byte_at (h ++ [e]) p i =
  match e with
    | (Alloc a n _, RPtr (Some q)) =>
        if Nat.eqb q p then Some (if (0 <=? i) && (i <? n) then 0x7a else 0x7b) else byte_at h p i
    | (Store q j v, _) => if Nat.eqb q p && (j =? i) then Some v else byte_at h p i
    | _ => byte_at h p i end.
Proof. intros. unfold byte_at. rewrite fold_left_app. reflexivity. Qed.

Lemma returned_snoc : forall h e, returned (h ++ [e]) =
  (returned h + match e with (Alloc _ _ _, RPtr (Some _)) => 1 | _ => 0 end)%nat.
Proof.
  intros. unfold returned. rewrite filter_app, app_length. f_equal. cbn [filter].
  destruct e as [[] [[]| |]]; reflexivity.
Qed.

Lemma guards_snoc : forall h e, guards_on (h ++ [e]) =
  match e with (Guards l o w, _) => (l, o, w) | _ => guards_on h end.
Proof. intros. unfold guards_on. rewrite fold_left_app. reflexivity. Qed.

(** Steps that the memory does not notice. *)
Lemma told_same : forall h w w' e, told h w -> chunks w' = chunks w -> n_allocs w' = n_allocs w ->
  (forall p, status (h ++ [e]) p = status h p) -> (forall p i, byte_at (h ++ [e]) p i = byte_at h p i) ->
  returned (h ++ [e]) = returned h -> guards_on (h ++ [e]) = (g_leak w', g_over w', g_own w') ->
  told (h ++ [e]) w'.
Proof.
  intros h w w' e T C N S B R G. destruct T. constructor; rewrite ?C, ?N, ?R; auto.
  - intros p c H. destruct (t_chunk0 p c H) as (A1 & A2 & A3). rewrite S. split; auto. split; auto.
    intros L. destruct (A3 L) as [A4 A5]. split; auto. intros i I. rewrite B. auto.
  - intros p H. rewrite S. auto.
Qed.

Lemma fill_ok : forall m off len v m', fill m off len v = Ok m' -> 0 < len ->
  0 <= off /\ off + len <= m_len m /\ m_len m' = m_len m /\
  forall j, m_byte m' j = if (off <=? j) && (j <? off + len) then v else m_byte m j.
Proof.
  intros m off len v m' H L. unfold fill in H.
  destruct (Z.leb_spec 0 off), (Z.leb_spec (off + len) (m_len m)); cbn [andb] in H;
    try (destruct (Z.eqb_spec len 0); [lia|discriminate H]).
  assert (E : m' = mkMem (m_len m) (fun j => if (off <=? j) && (j <? off + len) then v else m_byte m j)) by congruence.
  subst m'. cbn. auto.
Qed.

Lemma fill_any : forall m off len v m', fill m off len v = Ok m' -> 0 <= len ->
  m_len m' = m_len m /\
  forall j, m_byte m' j = if (off <=? j) && (j <? off + len) then v else m_byte m j.
Proof.
  intros m off len v m' H L. destruct (Z.eq_dec len 0) as [->|N].
  - unfold fill in H. destruct ((0 <=? off) && (off + 0 <=? m_len m)).
    + assert (E : m' = mkMem (m_len m) (fun j => if (off <=? j) && (j <? off + 0) then v else m_byte m j)) by congruence.
      subst m'. cbn. auto.
    + cbn in H. assert (m' = m) by congruence. subst. split; auto. intros j.
      destruct (Z.leb_spec off j), (Z.ltb_spec j (off + 0)); cbn; auto; lia.
  - destruct (fill_ok m off len v m' H) as (_ & _ & A & B); auto. lia.
Qed.

Lemma fill_def : forall m off len v, 0 <= off -> 0 <= len -> off + len <= m_len m ->
  exists m', fill m off len v = Ok m'.
Proof.
  intros. unfold fill. destruct (Z.leb_spec 0 off); [|lia]. destruct (Z.leb_spec (off + len) (m_len m)); [|lia].
  cbn [andb]. eauto.
Qed.

Lemma alloc_ok : forall h w a n given p w', told h w -> 0 <= n < 2 ^ 64 ->
  h_allocate w a n given = Ok (p, w') ->
  told (h ++ [(Alloc a n given, RPtr p)]) w' /\
  (p = None /\ w' = w \/ p = Some (length (chunks w)) /\ n < 2 ^ 64 - 48).
Proof.
  intros h w a n given p w' T N H. unfold h_allocate in H. destruct given as [junk|].
  2:{ assert (E : p = None /\ w' = w) by (split; congruence). destruct E as [-> ->]. split; auto.
      apply told_same with (w := w); auto; intros;
        rewrite ?status_snoc, ?byte_snoc, ?returned_snoc, ?guards_snoc; auto. apply T. }
  set (cs := u64 (hdr + can + n + can)) in H.
  destruct (Z.ltb_spec cs hdr); [discriminate H|].
  destruct (fill (mkMem (cs - hdr) junk) 0 can canary) as [m1| |] eqn:F1; cbn [bind] in H; try discriminate H.
  destruct (fill m1 can n before_use) as [m2| |] eqn:F2; cbn [bind] in H; try discriminate H.
  destruct (fill m2 (can + n) can canary) as [m3| |] eqn:F3; cbn [bind] in H; try discriminate H.
  apply fill_ok in F1; [|reflexivity]. apply fill_any in F2; [|lia]. apply fill_ok in F3; [|reflexivity].
  cbn [m_len m_byte] in *. destruct F1 as (_ & _ & F1l & F1b). destruct F2 as (F2l & F2b).
  destruct F3 as (_ & F3r & F3l & F3b).
  assert (NW : n < 2 ^ 64 - 48 /\ cs = 48 + n).
  { unfold cs, u64, wrapu, hdr, can in *. 
    assert (Q : (16 + 16 + n + 16) mod 2 ^ 64 <= 16 + 16 + n + 16) by (apply Z.mod_le; lia).
    assert (Q2 : (16 + 16 + n + 16) mod 2 ^ 64 < 2 ^ 64) by (apply Z.mod_pos_bound; lia).
    rewrite F2l, F1l in F3r. set (z := (16 + 16 + n + 16) mod 2 ^ 64) in *. clearbody z. lia. }
  destruct NW as [NW CS].
  assert (E : p = Some (length (chunks w)) /\ w' = mkW (chunks w ++ [mkChunk true a n m3])
                (upz (n_allocs w) a (n_allocs w a + 1)) (n_fails w)
                (g_leak w) (g_over w) (g_own w)) by (split; congruence).
  destruct E as [-> ->]. split; [|right; auto].
  pose proof T as T0. destruct T. constructor; cbn [chunks n_allocs g_leak g_over g_own].
  - intros q c Q. rewrite status_snoc. destruct (Nat.eqb_spec (length (chunks w)) q) as [<-|NQ].
    + rewrite nth_error_app2, Nat.sub_diag in Q by lia. cbn in Q.
      assert (c = mkChunk true a n m3) by congruence. subst c. cbn [k_owner k_size k_live k_mem].
      split; auto. split; [lia|]. intros _. split.
      { rewrite F3l, F2l, F1l, CS. unfold hdr, can. lia. }
      intros i I. rewrite byte_snoc, Nat.eqb_refl, F3b, F2b, F1b. unfold can, before_use, canary.
      destruct (Z.leb_spec 0 i), (Z.ltb_spec i n), (Z.leb_spec (16 + n) (16 + i)), (Z.ltb_spec (16 + i) (16 + n + 16)),
        (Z.leb_spec 16 (16 + i)), (Z.ltb_spec (16 + i) (16 + n)), (Z.leb_spec 0 (16 + i)), (Z.ltb_spec (16 + i) (0 + 16));
        cbn [andb]; try reflexivity; lia.
    + assert (LT : (q < length (chunks w))%nat).
      { assert (QL : (q < length (chunks w ++ [mkChunk true a n m3]))%nat) by (apply nth_error_Some; congruence).
        rewrite app_length in QL. cbn in QL. lia. }
      rewrite nth_error_app1 in Q by auto. destruct (t_chunk0 q c Q) as (A1 & A2 & A3). split; auto. split; auto.
      intros L. destruct (A3 L) as [A4 A5]. split; auto. intros i I. rewrite byte_snoc.
      destruct (Nat.eqb_spec (length (chunks w)) q); [congruence|]. auto.
  - intros q Q. rewrite status_snoc. apply nth_error_None in Q. rewrite app_length in Q. cbn in Q.
    destruct (Nat.eqb_spec (length (chunks w)) q); [lia|]. apply t_none0. apply nth_error_None. lia.
  - rewrite returned_snoc, t_ret0, app_length. reflexivity.
  - intros b. rewrite cnt_app. unfold upz, mine. cbn [k_owner k_live]. rewrite andb_true_r.
    destruct (Z.eqb_spec b a) as [->|NB].
    + rewrite Z.eqb_refl, t_count0. auto.
    + destruct (Z.eqb_spec a b); [congruence|]. rewrite t_count0. lia.
  - rewrite guards_snoc. auto.
Qed.

Lemma look_in_use : forall h w p c, told h w -> look w p = Ok c ->
  in_use h p (k_owner c) (k_size c) /\ nth_error (chunks w) p = Some c /\ k_live c = true.
Proof.
  intros h w p c T H. unfold look in H. destruct (nth_error (chunks w) p) as [d|] eqn:E; [|discriminate H].
  destruct (k_live d) eqn:L; [|discriminate H]. assert (d = c) by congruence. subst d.
  split; auto. unfold in_use. rewrite (proj1 (t_chunk _ _ T p c E)), L. auto.
Qed.

Lemma in_use_look : forall h w p a n, told h w -> in_use h p a n ->
  exists c, look w p = Ok c /\ k_owner c = a /\ k_size c = n.
Proof.
  intros h w p a n T H. unfold in_use in H. unfold look. destruct (nth_error (chunks w) p) as [c|] eqn:E.
  - rewrite (proj1 (t_chunk _ _ T p c E)) in H.
    assert (Q : k_owner c = a /\ k_size c = n /\ k_live c = true) by (repeat split; congruence).
    destruct Q as (Q1 & Q2 & Q3). rewrite Q3. eauto.
  - rewrite (t_none _ _ T p E) in H. discriminate H.
Qed.

Lemma check_spec : forall m off len, 0 <= off -> 0 <= len -> off + len <= m_len m ->
  exists b, check_canary m off len = Ok b /\
    (b = true <-> forall j, off <= j < off + len -> m_byte m j = canary).
Proof.
  intros m off len O L B. unfold check_canary.
  destruct (Z.leb_spec 0 off); [|lia]. destruct (Z.leb_spec (off + len) (m_len m)); [|lia]. cbn [andb].
  eexists. split; [reflexivity|]. rewrite forallb_forall. split.
  - intros F j J. specialize (F (Z.to_nat (j - off))).
    assert (Q : off + Z.of_nat (Z.to_nat (j - off)) = j) by lia. rewrite Q in F.
    apply Z.eqb_eq. apply F. apply in_seq. lia.
  - intros F k K. apply in_seq in K. apply Z.eqb_eq. apply F. lia.
Qed.

(** What giving back memory comes to. *)
Lemma dealloc_eq : forall h w p a n b, told h w -> in_use h p a n ->
  (a <> b -> h_deallocate w b (Some p) = if g_own w then Panic else Ok (report w b)) /\
  (a = b -> exists bad w', (bad = true <-> overrun h p n) /\
     h_deallocate w b (Some p) = (if bad && g_over w then Panic else Ok w') /\
     (exists c m, nth_error (chunks w) p = Some c /\ k_live c = true /\ k_owner c = a /\ k_size c = n /\
        chunks w' = put (chunks w) p (mkChunk false a n m)) /\
     n_allocs w' = upz (n_allocs w) a (n_allocs w a - 1) /\
     n_fails w' = (if bad then upz (n_fails w) a (n_fails w a + 1) else n_fails w) /\
     (g_leak w', g_over w', g_own w') = (g_leak w, g_over w, g_own w)).
Proof.
  intros h w p a n b T U. destruct (in_use_look _ _ _ _ _ T U) as (c & LK & E1 & E2).
  destruct (look_in_use _ _ _ _ T LK) as (_ & NE & LV).
  destruct (t_chunk _ _ T p c NE) as (_ & SZ & MM). destruct (MM LV) as [ML MB]. clear MM.
  split.
  - intros NB. unfold h_deallocate. rewrite LK. cbn [bind]. rewrite E1.
    destruct (Z.eqb_spec a b); [congruence|]. auto.
  - intros <-. unfold h_deallocate. rewrite LK. cbn [bind]. rewrite E1, Z.eqb_refl. cbn [negb].
    rewrite E2 in *.
    destruct (check_spec (k_mem c) 0 can) as (b1 & C1 & C2); [lia|unfold can; lia|rewrite ML; unfold can; lia|].
    destruct (check_spec (k_mem c) (can + n) can) as (b2 & C3 & C4); [unfold can; lia|unfold can; lia|rewrite ML; unfold can; lia|].
    rewrite C1. cbn [bind]. rewrite C3. cbn [bind].
    destruct (fill_def (k_mem c) can n after_use) as (m & FM); [unfold can; lia|lia|rewrite ML; unfold can; lia|].
    assert (BAD : negb b1 || negb b2 = true <-> overrun h p n).
    { unfold overrun. split.
      - intros B. destruct b1; [destruct b2; [discriminate B|]|].
        + assert (X : ~ forall j, can + n <= j < can + n + can -> m_byte (k_mem c) j = canary).
          { rewrite <- C4. discriminate. }
          destruct (Z.eq_dec 0 0) as [_|]; [|congruence].
          (* search for the byte *)
          assert (Y : exists k, In k (seq 0 16) /\ m_byte (k_mem c) (can + n + Z.of_nat k) <> canary).
          { destruct (forallb (fun k => m_byte (k_mem c) (can + n + Z.of_nat k) =? canary) (seq 0 16)) eqn:FB.
            - exfalso. apply X. intros j J. rewrite forallb_forall in FB.
              specialize (FB (Z.to_nat (j - can - n))). unfold can in *.
              assert (Q : 16 + n + Z.of_nat (Z.to_nat (j - 16 - n)) = j) by lia. rewrite Q in FB.
              apply Z.eqb_eq. apply FB. apply in_seq. lia.
            - apply not_true_iff_false in FB. 
              destruct (existsb (fun k => negb (m_byte (k_mem c) (can + n + Z.of_nat k) =? canary)) (seq 0 16)) eqn:EB.
              + apply existsb_exists in EB. destruct EB as (k & K1 & K2). exists k. split; auto.
                apply negb_true_iff, Z.eqb_neq in K2. auto.
              + exfalso. apply FB. apply forallb_forall. intros k K.
                destruct (m_byte (k_mem c) (can + n + Z.of_nat k) =? canary) eqn:Q; auto.
                assert (Z : existsb (fun k => negb (m_byte (k_mem c) (can + n + Z.of_nat k) =? canary)) (seq 0 16) = true).
                { apply existsb_exists. exists k. rewrite Q. auto. }
                congruence. }
          destruct Y as (k & K1 & K2). apply in_seq in K1. exists (n + Z.of_nat k). split; [lia|].
          rewrite MB by lia. rewrite Z.add_assoc. intros Z. apply K2. injection Z. auto.
        + assert (X : ~ forall j, 0 <= j < 0 + can -> m_byte (k_mem c) j = canary).
          { rewrite <- C2. discriminate. }
          assert (Y : exists k, In k (seq 0 16) /\ m_byte (k_mem c) (Z.of_nat k) <> canary).
          { destruct (existsb (fun k => negb (m_byte (k_mem c) (Z.of_nat k) =? canary)) (seq 0 16)) eqn:EB.
            - apply existsb_exists in EB. destruct EB as (k & K1 & K2). exists k. split; auto.
              apply negb_true_iff, Z.eqb_neq in K2. auto.
            - exfalso. apply X. intros j J. unfold can in J.
              destruct (m_byte (k_mem c) j =? canary) eqn:Q; [apply Z.eqb_eq; auto|].
              assert (Z : existsb (fun k => negb (m_byte (k_mem c) (Z.of_nat k) =? canary)) (seq 0 16) = true).
              { apply existsb_exists. exists (Z.to_nat j). split; [apply in_seq; lia|].
                rewrite Z2Nat.id by lia. rewrite Q. auto. }
              congruence. }
          destruct Y as (k & K1 & K2). apply in_seq in K1. exists (Z.of_nat k - 16). split; [lia|].
          rewrite MB by lia. unfold can. replace (16 + (Z.of_nat k - 16)) with (Z.of_nat k) by lia.
          intros Z. apply K2. injection Z. auto.
      - intros (i & I & N). rewrite MB in N by lia.
        destruct b1; [|auto]. destruct b2; [|auto]. exfalso. apply N. f_equal. unfold can in *.
        destruct I as [I|I]; [apply (proj1 C2 eq_refl); lia|apply (proj1 C4 eq_refl); lia]. }
    assert (POS : n_allocs w a <> 0).
    { rewrite (t_count _ _ T). pose proof (cnt_pos a (chunks w) p c NE) as CP.
      assert (mine a c = true) by (unfold mine; rewrite E1, Z.eqb_refl, LV; auto). specialize (CP H). lia. }
    exists (negb b1 || negb b2).
    exists (mkW (put (chunks w) p (mkChunk false a n m)) (upz (n_allocs w) a (n_allocs w a - 1))
      (if negb b1 || negb b2 then upz (n_fails w) a (n_fails w a + 1) else n_fails w) (g_leak w) (g_over w) (g_own w)).
    split; auto. split.
    + destruct (negb b1 || negb b2); cbn [andb].
      * destruct (g_over w) eqn:GO; cbn [bind]; auto. cbn [report n_allocs].
        destruct (Z.eqb_spec (n_allocs w a) 0); [congruence|]. rewrite FM. cbn [bind report chunks n_allocs n_fails g_leak g_over g_own]. rewrite ?GO. auto.
      * cbn [bind]. destruct (Z.eqb_spec (n_allocs w a) 0); [congruence|]. rewrite FM. cbn [bind]. auto.
    + cbn. repeat split; auto. exists c, m. auto.
Qed.

Lemma dealloc_ok : forall h w b ptr w', told h w -> h_deallocate w b ptr = Ok w' ->
  told (h ++ [(Dealloc b ptr, RDone)]) w'.
Proof.
  intros h w b ptr w' T H. destruct ptr as [p|]; [|discriminate H].
  assert (U : exists a n, in_use h p a n).
  { unfold h_deallocate in H. destruct (look w p) as [c| |] eqn:LK; cbn [bind] in H; try discriminate H.
    destruct (look_in_use _ _ _ _ T LK) as (U & _). eauto. }
  destruct U as (a & n & U). destruct (dealloc_eq h w p a n b T U) as [D1 D2].
  destruct (Z.eq_dec a b) as [E|E].
  - destruct (D2 E) as (bad & w1 & _ & D3 & (c & m & N1 & N2 & N3 & N4 & N5) & D4 & D5 & D6).
    rewrite H in D3. assert (w' = w1) by (destruct (bad && g_over w); congruence). subst w1. subst b.
    pose proof T as T0. destruct T. constructor.
    + intros q d Q. rewrite N5 in Q. rewrite status_snoc. destruct (Nat.eq_dec q p) as [->|NQ].
      * rewrite nth_put_same in Q by (apply nth_error_Some; congruence).
        assert (d = mkChunk false a n m) by congruence. subst d. cbn [k_owner k_size k_live k_mem].
        unfold in_use in U. rewrite U, Nat.eqb_refl, Z.eqb_refl. cbn [andb]. split; auto.
        destruct (t_chunk0 p c N1) as (_ & SZ & _). rewrite N4 in SZ. split; auto. discriminate.
      * rewrite nth_put_other in Q by auto. destruct (t_chunk0 q d Q) as (A1 & A2 & A3).
        rewrite A1. destruct (Nat.eqb_spec p q); [congruence|]. cbn [andb]. split; auto. split; auto.
        intros L. destruct (A3 L) as [A4 A5]. split; auto. intros i I. rewrite byte_snoc. auto.
    + intros q Q. rewrite N5 in Q. rewrite status_snoc.
      assert (S : status h q = None).
      { apply t_none0. apply nth_error_None. apply nth_error_None in Q. rewrite length_put in Q. auto. }
      rewrite S. auto.
    + rewrite returned_snoc, N5, length_put, t_ret0. lia.
    + intros x. rewrite D4, N5. rewrite (cnt_put x _ _ _ _ N1). unfold upz, mine. cbn [k_owner k_live].
      rewrite N2, N3, andb_false_r, andb_true_r, !t_count0.
      destruct (Z.eqb_spec x a) as [->|NX].
      * rewrite Z.eqb_refl. lia.
      * destruct (Z.eqb_spec a x); [congruence|]. lia.
    + rewrite guards_snoc, D6. auto.
  - rewrite D1 in H by auto. destruct (g_own w) eqn:GO; [discriminate H|].
    assert (w' = report w b) by congruence. subst w'.
    apply told_same with (w := w); auto.
    + intros q. rewrite status_snoc. destruct (status h q) as [[[x y] z]|] eqn:S; auto.
      destruct (Nat.eqb_spec p q); cbn [andb]; auto. subst q. unfold in_use in U.
      assert (x = a) by congruence. subst x. destruct (Z.eqb_spec a b); congruence.
    + intros q i. rewrite byte_snoc. auto.
    + rewrite returned_snoc. auto.
    + rewrite guards_snoc. apply T.
Qed.

Lemma store_ok : forall h w p i v w', told h w -> h_store w p i v = Ok w' ->
  told (h ++ [(Store p i v, RDone)]) w'.
Proof.
  intros h w p i v w' T H. unfold h_store in H.
  destruct (look w p) as [c| |] eqn:LK; cbn [bind] in H; try discriminate H.
  destruct (look_in_use _ _ _ _ T LK) as (U & NE & LV).
  destruct ((0 <=? can + i) && (can + i <? m_len (k_mem c))); [|discriminate H].
  destruct (fill (k_mem c) (can + i) 1 v) as [m| |] eqn:FM; cbn [bind] in H; try discriminate H.
  apply fill_any in FM; [|lia]. destruct FM as [F1 F2].
  match type of H with Ok ?x = _ => assert (w' = x) by congruence end. subst w'.
  pose proof T as T0. destruct T. constructor; cbn [chunks n_allocs g_leak g_over g_own].
  - intros q d Q. rewrite status_snoc. destruct (Nat.eq_dec q p) as [->|NQ].
    + rewrite nth_put_same in Q by (apply nth_error_Some; congruence).
      assert (d = mkChunk (k_live c) (k_owner c) (k_size c) m) by congruence. subst d.
      cbn [k_owner k_size k_live k_mem]. destruct (t_chunk0 p c NE) as (A1 & A2 & A3).
      split; auto. split; auto. intros L. destruct (A3 L) as [A4 A5]. rewrite F1. split; auto.
      intros j J. rewrite byte_snoc, Nat.eqb_refl, F2. cbn [andb].
      destruct (Z.eqb_spec i j) as [->|NJ].
      * rewrite Z.leb_refl. destruct (Z.ltb_spec (can + j) (can + j + 1)); [auto|lia].
      * rewrite A5 by auto. f_equal.
        destruct (Z.leb_spec (can + i) (can + j)), (Z.ltb_spec (can + j) (can + i + 1)); cbn [andb]; auto; lia.
    + rewrite nth_put_other in Q by auto. destruct (t_chunk0 q d Q) as (A1 & A2 & A3).
      split; auto. split; auto. intros L. destruct (A3 L) as [A4 A5]. split; auto.
      intros j J. rewrite byte_snoc. destruct (Nat.eqb_spec p q); [congruence|]. cbn [andb]. auto.
  - intros q Q. rewrite status_snoc. apply t_none0. apply nth_error_None. apply nth_error_None in Q.
    rewrite length_put in Q. auto.
  - rewrite returned_snoc, length_put, t_ret0. lia.
  - intros x. rewrite (cnt_put x _ _ _ _ NE). unfold mine. cbn [k_owner k_live]. rewrite t_count0. lia.
  - rewrite guards_snoc. auto.
Qed.

Lemma step_told : forall h w o r w', told h w -> sized o -> h_step w o = Ok (r, w') ->
  told (h ++ [(o, r)]) w'.
Proof.
  intros h w o r w' T S H.
  assert (SAME : forall r w', chunks w' = chunks w -> n_allocs w' = n_allocs w ->
    (g_leak w', g_over w', g_own w') = (g_leak w, g_over w, g_own w) ->
    match o with SizeOf _ _ | Load _ _ | Destroy _ | Count _ | Fails _ => True | _ => False end ->
    told (h ++ [(o, r)]) w').
  { intros r0 w0 E1 E2 E3 O. apply told_same with (w := w); auto; intros;
      rewrite ?status_snoc, ?byte_snoc, ?returned_snoc, ?guards_snoc; destruct o; try destruct O; auto;
      rewrite E3; apply T. }
  destruct o; cbn [h_step] in H.
  - destruct (h_allocate w a size given) as [(p, w1)| |] eqn:E; cbn [bind fst snd] in H; try discriminate H.
    injection H as <- <-. eapply alloc_ok; eauto.
  - destruct (h_deallocate w a p) as [w1| |] eqn:E; cbn [bind] in H; try discriminate H.
    injection H as <- <-. apply dealloc_ok with (w := w); auto.
  - destruct (h_allocated_size w a p) as [(v, w1)| |] eqn:E; cbn [bind fst snd] in H; try discriminate H.
    injection H as <- <-. unfold h_allocated_size in E. destruct p as [p|]; [|discriminate E].
    destruct (look w p) as [c| |]; cbn [bind] in E; try discriminate E.
    destruct (negb (k_owner c =? a)); [destruct (g_own w) eqn:GO; [discriminate E|]|]; injection E as <- <-; apply SAME; auto; cbn; rewrite ?GO; auto.
  - destruct (h_store w p i v) as [w1| |] eqn:E; cbn [bind] in H; try discriminate H.
    injection H as <- <-. apply store_ok with (w := w); auto.
  - destruct (h_load w p i) as [v| |]; cbn [bind] in H; try discriminate H. injection H as <- <-. apply SAME; auto.
  - injection H as <- <-. apply told_same with (w := w); auto; intros;
      rewrite ?status_snoc, ?byte_snoc, ?returned_snoc, ?guards_snoc; auto.
  - unfold h_destroy in H. destruct (negb (n_allocs w a =? 0)); [destruct (g_leak w) eqn:GL|]; cbn [bind] in H; try discriminate H;
      injection H as <- <-; apply SAME; auto; cbn; rewrite ?GL; auto.
  - injection H as <- <-. apply SAME; auto.
  - injection H as <- <-. apply SAME; auto.
Qed.

Lemma run_told : forall os h0 w0 h w, told h0 w0 -> Forall sized os -> h_run w0 os = Ok (h, w) ->
  told (h0 ++ h) w.
Proof.
  induction os as [|o os IH]; intros h0 w0 h w T S H; cbn [h_run] in H.
  - injection H as <- <-. rewrite app_nil_r. auto.
  - inversion S; subst. destruct (h_step w0 o) as [(r, w1)| |] eqn:E; cbn [bind fst snd] in H; try discriminate H.
    destruct (h_run w1 os) as [(h2, w2)| |] eqn:R; cbn [bind fst snd] in H; try discriminate H.
    injection H as <- <-. change ((o, r) :: h2) with ([(o, r)] ++ h2). rewrite app_assoc.
    eapply IH; eauto. eapply step_told; eauto.
Qed.

Lemma in_use_count : forall h w a, told h w -> n_allocs w a = Z.of_nat (length (in_use_of h a)).
Proof.
  intros h w a T. rewrite (t_count _ _ T). unfold cnt, in_use_of. rewrite (t_ret _ _ T). f_equal. symmetry.
  apply filter_index. intros p c N. cbn [Nat.add]. rewrite (proj1 (t_chunk _ _ T p c N)). auto.
Qed.
