From Verif Require Import Base Base_lemmas StrBuilder_model StrBuilder_spec.

Lemma put_at_spec : forall s buf i, (i + length s <= length buf)%nat ->
  put_at buf i s = Ok (firstn i buf ++ s ++ skipn (i + length s) buf).
Proof.
  induction s as [|c s IH]; intros buf i H; cbn [put_at length] in *.
  - rewrite Nat.add_0_r. cbn [app]. rewrite firstn_skipn. reflexivity.
  - unfold wr. replace (i <? length buf)%nat with true by lia. cbn [bind].
    rewrite IH by (rewrite length_upd; lia). f_equal.
    assert (E : upd buf i c = firstn i buf ++ c :: skipn (S i) buf).
    { clear IH. revert i H. induction buf as [|b buf IHb]; intros i H; cbn in H; [lia|].
      destruct i; cbn; [reflexivity|]. f_equal. apply IHb. lia. }
    rewrite E.
    assert (L : length (firstn i buf) = i) by (rewrite firstn_length; lia).
    rewrite (firstn_app (S i)), L, firstn_all2 by lia.
    replace (S i - i)%nat with 1%nat by lia. cbn [firstn].
    rewrite <- app_assoc. cbn [app]. do 2 f_equal. f_equal.
    replace (S i + length s)%nat with (i + S (length s))%nat by lia.
    rewrite skipn_app, L. rewrite (skipn_all2 (firstn i buf)) by lia. cbn [app].
    replace (i + S (length s) - i)%nat with (S (length s)) by lia.
    change (skipn (S (length s)) (c :: skipn (S i) buf)) with (skipn (length s) (skipn (S i) buf)).
    rewrite Base_lemmas.skipn_skipn. f_equal. lia.
Qed.

(** Static buffer of [n >= 1] bytes: invariant relative to text [t]. *)
Definition sinv (n : nat) (t : list Z) (s : sb) : Prop :=
  exists rest,
    let k := Nat.min (length t) (n - 1) in
    sb_buf s = Some (firstn k t ++ 0 :: rest) /\ (k + 1 + length rest = n)%nat /\
    sb_max s = n /\ sb_cur s = (k + 1)%nat /\ sb_proc s = length t /\
    sb_written s = k /\ sb_werr s = false /\ sb_trunc s = (n - 1 <? length t)%nat.

Lemma sb_reset_inv n t s : (0 < n)%nat -> sinv n t s -> exists s', sb_reset s = Ok s' /\ sinv n [] s'.
Proof.
  intros Hn (rest & B & R & M & C & P & W & E & T). unfold sb_reset. rewrite E, B, M.
  replace (n =? 0)%nat with false by lia.
  set (b0 := firstn _ t ++ 0 :: rest).
  assert (Hb : length b0 = n) by (unfold b0; rewrite app_length, firstn_length; cbn; lia).
  destruct b0 as [|x b] eqn:Eb; [cbn in Hb; lia|].
  unfold wr. cbn [length] in *. replace (0 <? S (length b))%nat with true by lia. cbn [bind upd].
  eexists; split; [reflexivity|]. exists b. cbn. repeat split; try lia.
Qed.

Lemma sb_append_inv n t s str : (0 < n)%nat -> sinv n t s ->
  exists s', sb_append s str = Ok (s', negb (n - 1 <? length (t ++ str))%nat) /\ sinv n (t ++ str) s'.
Proof.
  intros Hn (rest & B & R & M & C & P & W & E & T). unfold sb_append. cbn [sb_werr]. rewrite E.
  destruct str as [|c str0].
  { cbn [length Nat.eqb]. rewrite app_nil_r. eexists; split.
    - unfold sb_ok. cbn [sb_trunc sb_werr]. rewrite ?E, T. cbn [negb]. rewrite andb_true_r. reflexivity.
    - exists rest. cbn. rewrite Nat.add_0_r. repeat split; auto. }
  set (str := c :: str0). assert (Hl : (0 < length str)%nat) by (cbn; lia).
  replace (length str =? 0)%nat with false by lia.
  unfold sb_extend. cbn [sb_buf sb_max sb_cur sb_proc sb_written sb_trunc sb_werr].
  rewrite ?B, ?M, ?C, ?P, ?W, ?E, ?T.
  replace (n =? 0)%nat with false by lia.
  set (k := Nat.min (length t) (n - 1)) in *.
  set (w := if (n - (k + 1) <? length str)%nat then (n - (k + 1))%nat else length str).
  assert (Hw : w = Nat.min (length str) (n - 1 - k)) by (unfold w; clear; destruct (Nat.ltb_spec (n - (k + 1)) (length str)); lia).
  clearbody w.
  assert (Hk : k = Nat.min (length t) (n - 1)) by reflexivity. clearbody k.
  set (b := firstn k t ++ 0 :: rest).
  assert (Hft : length (firstn k t) = k) by (rewrite firstn_length; lia).
  assert (Hb : length b = n) by (unfold b; rewrite app_length; cbn; lia).
  unfold wr. replace (k + 1 + w - 1 <? length b)%nat with true by lia. cbn [bind].
  replace (k + 1 + w - 1)%nat with (k + w)%nat by lia.
  assert (HA : length (t ++ str) = (length t + length str)%nat) by apply app_length.
  (* the buffer after NUL and copy *)
  set (rest' := skipn (S w) (0 :: rest)).
  assert (Hu : upd b (k + w) 0 = firstn k t ++ firstn w (0 :: rest) ++ 0 :: rest').
  { unfold b. rewrite upd_app_r by lia. rewrite Hft. replace (k + w - k)%nat with w by lia. f_equal.
    assert (G : forall (l : list Z) i, (i < length l)%nat -> upd l i 0 = firstn i l ++ 0 :: skipn (S i) l).
    { clear. induction l as [|x l IH]; intros i H; cbn in H; [lia|]. destruct i; cbn; [reflexivity|]. f_equal. apply IH. lia. }
    apply G. cbn. lia. }
  assert (Hr' : length rest' = (n - 1 - k - w)%nat) by (unfold rest'; cbn [skipn]; rewrite skipn_length; lia).
  assert (HF : firstn (Nat.min (length (t ++ str)) (n - 1)) (t ++ str) = firstn k t ++ firstn w str).
  { destruct (Nat.le_gt_cases (length t) (n - 1)).
    - replace k with (length t) in * by lia. rewrite firstn_app, !(firstn_all2 t) by lia.
      f_equal. f_equal. lia.
    - replace k with (n - 1)%nat in * by lia. replace w with 0%nat by lia. cbn [firstn]. rewrite app_nil_r.
      rewrite firstn_app. replace (Nat.min (length (t ++ str)) (n - 1)) with (n - 1)%nat by lia.
      replace (n - 1 - length t)%nat with 0%nat by lia. cbn [firstn]. rewrite app_nil_r. reflexivity. }
  cbn [sb_ptr sb_buf sb_max sb_cur sb_proc sb_written sb_trunc sb_werr].
  replace (k + 1 - 1)%nat with k by lia.
  assert (Hput : (0 < w)%nat -> put_at (upd b (k + w) 0) k (firstn w str) = Ok (firstn k t ++ firstn w str ++ 0 :: rest')).
  { intros Hwp. rewrite put_at_spec.
    2:{ rewrite length_upd, firstn_length. lia. }
    rewrite Hu, firstn_length. replace (Nat.min w (length str)) with w by lia. f_equal.
    rewrite firstn_app, Hft, Nat.sub_diag. rewrite (firstn_all2 (firstn k t)) by lia. cbn [firstn app].
    rewrite app_nil_r. f_equal. f_equal.
    rewrite skipn_app, Hft, (skipn_all2 (firstn k t)) by lia. cbn [app].
    replace (k + w - k)%nat with w by lia.
    rewrite skipn_app, firstn_length. rewrite (skipn_all2 (firstn w (0 :: rest))) by (rewrite firstn_length; lia).
    cbn [app length]. replace (w - Nat.min w (S (length rest)))%nat with 0%nat by lia. reflexivity. }
  assert (Hz : w = 0%nat -> upd b (k + w) 0 = firstn k t ++ firstn w str ++ 0 :: rest').
  { intros Hw0. rewrite Hu, Hw0. reflexivity. }
  destruct (0 <? w)%nat eqn:Ew.
  - rewrite Hput by lia. cbn [bind].
    destruct (w <? length str)%nat eqn:Et; cbn [sb_ok sb_trunc sb_werr sb_buf sb_max sb_cur sb_ptr sb_proc sb_written];
    (eexists; split; [do 2 f_equal; unfold sb_ok; cbn [sb_trunc sb_werr negb]; rewrite ?andb_true_r; lia|]);
      exists rest'; cbn [sb_trunc sb_werr sb_buf sb_max sb_cur sb_ptr sb_proc sb_written]; rewrite HF, <- app_assoc; cbn [app];
      repeat split; lia.
  - replace w with 0%nat in * by lia. rewrite Hz by lia. cbn [bind].
    replace (0 <? length str)%nat with true by lia.
    eexists; split; [do 2 f_equal; unfold sb_ok; cbn [sb_trunc sb_werr negb]; lia|].
    exists rest'; cbn [sb_trunc sb_werr sb_buf sb_max sb_cur sb_ptr sb_proc sb_written]; rewrite HF, <- app_assoc; cbn [app];
      repeat split; lia.
Qed.

Lemma sb_new_inv buf : (0 < length buf)%nat -> exists s, sb_new (Some buf) (length buf) = Ok s /\ sinv (length buf) [] s.
Proof.
  intros H. unfold sb_new, sb_reset. cbn [sb_werr sb_buf sb_max].
  replace (length buf =? 0)%nat with false by lia.
  destruct buf as [|x b]; [cbn in H; lia|]. unfold wr. cbn [length]. replace (0 <? S (length b))%nat with true by lia.
  cbn [bind upd]. eexists; split; [reflexivity|]. exists b. cbn. repeat split; lia.
Qed.

Lemma sb_run_inv n : (0 < n)%nat -> forall ops s t, sinv n t s ->
  exists s', sb_run s ops = Ok s' /\ sinv n (text t ops) s'.
Proof.
  intros Hn. induction ops as [|[x|x] ops IH]; intros s t Hi; cbn [sb_run text].
  - eauto.
  - unfold sb_assign. destruct (sb_reset_inv n t s Hn Hi) as (s1 & -> & H1). cbn [bind].
    destruct (sb_append_inv n [] s1 x Hn H1) as (s2 & -> & H2). cbn [bind fst]. apply IH. exact H2.
  - destruct (sb_append_inv n t s x Hn Hi) as (s2 & -> & H2). cbn [bind fst]. apply IH. exact H2.
Qed.

(** NULL buffer. *)
Definition ninv (n : nat) (t : list Z) (s : sb) : Prop :=
  sb_buf s = None /\ sb_max s = n /\ sb_proc s = length t /\ sb_werr s = false /\
  (n = 0%nat -> sb_trunc s = false) /\
  ((0 < n)%nat -> sb_cur s = (Nat.min (length t) (n - 1) + 1)%nat /\ sb_trunc s = (n - 1 <? length t)%nat).

Lemma nsb_append_inv n t s str : ninv n t s ->
  exists s' b, sb_append s str = Ok (s', b) /\ ninv n (t ++ str) s'.
Proof.
  intros (B & M & P & E & T0 & T1). unfold sb_append. cbn [sb_werr]. rewrite E.
  destruct (length str =? 0)%nat eqn:El.
  { destruct str; [|cbn in El; lia]. cbn [length]. rewrite app_nil_r. do 2 eexists. split; [reflexivity|].
    unfold ninv. cbn. rewrite Nat.add_0_r. repeat split; auto; apply T1; auto. }
  unfold sb_extend. cbn [sb_buf sb_max sb_cur sb_proc sb_written sb_trunc sb_werr]. rewrite B, M.
  assert (HA : length (t ++ str) = (length t + length str)%nat) by apply app_length.
  destruct (n =? 0)%nat eqn:En.
  - cbn [bind]. cbn [sb_ptr sb_buf]. rewrite ?B.
    assert (H : forall X : sb, (match sb_ptr s with Some _ => Ok X | None => Ok X end) = Ok X) by (intros; destruct (sb_ptr s); auto).
    replace (0 <? length str)%nat with true by lia.
    rewrite H. cbn [bind]. rewrite Nat.ltb_irrefl. do 2 eexists; split; [reflexivity|].
    unfold ninv; cbn. rewrite HA. split; [reflexivity|]. split; [lia|]. split; [lia|]. split; [reflexivity|].
    split; [exact T0|]. lia.
  - cbn [bind]. destruct (T1 ltac:(lia)) as [C T]. cbn [sb_ptr sb_buf].
    set (w := if (_ <? length str)%nat then _ else _). assert (Hw : w = Nat.min (length str) (n - 1 - Nat.min (length t) (n-1))).
    { unfold w. rewrite C. clear. match goal with |- context [(?a <? ?b)%nat] => destruct (Nat.ltb_spec a b) end; lia. }
    clearbody w.
    assert (H : forall X : sb, (if (0 <? w)%nat then match sb_ptr s with Some _ => Ok X | None => Ok X end else Ok X) = Ok X) by (intros; destruct (0 <? w)%nat, (sb_ptr s); auto).
    rewrite H. cbn [bind]. do 2 eexists; split; [reflexivity|].
    destruct (w <? length str)%nat eqn:Et; unfold ninv; cbn [sb_buf sb_max sb_cur sb_ptr sb_proc sb_written sb_trunc sb_werr]; rewrite ?C, ?T, ?HA; (split; [reflexivity|]); repeat split; try lia; intros; try congruence; lia.
Qed.

Lemma nsb_run_inv n : forall ops s t, ninv n t s ->
  exists s', sb_run s ops = Ok s' /\ ninv n (text t ops) s'.
Proof.
  induction ops as [|[x|x] ops IH]; intros s t Hi; cbn [sb_run text].
  - eauto.
  - unfold sb_assign, sb_reset. destruct Hi as (B & M & P & E & T0 & T1). rewrite E, B. cbn [bind].
    destruct (nsb_append_inv n [] (mkSb None (sb_max s) 1 None 0 0 false false) x) as (s2 & b & E2 & H2).
    { unfold ninv. cbn. repeat split; auto. }
    rewrite E2. cbn [bind fst]. apply IH. exact H2.
  - destruct (nsb_append_inv n t s x Hi) as (s2 & b & -> & H2). cbn [bind fst]. apply IH. exact H2.
Qed.

(** append_uint *)
Lemma char_digit_char d : 0 <= d < 16 -> char_digit (digit_char d) = d.
Proof. intros. unfold char_digit, digit_char. destruct (d <? 10) eqn:E; destruct (_ <=? 57) eqn:E2; lia. Qed.

Lemma value_gen base s v : fold_left (fun v c => v * base + char_digit c) s v =
  v * base ^ Z.of_nat (length s) + value base s.
Proof.
  unfold value. revert v. induction s as [|c s IH]; intros v; cbn [fold_left length].
  - cbn. lia.
  - rewrite IH, (IH (0 * base + char_digit c)). rewrite Nat2Z.inj_succ, Z.pow_succ_r by lia. ring.
Qed.

Lemma value_cons base c s : value base (c :: s) = char_digit c * base ^ Z.of_nat (length s) + value base s.
Proof. unfold value at 1. cbn [fold_left]. rewrite value_gen. replace (0 * base + char_digit c) with (char_digit c) by lia. reflexivity. Qed.

Lemma uint_loop_spec base : 2 <= base <= 16 -> forall fuel n pos acc,
  0 <= n -> n < base ^ Z.of_nat fuel -> (0 < fuel)%nat -> Z.of_nat fuel <= pos + 1 ->
  exists ds, uint_loop fuel base n pos acc = Ok (ds ++ acc) /\ value base ds = n /\ ds <> [] /\
    Forall (fun c => 48 <= c <= 57 \/ 65 <= c <= 70) ds /\ Forall (fun c => 0 <= char_digit c < base) ds /\
    (forall x y l, ds = x :: y :: l -> x <> 48).
Proof.
  intros Hb. induction fuel as [|f IH]; intros n pos acc Hn Hlt Hf Hp; [lia|].
  cbn [uint_loop]. replace (pos <? 0) with false by lia.
  assert (Hm : 0 <= n mod base < base) by (apply Z.mod_pos_bound; lia).
  assert (Hc : 48 <= digit_char (n mod base) <= 57 \/ 65 <= digit_char (n mod base) <= 70).
  { unfold digit_char. set (m := n mod base) in *. clearbody m. destruct (m <? 10) eqn:E; lia. }
  assert (Hd : char_digit (digit_char (n mod base)) = n mod base) by (apply char_digit_char; lia).
  assert (HD : n = base * (n / base) + n mod base) by (apply Z.div_mod; lia).
  assert (Hq : 0 <= n / base) by (apply Z.div_pos; lia).
  destruct (0 <? n / base) eqn:E.
  - assert (Hq2 : n / base < base ^ Z.of_nat f).
    { rewrite Nat2Z.inj_succ, Z.pow_succ_r in Hlt by lia. apply Z.div_lt_upper_bound; lia. }
    assert (Hf2 : (0 < f)%nat).
    { destruct f; [|lia]. change (base ^ Z.of_nat 0) with 1 in Hq2. lia. }
    destruct (IH (n / base) (pos - 1) (digit_char (n mod base) :: acc)) as (ds & E1 & E2 & E3 & E4 & E5 & E6); try lia.
    exists (ds ++ [digit_char (n mod base)]). rewrite <- app_assoc. split; [exact E1|].
    split.
    { unfold value. rewrite fold_left_app. cbn [fold_left]. fold (value base ds). rewrite E2, Hd. lia. }
    split; [destruct ds; discriminate|].
    split; [apply Forall_app; split; [exact E4|constructor; [exact Hc|constructor]]|].
    split; [apply Forall_app; split; [exact E5|constructor; [rewrite Hd; exact Hm|constructor]]|].
    intros x y l EE. destruct ds as [|d1 [|d2 ds]]; [contradiction| |].
    + cbn in EE. injection EE as -> _ _. intros ->.
      assert (value base [48] = 0) by reflexivity. lia.
    + cbn in EE. injection EE as -> _ _. eapply E6. reflexivity.
  - exists [digit_char (n mod base)]. split; [reflexivity|].
    split; [unfold value; cbn [fold_left]; rewrite Hd; lia|]. split; [discriminate|].
    split; [constructor; [exact Hc|constructor]|]. split; [constructor; [rewrite Hd; exact Hm|constructor]|].
    intros x y l EE. discriminate.
Qed.

Lemma uint_loop_fuel base : forall fuel k n pos acc r, uint_loop fuel base n pos acc = Ok r ->
  uint_loop (fuel + k) base n pos acc = Ok r.
Proof.
  induction fuel as [|f IH]; intros k n pos acc r; cbn [uint_loop Nat.add]; [discriminate|].
  destruct (pos <? 0); [discriminate|]. destruct (0 <? n / base); auto.
Qed.

Lemma uint_digits_spec n base : 2 <= base <= 16 -> 0 <= n < 18446744073709551616 ->
  exists ds, uint_digits n base = Ok ds /\ value base ds = n /\ ds <> [] /\
    Forall (fun c => 48 <= c <= 57 \/ 65 <= c <= 70) ds /\ Forall (fun c => 0 <= char_digit c < base) ds /\
    (forall x y l, ds = x :: y :: l -> x <> 48).
Proof.
  intros Hb Hn. unfold uint_digits. replace ((2 <=? base) && (base <=? 16)) with true by lia. cbn [negb].
  assert (HL : n < base ^ Z.of_nat 64).
  { apply Z.lt_le_trans with (2 ^ 64); [exact (proj2 Hn)|]. change (Z.of_nat 64) with 64. apply Z.pow_le_mono_l. lia. }
  assert (H64 : Z.of_nat 64 <= 127 + 1) by (vm_compute; discriminate).
  assert (H0 : (0 < 64)%nat) by (apply Nat.ltb_lt; reflexivity).
  destruct (uint_loop_spec base Hb 64 n 127 [] (proj1 Hn) HL H0 H64) as (ds & E & H).
  rewrite app_nil_r in E. exists ds. split; [|exact H]. exact (uint_loop_fuel base 64 65 n 127 [] ds E).
Qed.

(** Dynamic buffer. *)
Lemma db_run_spec : forall ops s t,
  (db_werr s = false -> db_data s = t /\ db_written s = length t) -> db_proc s = length t ->
  let s' := db_run s ops in
  (db_werr s' = false -> db_data s' = dtext t ops /\ db_written s' = length (dtext t ops)) /\
  db_proc s' = length (dtext t ops).
Proof.
  induction ops as [|[x a|x a1 a2] ops IH]; intros s t H1 H2; cbn [db_run dtext]; [auto| |].
  - apply IH.
    + unfold db_append, db_reset. destruct (db_werr s) eqn:E; cbn; [discriminate|].
      destruct (length x =? 0)%nat eqn:El; cbn; [destruct x; [auto|cbn in El; lia]|].
      destruct a; cbn; [auto|discriminate].
    + unfold db_append, db_reset. destruct (db_werr s) eqn:E; cbn; [reflexivity|].
      destruct (length x =? 0)%nat eqn:El; cbn; [reflexivity|]. destruct a; reflexivity.
  - apply IH.
    + unfold db_append. cbn [db_werr]. destruct (db_werr s) eqn:E; cbn; [congruence|].
      destruct (H1 eq_refl) as [D W].
      destruct a1; cbn; [|discriminate].
      destruct (length x =? 0)%nat eqn:El; cbn.
      { destruct x; [|cbn in El; lia]. rewrite app_nil_r. rewrite ?E. auto. }
      destruct a2; cbn; [|discriminate]. intros _. rewrite D, W, app_length. auto.
    + unfold db_append. cbn [db_werr]. rewrite app_length. destruct (db_werr s) eqn:E; cbn; [lia|].
      destruct a1; cbn; [|lia]. destruct (length x =? 0)%nat; cbn; [lia|]. destruct a2; cbn; lia.
Qed.

(** Without allocation failure the dynamic builder never fails. *)
Definition no_failure (o : db_op) : Prop :=
  match o with DbAssign _ a => a = true | DbAppend _ a1 a2 => a1 = true /\ a2 = true end.
Lemma db_run_ok : forall ops s, db_werr s = false -> Forall no_failure ops -> db_werr (db_run s ops) = false.
Proof.
  induction ops as [|[x a|x a1 a2] ops IH]; intros s H F; cbn [db_run]; auto; rewrite Forall_cons_iff in F; destruct F as [F1 F].
  - cbn in F1; subst. apply IH; auto. unfold db_append, db_reset. rewrite H. cbn. destruct (length x =? 0)%nat; reflexivity.
  - destruct F1 as [-> ->]. apply IH; auto. unfold db_append. cbn. rewrite H. destruct (length x =? 0)%nat; cbn; auto.
Qed.
