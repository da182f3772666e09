(** C37: channel sets behave as finite sets. *)
From Coq Require Import FinFun.
From Verif Require Import Base Base_lemmas ChannelSet_model ChannelSet_spec ChannelSet_proof.

(** num_channels, first_channel and last_channel agree with has_channel. *)
Theorem C37_queries : forall s, built s ->
  (forall c, 0 <= c -> (has_channel s c = Panic <-> 1024 <= c)) /\
  num_channels s = Z.of_nat (length (members s)) /\ NoDup (members s) /\
  (members s = [] -> first_channel s = Panic /\ last_channel s = Panic) /\
  (members s <> [] -> exists f l, first_channel s = Ok f /\ last_channel s = Ok l /\ In f (members s) /\ In l (members s) /\
     forall c, In c (members s) -> f <= c <= l).
Proof.
  intros s B. pose proof (built_ok s B) as O. destruct (ok_index s O) as (N & F & L).
  split; [|split; [exact N|split; [|split]]].
  - intros c C. unfold has_channel, max_chans. destruct (Z.leb_spec 1024 c); split; intros; auto; try discriminate; lia.
  - unfold members. apply NoDup_filter. apply FinFun.Injective_map_NoDup; [intros x y; lia|apply seq_NoDup].
  - intros E. unfold first_channel, last_channel. rewrite N, E. auto.
  - intros E. unfold first_channel, last_channel. destruct (Z.eqb_spec (ch_num s) 0) as [Z0|_].
    + exfalso. apply E. rewrite N in Z0. destruct (members s); auto. cbn in Z0. lia.
    + pose proof (sorted_members (wbit (ch_words s)) 0 (Z.to_nat 1024)) as S. cbv zeta in S. rewrite <- members_eq in S.
      destruct (S E) as (A & C & D). exists (ch_first s), (ch_last s). rewrite F, L. auto.
Qed.

Ltac reok W := match goal with |- context [mem (reindex ?s ?ws) _] => rewrite mem_wbit by lia; unfold reindex; rewrite index_words by W end.

(** Every modifying operation changes membership exactly as the set operation. *)
Theorem C37_toggle : forall s n e, built s -> 0 <= n ->
  (ch_toggle s n e = Panic <-> 1024 <= n) /\
  (forall s', ch_toggle s n e = Ok s' -> forall c, 0 <= c -> mem s' c = if c =? n then e else mem s c).
Proof.
  intros s n e B N. destruct (built_ok s B) as [W _]. unfold ch_toggle, max_chans. destruct (Z.leb_spec 1024 n) as [G|G].
  - split; [split; auto|discriminate].
  - split; [split; [discriminate|lia]|]. intros s' HH c C.
    match type of HH with Ok ?y = Ok ?x => assert (X : x = y) by congruence end. rewrite X. clear HH X.
    assert (W2 : words_ok (if e then set_bit (ch_words s) n else clr_bit (ch_words s) n)) by (destruct e; [apply set_bit_ok|apply clr_bit_ok]; auto).
    reok ltac:(exact W2). rewrite mem_wbit by lia. destruct e; [rewrite set_bit_spec by auto|rewrite clr_bit_spec by auto];
    destruct (Z.eqb_spec c n), (Z.ltb_spec c 1024); cbn; auto; try lia.
Qed.

Theorem C37_toggle_range : forall s from to e, built s -> 0 <= from -> 0 <= to ->
  (ch_toggle_range s from to e = Panic <-> 1024 <= to \/ to < from) /\
  (forall s', ch_toggle_range s from to e = Ok s' -> forall c, 0 <= c -> mem s' c = if (from <=? c) && (c <=? to) then e else mem s c).
Proof.
  intros s from to e B F T. destruct (built_ok s B) as [W _]. unfold ch_toggle_range, max_chans.
  destruct (Z.leb_spec 1024 from); [cbn; split; [split; [lia|auto]|discriminate]|].
  destruct (Z.leb_spec 1024 to); [cbn; split; [split; [lia|auto]|discriminate]|]. cbn [orb].
  destruct (Z.ltb_spec to from); [split; [split; auto|discriminate]|].
  split; [split; [discriminate|lia]|]. intros s' HH c C.
  match type of HH with Ok ?y = Ok ?x => assert (X : x = y) by congruence end. rewrite X. clear HH X.
  assert (E : (c <? from + Z.of_nat (Z.to_nat (to - from + 1))) = (c <=? to)) by (destruct (Z.ltb_spec c (from + Z.of_nat (Z.to_nat (to - from + 1)))), (Z.leb_spec c to); auto; lia).
  destruct e.
  - destruct (range_set (Z.to_nat (to - from + 1)) (ch_words s) from c W) as [W2 R]; try lia.
    reok ltac:(exact W2). rewrite R, E, mem_wbit by lia. destruct (Z.leb_spec from c), (Z.leb_spec c to), (Z.ltb_spec c 1024); cbn; auto; lia.
  - destruct (range_clr (Z.to_nat (to - from + 1)) (ch_words s) from c W) as [W2 R]; try lia.
    reok ltac:(exact W2). rewrite R, E, mem_wbit by lia. destruct (Z.leb_spec from c), (Z.leb_spec c to), (Z.ltb_spec c 1024); cbn; auto; lia.
Qed.

Theorem C37_set_range : forall s from to, built s -> 0 <= from -> 0 <= to ->
  (ch_set_range s from to = Panic <-> 1024 <= to \/ to < from) /\
  (forall s', ch_set_range s from to = Ok s' -> forall c, 0 <= c -> mem s' c = ((from <=? c) && (c <=? to))).
Proof.
  intros s from to B F T. unfold ch_set_range, max_chans.
  destruct (Z.leb_spec 1024 from); [cbn; split; [split; [lia|auto]|discriminate]|].
  destruct (Z.leb_spec 1024 to); [cbn; split; [split; [lia|auto]|discriminate]|]. cbn [orb].
  destruct (Z.ltb_spec to from); [split; [split; auto|discriminate]|].
  split; [split; [discriminate|lia]|]. intros s' HH c C.
  match type of HH with Ok ?y = Ok ?x => assert (X : x = y) by congruence end. rewrite X. clear HH X.
  assert (E : (c <? from + Z.of_nat (Z.to_nat (to - from + 1))) = (c <=? to)) by (destruct (Z.ltb_spec c (from + Z.of_nat (Z.to_nat (to - from + 1)))), (Z.leb_spec c to); auto; lia).
  destruct (range_set (Z.to_nat (to - from + 1)) no_words from c no_words_ok) as [W2 R]; try lia.
  reok ltac:(exact W2). rewrite R, E, wbit_no. destruct (Z.leb_spec from c), (Z.leb_spec c to), (Z.ltb_spec c 1024); cbn; auto; lia.
Qed.

Theorem C37_set_mask : forall s mask c, built s -> 0 <= mask < 2 ^ 32 -> 0 <= c ->
  mem (ch_set_mask s mask) c = in_mask mask c.
Proof.
  intros s mask c B M C. unfold ch_set_mask. reok ltac:(apply mask_ok; exact M). rewrite wbit_mask by auto. unfold in_mask.
  destruct (Z.ltb_spec c 1024); auto. cbn. symmetry. apply (lt_bits _ 32); auto. lia.
Qed.

(** set_count(n) gives a set of n channels, for every n below 1024. *)
Theorem C37_set_count : forall s n, built s -> 0 <= n ->
  (ch_set_count s n = Panic <-> 1024 <= n) /\
  (forall s', ch_set_count s n = Ok s' -> num_channels s' = n /\ length (members s') = Z.to_nat n).
Proof.
  intros s n B N.
  assert (P : ch_set_count s n = Panic <-> 1024 <= n).
  { unfold ch_set_count, max_chans. destruct (Z.leb_spec 1024 n); [tauto|].
    do 8 (match goal with |- context [if ?c then _ else _] => destruct c eqn:? end; [split; [discriminate|lia]|]).
    unfold ch_set_range, max_chans. change (1024 <=? 0) with false. destruct (Z.leb_spec 1024 (n - 1)); [lia|]. cbn [orb].
    destruct (Z.ltb_spec (n - 1) 0); [lia|]. split; [discriminate|lia]. }
  split; auto. intros s' H.
  assert (Bs : built s') by (apply (b_count s n); auto).
  pose proof (ok_index s' (built_ok s' Bs)) as [Q _]. unfold num_channels.
  enough (length (members s') = Z.to_nat n) as E by (rewrite Q, E; split; auto; lia).
  assert (G : forall mask, 0 <= mask < 2 ^ 32 -> members (ch_set_mask s mask) = filter (in_mask mask) (map Z.of_nat (seq 0 (Z.to_nat 1024)))).
  { intros mask M. unfold members. apply filter_ext_in. intros c Hc. apply C37_set_mask; auto. apply in_map_iff in Hc. destruct Hc as (j & <- & _). lia. }
  unfold ch_set_count in H. destruct (max_chans <=? n); [discriminate|].
  do 8 (match type of H with (if ?c then _ else _) = _ => destruct c eqn:D end;
    [apply Z.eqb_eq in D; subst n; injection H as <-; rewrite G by (vm_compute; split; congruence); vm_compute; reflexivity|clear D]).
  destruct (Z.eq_dec n 0) as [->|NZ]; [cbn in H; discriminate|].
  destruct (C37_set_range s 0 (n - 1) B ltac:(lia) ltac:(lia)) as [P2 M2]. specialize (M2 s' H).
  assert (n <= 1024) by (destruct (Z.le_gt_cases n 1024); auto; exfalso; assert (ch_set_range s 0 (n - 1) = Panic) by (apply P2; lia); congruence).
  unfold members.
  assert (K : forall k j, (Z.to_nat n <= j + k)%nat -> length (filter (mem s') (map Z.of_nat (seq j k))) = (Z.to_nat n - j)%nat).
  { induction k as [|k IH]; intros j J; cbn [seq map filter]; [cbn; lia|]. rewrite M2 by lia.
    destruct (Z.leb_spec 0 (Z.of_nat j)), (Z.leb_spec (Z.of_nat j) (n - 1)); cbn [andb length]; try rewrite IH by lia; lia. }
  rewrite K; lia.
Qed.

(** The largest set has 1024 channels, but set_count(1024) panics. *)
Theorem C37_set_count_max_refuted :
  ch_set_count ch_empty 1024 = Panic /\ exists s, ch_set_range ch_empty 0 1023 = Ok s /\ num_channels s = 1024.
Proof. split; [reflexivity|]. eexists. split; [vm_compute; reflexivity|reflexivity]. Qed.

Theorem C37_bitwise : forall s o c, built s -> built o -> 0 <= c ->
  mem (ch_and s o) c = mem s c && mem o c /\
  mem (ch_or s o) c = mem s c || mem o c /\
  mem (ch_xor s o) c = xorb (mem s c) (mem o c).
Proof.
  intros s o c Bs Bo C. destruct (built_ok s Bs) as [Ws _]. destruct (built_ok o Bo) as [Wo _].
  rewrite (mem_wbit s), (mem_wbit o) by lia.
  destruct (Z.ltb_spec c 1024) as [L|L]; cbn [andb orb xorb].
  - unfold ch_and, ch_or, ch_xor. split; [|split].
    + reok ltac:(apply and_ok; auto). replace (c <? 1024) with true by lia. apply wbit_map2; auto; first [lia|apply Z.land_spec].
    + reok ltac:(apply or_ok; auto). replace (c <? 1024) with true by lia. apply wbit_map2; auto; first [lia|apply Z.lor_spec].
    + reok ltac:(apply xor_ok; auto). replace (c <? 1024) with true by lia. apply wbit_map2; auto; first [lia|apply Z.lxor_spec].
  - rewrite !mem_wbit by lia. replace (c <? 1024) with false by lia. auto.
Qed.

(** Comparison with masks. *)
Lemma all_bits : forall s mask (P : bool -> bool -> Prop), ok s -> 0 <= mask < 2 ^ 32 -> ch_last s < 64 -> P false false ->
  ((forall c, 0 <= c < 64 -> P (mem s c) (in_mask mask c)) <-> (forall c, 0 <= c -> P (mem s c) (in_mask mask c))).
Proof.
  intros s mask P O M L PF. split; [|intros H c C; apply H; lia]. intros H c C. destruct (Z.lt_ge_cases c 64); auto.
  replace (in_mask mask c) with false by (symmetry; apply (lt_bits _ 32); auto; lia).
  replace (mem s c) with false; auto. symmetry. destruct (mem s c) eqn:E; auto. exfalso.
  assert (64 <= ch_last s); [|lia]. apply last_ge64; auto. exists c. split; auto. split; auto.
  rewrite mem_wbit in E by lia. destruct (Z.ltb_spec c 1024); [auto|discriminate].
Qed.
Lemma big_mem : forall s, ok s -> 64 <= ch_last s -> exists c, 64 <= c < 1024 /\ mem s c = true.
Proof. intros. now apply last_ge64. Qed.

Theorem C37_is_equal : forall s mask, built s -> 0 <= mask < 2 ^ 32 ->
  (ch_is_equal s mask = true <-> forall c, 0 <= c -> mem s c = in_mask mask c).
Proof.
  intros s mask B M. pose proof (built_ok s B) as O. unfold ch_is_equal, word_bits. destruct (Z.leb_spec 64 (ch_last s)) as [L|L].
  - split; [discriminate|]. intros H. destruct (big_mem s O L) as (c & R & E). rewrite H in E by lia. unfold in_mask in E. rewrite (lt_bits _ 32) in E; auto. lia.
  - rewrite <- (all_bits s mask eq O M L eq_refl). rewrite Z.eqb_eq. split.
    + intros E c C. rewrite <- word0 by auto. now rewrite E.
    + intros H. apply Z.bits_inj'. intros n Hn. destruct (Z.lt_ge_cases n 64).
      * rewrite word0 by lia. apply H. lia.
      * rewrite !(lt_bits _ 64); auto; [lia|apply word_range; apply O].
Qed.

Theorem C37_is_subset : forall s mask, built s -> 0 <= mask < 2 ^ 32 ->
  (ch_is_subset s mask = true <-> forall c, 0 <= c -> mem s c = true -> in_mask mask c = true).
Proof.
  intros s mask B M. pose proof (built_ok s B) as O. unfold ch_is_subset, word_bits. destruct (Z.leb_spec 64 (ch_last s)) as [L|L].
  - split; [discriminate|]. intros H. destruct (big_mem s O L) as (c & R & E). apply H in E; [|lia]. unfold in_mask in E. rewrite (lt_bits _ 32) in E; auto. lia.
  - rewrite <- (all_bits s mask (fun a b => a = true -> b = true) O M L (fun x => x)). rewrite Z.eqb_eq. split.
    + intros E c C. rewrite <- word0 by auto. rewrite <- E. rewrite Z.land_spec. intros H. apply andb_true_iff in H. tauto.
    + intros H. apply Z.bits_inj'. intros n Hn. rewrite Z.land_spec. destruct (Z.lt_ge_cases n 64).
      * rewrite word0 by lia. specialize (H n ltac:(lia)). unfold in_mask in H. destruct (mem s n); auto.
      * rewrite (lt_bits (word _ _) 64); auto. apply word_range. apply O.
Qed.

Theorem C37_is_superset : forall s mask, built s -> 0 <= mask < 2 ^ 32 -> (forall c, 64 <= c -> mem s c = false) ->
  (ch_is_superset s mask = true <-> forall c, 0 <= c -> in_mask mask c = true -> mem s c = true).
Proof.
  intros s mask B M NB. pose proof (built_ok s B) as O. unfold ch_is_superset, word_bits. destruct (Z.leb_spec 64 (ch_last s)) as [L|L].
  - exfalso. destruct (big_mem s O L) as (c & R & E). rewrite NB in E by lia. discriminate.
  - rewrite <- (all_bits s mask (fun a b => b = true -> a = true) O M L (fun x => x)). rewrite Z.eqb_eq. split.
    + intros E c C. rewrite <- word0 by auto. unfold in_mask. rewrite <- E at 1. rewrite Z.land_spec. intros H. apply andb_true_iff in H. tauto.
    + intros H. apply Z.bits_inj'. intros n Hn. rewrite Z.land_spec. destruct (Z.lt_ge_cases n 64).
      * rewrite word0 by lia. specialize (H n ltac:(lia)). unfold in_mask in H. destruct (Z.testbit mask n); [rewrite H; auto|apply andb_false_r].
      * rewrite (lt_bits mask 64); auto; [apply andb_false_r|lia].
Qed.

(** A set with a channel from 64 up claims to be a superset of every mask. *)
Theorem C37_is_superset_refuted : exists s, built s /\ members s = [100] /\ ch_is_superset s mask_stereo = true.
Proof.
  destruct (ch_toggle ch_empty 100 true) as [s| |] eqn:E; [|vm_compute in E; discriminate|vm_compute in E; discriminate].
  exists s. split; [apply (b_toggle ch_empty 100 true s b_empty ltac:(lia) E)|].
  vm_compute in E. injection E as <-. split; vm_compute; reflexivity.
Qed.

(** Sets compare equal exactly when layout, order and members are the same. *)
Theorem C37_eq : forall s o, built s -> built o ->
  (ch_eqb s o = true <-> ch_layout s = ch_layout o /\ ch_order s = ch_order o /\ forall c, 0 <= c -> mem s c = mem o c).
Proof.
  intros s o Bs Bo. destruct (built_ok s Bs) as [Ws _]. destruct (built_ok o Bo) as [Wo _].
  unfold ch_eqb. rewrite !andb_true_iff, words_eqb_spec.
  assert (A : layout_eqb (ch_layout s) (ch_layout o) = true <-> ch_layout s = ch_layout o) by (destruct (ch_layout s), (ch_layout o); cbn; split; congruence).
  assert (C : order_eqb (ch_order s) (ch_order o) = true <-> ch_order s = ch_order o) by (destruct (ch_order s), (ch_order o); cbn; split; congruence).
  rewrite A, C. split.
  - intros [[? ?] E]. split; auto. split; auto. intros c Hc. rewrite !mem_wbit by lia. now rewrite E.
  - intros (? & ? & E). split; auto. apply words_ext; auto. intros c Hc. specialize (E c ltac:(lia)). rewrite !mem_wbit in E by lia.
    replace (c <? 1024) with true in E by lia. exact E.
Qed.

(** The bytes of a set are its members, eight per byte, least significant first. *)
Theorem C37_bytes : forall s n, built s -> 0 <= n ->
  (byte_at s n = Panic <-> 128 <= n) /\
  (forall b, byte_at s n = Ok b -> 0 <= b < 256 /\ forall j, 0 <= j < 8 -> Z.testbit b j = mem s (8 * n + j)).
Proof.
  intros s n B N. destruct (built_ok s B) as [W _]. unfold byte_at, num_bytes. destruct (Z.leb_spec 128 n).
  - split; [tauto|discriminate].
  - split; [split; [discriminate|lia]|]. intros b E.
    match type of E with Ok ?y = Ok ?x => assert (X : x = y) by congruence end. rewrite X. clear E X. rewrite land_255. split; [lia|].
    intros j J. change 256 with (2 ^ 8). rewrite Z.mod_pow2_bits_low, Z.shiftr_spec by lia. rewrite mem_wbit by lia. replace (8 * n + j <? 1024) with true by lia.
    cbn [andb]. unfold wbit, word, word_bits. f_equal; [|lia]. do 2 f_equal. lia.
Qed.

(** is_valid() *)
Theorem C37_valid : forall s, built s ->
  (ch_is_valid s = true <->
    members s <> [] /\
    ((ch_layout s = LSurround /\ ch_order s <> ONone /\ forall c, In c (members s) -> c < 17) \/
     (ch_layout s = LMultitrack /\ ch_order s = ONone))).
Proof.
  intros s B. pose proof (built_ok s B) as O. destruct (ok_index s O) as (N & F & L).
  assert (E : negb (ch_num s =? 0) = true <-> members s <> []).
  { rewrite N, negb_true_iff, Z.eqb_neq. destruct (members s); cbn; split; intros; try congruence; lia. }
  unfold ch_is_valid. destruct (ch_layout s); [split; [discriminate|intros (_ & [(? & _)|(? & _)]); discriminate]| |].
  - rewrite !andb_true_iff, E, Z.ltb_lt. unfold pos_max.
    assert (C : negb (order_eqb (ch_order s) ONone) = true <-> ch_order s <> ONone) by (destruct (ch_order s); cbn; split; congruence). rewrite C.
    pose proof (sorted_members (wbit (ch_words s)) 0 (Z.to_nat 1024)) as S. cbv zeta in S. rewrite <- members_eq in S.
    split.
    + intros [[? M] ?]. split; auto. left. split; auto. split; auto. intros c Hc. destruct (S M) as (_ & _ & D). specialize (D c Hc). lia.
    + intros (M & [(_ & ? & D)|(? & _)]); [|discriminate]. split; auto. destruct (S M) as (_ & I & _). rewrite L. auto.
  - rewrite !andb_true_iff, E. assert (C : order_eqb (ch_order s) ONone = true <-> ch_order s = ONone) by (destruct (ch_order s); cbn; split; congruence). rewrite C. split.
    + intros [? ?]. split; auto.
    + intros (? & [(? & _)|(_ & ?)]); [discriminate|auto].
Qed.

Example C37_ex : exists a b, ch_make LSurround OSmpte mask_5_0 = Ok a /\ built a /\ members a = [0; 2; 4; 7; 9] /\ ch_is_valid a = true /\
  ch_toggle_range a 60 70 true = Ok b /\ members (ch_and b a) = [0; 2; 4; 7; 9] /\ members (ch_xor b a) = [60; 61; 62; 63; 64; 65; 66; 67; 68; 69; 70].
Proof.
  destruct (ch_make LSurround OSmpte mask_5_0) as [a| |] eqn:E; [|vm_compute in E; discriminate|vm_compute in E; discriminate].
  assert (Ba : built a) by (apply (b_make LSurround OSmpte mask_5_0); auto; vm_compute; split; congruence).
  vm_compute in E. injection E as <-. eexists. eexists. split; [reflexivity|]. split; [exact Ba|]. repeat split; vm_compute; reflexivity.
Qed.

Print Assumptions C37_queries.
Print Assumptions C37_toggle.
Print Assumptions C37_toggle_range.
Print Assumptions C37_set_range.
Print Assumptions C37_set_mask.
Print Assumptions C37_set_count.
Print Assumptions C37_set_count_max_refuted.
Print Assumptions C37_bitwise.
Print Assumptions C37_is_equal.
Print Assumptions C37_is_subset.
Print Assumptions C37_is_superset.
Print Assumptions C37_is_superset_refuted.
Print Assumptions C37_eq.
Print Assumptions C37_bytes.
Print Assumptions C37_valid.
