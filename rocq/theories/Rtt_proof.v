From Verif Require Import Base Ntp_model Ntp_proof Rtt_model Rtt_spec.
Open Scope res_scope.

Lemma int64_ok x : - 9223372036854775808 <= x < 9223372036854775808 -> int64 x = Ok x.
Proof. intros H. unfold int64. change (2 ^ 63) with 9223372036854775808. destruct (Z.leb_spec (- (9223372036854775808)) x); [|lia]. destruct (Z.ltb_spec x 9223372036854775808); [reflexivity|lia]. Qed.

Definition upd_ex (st : rtt) (e : exchange) : res rtt := rtt_update st (t1 e) (t2 e) (t3 e) (t4 e).
Fixpoint upd_all (st : rtt) (es : list exchange) : res rtt :=
  match es with [] => Ok st | e :: es => st <- upd_ex st e ;; upd_all st es end.

Lemma update_spec st e : in_range e -> 0 <= r_last st ->
  (plausible e /\ r_last st < t1 e /\
   upd_ex st e = Ok (mkRtt true (Z.quot ((t2 e - t1 e) + (t3 e - t4 e)) 2) (on_the_way e) (if r_first st =? 0 then t1 e else r_first st) (t1 e)))
  \/ (~ (plausible e /\ r_last st < t1 e) /\ upd_ex st e = Ok st).
Proof.
  destruct e as [a b c d]. unfold in_range, ntp_time, plausible, upd_ex, on_the_way. cbn [t1 t2 t3 t4]. intros H HL.
  unfold rtt_update.
  destruct (Z.leb_spec a d); cbn [negb orb]; [|right; split; [lia|reflexivity]].
  destruct (Z.leb_spec b c); cbn [negb]; [|right; split; [lia|reflexivity]].
  destruct (Z.leb_spec a (r_last st)); [right; split; [lia|reflexivity]|].
  rewrite (int64_ok (b - a)) by lia. cbn [bind].
  rewrite (int64_ok (c - d)) by lia. cbn [bind].
  rewrite (int64_ok ((b - a) + (c - d))) by lia. cbn [bind].
  rewrite (int64_ok (d - a)) by lia. cbn [bind].
  rewrite (int64_ok (c - b)) by lia. cbn [bind].
  rewrite (int64_ok ((d - a) - (c - b))) by lia. cbn [bind].
  destruct (Z.ltb_spec ((d - a) - (c - b)) 0); [right; split; [lia|reflexivity]|].
  left. split; [lia|]. split; [lia|]. reflexivity.
Qed.

(** of all plausible exchanges so far the first with the greatest [t1] *)
Definition best (es : list exchange) (i : nat) (e : exchange) : Prop :=
  nth_error es i = Some e /\ plausible e /\
  forall j e', nth_error es j = Some e' -> plausible e' -> t1 e' < t1 e \/ (t1 e' = t1 e /\ (i <= j)%nat).

Definition tells (st : rtt) (es : list exchange) : Prop :=
  0 <= r_last st /\
  ((r_has st = false /\ r_last st = 0 /\ r_rtt st = 0 /\ Forall (fun e => ~ plausible e) es) \/
   (r_has st = true /\ exists i e, best es i e /\ r_last st = t1 e /\ r_rtt st = on_the_way e /\
      r_offset st = Z.quot ((t2 e - t1 e) + (t3 e - t4 e)) 2)).

Lemma nth_snoc {A} (l : list A) x j y : nth_error (l ++ [x]) j = Some y -> (nth_error l j = Some y /\ (j < length l)%nat) \/ (j = length l /\ y = x).
Proof.
  intros H. destruct (Nat.ltb_spec j (length l)) as [L|L].
  - rewrite nth_error_app1 in H by exact L. auto.
  - rewrite nth_error_app2 in H by exact L. destruct (j - length l)%nat as [|k] eqn:E; cbn in H.
    + right. split; [lia|congruence].
    + destruct k; discriminate H.
Qed.

Lemma tells_step st es e : tells st es -> in_range e -> exists st', upd_ex st e = Ok st' /\ tells st' (es ++ [e]).
Proof.
  intros [HL T] R. destruct (update_spec st e R HL) as [(P & L & E)|(N & E)].
  - eexists. split; [exact E|]. split; [cbn [r_last]; destruct P; lia|]. right. split; [reflexivity|].
    exists (length es), e. cbn [r_last r_rtt r_offset]. split; [|auto].
    split; [rewrite nth_error_app2, Nat.sub_diag by lia; reflexivity|]. split; [exact P|].
    intros j e' Hj P'. destruct (nth_snoc _ _ _ _ Hj) as [[Hj' Lj]|[-> ->]]; [|right; lia].
    left. destruct T as [(_ & T2 & _ & T3)|(_ & i & b & (_ & _ & B) & T2 & _)].
    + rewrite Forall_forall in T3. exfalso. apply (T3 e'); [eapply nth_error_In; eauto|exact P'].
    + destruct (B j e' Hj' P'); lia.
  - exists st. split; [exact E|]. split; [exact HL|].
    destruct T as [(T1 & T2 & T3 & T4)|(T1 & i & b & (B1 & B2 & B3) & T2 & T3 & T4)].
    + left. split; [exact T1|]. split; [exact T2|]. split; [exact T3|]. apply Forall_app. split; [exact T4|].
      constructor; [|constructor]. intros P. apply N. split; [exact P|]. destruct P; lia.
    + right. split; [exact T1|]. exists i, b. split; [|auto]. split.
      * rewrite nth_error_app1; [exact B1|]. apply nth_error_Some. congruence.
      * split; [exact B2|]. intros j e' Hj P'. destruct (nth_snoc _ _ _ _ Hj) as [[Hj' Lj]|[-> ->]]; [eauto|].
        assert (~ r_last st < t1 e) by (intros Q; apply N; auto).
        assert (i < length es)%nat by (apply nth_error_Some; congruence). lia.
Qed.

Lemma tells_run es : forall st pre, tells st pre -> Forall in_range es -> exists st', upd_all st es = Ok st' /\ tells st' (pre ++ es).
Proof.
  induction es as [|e es IH]; intros st pre T F; cbn [upd_all].
  - exists st. rewrite app_nil_r. auto.
  - inversion F as [|? ? F1 F2]; subst. destruct (tells_step st pre e T F1) as (s1 & E1 & T1). rewrite E1. cbn [bind].
    destruct (IH s1 (pre ++ [e]) T1 F2) as (s2 & E2 & T2). exists s2. rewrite <- app_assoc in T2. auto.
Qed.

(** truncation of the low 16 bits moves a time back by at most 15259 ns *)
Lemma ntp_2_unix_trunc v : 0 <= v < 18446744073709551616 ->
  ntp_2_unix v - 15260 <= ntp_2_unix (v - v mod 65536) <= ntp_2_unix v.
Proof.
  intros H. unfold ntp_2_unix. rewrite !land_top by (ntp_pow; lia).
  change (2 ^ 63) with 9223372036854775808.
  assert (Q : (v - v mod 65536) / 9223372036854775808 = v / 9223372036854775808) by (clear -H; lia).
  rewrite Q. clear Q.
  unfold unix_epoch, era1, u64, wrapu.
  change (Z.shiftl ((70 * 365 + 17) * (24 * 3600)) 32 mod 2 ^ 64) with 9487534653230284800.
  change (Z.shiftl ((66 * 365 + 16 + 37) * (24 * 3600) + 6 * 3600 + 28 * 60 + 16) 32 mod 2 ^ 64) with 8959209420479266816.
  change (2 ^ 64) with 18446744073709551616.
  destruct (Z.eqb_spec (v / 9223372036854775808 * 9223372036854775808) 0) as [C|C]; cbn [negb].
  - assert (v < 9223372036854775808) by (clear -H C; lia). clear C.
    rewrite !(Z.mod_small _ 18446744073709551616) by lia.
    rewrite !ntp2ns_floor by (ntp_pow; lia). lia.
  - assert (9223372036854775808 <= v) by (clear -H C; lia). clear C.
    destruct (Z.ltb_spec v 9487534653230284800).
    + replace (v - v mod 65536 <? 9487534653230284800) with true by lia.
      rewrite !(Z.mod_small _ 18446744073709551616) by lia. rewrite !ntp2ns_floor by (ntp_pow; lia). lia.
    + replace (v - v mod 65536 <? 9487534653230284800) with false by lia.
      rewrite !(Z.mod_small _ 18446744073709551616) by lia. rewrite !ntp2ns_floor by (ntp_pow; lia). lia.
Qed.

(** every NTP timestamp stands for a time in range *)
Lemma ntp_2_unix_range v : 0 <= v < 18446744073709551616 -> -61505152000000000 <= ntp_2_unix v < 4233462144000000000.
Proof.
  intros H. unfold ntp_2_unix. rewrite land_top by (ntp_pow; lia).
  change (2 ^ 63) with 9223372036854775808.
  unfold unix_epoch, era1, u64, wrapu.
  change (Z.shiftl ((70 * 365 + 17) * (24 * 3600)) 32 mod 2 ^ 64) with 9487534653230284800.
  change (Z.shiftl ((66 * 365 + 16 + 37) * (24 * 3600) + 6 * 3600 + 28 * 60 + 16) 32 mod 2 ^ 64) with 8959209420479266816.
  change (2 ^ 64) with 18446744073709551616.
  destruct (Z.eqb_spec (v / 9223372036854775808 * 9223372036854775808) 0) as [C|C]; cbn [negb].
  - assert (v < 9223372036854775808) by (clear -H C; lia). clear C.
    rewrite !(Z.mod_small _ 18446744073709551616) by lia.
    rewrite !ntp2ns_floor by (ntp_pow; lia). lia.
  - assert (9223372036854775808 <= v) by (clear -H C; lia). clear C.
    destruct (Z.ltb_spec v 9487534653230284800);
      rewrite !(Z.mod_small _ 18446744073709551616) by lia; rewrite !ntp2ns_floor by (ntp_pow; lia); lia.
Qed.

Lemma extend_total base m : 0 <= base < 18446744073709551616 -> 0 <= m < 4294967296 ->
  exists x, ntp_extend base (ntp32_get m) = Ok x /\ 0 <= x < 18446744073709551616.
Proof.
  intros Hb Hm. unfold ntp32_get. rewrite Z.shiftl_mul_pow2 by lia. change (2 ^ 16) with 65536.
  unfold ntp_extend. rewrite land_outer; [|lia|apply Z.mod_mul; lia|lia]. cbn [Z.eqb negb].
  assert (K : forall b, 0 <= b < 18446744073709551616 -> 0 <= Z.lor (Z.land b 0xFFFF000000000000) (m * 65536) < 18446744073709551616).
  { intros b Hbb. rewrite land_hi16 by (ntp_pow; lia). change (2 ^ 48) with 281474976710656.
    rewrite (lor_add _ _ 48); [|lia|change (2 ^ 48) with 281474976710656; lia|change (2 ^ 48) with 281474976710656; apply Z.mod_mul; lia].
    lia. }
  assert (U : forall y, 0 <= u64 y < 18446744073709551616) by (intros y; unfold u64, wrapu; apply Z.mod_pos_bound; reflexivity).
  pose proof (K base Hb) as K1. pose proof (K _ (U (base - 0x1000000000000))) as K2. pose proof (K _ (U (base + 0x1000000000000))) as K3.
  match goal with |- context [if ?c then _ else if ?d then _ else _] => destruct c; [|destruct d] end; eexists; (split; [reflexivity|]); assumption.
Qed.

(** invariant of the state *)
Definition link_ok (l : link) : Prop :=
  -61505152000000000 <= l_last_local l < 4233462144000000000 /\ 0 <= l_delay l < 65536000000000 /\ 0 <= r_last (l_est l) /\
  0 <= r_rtt (l_est l) < 8600000000000000000.

Definition local_time (t : Z) : Prop := 0 < t < 4233462144000000000.

Lemma process_ok l cur blk ntp now : link_ok l -> (cur = 0 \/ local_time cur) -> local_time now ->
  0 <= fst blk < 4294967296 -> 0 <= snd blk < 4294967296 -> 0 <= ntp < 18446744073709551616 ->
  exists l', process_report l cur blk ntp now = Ok l' /\ link_ok l'.
Proof.
  intros HL HC HN H1 H2 H3. unfold process_report.
  assert (A : exists l1, process_last l cur blk = Ok l1 /\ link_ok l1).
  { unfold process_last. destruct (Z.eqb_spec cur 0) as [->|NZ]; [exists l; auto|].
    destruct HC as [HC|HC]; [contradiction|]. unfold local_time in HC.
    destruct (unix_rt cur ltac:(lia)) as (v & E1 & V & _). rewrite E1. cbn [bind].
    destruct (extend_total v (fst blk) V H1) as (x & E2 & X). rewrite E2. cbn [bind].
    eexists. split; [reflexivity|]. destruct HL as (L1 & L2 & L3 & L4). unfold link_ok. cbn [l_last_local l_delay l_est].
    split; [now apply ntp_2_unix_range|]. split; [|auto].
    unfold ntp32_get. rewrite Z.shiftl_mul_pow2 by lia. change (2 ^ 16) with 65536. rewrite ntp2ns_floor by (ntp_pow; lia). clear - H2. lia. }
  destruct A as (l1 & -> & L1). cbn [bind]. unfold process_reply.
  pose proof (ntp_2_unix_range ntp H3) as HR.
  destruct (negb (l_last_local l1 =? 0) && negb (now =? 0)); [|eauto].
  destruct L1 as (A1 & A2 & A3 & A4). rewrite int64_ok by lia. cbn [bind].
  destruct (update_spec (l_est l1) (mkEx (l_last_local l1) (ntp_2_unix ntp - l_delay l1) (ntp_2_unix ntp) now)) as [(P & L & E)|(N & E)].
  - unfold in_range, ntp_time, local_time in *. cbn [t1 t2 t3 t4]. lia.
  - exact A3.
  - unfold upd_ex in E. cbn [t1 t2 t3 t4] in E. rewrite E. cbn [bind]. eexists. split; [reflexivity|].
    unfold plausible, on_the_way in *. cbn [t1 t2 t3 t4] in *. unfold link_ok, local_time in *. cbn [l_last_local l_delay l_est r_last r_rtt]. lia.
  - unfold upd_ex in E. cbn [t1 t2 t3 t4] in E. rewrite E. cbn [bind]. eexists. split; [reflexivity|].
    unfold link_ok. cbn [l_last_local l_delay l_est]. auto.
Qed.

(** delays survive rounding to 1/65536 s *)
Lemma delay_back p : 0 <= p <= 65535000000000 -> exists v, nanoseconds_2_ntp p = Ok v /\
  p - 7631 <= ntp_2_nanoseconds (ntp32_get (set_delay v)) <= p + 7630 /\ 0 <= ntp_2_nanoseconds (ntp32_get (set_delay v)).
Proof.
  intros H. destruct (ns2ntp_floor p) as [E V]; [ntp_pow; lia|]. exists (p * 4294967296 / 1000000000). split; [exact E|].
  set (v := p * 4294967296 / 1000000000) in *. assert (HV : 0 <= v <= 281470681743360) by (unfold v; lia).
  assert (S : ntp32_get (set_delay v) = (v + 32768) / 65536 * 65536).
  { unfold set_delay. rewrite clamp32_spec by (unfold max_delay; lia).
    change (max_delay / 65536) with 4294967295. rewrite ntp32_get_set by lia. rewrite Z.div_mul, Z.mod_small by lia. lia. }
  rewrite S. clear S E V. rewrite ntp2ns_floor by (ntp_pow; lia).
  assert (W : 1000000000 * v <= p * 4294967296 < 1000000000 * v + 1000000000) by (unfold v; clear; lia). clearbody v.
  set (w := (v + 32768) / 65536 * 65536). assert (v - 32768 < w <= v + 32768) by (unfold w; clear; lia). assert (0 <= w) by (unfold w; lia). clearbody w.
  split; [|lia]. lia.
Qed.

(** times as unbounded NTP timestamps *)
Definition ntp_pos (t : Z) : Z := (t + 2208988800000000000) * 4294967296 / 1000000000.

Lemma unix_2_ntp_pos t v : -61505152000000000 <= t < 4233462144000000000 -> unix_2_ntp t = Ok v -> v = ntp_pos t mod 18446744073709551616.
Proof.
  intros H. unfold unix_2_ntp, second, era1, unix_epoch, ntp_pos.
  change ((70 * 365 + 17) * (24 * 3600) * 1000000000) with 2208988800000000000.
  change (((66 * 365 + 16 + 37) * (24 * 3600) + 6 * 3600 + 28 * 60 + 16) * 1000000000) with 2085978496000000000.
  destruct (Z.ltb_spec t 2085978496000000000) as [C|C]; intros E.
  - destruct (ns2ntp_floor (t + 2208988800000000000)) as [F G]; [ntp_pow; lia|]. rewrite F in E.
    assert (Q : v = (t + 2208988800000000000) * 4294967296 / 1000000000) by congruence. rewrite Q. symmetry. apply Z.mod_small. exact G.
  - destruct (ns2ntp_floor (t - 2085978496000000000)) as [F G]; [ntp_pow; lia|]. rewrite F in E.
    assert (Q : v = (t - 2085978496000000000) * 4294967296 / 1000000000) by congruence. rewrite Q. clear E F Q.
    replace ((t + 2208988800000000000) * 4294967296) with ((t - 2085978496000000000) * 4294967296 + 18446744073709551616 * 1000000000) by (clear; ring).
    rewrite Z.div_add by lia. set (y := (t - 2085978496000000000) * 4294967296 / 1000000000) in *. clearbody y. clear - G. lia.
Qed.

Lemma near_extend t t' v v' : -61505152000000000 <= t < 4233462144000000000 -> -61505152000000000 <= t' < 4233462144000000000 ->
  Z.abs (t' - t) <= 32767000000000 -> unix_2_ntp t = Ok v -> unix_2_ntp t' = Ok v' ->
  ntp_extend v' (ntp32_get (ntp32_set (v - v mod 65536))) = Ok (v - v mod 65536).
Proof.
  intros H H' D E E'. pose proof (unix_2_ntp_pos t v H E) as P. pose proof (unix_2_ntp_pos t' v' H' E') as P'. clear E E'.
  assert (Q : Z.abs (ntp_pos t' - ntp_pos t) <= 140733193388032 + 1).
  { unfold ntp_pos. clear - D. lia. }
  set (a := ntp_pos t) in *. set (b := ntp_pos t') in *. clearbody a b. clear H H' D.
  apply (extend_spec v' (v - v mod 65536) (a - a mod 65536 - b / 18446744073709551616 * 18446744073709551616)).
  - rewrite P'. apply Z.mod_pos_bound. reflexivity.
  - subst v. clear. lia.
  - clear. lia.
  - subst v. clear. lia.
  - subst v'. clear - Q. lia.
Qed.
