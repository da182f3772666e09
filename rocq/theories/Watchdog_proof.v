From Verif Require Import Base Base_lemmas Seqnum_model RtpFilter_proof Watchdog_model Watchdog_spec.
Open Scope res_scope.

(** * Bits *)
Lemma land_pow x n : 0 <= n -> Z.land x (2 ^ n) = if Z.testbit x n then 2 ^ n else 0.
Proof.
  intros Hn. apply Z.bits_inj'. intros m Hm. rewrite Z.land_spec, Z.pow2_bits_eqb by assumption.
  destruct (Z.eqb_spec n m) as [<-|E].
  - rewrite andb_true_r. destruct (Z.testbit x n); [now rewrite Z.pow2_bits_true|now rewrite Z.bits_0].
  - rewrite andb_false_r. destruct (Z.testbit x n); [now rewrite Z.pow2_bits_false|now rewrite Z.bits_0].
Qed.
Definition tb (x n : Z) : bool := Z.testbit x n.
Lemma nb_bit x : (Z.land x FlagNotBlank =? 0) = negb (tb x 1).
Proof. unfold FlagNotBlank, tb. change 2 with (2 ^ 1). rewrite land_pow by lia. destruct (Z.testbit x 1); reflexivity. Qed.
Lemma flag_nb f : flag FlagNotBlank f <-> tb (wf_flags f) 1 = true.
Proof. unfold flag, FlagNotBlank, tb. change 2 with (2 ^ 1). rewrite land_pow by lia. destruct (Z.testbit (wf_flags f) 1); split; intros; auto; discriminate. Qed.
Lemma flag_nc f : flag FlagNotComplete f <-> tb (wf_flags f) 2 = true.
Proof. unfold flag, FlagNotComplete, tb. change 4 with (2 ^ 2). rewrite land_pow by lia. destruct (Z.testbit (wf_flags f) 2); split; intros; auto; discriminate. Qed.
Lemma flag_pd f : flag FlagPacketDrops f <-> tb (wf_flags f) 3 = true.
Proof. unfold flag, FlagPacketDrops, tb. change 8 with (2 ^ 3). rewrite land_pow by lia. destruct (Z.testbit (wf_flags f) 3); split; intros; auto; discriminate. Qed.
Lemma both_bits x : (Z.land x (Z.lor FlagNotComplete FlagPacketDrops) =? Z.lor FlagNotComplete FlagPacketDrops) = tb x 2 && tb x 3.
Proof.
  unfold FlagNotComplete, FlagPacketDrops, tb. rewrite Z.land_lor_distr_r. change 4 with (2 ^ 2). change 8 with (2 ^ 3). rewrite !land_pow by lia.
  destruct (Z.testbit x 2), (Z.testbit x 3); reflexivity.
Qed.

(** * Positions *)
Lemma endpos_snoc p f : endpos (p ++ [f]) = endpos p + wf_dur f.
Proof. unfold endpos. induction p as [|g p IH]; cbn [app fold_right]; [lia|]. rewrite IH. lia. Qed.
Lemma fend_old p f j : (j < length p)%nat -> fend (p ++ [f]) j = fend p j.
Proof. intros H. unfold fend. rewrite firstn_app. replace (S j - length p)%nat with 0%nat by lia. cbn. now rewrite app_nil_r. Qed.
Lemma fstart_old p f j : (j <= length p)%nat -> fstart (p ++ [f]) j = fstart p j.
Proof. intros H. unfold fstart. rewrite firstn_app. replace (j - length p)%nat with 0%nat by lia. cbn. now rewrite app_nil_r. Qed.
Lemma fend_new p f : fend (p ++ [f]) (length p) = endpos p + wf_dur f.
Proof. unfold fend. rewrite firstn_all2 by (rewrite app_length; cbn; lia). apply endpos_snoc. Qed.
Lemma fstart_len p : fstart p (length p) = endpos p.
Proof. unfold fstart. now rewrite firstn_all. Qed.
Lemma fend_fstart p j : fend p j = fstart p (S j). Proof. reflexivity. Qed.
Lemma fstart_mono p : Forall (fun f => 1 <= wf_dur f) p -> forall i j, (i <= j)%nat -> fstart p i <= fstart p j.
Proof.
  intros F. induction F as [|f p Hf F IH]; intros i j H; [unfold fstart; now rewrite !firstn_nil|].
  destruct i as [|i].
  - destruct j as [|j]; [lia|]. unfold fstart. cbn [firstn endpos fold_right]. specialize (IH 0%nat j ltac:(lia)). unfold fstart, endpos in IH. cbn in IH. unfold endpos. cbn. lia.
  - destruct j as [|j]; [lia|]. specialize (IH i j ltac:(lia)). unfold fstart, endpos in *. cbn [firstn fold_right]. lia.
Qed.
Lemma fstart_pos p j : Forall (fun f => 1 <= wf_dur f) p -> 0 <= fstart p j <= endpos p.
Proof.
  intros F. split.
  - pose proof (fstart_mono p F 0 j ltac:(lia)) as H. unfold fstart in H at 1. cbn in H. exact H.
  - destruct (Nat.le_ge_cases j (length p)) as [l|g].
    + rewrite <- fstart_len. now apply fstart_mono.
    + unfold fstart. rewrite firstn_all2 by lia. lia.
Qed.
Lemma fend_pos p j : Forall (fun f => 1 <= wf_dur f) p -> 0 <= fend p j <= endpos p.
Proof. rewrite fend_fstart. apply fstart_pos. Qed.
Lemma nth_snoc {A} (p : list A) f j g : nth_error (p ++ [f]) j = Some g <-> nth_error p j = Some g \/ (j = length p /\ g = f).
Proof.
  destruct (Nat.lt_ge_cases j (length p)) as [l|l].
  - rewrite nth_error_app1 by assumption. split; [auto|]. intros [H|[H _]]; [exact H|lia].
  - rewrite nth_error_app2 by assumption. split.
    + intros H. right. destruct (j - length p)%nat as [|[|]] eqn:E; cbn in H; try discriminate. split; [lia|congruence].
    + intros [H|[-> ->]]; [apply nth_error_None in l; congruence|]. now rewrite Nat.sub_diag.
Qed.
Lemma nth_lt {A} (p : list A) j g : nth_error p j = Some g -> (j < length p)%nat.
Proof. intros H. apply nth_error_Some. congruence. Qed.

(** * Arithmetic modulo 2^32 *)
Lemma u32m x : u32 x = x mod 4294967296. Proof. reflexivity. Qed.
Lemma le_is a b d : -2147483648 <= d < 2147483648 -> (d - (a - b)) mod 4294967296 = 0 -> stream_timestamp_le a b = (d <=? 0).
Proof.
  intros R M. unfold stream_timestamp_le, stream_timestamp_diff. pose proof (s32_range (u32 (a - b))).
  pose proof (s32_mod (u32 (a - b))). pose proof (u32_mod (a - b)). replace (s32 (u32 (a - b))) with d by lia. reflexivity.
Qed.
Definition nowrap (w e : Z) : Prop := 4294967296 mod w = 0 \/ e < 4294967296.
Lemma div_u32 w t : 0 < w -> 0 <= t -> nowrap w t -> u32 (u32 t / w * w) = u32 (t / w * w) /\ u32 t mod w = t mod w.
Proof.
  intros Hw Ht [D|D].
  - rewrite !u32m. apply Z.mod_divide in D; [|lia]. destruct D as [q D]. 
    set (r := t mod 4294967296). assert (E : t = r + (t / 4294967296 * q) * w) by (pose proof (Z.div_mod t 4294967296); subst r; nia).
    split.
    + replace (t / w * w) with (r / w * w + t / 4294967296 * 4294967296).
      * now rewrite Z_mod_plus_full.
      * rewrite E at 2. rewrite Z.div_add by lia. nia.
    + rewrite E at 1. now rewrite Z_mod_plus_full.
  - assert (E : u32 t = t) by (rewrite u32m; apply Z.mod_small; lia). rewrite E. split; reflexivity.
Qed.

(** * Invariant *)
Section W.
Variable c : wconf.
Hypothesis CO : conf_ok c.
Notation M := (wc_blank c).
Notation D := (wc_drops c).
Notation w := (wc_window c).
Notation W := (wc_warmup c).
Notation fok := (frame_ok c).

Lemma fok_dur p : Forall fok p -> Forall (fun f => 1 <= wf_dur f) p.
Proof. intros F. eapply Forall_impl; [|exact F]. intros f H. apply H. Qed.

Definition blank_inv (p : list wframe) (s : wstate) : Prop :=
  (exists j f, nth_error p j = Some f /\ flag FlagNotBlank f /\ (forall i g, (j < i)%nat -> nth_error p i = Some g -> ~ flag FlagNotBlank g) /\
     ws_last_blank s = u32 (fend p j) /\ ws_warmup s = false /\ endpos p - fend p j < M) \/
  ((forall i g, nth_error p i = Some g -> ~ flag FlagNotBlank g) /\ ws_last_blank s = u32 W /\ ws_warmup s = (endpos p <? W) /\
     (endpos p - W < M \/ endpos p - W < 1073741824)).

Definition win_has (p : list wframe) (k n : Z) : Prop := exists j f, nth_error p j = Some f /\ k * w < fend p j /\ tb (wf_flags f) n = true.
Definition drops_inv (p : list wframe) (s : wstate) : Prop :=
  (forall n, 0 <= n -> tb (ws_win s) n = true <-> win_has p (endpos p / w) n) /\
  exists G, ws_last_drops s = u32 G /\ 0 <= G <= endpos p /\ endpos p - G < D /\
    (G = 0 \/ exists k j, 0 <= k /\ completes w p k j /\ fend p j = G /\ ~ choppy w p k) /\
    (forall k j, 0 <= k -> completes w p k j -> choppy w p k \/ fend p j <= G).

Record wd_inv (p : list wframe) (s : wstate) : Prop := {
  wi_pos : ws_pos s = u32 (endpos p);
  wi_alive : ws_alive s = true;
  wi_status : wc_status c <> 0%nat -> (ws_spos s < wc_status c - 1)%nat;
  wi_blank : M <> 0 -> blank_inv p s;
  wi_drops : D <> 0 -> drops_inv p s }.

Lemma inv_new s : wd_new c = Some s -> wd_inv [] s.
Proof.
  destruct CO as (C1 & C2 & C3 & C4 & C5). unfold wd_new. destruct (_ && _) eqn:E; [discriminate|]. intros H. injection H as <-.
  split; cbn; auto.
  - lia.
  - intros HM. right. split; [intros i g H; destruct i; discriminate|]. split; [symmetry; apply (Z.mod_small W 4294967296); lia|].
    split; [cbn [ws_warmup endpos fold_right]; destruct (Z.eqb_spec W 0), (Z.ltb_spec 0 W); auto; lia|].
    unfold endpos. cbn. right. lia.
  - intros HD. split.
    + intros n Hn. unfold tb. cbn. rewrite Z.bits_0. split; [discriminate|]. intros (j & f & H & _). destruct j; discriminate.
    + exists 0. unfold endpos. cbn. split; [reflexivity|]. split; [lia|]. split; [lia|]. split; [now left|]. intros k j Hk (H & _). cbn in H. lia.
Qed.

(** * One frame *)
Lemma removelast_snoc (p : list wframe) f : removelast (p ++ [f]) = p.
Proof. apply removelast_last. Qed.

Lemma blank_step p s f : wd_inv p s -> Forall fok p -> fok f -> M <> 0 ->
  let next := u32 (ws_pos s + wf_dur f) in
  let s1 := wd_update_blank c s f next in
  let chk := (M =? 0) || ws_warmup s1 || (u32 (next - ws_last_blank s1) <? M) in
  (chk = false <-> silent_for M W (p ++ [f])) /\
  (chk = true -> forall s', ws_last_blank s' = ws_last_blank s1 -> ws_warmup s' = ws_warmup s1 && (next <? W) -> blank_inv (p ++ [f]) s').
Proof.
  intros I Fp Ff HM. destruct CO as (C1 & C2 & C3 & C4 & C5). destruct Ff as (F1 & F2 & F3). change (2 ^ 30) with 1073741824 in *.
  pose proof (fok_dur p Fp) as Fd. pose proof (fstart_pos p (length p) Fd) as Pp. rewrite fstart_len in Pp.
  cbv zeta. rewrite (wi_pos _ _ I). unfold wd_update_blank. replace (M =? 0) with false by lia. rewrite nb_bit. cbn [orb].
  destruct (tb (wf_flags f) 1) eqn:Eb; cbn [negb ws_warmup ws_last_blank orb].
  - (* non-blank *)
    rewrite Z.sub_diag. replace (u32 0) with 0 by reflexivity. replace (0 <? M) with true by lia. split.
    + split; [discriminate|]. intros [(j & g & H1 & H2 & H3 & H4)|(H1 & _)].
      * apply nth_snoc in H1. destruct H1 as [H1|[-> ->]].
        -- exfalso. apply (H3 (length p) f); [now apply nth_lt in H1|apply nth_snoc; auto|now apply flag_nb].
        -- rewrite fend_new, endpos_snoc in H4. lia.
      * exfalso. apply (H1 (length p) f); [apply nth_snoc; auto|now apply flag_nb].
    + intros _ s' L1 L2. left. exists (length p), f. split; [apply nth_snoc; auto|]. split; [now apply flag_nb|]. split.
      { intros i g Hi Hg. apply nth_lt in Hg. rewrite app_length in Hg. cbn in Hg. lia. }
      rewrite L1, L2. split; [rewrite fend_new, !u32m; lia|]. split; [reflexivity|]. rewrite fend_new, endpos_snoc. lia.
  - (* blank *)
    assert (Nf : ~ flag FlagNotBlank f) by (rewrite flag_nb; congruence).
    destruct (wi_blank _ _ I HM) as [(j & g & H1 & H2 & H3 & H4 & H5 & H6)|(H1 & H2 & H3 & H4)].
    + rewrite H4, H5. cbn [orb andb]. pose proof (nth_lt _ _ _ H1) as Hj. pose proof (fend_pos p j Fd) as Pj.
      assert (E : u32 (u32 (u32 (endpos p) + wf_dur f) - u32 (fend p j)) = endpos p + wf_dur f - fend p j) by (rewrite !u32m; lia).
      rewrite E. assert (X : forall i h, (j < i)%nat -> nth_error (p ++ [f]) i = Some h -> ~ flag FlagNotBlank h).
      { intros i h Hi Hh. apply nth_snoc in Hh. destruct Hh as [Hh|[_ ->]]; [now apply (H3 i)|exact Nf]. }
      split.
      * split.
        -- intros HH. left. exists j, g. split; [apply nth_snoc; auto|]. split; [exact H2|]. split; [exact X|]. rewrite fend_old, endpos_snoc by assumption. lia.
        -- intros [(j' & g' & G1 & G2 & G3 & G4)|(G1 & _)].
           ++ assert (j' = j).
              { destruct (Nat.lt_trichotomy j j') as [l|[e|l]]; [|auto|].
                - exfalso. now apply (X j' g').
                - exfalso. apply (G3 j g); auto. apply nth_snoc. auto. }
              subst j'. rewrite fend_old, endpos_snoc in G4 by assumption. lia.
           ++ exfalso. apply (G1 j g); [apply nth_snoc; auto|exact H2].
      * intros HH s' L1 L2. left. exists j, g. split; [apply nth_snoc; auto|]. split; [exact H2|]. split; [exact X|].
        rewrite L1, L2, fend_old, endpos_snoc by assumption. repeat split; auto. lia.
    + rewrite H2, H3.
      assert (X : forall i h, nth_error (p ++ [f]) i = Some h -> ~ flag FlagNotBlank h).
      { intros i h Hh. apply nth_snoc in Hh. destruct Hh as [Hh|[_ ->]]; [now apply (H1 i)|exact Nf]. }
      assert (NE : forall j g, nth_error (p ++ [f]) j = Some g -> flag FlagNotBlank g -> False) by (intros j g Hg Hf; exact (X j g Hg Hf)).
      destruct (Z.ltb_spec (endpos p) W) as [Hw|Hw]; cbn [orb].
      * split.
        -- split; [discriminate|]. intros [(j & g & G1 & G2 & _)|(_ & G1 & _)]; [exfalso; eauto|]. rewrite removelast_snoc in G1. lia.
        -- intros _ s' L1 L2. right. split; [exact X|]. rewrite L1, L2, endpos_snoc. split; [reflexivity|].
           replace (endpos p <? W) with true by lia. cbn [andb].
           replace (u32 (u32 (endpos p) + wf_dur f)) with (endpos p + wf_dur f) by (rewrite !u32m; lia). split; [reflexivity|]. right. lia.
      * assert (E : u32 (u32 (u32 (endpos p) + wf_dur f) - u32 W) = endpos p + wf_dur f - W) by (rewrite !u32m; lia).
        rewrite E. split.
        -- split.
           ++ intros HH. right. split; [exact X|]. rewrite removelast_snoc, endpos_snoc. lia.
           ++ intros [(j & g & G1 & G2 & _)|(_ & _ & G1)]; [exfalso; eauto|]. rewrite endpos_snoc in G1. lia.
        -- intros HH s' L1 L2. right. split; [exact X|]. rewrite L1, L2, endpos_snoc. split; [reflexivity|].
           replace (endpos p <? W) with false by lia. cbn [andb]. split; [lia|]. left. lia.
Qed.

(** Adding a frame does not change completed windows. *)
Lemma completes_old p f k j : (j < length p)%nat -> completes w (p ++ [f]) k j <-> completes w p k j.
Proof. intros H. unfold completes. rewrite fend_old, fstart_old, app_length by lia. cbn. split; intros []; split; auto; lia. Qed.
Lemma choppy_old p f k j : Forall fok p -> completes w p k j -> choppy w (p ++ [f]) k <-> choppy w p k.
Proof.
  intros Fp [Hj [Hc1 Hc2]]. pose proof (fok_dur p Fp) as Fd.
  assert (E : forall b, (exists i g, nth_error (p ++ [f]) i = Some g /\ overlaps w (p ++ [f]) k i /\ flag b g) <->
                        (exists i g, nth_error p i = Some g /\ overlaps w p k i /\ flag b g)).
  { intros b. split; intros (i & g & H1 & H2 & H3).
    - apply nth_snoc in H1. destruct H1 as [H1|[-> ->]].
      + exists i, g. split; [exact H1|]. split; [|exact H3]. pose proof (nth_lt _ _ _ H1). unfold overlaps in *. rewrite fend_old, fstart_old in H2 by lia. exact H2.
      + exfalso. destruct H2 as [H2 _]. rewrite fstart_old, fstart_len in H2 by lia. pose proof (fend_pos p j Fd). lia.
    - exists i, g. split; [apply nth_snoc; auto|]. split; [|exact H3]. pose proof (nth_lt _ _ _ H1). unfold overlaps in *. rewrite fend_old, fstart_old by lia. exact H2. }
  unfold choppy. now rewrite !E.
Qed.

Lemma drops_step p s f : wd_inv p s -> Forall fok p -> fok f -> D <> 0 -> nowrap w (endpos p + wf_dur f) ->
  let next := u32 (ws_pos s + wf_dur f) in
  let s1 := wd_update_drops c s f next in
  let chk := (D =? 0) || (u32 (next - ws_last_drops s1) <? D) in
  (chk = false <-> choppy_for D w (p ++ [f])) /\
  (chk = true -> forall s', ws_win s' = ws_win s1 -> ws_last_drops s' = ws_last_drops s1 -> drops_inv (p ++ [f]) s').
Proof.
  intros I Fp Ff HD NW. destruct CO as (C1 & C2 & C3 & C4 & C5). pose proof Ff as (F1 & F2 & F3). specialize (C4 HD). specialize (F3 HD).
  change (2 ^ 30) with 1073741824 in *.
  pose proof (fok_dur p Fp) as Fd. pose proof (fstart_pos p (length p) Fd) as Pp. rewrite fstart_len in Pp.
  destruct (wi_drops _ _ I HD) as (Hwin & G & HG & HG1 & HG2 & HG3 & HG4).
  cbv zeta. rewrite (wi_pos _ _ I). unfold wd_update_drops. replace (D =? 0) with false by lia. cbv zeta. cbn [orb].
  set (T := endpos p) in *. set (k := T / w) in *.
  assert (Hk : k * w <= T < (k + 1) * w) by (subst k; pose proof (Z.div_mod T w); pose proof (Z.mod_pos_bound T w); nia).
  assert (Hk0 : 0 <= k) by (subst k; apply Z.div_pos; lia).
  assert (NWp : nowrap w T) by (destruct NW; [left; auto|right; lia]).
  rewrite (wi_pos _ _ I). fold T. destruct (div_u32 w T) as [Ed _]; [lia|lia|exact NWp|]. rewrite Ed. fold k.
  set (next := u32 (u32 T + wf_dur f)).
  assert (En : next = u32 (T + wf_dur f)) by (subst next; rewrite !u32m; lia).
  rewrite (le_is (u32 (u32 (k * w) + w)) next ((k + 1) * w - (T + wf_dur f))).
  2:{ clear - Hk F1 F3 C4 C2; lia. } 2:{ rewrite En, !u32m. replace ((k + 1) * w) with (k * w + w) by lia. generalize (k * w). intros a. lia. }
  (* the flags of window k after this frame *)
  assert (Hw2 : forall n, 0 <= n -> tb (Z.lor (ws_win s) (wf_flags f)) n = true <-> win_has (p ++ [f]) k n).
  { intros n Hn. unfold tb at 1. rewrite Z.lor_spec, orb_true_iff. specialize (Hwin n Hn). unfold tb at 1 in Hwin. rewrite Hwin. split.
    - intros [(j & g & H1 & H2 & H3)|H].
      + exists j, g. split; [apply nth_snoc; auto|]. rewrite fend_old by (now apply nth_lt in H1). auto.
      + exists (length p), f. split; [apply nth_snoc; auto|]. rewrite fend_new. fold T. split; [lia|exact H].
    - intros (j & g & H1 & H2 & H3). apply nth_snoc in H1. destruct H1 as [H1|[-> ->]].
      + left. exists j, g. rewrite fend_old in H2 by (now apply nth_lt in H1). auto.
      + right. exact H3. }
  assert (Hcomp : forall k' j, completes w (p ++ [f]) k' j -> completes w p k' j \/ (j = length p /\ k' = k /\ (k + 1) * w <= T + wf_dur f)).
  { intros k' j [Hj [Hc1 Hc2]]. rewrite app_length in Hj. cbn in Hj. destruct (Nat.eq_dec j (length p)) as [->|Nj].
    - right. rewrite fend_new in Hc2. rewrite fstart_old, fstart_len in Hc1 by lia. fold T in Hc1, Hc2. assert (k' = k) by (clear - Hc1 Hc2 Hk F3 C4; nia). subst k'. auto.
    - left. apply (completes_old p f); [lia|]. split; [rewrite app_length; cbn; lia|auto]. }
  assert (Hchop : choppy w (p ++ [f]) k <-> win_has (p ++ [f]) k 2 /\ win_has (p ++ [f]) k 3).
  { assert (O : forall j g, nth_error (p ++ [f]) j = Some g -> overlaps w (p ++ [f]) k j <-> k * w < fend (p ++ [f]) j).
    { intros j g Hj. unfold overlaps. split; [tauto|]. intros H. split; [|exact H]. apply nth_snoc in Hj. destruct Hj as [Hj|[-> _]].
      - rewrite fstart_old by (apply nth_lt in Hj; lia). pose proof (fstart_pos p j Fd). fold T in H0. lia.
      - rewrite fstart_old, fstart_len by lia. fold T. lia. }
    unfold choppy, win_has. split.
    - intros [(j & g & H1 & H2 & H3) (j' & g' & H1' & H2' & H3')]. split; [exists j, g|exists j', g'].
      + rewrite <- (O j g H1), <- flag_nc. auto.
      + rewrite <- (O j' g' H1'), <- flag_pd. auto.
    - intros [(j & g & H1 & H2 & H3) (j' & g' & H1' & H2' & H3')]. split; [exists j, g|exists j', g'].
      + rewrite (O j g H1), flag_nc. auto.
      + rewrite (O j' g' H1'), flag_pd. auto. }
  assert (Hnew : (k + 1) * w <= T + wf_dur f -> completes w (p ++ [f]) k (length p)).
  { intros H. split; [rewrite app_length; cbn; lia|]. rewrite fend_new, fstart_old, fstart_len by lia. fold T. lia. }
  destruct (Z.leb_spec ((k + 1) * w - (T + wf_dur f)) 0) as [Hle|Hgt]; cbn [ws_last_drops ws_win].
  - (* a window is completed *)
    rewrite both_bits. set (bb := tb (Z.lor (ws_win s) (wf_flags f)) 2 && tb (Z.lor (ws_win s) (wf_flags f)) 3).
    assert (Hbb : bb = true <-> choppy w (p ++ [f]) k) by (rewrite Hchop, <- !Hw2 by lia; unfold bb; apply andb_true_iff).
    set (G' := if bb then G else T + wf_dur f).
    assert (EG : (if bb then ws_last_drops s else next) = u32 G') by (subst G'; destruct bb; [exact HG|exact En]).
    rewrite EG. assert (Bd : 0 <= T + wf_dur f - G' < 4294967296) by (subst G'; destruct bb; lia).
    assert (Ec : u32 (next - u32 G') = T + wf_dur f - G') by (rewrite En, !u32m; lia).
    rewrite Ec.
    assert (P3 : G' = 0 \/ exists k0 j, 0 <= k0 /\ completes w (p ++ [f]) k0 j /\ fend (p ++ [f]) j = G' /\ ~ choppy w (p ++ [f]) k0).
    { subst G'. destruct bb eqn:Ebb.
      - destruct HG3 as [HG3|(k0 & j & K1 & K2 & K3 & K4)]; [auto|]. right. exists k0, j. split; [exact K1|]. pose proof K2 as [Kj _].
        split; [now apply (completes_old p f)|]. split; [now rewrite fend_old|]. now rewrite (choppy_old p f k0 j Fp K2).
      - right. exists k, (length p). split; [exact Hk0|]. split; [apply Hnew; lia|]. split; [apply fend_new|]. rewrite <- Hbb. congruence. }
    assert (P4 : forall k0 j, 0 <= k0 -> completes w (p ++ [f]) k0 j -> choppy w (p ++ [f]) k0 \/ fend (p ++ [f]) j <= G').
    { intros k0 j K1 K2. destruct (Hcomp k0 j K2) as [K3|(-> & -> & _)].
      - pose proof K3 as [Kj _]. destruct (HG4 k0 j K1 K3) as [K4|K4].
        + left. now apply (choppy_old p f k0 j Fp K3).
        + right. rewrite fend_old by assumption. subst G'. destruct bb; lia.
      - rewrite fend_new. fold T. subst G'. destruct bb eqn:Ebb; [left; now apply Hbb|right; lia]. }
    split.
    + rewrite Z.ltb_ge. unfold choppy_for. rewrite endpos_snoc. fold T. split.
      * intros HH. split; [subst G'; destruct bb; lia|]. intros k0 j K1 K2 K3. destruct (P4 k0 j K1 K2); [auto|lia].
      * intros [H1 H2]. destruct P3 as [P3|(k0 & j & K1 & K2 & K3 & K4)]; [lia|].
        destruct (Z.le_gt_cases D (T + wf_dur f - G')); [auto|]. exfalso. apply K4, (H2 k0 j K1 K2). lia.
    + rewrite Z.ltb_lt. intros HH s' L1 L2. split.
      * rewrite endpos_snoc. fold T. intros n Hn. rewrite L1.
        assert (Ek : (T + wf_dur f) / w = k + 1) by (symmetry; apply Z.div_unique with (r := T + wf_dur f - w * (k + 1)); [left|]; clear - Hk F3 F1 Hle; lia).
        rewrite Ek. destruct (div_u32 w (T + wf_dur f)) as [_ Em]; [lia|lia|exact NW|]. rewrite En, Em.
        pose proof (Z.div_mod (T + wf_dur f) w ltac:(lia)) as DM. rewrite Ek in DM.
        destruct (Z.eqb_spec ((T + wf_dur f) mod w) 0) as [Z0|Z0].
        -- unfold tb. rewrite Z.bits_0. split; [discriminate|]. intros (j & g & H1 & H2 & _). exfalso.
           assert (Fd' : Forall (fun f => 1 <= wf_dur f) (p ++ [f])) by (apply Forall_app; split; [exact Fd|repeat constructor; lia]).
           pose proof (fend_pos (p ++ [f]) j Fd') as B. rewrite endpos_snoc in B. fold T in B. rewrite Z0 in DM. clear - B H2 DM. lia.
        -- pose proof (Z.mod_pos_bound (T + wf_dur f) w ltac:(lia)) as MB. revert DM MB Z0. generalize ((T + wf_dur f) mod w). intros mm DM MB Z0.
           clear Ek Em. clearbody k. split.
           ++ intros Hb. exists (length p), f. split; [apply nth_snoc; auto|]. rewrite fend_new. fold T. split; [lia|exact Hb].
           ++ intros (j & g & H1 & H2 & H3). apply nth_snoc in H1. destruct H1 as [H1|[-> ->]]; [|exact H3].
              exfalso. rewrite fend_old in H2 by (now apply nth_lt in H1). pose proof (fend_pos p j Fd) as B. fold T in B. clear - B H2 Hk. lia.
      * exists G'. rewrite L2, endpos_snoc. fold T. split; [reflexivity|]. split; [subst G'; destruct bb; lia|]. split; [lia|]. split; [exact P3|exact P4].
  - (* inside a window *)
    rewrite HG. assert (Ec : u32 (next - u32 G) = T + wf_dur f - G) by (rewrite En, !u32m; lia). rewrite Ec.
    assert (P3 : G = 0 \/ exists k0 j, 0 <= k0 /\ completes w (p ++ [f]) k0 j /\ fend (p ++ [f]) j = G /\ ~ choppy w (p ++ [f]) k0).
    { destruct HG3 as [HG3|(k0 & j & K1 & K2 & K3 & K4)]; [auto|]. right. exists k0, j. split; [exact K1|]. pose proof K2 as [Kj _].
      split; [now apply (completes_old p f)|]. split; [now rewrite fend_old|]. now rewrite (choppy_old p f k0 j Fp K2). }
    assert (P4 : forall k0 j, 0 <= k0 -> completes w (p ++ [f]) k0 j -> choppy w (p ++ [f]) k0 \/ fend (p ++ [f]) j <= G).
    { intros k0 j K1 K2. destruct (Hcomp k0 j K2) as [K3|(_ & _ & Hbad)]; [|lia].
      pose proof K3 as [Kj _]. destruct (HG4 k0 j K1 K3) as [K4|K4].
      + left. now apply (choppy_old p f k0 j Fp K3).
      + right. now rewrite fend_old. }
    split.
    + rewrite Z.ltb_ge. unfold choppy_for. rewrite endpos_snoc. fold T. split.
      * intros HH. split; [lia|]. intros k0 j K1 K2 K3. destruct (P4 k0 j K1 K2); [auto|lia].
      * intros [H1 H2]. destruct P3 as [P3|(k0 & j & K1 & K2 & K3 & K4)]; [lia|].
        destruct (Z.le_gt_cases D (T + wf_dur f - G)); [auto|]. exfalso. apply K4, (H2 k0 j K1 K2). lia.
    + rewrite Z.ltb_lt. intros HH s' L1 L2. split.
      * rewrite endpos_snoc. fold T. intros n Hn. rewrite L1.
        assert (Ek : (T + wf_dur f) / w = k) by (symmetry; apply Z.div_unique with (r := T + wf_dur f - w * k); [left|]; clear - Hk F1 Hgt; lia).
        rewrite Ek. now apply Hw2.
      * exists G. rewrite L2, endpos_snoc. fold T. split; [reflexivity|]. split; [lia|]. split; [lia|]. split; [exact P3|exact P4].
Qed.

Definition wrap_ok (e : Z) : Prop := D <> 0 -> nowrap w e.

Lemma read_step p s f : wd_inv p s -> Forall fok p -> fok f -> wrap_ok (endpos p + wf_dur f) ->
  exists s', wd_read c s f = Ok (s', true) /\
    ((~ must_die c (p ++ [f]) /\ wd_inv (p ++ [f]) s') \/ (must_die c (p ++ [f]) /\ ws_alive s' = false)).
Proof.
  intros I Fp Ff NW. pose proof Ff as (F1 & _). unfold wd_read. rewrite (wi_alive _ _ I). cbn [negb]. replace (wf_dur f =? 0) with false by lia.
  cbv zeta. set (next := u32 (ws_pos s + wf_dur f)). set (s1 := wd_update_blank c s f next). set (s2 := wd_update_drops c s1 f next).
  (* the two updates are independent *)
  assert (B1 : ws_pos s1 = ws_pos s /\ ws_last_drops s1 = ws_last_drops s /\ ws_win s1 = ws_win s /\ ws_alive s1 = true /\ ws_spos s1 = ws_spos s).
  { subst s1. unfold wd_update_blank. destruct (M =? 0); [repeat split; auto; apply I|]. destruct (_ =? 0); repeat split; auto; apply I. }
  destruct B1 as (B1 & B2 & B3 & B4 & B5).
  assert (D1 : ws_last_blank s2 = ws_last_blank s1 /\ ws_warmup s2 = ws_warmup s1 /\ ws_alive s2 = true /\ ws_spos s2 = ws_spos s /\
    ws_last_drops s2 = ws_last_drops (wd_update_drops c s f next) /\ ws_win s2 = ws_win (wd_update_drops c s f next)).
  { subst s2. unfold wd_update_drops. rewrite B1, B2, B3. destruct (D =? 0); [repeat split; auto|]. cbv zeta. destruct (stream_timestamp_le _ _); repeat split; auto. }
  destruct D1 as (D1 & D2 & D3 & D4 & D5 & D6).
  (* the status buffer *)
  assert (St : exists s3, wd_status c s2 f = Ok s3 /\ ws_last_blank s3 = ws_last_blank s2 /\ ws_warmup s3 = ws_warmup s2 /\ ws_alive s3 = true /\
    ws_last_drops s3 = ws_last_drops s2 /\ ws_win s3 = ws_win s2 /\ (wc_status c <> 0%nat -> (ws_spos s3 < wc_status c - 1)%nat)).
  { unfold wd_status. destruct (Nat.eqb_spec (wc_status c) 0) as [e|e].
    - exists s2. repeat split; auto. intros; lia.
    - pose proof (wi_status _ _ I e) as Hs. destruct (Nat.leb_spec (wc_status c) (ws_spos s2)); [lia|]. cbn [ws_spos].
      destruct (Nat.eqb_spec (S (ws_spos s2)) (wc_status c - 1)) as [e2|e2].
      + eexists. split; [reflexivity|]. unfold wd_flush. cbn [ws_spos Nat.eqb]. repeat split; auto. intros _. cbn. lia.
      + eexists. split; [reflexivity|]. repeat split; auto. intros _. cbn. lia. }
  destruct St as (s3 & E3 & S1 & S2 & S3 & S4 & S5 & S6). rewrite E3. cbn [bind].
  set (s4 := mkWstate next (ws_last_blank s3) (ws_last_drops s3) (ws_warmup s3) (ws_win s3) (ws_spos s3) (ws_show s3) (ws_alive s3)).
  assert (K1 : wd_check_drops c s4 = ((D =? 0) || (u32 (next - ws_last_drops (wd_update_drops c s f next)) <? D))).
  { unfold wd_check_drops. cbn [s4 ws_pos ws_last_drops]. now rewrite S4, D5. }
  assert (K2 : forall t, ws_pos t = next -> ws_last_blank t = ws_last_blank s3 -> ws_warmup t = ws_warmup s3 ->
     wd_check_blank c t = ((M =? 0) || ws_warmup s1 || (u32 (next - ws_last_blank s1) <? M))).
  { intros t T1 T2 T3. unfold wd_check_blank. rewrite T1, T2, T3, S1, S2, D1, D2. reflexivity. }
  assert (Die : forall t, ws_pos (wd_die t) = ws_pos t /\ ws_last_blank (wd_die t) = ws_last_blank t /\ ws_warmup (wd_die t) = ws_warmup t /\ ws_alive (wd_die t) = false).
  { intros t. unfold wd_die, wd_flush. destruct (_ =? 0)%nat; cbn; auto. }
  set (s5 := if wd_check_drops c s4 then s4 else wd_die s4).
  assert (K3 : wd_check_blank c s5 = ((M =? 0) || ws_warmup s1 || (u32 (next - ws_last_blank s1) <? M))).
  { destruct (Die s4) as (X1 & X2 & X3 & _). subst s5. destruct (wd_check_drops c s4); apply K2; try reflexivity; [rewrite X1|rewrite X2|rewrite X3]; reflexivity. }
  set (cd := wd_check_drops c s4) in *. set (cb := wd_check_blank c s5) in *.
  assert (Hd : cd = false <-> D <> 0 /\ choppy_for D w (p ++ [f])).
  { rewrite K1. destruct (Z.eq_dec D 0) as [e|e].
    - rewrite e. cbn. split; [discriminate|]. intros [[] _]. reflexivity.
    - destruct (drops_step p s f I Fp Ff e (NW e)) as [H _]. cbv zeta in H. fold next in H. rewrite H. tauto. }
  assert (Hb : cb = false <-> M <> 0 /\ silent_for M W (p ++ [f])).
  { rewrite K3. destruct (Z.eq_dec M 0) as [e|e].
    - rewrite e. cbn. split; [discriminate|]. intros [[] _]. reflexivity.
    - destruct (blank_step p s f I Fp Ff e) as [H _]. cbv zeta in H. fold next in H. fold s1 in H. rewrite H. tauto. }
  eexists. split; [reflexivity|].
  destruct cd eqn:Ecd; [destruct cb eqn:Ecb|].
  - left. split.
    { unfold must_die. intros [H|H]; [apply Hb in H; discriminate|apply Hd in H; discriminate]. }
    subst s5. cbn [ws_pos ws_last_blank ws_last_drops ws_warmup ws_win ws_spos ws_show ws_alive s4].
    split; cbn [ws_pos ws_last_blank ws_last_drops ws_warmup ws_win ws_spos ws_show ws_alive].
    + subst next. rewrite (wi_pos _ _ I), endpos_snoc, !u32m. clear. lia.
    + exact S3.
    + exact S6.
    + intros e. destruct (blank_step p s f I Fp Ff e) as [_ H]. cbv zeta in H. fold next in H. fold s1 in H. apply H; [now rewrite <- K3| |]; cbn [ws_last_blank ws_warmup]; [now rewrite S1, D1|now rewrite S2, D2].
    + intros e. destruct (drops_step p s f I Fp Ff e (NW e)) as [_ H]. cbv zeta in H. fold next in H. apply H; [now rewrite <- K1| |]; cbn [ws_win ws_last_drops]; [now rewrite S5, D6|now rewrite S4, D5].
  - right. split; [left; now apply Hb|]. cbn [ws_alive]. apply Die.
  - right. split; [right; now apply Hd|]. cbn [ws_alive]. destruct cb; [subst s5|]; apply Die.
Qed.

(** * Runs *)
Lemma run_dead fs : forall s, ws_alive s = false -> wd_run c s fs = Ok (repeat false (length fs), s).
Proof. induction fs as [|f fs IH]; intros s H; cbn [wd_run]; [reflexivity|]. unfold wd_read. rewrite H. cbn. now rewrite IH. Qed.

Lemma endpos_app a b : endpos (a ++ b) = endpos a + endpos b.
Proof. unfold endpos. induction a as [|x a IH]; cbn [app fold_right]; [lia|]. rewrite IH. lia. Qed.
Lemma endpos_nonneg a : Forall fok a -> 0 <= endpos a.
Proof. intros F. induction F as [|x l Hx F IH]; unfold endpos in *; cbn; [lia|]. destruct Hx. lia. Qed.

Lemma run_spec fs : forall p s, wd_inv p s -> Forall fok p -> Forall fok fs -> wrap_ok (endpos (p ++ fs)) ->
  exists bs s', wd_run c s fs = Ok (bs, s') /\ length bs = length fs /\
    (forall i, (i < length fs)%nat -> nth_error bs i = Some true <-> forall n, (n < i)%nat -> ~ must_die c (p ++ firstn (S n) fs)) /\
    (ws_alive s' = true <-> forall n, (n < length fs)%nat -> ~ must_die c (p ++ firstn (S n) fs)).
Proof.
  induction fs as [|f fs IH]; intros p s I Fp F NW; cbn [wd_run].
  - exists [], s. split; [reflexivity|]. split; [reflexivity|]. split; [intros i Hi; cbn in Hi; lia|]. rewrite (wi_alive _ _ I). split; [intros _ n Hn; cbn in Hn; lia|auto].
  - pose proof (Forall_inv F) as Hf. apply Forall_inv_tail in F.
    assert (NW1 : wrap_ok (endpos p + wf_dur f)).
    { intros e. destruct (NW e) as [H|H]; [left; exact H|right]. rewrite endpos_app in H. change (f :: fs) with ([f] ++ fs) in H. rewrite endpos_app in H.
      unfold endpos in H at 2. cbn in H. pose proof (endpos_nonneg fs F). lia. }
    destruct (read_step p s f I Fp Hf NW1) as (s1 & E & [[H1 H2]|[H1 H2]]); rewrite E; cbn [bind].
    + assert (NW2 : wrap_ok (endpos ((p ++ [f]) ++ fs))) by (rewrite <- app_assoc; exact NW).
      destruct (IH (p ++ [f]) s1 H2) as (bs & s' & E2 & L & N & A); auto.
      { apply Forall_app. split; auto. }
      exists (true :: bs), s'. rewrite E2. cbn [bind]. split; [reflexivity|]. split; [cbn; lia|]. split.
      * intros [|i] Hi; [split; [intros _ n Hn; lia|reflexivity]|]. cbn [nth_error]. cbn [length] in Hi. rewrite N by lia. split.
        -- intros H [|n] Hn; [exact H1|]. cbn [firstn]. rewrite <- (app_assoc p [f]) in *. specialize (H n ltac:(lia)). now rewrite <- app_assoc in H.
        -- intros H n Hn. rewrite <- app_assoc. apply (H (S n)). lia.
      * rewrite A. split.
        -- intros H [|n] Hn; [exact H1|]. cbn [firstn]. cbn [length] in Hn. specialize (H n ltac:(lia)). now rewrite <- app_assoc in H.
        -- intros H n Hn. rewrite <- app_assoc. apply (H (S n)). cbn. lia.
    + rewrite run_dead by exact H2. cbn [bind]. exists (true :: repeat false (length fs)), s1. split; [reflexivity|].
      split; [cbn; now rewrite repeat_length|]. split.
      * intros [|i] Hi; [split; [intros _ n Hn; lia|reflexivity]|]. cbn [nth_error]. cbn [length] in Hi. split.
        -- rewrite nth_error_repeat_lt by lia. discriminate.
        -- intros H. exfalso. apply (H 0%nat); [lia|exact H1].
      * rewrite H2. split; [discriminate|]. intros H. exfalso. apply (H 0%nat); [cbn; lia|exact H1].
Qed.
End W.
