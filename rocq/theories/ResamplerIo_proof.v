From Coq Require Import ZArith List Bool Lia.
From Verif Require Import Base Float32 TimeConv_model Resampler_model Resampler_spec Resampler_proof Resampler_hist ResamplerIo_model ResamplerIo_spec.
Import ListNotations.
Local Open Scope Z_scope.

Notation no_edge c := (Forall (fun x => ~ at_edge c x)).

Lemma cons_len t p n : length (consecutive t p n) = n.
Proof. unfold consecutive. rewrite map_length, seq_length. reflexivity. Qed.
Lemma cons_S t p n : consecutive t p (S n) = (t, p) :: consecutive (t + p_dt p) p n.
Proof.
  unfold consecutive. cbn [seq map]. f_equal; [f_equal; lia|]. rewrite <- seq_shift, map_map. apply map_ext. intros j. f_equal. lia.
Qed.
Lemma cons_app p k : forall t n, consecutive t p (k + n) = consecutive t p k ++ consecutive (t + Z.of_nat k * p_dt p) p n.
Proof.
  induction k as [|k IH]; intros t n.
  - cbn [plus]. replace (t + Z.of_nat 0 * p_dt p) with t by lia. reflexivity.
  - cbn [plus]. rewrite !cons_S, IH. cbn [app]. do 3 f_equal. lia.
Qed.
Lemma outputs_app c a b : outputs c (a ++ b) = outputs c a ++ outputs c b.
Proof. apply map_app. Qed.

(* [due] stops after as many steps as fit *)
Lemma due_k p limit n : forall t, let d := due n limit t (p_dt p) in let k := length (fst d) in
  map (fun t => (t, p)) (fst d) = consecutive t p k /\ snd d = t + Z.of_nat k * p_dt p /\ (k <= n)%nat /\
  ((k < n)%nat -> limit <= t + Z.of_nat k * p_dt p) /\ ((0 < k)%nat -> t + (Z.of_nat k - 1) * p_dt p < limit).
Proof.
  induction n as [|n IH]; intros t; cbv zeta.
  - cbn. repeat split; lia.
  - rewrite due_S. destruct (Z.leb_spec limit t) as [L|L].
    + cbn. repeat split; lia.
    + cbn [fst snd length map]. destruct (IH (t + p_dt p)) as (H1 & H2 & H3 & H4 & H5).
      set (k := length (fst (due n limit (t + p_dt p) (p_dt p)))) in *. rewrite cons_S, H1, H2.
      repeat split; try lia. intros _. destruct k as [|k]; [lia|]. specialize (H5 ltac:(lia)). lia.
Qed.

Lemma pop_ok c st t p n : cfg_ok c -> par_ok c (r_par st) -> inv c st t p ->
  exists k, (k <= n)%nat /\ (p < 3 -> k = O) /\
  ((k < n)%nat -> p < 3 \/ (p - 1) * c_frame c * unit <= t + Z.of_nat k * p_dt (r_par st)) /\
  ((0 < k)%nat -> 3 <= p /\ t + (Z.of_nat k - 1) * p_dt (r_par st) < (p - 1) * c_frame c * unit) /\
  (no_edge c (consecutive t (r_par st) k) -> exists st', pop c n st = Ok (outputs c (consecutive t (r_par st) k), st')) /\
  (forall r, pop c n st = Ok r -> fst r = outputs c (consecutive t (r_par st) k) /\ inv c (snd r) (t + Z.of_nat k * p_dt (r_par st)) p /\
     r_par (snd r) = r_par st /\ no_edge c (consecutive t (r_par st) k)).
Proof.
  intros C P I. pose proof I as (I1 & I0 & I3 & _). unfold pop. rewrite I3. destruct (Z.ltb_spec (Z.min 3 p) 3) as [L|L].
  - exists O. do 4 (split; [lia|]). split; [intros _; eexists; reflexivity|].
    intros r E. assert (r = ([], st)) as -> by congruence. cbn [fst snd]. replace (t + Z.of_nat 0 * p_dt (r_par st)) with t by lia.
    split; [reflexivity|]. split; [exact I|]. split; [reflexivity|constructor].
  - assert (L3 : 3 <= p) by lia. destruct (pop_loop_ok c p n st t C P I L3) as [H1 H2]. cbv zeta in H1, H2.
    destruct (due_k (r_par st) ((p - 1) * c_frame c * unit) n t) as (D1 & D2 & D3 & D4 & D5). cbv zeta in *.
    rewrite D1 in H1, H2. rewrite D2 in H2. eexists. split; [exact D3|]. split; [lia|]. split; [intros X; right; apply D4, X|].
    split; [intros X; split; [lia|]; apply D5, X|]. split; [exact H1|exact H2].
Qed.

(* reader *)
Definition needed_after (c : cfg) (p t dt : Z) (n : nat) : Z :=
  match n with O => p | S m => Z.max p (frames_needed c (t + Z.of_nat m * dt)) end.

Lemma needed_ge c t p : cfg_ok c -> (p - 1) * c_frame c * unit <= t -> p + 1 <= frames_needed c t.
Proof.
  intros C H. unfold cfg_ok, frames_needed, unit in *. assert (p - 1 <= t / (c_frame c * 1048576)); [|lia].
  apply Z.div_le_lower_bound; lia.
Qed.
Lemma needed_le c t p : cfg_ok c -> t < (p - 1) * c_frame c * unit -> frames_needed c t <= p.
Proof.
  intros C H. unfold cfg_ok, frames_needed, unit in *. assert (t / (c_frame c * 1048576) < p - 1); [|lia].
  apply Z.div_lt_upper_bound; lia.
Qed.
Lemma par_dt c p : par_ok c p -> 0 <= p_dt p. Proof. intros (_ & _ & _ & _ & H). lia. Qed.
Lemma inv_time c st t p : inv c st t p -> p < 3 -> t = c_frame c * 1048576.
Proof. intros (_ & _ & _ & _ & _ & H & _) L. apply H, L. Qed.

Lemma read_ok c : forall up st t p n, cfg_ok c -> par_ok c (r_par st) -> inv c st t p -> Forall (eq true) up ->
  let l := consecutive t (r_par st) n in let p' := needed_after c p t (p_dt (r_par st)) n in
  (no_edge c l -> p' - p <= Z.of_nat (length up) -> exists o st' up', read_loop c st up n = Ok (Some o, st', up')) /\
  (forall o st' up', read_loop c st up n = Ok (Some o, st', up') ->
     o = outputs c l /\ inv c st' (t + Z.of_nat n * p_dt (r_par st)) p' /\ r_par st' = r_par st /\
     p' - p = Z.of_nat (length up) - Z.of_nat (length up') /\ Forall (eq true) up' /\ no_edge c l).
Proof.
  induction up as [|b up IH]; intros st t p n C P I U; cbv zeta.
  all: destruct n as [|n].
  1,3: cbn [needed_after consecutive seq map read_loop]; split; [intros _ _; do 3 eexists; reflexivity|];
    intros o st' up' E; assert (o = []) as -> by congruence; assert (st' = st) as -> by congruence; match type of E with Ok (_, _, ?u) = _ => assert (up' = u) by congruence; subst up' end;
    replace (t + Z.of_nat 0 * p_dt (r_par st)) with t by lia; repeat (split; [first [reflexivity|exact I|lia|assumption]|]); first [reflexivity|assumption|constructor].
  all: destruct (pop_ok c st t p (S n) C P I) as (k & K1 & K2 & K3 & K4 & K5 & K6); pose proof (par_dt _ _ P) as DT;
    set (dt := p_dt (r_par st)) in *; cbn [needed_after].
  - split.
    + intros NE HL. cbn [length] in HL. change (Z.of_nat 0) with 0 in HL.
      assert (k = S n) as ->.
      { destruct (Nat.eq_dec k (S n)) as [|N]; [assumption|]. exfalso. specialize (K3 ltac:(lia)).
        assert (p + 1 <= frames_needed c (t + Z.of_nat n * dt)); [|lia]. destruct K3 as [K3|K3].
        - pose proof (needed_ge c (t + Z.of_nat n * dt) 2 C ltac:(rewrite (inv_time _ _ _ _ I K3); unfold unit; nia)). lia.
        - apply needed_ge; auto. nia. }
      destruct (K5 NE) as [st' E]. cbn [read_loop]. rewrite E. cbn [bind fst snd]. unfold outputs. rewrite map_length, cons_len, Nat.ltb_irrefl. eauto.
    + intros o st' up' E. cbn [read_loop] in E. destruct (pop c (S n) st) as [r| |] eqn:R; cbn [bind] in E; try discriminate E.
      destruct (K6 r eq_refl) as (J1 & J2 & J3 & J4).
      assert (LK : length (fst r) = k) by (rewrite J1; unfold outputs; rewrite map_length, cons_len; reflexivity). rewrite LK in E.
      destruct (Nat.ltb_spec k (S n)); [discriminate E|]. assert (k = S n) as -> by lia.
      assert (o = fst r) as -> by congruence. assert (st' = snd r) as -> by congruence. assert (up' = []) as -> by congruence.
      pose proof (needed_le c (t + Z.of_nat n * dt) p C ltac:(destruct (K4 ltac:(lia)); lia)) as NL.
      rewrite Z.max_l by exact NL. repeat (split; [first [reflexivity|exact J1|exact J2|lia|assumption]|]); assumption.
  - split.
    + intros NE HL. cbn [length] in HL. cbn [read_loop].
      assert (SP : consecutive t (r_par st) (S n) = consecutive t (r_par st) k ++ consecutive (t + Z.of_nat k * dt) (r_par st) (S n - k)).
      { rewrite <- cons_app. f_equal. lia. }
      rewrite SP in NE. apply Forall_app in NE. destruct NE as [N1 N2]. destruct (K5 N1) as [st1 E]. rewrite E. cbn [bind fst snd].
      assert (LK : length (outputs c (consecutive t (r_par st) k)) = k) by (unfold outputs; rewrite map_length, cons_len; reflexivity). rewrite LK.
      destruct (Nat.ltb_spec k (S n)) as [LT|LT]; [|eauto].
      pose proof (Forall_inv U) as U1. pose proof (Forall_inv_tail U) as U2. subst b.
      destruct (K6 _ E) as (_ & J2 & J3 & _). cbn [snd] in J2, J3.
      pose proof (push_inv c st1 _ p C J2) as PI.
      assert (EB : (3 <=? p) && (t + Z.of_nat k * dt <? (p - 1) * c_frame c * unit) = false).
      { destruct (K3 LT) as [X|X]; [destruct (Z.leb_spec 3 p); [lia|reflexivity]|]. apply andb_false_iff. right. apply Z.ltb_ge. exact X. }
      rewrite EB in PI.
      assert (P1 : r_par (push c st1) = r_par st) by (rewrite push_par; exact J3).
      destruct (IH (push c st1) _ (p + 1) (S n - k)%nat C ltac:(rewrite P1; exact P) PI U2) as [H1 _]. cbv zeta in H1. rewrite P1 in H1. fold dt in H1.
      destruct (H1 N2) as (o & st' & up' & E2).
      { destruct (S n - k)%nat as [|m] eqn:M; [lia|]. cbn [needed_after]. replace (t + Z.of_nat k * dt + Z.of_nat m * dt) with (t + Z.of_nat n * dt) by nia.
        destruct (K3 LT) as [X|X]; lia. }
      rewrite E2. cbn [bind fst snd]. eauto.
    + intros o st' up' E. cbn [read_loop] in E. destruct (pop c (S n) st) as [r| |] eqn:R; cbn [bind] in E; try discriminate E.
      destruct (K6 r eq_refl) as (J1 & J2 & J3 & J4).
      assert (LK : length (fst r) = k) by (rewrite J1; unfold outputs; rewrite map_length, cons_len; reflexivity). rewrite LK in E.
      destruct (Nat.ltb_spec k (S n)) as [LT|LT].
      * pose proof (Forall_inv U) as U1. pose proof (Forall_inv_tail U) as U2. subst b.
        pose proof (push_inv c (snd r) _ p C J2) as PI.
        assert (EB : (3 <=? p) && (t + Z.of_nat k * dt <? (p - 1) * c_frame c * unit) = false).
        { destruct (K3 LT) as [X|X]; [destruct (Z.leb_spec 3 p); [lia|reflexivity]|]. apply andb_false_iff. right. apply Z.ltb_ge. exact X. }
        rewrite EB in PI.
        assert (P1 : r_par (push c (snd r)) = r_par st) by (rewrite push_par; exact J3).
        destruct (IH (push c (snd r)) _ (p + 1) (S n - k)%nat C ltac:(rewrite P1; exact P) PI U2) as [_ H2]. cbv zeta in H2. rewrite P1 in H2. fold dt in H2.
        destruct (read_loop c (push c (snd r)) up (S n - k)) as [[[q q2] q3]| |] eqn:Q; cbn [bind fst snd] in E; try discriminate E.
        destruct q as [q|]; [|discriminate E]. destruct (H2 q q2 q3 eq_refl) as (M1 & M2 & M3 & M4 & M5 & M6).
        assert (o = fst r ++ q) as -> by congruence. assert (st' = q2) as -> by congruence. assert (up' = q3) as -> by congruence.
        assert (SP : consecutive t (r_par st) (S n) = consecutive t (r_par st) k ++ consecutive (t + Z.of_nat k * dt) (r_par st) (S n - k)).
        { rewrite <- cons_app. f_equal. lia. }
        rewrite SP, outputs_app, J1, M1.
        assert (NB : p + 1 <= frames_needed c (t + Z.of_nat n * dt)).
        { destruct (K3 LT) as [X|X].
          - pose proof (needed_ge c (t + Z.of_nat n * dt) 2 C ltac:(rewrite (inv_time _ _ _ _ I X); unfold unit; nia)). lia.
          - apply needed_ge; auto. nia. }
        assert (NA : needed_after c (p + 1) (t + Z.of_nat k * dt) dt (S n - k) = Z.max p (frames_needed c (t + Z.of_nat n * dt))).
        { destruct (S n - k)%nat as [|m] eqn:M; [lia|]. cbn [needed_after]. replace (t + Z.of_nat k * dt + Z.of_nat m * dt) with (t + Z.of_nat n * dt) by nia. lia. }
        rewrite NA in M2, M4. replace (t + Z.of_nat k * dt + Z.of_nat (S n - k) * dt) with (t + Z.of_nat (S n) * dt) in M2 by nia.
        split; [reflexivity|]. split; [exact M2|]. split; [exact M3|]. split; [cbn [length]; lia|]. split; [exact M5|]. apply Forall_app. auto.
      * assert (k = S n) as -> by lia.
        assert (o = fst r) as -> by congruence. assert (st' = snd r) as -> by congruence. assert (up' = b :: up) as -> by congruence.
        pose proof (needed_le c (t + Z.of_nat n * dt) p C ltac:(destruct (K4 ltac:(lia)); lia)) as NL.
        rewrite Z.max_l by exact NL. repeat (split; [first [reflexivity|exact J1|exact J2|lia|assumption]|]); assumption.
Qed.

Definition rscale_ok (c : cfg) (ir or : Z) (o : rop) : Prop :=
  match o with RScale m => scale_ok c (Scale ir or m) | RRead _ => True end.
Definition wscale_ok (c : cfg) (ir or : Z) (o : wop) : Prop :=
  match o with WScale m => scale_ok c (Scale ir or m) | WWrite m => 0 <= m end.

Lemma needed_app c a b : needed c (a ++ b) = Z.max (needed c a) (needed c b).
Proof. unfold needed. rewrite map_app. induction (map _ a) as [|x l IH]; cbn [app fold_right]; [|rewrite IH; lia].
  induction (map _ b) as [|y m IH]; cbn [fold_right]; lia. Qed.
Lemma needed_mono c a b : cfg_ok c -> a <= b -> frames_needed c a <= frames_needed c b.
Proof. intros C H. unfold frames_needed, unit, cfg_ok in *. pose proof (Z.div_le_mono a b (c_frame c * 1048576)). lia. Qed.
Lemma needed_cons c q : cfg_ok c -> 0 <= p_dt q -> forall n t, 0 <= t ->
  needed c (consecutive t q n) = match n with O => 0 | S m => frames_needed c (t + Z.of_nat m * p_dt q) end.
Proof.
  intros C D. induction n as [|n IH]; intros t T; [reflexivity|]. rewrite cons_S. unfold needed in *. cbn [map fold_right fst]. rewrite IH by lia.
  destruct n as [|n].
  - rewrite Z.max_l; [f_equal; lia|]. unfold frames_needed, cfg_ok, unit in *. pose proof (Z.div_pos t (c_frame c * 1048576)). lia.
  - replace (t + p_dt q + Z.of_nat n * p_dt q) with (t + Z.of_nat (S n) * p_dt q) by lia. apply Z.max_r. apply needed_mono; auto. nia.
Qed.
Lemma after_needed c p q t n : cfg_ok c -> 0 <= p_dt q -> 0 <= t -> 0 <= p ->
  needed_after c p t (p_dt q) n = Z.max p (needed c (consecutive t q n)).
Proof. intros C D T P. rewrite needed_cons by auto. destruct n; cbn [needed_after]; lia. Qed.

Lemma set_rescale c ir or m st r : set_scaling c ir or m = Ok r ->
  r_par (match r with Some q => with_par st q | None => st end) = rescale c ir or m (r_par st).
Proof. intros E. unfold rescale. rewrite E. destruct r; reflexivity. Qed.

Lemma reads_ok c ir or : forall os up st t p, cfg_ok c -> par_ok c (r_par st) -> inv c st t p -> 0 <= t -> 0 <= p -> Forall (eq true) up ->
  Forall (rscale_ok c ir or) os ->
  let ts := read_times c ir or t (r_par st) os in let p' := Z.max p (needed c (concat ts)) in
  (no_edge c (concat ts) -> p' - p <= Z.of_nat (length up) -> exists r, reads c ir or st up os = Ok r /\ ~ In None (fst (fst r))) /\
  (forall o st' up', reads c ir or st up os = Ok (o, st', up') -> ~ In None o ->
     o = map Some (outs_of c ts) /\ p' - p = Z.of_nat (length up) - Z.of_nat (length up') /\ no_edge c (concat ts)).
Proof.
  induction os as [|x os IH]; intros up st t p C P I T0 P0 U S; cbv zeta.
  - cbn. split; [intros _ _; eexists; split; [reflexivity|intros []]|]. intros o st' up' E _.
    assert (o = []) as -> by congruence. assert (up' = up) as -> by congruence. repeat split; [lia|constructor].
  - pose proof (Forall_inv S) as S1. pose proof (Forall_inv_tail S) as S2. clear S. destruct x as [m|n]; cbn [reads read_times].
    + destruct S1 as (r & Er & Hr). rewrite Er. cbn [bind]. set (st2 := match r with Some q => with_par st q | None => st end).
      pose proof (set_rescale c ir or m st r Er) as P2. fold st2 in P2.
      assert (I2 : inv c st2 t p) by (unfold st2; destruct r; [apply inv_par|]; exact I).
      assert (P3 : par_ok c (r_par st2)) by (unfold st2; destruct r; [apply Hr; reflexivity|exact P]).
      rewrite <- P2. apply IH; auto.
    + destruct (read_ok c up st t p n C P I U) as [H1 H2]. cbv zeta in H1, H2. pose proof (par_dt _ _ P) as D.
      rewrite (after_needed c p (r_par st) t n C D T0 P0) in H1, H2. set (l := consecutive t (r_par st) n) in *.
      cbn [concat]. rewrite needed_app. set (t2 := t + Z.of_nat n * p_dt (r_par st)) in *.
      set (p2 := Z.max p (needed c l)) in *.
      split.
      * intros NE LE. apply Forall_app in NE. destruct NE as [N1 N2]. destruct (H1 N1 ltac:(lia)) as (o & st' & up' & E). rewrite E. cbn [bind fst snd].
        destruct (H2 _ _ _ E) as (A1 & A2 & A3 & A4 & A5 & A6).
        destruct (IH up' st' t2 p2 C ltac:(rewrite A3; exact P) A2 ltac:(unfold t2; nia) ltac:(lia) A5 S2) as [G1 _]. cbv zeta in G1. rewrite A3 in G1.
        destruct (G1 N2 ltac:(lia)) as (r & R1 & R2). rewrite R1. cbn [bind]. eexists. split; [reflexivity|]. cbn [fst]. intros [X|X]; [discriminate X|auto].
      * intros o st' up' E NN. destruct (read_loop c st up n) as [[[q q2] q3]| |] eqn:Q; cbn [bind fst snd] in E; try discriminate E.
        destruct (reads c ir or q2 q3 os) as [[[z z2] z3]| |] eqn:Z1; cbn [bind fst snd] in E; try discriminate E.
        assert (o = q :: z) as -> by congruence. assert (up' = z3) as -> by congruence.
        destruct q as [q|]; [|exfalso; apply NN; left; reflexivity].
        destruct (H2 _ _ _ eq_refl) as (A1 & A2 & A3 & A4 & A5 & A6).
        destruct (IH q3 q2 t2 p2 C ltac:(rewrite A3; exact P) A2 ltac:(unfold t2; nia) ltac:(lia) A5 S2) as [_ G2]. cbv zeta in G2. rewrite A3 in G2.
        destruct (G2 _ _ _ Z1 ltac:(intros X; apply NN; right; exact X)) as (B1 & B2 & B3).
        cbn [outs_of map]. split; [rewrite A1, B1; reflexivity|]. split; [lia|]. apply Forall_app. auto.
Qed.

(* writer *)
Definition winv (c : cfg) (w : wr) (t p : Z) : Prop :=
  0 <= w_fill w < c_frame c /\ (p - 1 < 3 \/ (p - 2) * c_frame c * unit <= t) /\
  (w_fill w = 0 -> inv c (w_rs w) t p) /\
  (0 < w_fill w -> (p < 3 \/ (p - 1) * c_frame c * unit <= t) /\ exists st0, inv c st0 t p /\ w_rs w = begin_push st0).

Lemma begin_fields st : r_ready (begin_push st) = r_ready st /\ r_sample (begin_push st) = r_sample st /\ r_par (begin_push st) = r_par st.
Proof. unfold begin_push. destruct (r_ready st <? 3); auto. Qed.

Lemma wpop_ok c w t p n : cfg_ok c -> par_ok c (r_par (w_rs w)) -> winv c w t p -> let q := r_par (w_rs w) in
  exists k, (k <= n)%nat /\
  ((k < n)%nat -> p < 3 \/ (p - 1) * c_frame c * unit <= t + Z.of_nat k * p_dt q) /\
  ((0 < k)%nat -> 3 <= p /\ t + (Z.of_nat k - 1) * p_dt q < (p - 1) * c_frame c * unit) /\
  (no_edge c (consecutive t q k) -> exists st', pop c n (w_rs w) = Ok (outputs c (consecutive t q k), st')) /\
  (forall r, pop c n (w_rs w) = Ok r -> fst r = outputs c (consecutive t q k) /\ winv c (mkWr (snd r) (w_fill w)) (t + Z.of_nat k * p_dt q) p /\
     r_par (snd r) = q /\ no_edge c (consecutive t q k)).
Proof.
  intros C P (W1 & W2 & W3 & W4) q. destruct (Z.eq_dec (w_fill w) 0) as [F|F].
  - destruct (pop_ok c (w_rs w) t p n C P (W3 F)) as (k & K1 & K2 & K3 & K4 & K5 & K6). exists k. fold q in K3, K4, K5, K6.
    do 4 (split; [assumption|]). intros r R. destruct (K6 r R) as (J1 & J2 & J3 & J4). split; [exact J1|]. split; [|split; [exact J3|exact J4]].
    pose proof (par_dt _ _ P) as D. fold q in D. assert (0 <= Z.of_nat k * p_dt q) by nia.
    unfold winv. cbn [w_fill w_rs]. split; [exact W1|]. split; [lia|]. split; [intros _; exact J2|]. lia.
  - destruct (W4 ltac:(lia)) as (L & st0 & I & E). exists O.
    destruct (begin_fields st0) as (B1 & B2 & B3). pose proof I as (I1 & I0 & I3 & _ & _ & _ & I7).
    assert (PE : pop c n (w_rs w) = Ok ([], w_rs w)).
    { unfold pop. rewrite E, B1, I3. destruct (Z.ltb_spec (Z.min 3 p) 3) as [X|X]; [reflexivity|].
      destruct n; [reflexivity|]. cbn [pop_loop]. rewrite qt_frame_eq by (unfold cfg_ok in C; lia). rewrite B2.
      destruct (I7 ltac:(lia)) as (_ & _ & _ & _ & _ & J6). destruct (Z.leb_spec (c_frame c * 1048576) (r_sample st0)); [reflexivity|].
      unfold unit in *. nia. }
    split; [lia|]. split; [intros _; destruct L; [left; assumption|right; lia]|]. split; [lia|]. split; [intros _; eexists; rewrite PE; reflexivity|].
    intros r R. assert (r = ([], w_rs w)) as -> by congruence. cbn [fst snd]. split; [reflexivity|]. split; [|split; [reflexivity|constructor]].
    replace (t + Z.of_nat 0 * p_dt q) with t by lia. unfold winv. cbn [w_fill w_rs]. auto.
Qed.

Lemma push_input_ok c w t p m : cfg_ok c -> winv c w t p -> 0 < m -> (p < 3 \/ (p - 1) * c_frame c * unit <= t) ->
  let x := push_input c w m in
  0 < snd x <= m /\ r_par (w_rs (fst x)) = r_par (w_rs w) /\ exists p', winv c (fst x) t p' /\ p' * c_frame c + w_fill (fst x) = p * c_frame c + w_fill w + snd x.
Proof.
  intros C (W1 & W2 & W3 & W4) M L. unfold push_input. cbv zeta.
  set (st := if w_fill w =? 0 then begin_push (w_rs w) else w_rs w).
  assert (S : exists st0, inv c st0 t p /\ st = begin_push st0 /\ r_par (w_rs w) = r_par st0).
  { unfold st. destruct (Z.eqb_spec (w_fill w) 0) as [F|F]; [exists (w_rs w); auto|].
    destruct (W4 ltac:(lia)) as (_ & st0 & I & E). exists st0. split; [exact I|]. split; [exact E|]. rewrite E. apply begin_fields. }
  destruct S as (st0 & I & E & E2). unfold cfg_ok in C.
  destruct (Z.eqb_spec (w_fill w + Z.min m (c_frame c - w_fill w)) (c_frame c)) as [F|F]; cbn [fst snd w_rs w_fill].
  - split; [lia|]. assert (EP : end_push c st = push c st0) by (rewrite E; reflexivity). rewrite EP.
    split; [rewrite push_par; symmetry; exact E2|]. exists (p + 1). split; [|lia].
    pose proof (push_inv c st0 t p C I) as PI.
    assert (EB : (3 <=? p) && (t <? (p - 1) * c_frame c * unit) = false).
    { destruct L as [X|X]; [destruct (Z.leb_spec 3 p); [lia|reflexivity]|]. apply andb_false_iff. right. apply Z.ltb_ge. exact X. }
    rewrite EB in PI. unfold winv. cbn [w_fill w_rs]. split; [lia|]. split; [destruct L; [left; lia|right; replace (p + 1 - 2) with (p - 1) by lia; assumption]|].
    split; [intros _; exact PI|lia].
  - split; [lia|]. split; [rewrite E; rewrite E2; apply begin_fields|]. exists p. split; [|lia].
    unfold winv. cbn [w_fill w_rs]. split; [lia|]. split; [exact W2|]. split; [lia|]. intros _. split; [exact L|]. exists st0. auto.
Qed.

Definition count (c : cfg) (t total m : Z) (q : params) : nat :=
  if 3 <=? (total + m - 1) / c_frame c then steps_before (((total + m - 1) / c_frame c - 1) * c_frame c * unit) t (p_dt q) else O.

Lemma steps_zero limit t dt : 0 < dt -> limit <= t -> steps_before limit t dt = O.
Proof. intros D L. unfold steps_before. assert ((limit - t + dt - 1) / dt < 1) by (apply Z.div_lt_upper_bound; lia). lia. Qed.
Lemma steps_add limit t dt k : 0 < dt -> t + (Z.of_nat k - 1) * dt < limit ->
  steps_before limit t dt = (k + steps_before limit (t + Z.of_nat k * dt) dt)%nat.
Proof.
  intros D L. unfold steps_before. replace (limit - t + dt - 1) with (limit - (t + Z.of_nat k * dt) + dt - 1 + Z.of_nat k * dt) by lia.
  rewrite Z.div_add by lia. assert (0 <= (limit - (t + Z.of_nat k * dt) + dt - 1) / dt) by (apply Z.div_pos; lia). lia.
Qed.

Lemma count_zero c w t p q : cfg_ok c -> 0 < p_dt q -> winv c w t p -> count c t (p * c_frame c + w_fill w) 0 q = O.
Proof.
  intros C D (W1 & W2 & W3 & W4). unfold count. destruct (Z.leb_spec 3 ((p * c_frame c + w_fill w + 0 - 1) / c_frame c)) as [L|L]; [|reflexivity].
  apply steps_zero; [exact D|]. unfold cfg_ok in C. destruct (Z.eq_dec (w_fill w) 0) as [F|F].
  - assert (EQ : (p * c_frame c + w_fill w + 0 - 1) / c_frame c = p - 1).
    { rewrite F. symmetry. apply Z.div_unique with (c_frame c - 1); nia. }
    rewrite EQ in *. replace (p - 1 - 1) with (p - 2) by lia. lia.
  - assert (EQ : (p * c_frame c + w_fill w + 0 - 1) / c_frame c = p).
    { symmetry. apply Z.div_unique with (w_fill w - 1); nia. }
    rewrite EQ in *. destruct (W4 ltac:(lia)) as ([X|X] & _); [lia|exact X].
Qed.

Lemma complete_ge c total p fill m : cfg_ok c -> 0 <= fill -> total = p * c_frame c + fill -> 0 < m -> p <= (total + m - 1) / c_frame c.
Proof. intros C F E M. unfold cfg_ok in C. apply Z.div_le_lower_bound; nia. Qed.

Definition measure (c : cfg) (t total m : Z) : Z := m + Z.max 0 (((total + m - 1) / c_frame c - 1) * c_frame c * unit - t).

Lemma count_add c t total m q p k : cfg_ok c -> 0 < p_dt q -> p <= (total + m - 1) / c_frame c ->
  ((0 < k)%nat -> 3 <= p /\ t + (Z.of_nat k - 1) * p_dt q < (p - 1) * c_frame c * unit) ->
  count c t total m q = (k + count c (t + Z.of_nat k * p_dt q) total m q)%nat.
Proof.
  intros C D G K. destruct k as [|k].
  - replace (t + Z.of_nat 0 * p_dt q) with t by lia. reflexivity.
  - destruct (K ltac:(lia)) as [K1 K2]. unfold count. destruct (Z.leb_spec 3 ((total + m - 1) / c_frame c)); [|lia].
    apply steps_add; [exact D|]. unfold cfg_ok, unit in *. nia.
Qed.

Lemma write_ok c ch S : cfg_ok c -> 0 < ch -> 0 < S -> forall fuel w out m t p, par_ok c (r_par (w_rs w)) -> 0 < p_dt (r_par (w_rs w)) ->
  winv c w t p -> 0 <= m -> Z.of_nat (length out) < S ->
  let q := r_par (w_rs w) in let total := p * c_frame c + w_fill w in let n := count c t total m q in let l := consecutive t q n in
  (no_edge c l -> measure c t total m <= Z.of_nat fuel -> exists r, write_loop fuel c ch (ch * S) w out m = Ok (Some r)) /\
  (forall fs w', write_loop fuel c ch (ch * S) w out m = Ok (Some (fs, w')) ->
     concat fs = out ++ outputs c l /\ Forall (fun f => f <> [] /\ Z.of_nat (length f) <= S) fs /\ no_edge c l /\ r_par (w_rs w') = q /\
     exists p', winv c w' (t + Z.of_nat n * p_dt q) p' /\ p' * c_frame c + w_fill w' = total + m).
Proof.
  intros C HC HS. induction fuel as [|fuel IH]; intros w out m t p P D W M LO; cbv zeta.
  all: destruct (Z.leb_spec m 0) as [M0|M0].
  1,3: assert (m = 0) as -> by lia; rewrite (count_zero c w t p _ C D W); cbn [consecutive seq map outputs write_loop];
    change (0 <=? 0) with true; cbn match; split; [intros _ _; eexists; reflexivity|];
    intros fs w' E; match type of E with Ok (Some (?f, _)) = _ => assert (fs = f) as -> by congruence end; assert (w' = w) as -> by congruence;
    (split; [destruct out; cbn [concat]; rewrite ?app_nil_r; reflexivity|]);
    (split; [destruct out; repeat constructor; [discriminate|lia]|]); (split; [constructor|]); (split; [reflexivity|]);
    exists p; replace (t + Z.of_nat 0 * p_dt (r_par (w_rs w))) with t by lia; split; [exact W|lia].
  - cbn [write_loop]. destruct (Z.leb_spec m 0); [lia|]. split.
    + intros _ X. unfold measure in X. lia.
    + intros fs w' E. discriminate E.
  - cbn [write_loop]. destruct (Z.leb_spec m 0) as [|_]; [lia|].
    set (q := r_par (w_rs w)) in *. set (total := p * c_frame c + w_fill w). set (dt := p_dt q) in *.
    assert (RM : (ch * S - ch * Z.of_nat (length out) + ch - 1) / ch = S - Z.of_nat (length out)).
    { symmetry. apply Z.div_unique with (ch - 1); nia. }
    rewrite RM. set (n1 := Z.to_nat (S - Z.of_nat (length out))). assert (N1 : Z.of_nat n1 = S - Z.of_nat (length out)) by lia.
    destruct (wpop_ok c w t p n1 C P W) as (k & K1 & K3 & K4 & K5 & K6). fold q in K3, K4, K5, K6. fold dt in K3, K4, K6.
    pose proof (complete_ge c total p (w_fill w) m C ltac:(destruct W; lia) eq_refl M0) as CG.
    pose proof (count_add c t total m q p k C D CG K4) as CA. fold dt in CA.
    rewrite CA, cons_app. fold dt. set (l1 := consecutive t q k) in *. set (t1 := t + Z.of_nat k * dt) in *.
    set (n2 := count c t1 total m q) in *.
    assert (LK : length (outputs c l1) = k) by (unfold outputs, l1; rewrite map_length, cons_len; reflexivity).
    assert (KD : 0 <= Z.of_nat k * dt) by (apply Z.mul_nonneg_nonneg; [apply Nat2Z.is_nonneg|clear - D; lia]).
    assert (KEY : forall r, pop c n1 (w_rs w) = Ok r ->
      (no_edge c (consecutive t1 q n2) -> measure c t total m <= Z.of_nat (Datatypes.S fuel) ->
         exists x, (if ch * S - ch * Z.of_nat (length out) <? ch * Z.of_nat (length (fst r)) then UB
           else if ch * Z.of_nat (length (out ++ fst r)) =? ch * S
           then bind (write_loop fuel c ch (ch * S) (fst (if ch * Z.of_nat (length (fst r)) <? ch * S - ch * Z.of_nat (length out)
                  then push_input c (mkWr (snd r) (w_fill w)) m else (mkWr (snd r) (w_fill w), 0))) []
                  (m - snd (if ch * Z.of_nat (length (fst r)) <? ch * S - ch * Z.of_nat (length out)
                  then push_input c (mkWr (snd r) (w_fill w)) m else (mkWr (snd r) (w_fill w), 0))))
                (fun y => Ok match y with Some y => Some ((out ++ fst r) :: fst y, snd y) | None => None end)
           else write_loop fuel c ch (ch * S) (fst (if ch * Z.of_nat (length (fst r)) <? ch * S - ch * Z.of_nat (length out)
                  then push_input c (mkWr (snd r) (w_fill w)) m else (mkWr (snd r) (w_fill w), 0))) (out ++ fst r)
                  (m - snd (if ch * Z.of_nat (length (fst r)) <? ch * S - ch * Z.of_nat (length out)
                  then push_input c (mkWr (snd r) (w_fill w)) m else (mkWr (snd r) (w_fill w), 0)))) = Ok (Some x)) /\
      (forall fs w', (if ch * S - ch * Z.of_nat (length out) <? ch * Z.of_nat (length (fst r)) then UB
           else if ch * Z.of_nat (length (out ++ fst r)) =? ch * S
           then bind (write_loop fuel c ch (ch * S) (fst (if ch * Z.of_nat (length (fst r)) <? ch * S - ch * Z.of_nat (length out)
                  then push_input c (mkWr (snd r) (w_fill w)) m else (mkWr (snd r) (w_fill w), 0))) []
                  (m - snd (if ch * Z.of_nat (length (fst r)) <? ch * S - ch * Z.of_nat (length out)
                  then push_input c (mkWr (snd r) (w_fill w)) m else (mkWr (snd r) (w_fill w), 0))))
                (fun y => Ok match y with Some y => Some ((out ++ fst r) :: fst y, snd y) | None => None end)
           else write_loop fuel c ch (ch * S) (fst (if ch * Z.of_nat (length (fst r)) <? ch * S - ch * Z.of_nat (length out)
                  then push_input c (mkWr (snd r) (w_fill w)) m else (mkWr (snd r) (w_fill w), 0))) (out ++ fst r)
                  (m - snd (if ch * Z.of_nat (length (fst r)) <? ch * S - ch * Z.of_nat (length out)
                  then push_input c (mkWr (snd r) (w_fill w)) m else (mkWr (snd r) (w_fill w), 0)))) = Ok (Some (fs, w')) ->
         concat fs = out ++ outputs c l1 ++ outputs c (consecutive t1 q n2) /\ Forall (fun f => f <> [] /\ Z.of_nat (length f) <= S) fs /\
         no_edge c (consecutive t1 q n2) /\ r_par (w_rs w') = q /\
         exists p', winv c w' (t1 + Z.of_nat n2 * dt) p' /\ p' * c_frame c + w_fill w' = total + m)).
    { intros r R. destruct (K6 r R) as (J1 & J2 & J3 & J4). rewrite J1, LK, app_length, LK.
      destruct (Z.ltb_spec (ch * S - ch * Z.of_nat (length out)) (ch * Z.of_nat k)); [nia|].
      destruct (Z.ltb_spec (ch * Z.of_nat k) (ch * S - ch * Z.of_nat (length out))) as [LT|GE].
      - (* the buffer is not full: push *)
        assert (KL : (k < n1)%nat) by (clear - LT N1 HC LO; nia). assert (K3' := K3 KL).
        destruct (push_input_ok c _ t1 p m C J2 M0 K3') as (Q1 & Q2 & p2 & Q3 & Q4). cbv zeta in *. cbn [w_rs w_fill] in Q2, Q4.
        set (x := push_input c _ m) in *. rewrite J3 in Q2.
        destruct (Z.eqb_spec (ch * Z.of_nat (length out + k)) (ch * S)); [nia|].
        destruct (IH (fst x) (out ++ outputs c l1) (m - snd x) t1 p2 ltac:(rewrite Q2; exact P) ltac:(rewrite Q2; exact D) Q3 ltac:(lia) ltac:(rewrite app_length, LK; nia)) as [G1 G2].
        cbv zeta in G1, G2. rewrite Q2 in G1, G2. fold dt in G1, G2.
        assert (TT : p2 * c_frame c + w_fill (fst x) + (m - snd x) = total + m) by (unfold total; lia).
        assert (CE : count c t1 (p2 * c_frame c + w_fill (fst x)) (m - snd x) q = n2) by (unfold n2, count; rewrite TT; reflexivity).
        rewrite CE in G1, G2. split.
        + intros NE ME. apply G1; [exact NE|]. unfold measure in *. rewrite TT. unfold t1.
          set (A := ((total + m - 1) / c_frame c - 1) * c_frame c * unit) in *. clearbody A. clear - KD ME Q1. lia.
        + intros fs w' E. destruct (G2 fs w' E) as (B1 & B2 & B3 & B4 & p' & B5 & B6). split; [rewrite B1, <- app_assoc; reflexivity|].
          split; [exact B2|]. split; [exact B3|]. split; [exact B4|]. exists p'. split; [exact B5|lia].
      - (* the buffer is full *)
        cbn [fst snd]. assert (KN : k = n1) by nia. destruct (Z.eqb_spec (ch * Z.of_nat (length out + k)) (ch * S)); [|nia].
        destruct (K4 ltac:(lia)) as [K41 K42].
        replace (m - 0) with m by lia.
        destruct (IH (mkWr (snd r) (w_fill w)) [] m t1 p ltac:(cbn [w_rs]; rewrite J3; exact P) ltac:(cbn [w_rs]; rewrite J3; exact D) J2 ltac:(lia) ltac:(cbn [length]; lia)) as [G1 G2].
        cbv zeta in G1, G2. cbn [w_rs w_fill] in G1, G2. rewrite J3 in G1, G2. fold total dt in G1, G2. fold n2 in G1, G2. split.
        + intros NE ME. destruct (G1 NE) as [y Y].
          { unfold measure in *. assert (LL : (p - 1) * c_frame c * unit <= ((total + m - 1) / c_frame c - 1) * c_frame c * unit).
            { clear - CG C. unfold cfg_ok, unit in *. set (G := (total + m - 1) / c_frame c) in *. clearbody G. nia. }
            set (A := ((total + m - 1) / c_frame c - 1) * c_frame c * unit) in *. unfold t1.
            assert (K1' : 1 <= Z.of_nat k) by (clear - KN N1 LO; lia). clearbody A dt. clear - K1' D K42 LL ME KD. set (B := (p - 1) * c_frame c * unit) in *. clearbody B. nia. }
          rewrite Y. cbn [bind]. eauto.
        + intros fs w' E. destruct (write_loop fuel c ch (ch * S) _ [] m) as [[[y1 y2]|]| |] eqn:Y; cbn [bind fst snd] in E; try discriminate E.
          assert (fs = (out ++ outputs c l1) :: y1) as -> by congruence. assert (w' = y2) as -> by congruence.
          destruct (G2 _ _ eq_refl) as (B1 & B2 & B3 & B4 & p' & B5 & B6). cbn [concat]. rewrite B1. cbn [app].
          split; [rewrite <- app_assoc; reflexivity|]. split.
          { constructor; [|exact B2]. split; [intros Z0; apply (f_equal (@length _)) in Z0; rewrite app_length, LK in Z0; cbn [length] in Z0; lia|].
            rewrite app_length, LK. lia. }
          split; [exact B3|]. split; [exact B4|]. exists p'. split; [exact B5|exact B6]. }
    split.
    + intros NE ME. apply Forall_app in NE. destruct NE as [NE1 NE2]. destruct (K5 NE1) as [st' E].
      destruct (KEY _ E) as [G1 _]. destruct (G1 NE2 ME) as [x X]. rewrite E. cbn [bind]. exists x. exact X.
    + intros fs w' E. destruct (pop c n1 (w_rs w)) as [r| |] eqn:R; cbn [bind] in E; try discriminate E.
      destruct (K6 r eq_refl) as (_ & _ & _ & J4). destruct (KEY r eq_refl) as [_ G2]. destruct (G2 fs w' E) as (B1 & B2 & B3 & B4 & p' & B5 & B6).
      rewrite outputs_app. split; [exact B1|]. split; [exact B2|]. split; [apply Forall_app; auto|]. split; [exact B4|]. exists p'. split; [|exact B6].
      replace (t + Z.of_nat (k + n2) * dt) with (t1 + Z.of_nat n2 * dt) by (unfold t1; nia). exact B5.
Qed.

Lemma begin_par st q : with_par (begin_push st) q = begin_push (with_par st q).
Proof. unfold begin_push. cbn [r_ready with_par]. destruct (r_ready st <? 3); reflexivity. Qed.

Lemma winv_par c w t p q : winv c w t p -> winv c (mkWr (with_par (w_rs w) q) (w_fill w)) t p.
Proof.
  intros (W1 & W2 & W3 & W4). unfold winv. cbn [w_rs w_fill]. split; [exact W1|]. split; [exact W2|]. split; [intros F; apply inv_par, W3, F|].
  intros F. destruct (W4 F) as (A & st0 & I & E). split; [exact A|]. exists (with_par st0 q). split; [apply inv_par, I|]. rewrite E. apply begin_par.
Qed.

Definition moves (c : cfg) (ir or : Z) (o : wop) : Prop :=
  match o with WScale m => forall q, set_scaling c ir or m = Ok (Some q) -> 0 < p_dt q | WWrite _ => True end.

Definition steady (S : Z) (fs : list (list (list term))) : Prop := Forall (fun f => f <> [] /\ Z.of_nat (length f) <= S) fs.

Lemma write_loop_fuel c ch S : forall fuel w out m r, write_loop fuel c ch S w out m = Ok (Some r) ->
  forall fuel2, (fuel <= fuel2)%nat -> write_loop fuel2 c ch S w out m = Ok (Some r).
Proof.
  induction fuel as [|fuel IH]; intros w out m r E fuel2 L.
  - cbn [write_loop] in E. destruct (Z.leb_spec m 0) as [M|M]; [|discriminate E]. destruct fuel2; cbn [write_loop]; destruct (Z.leb_spec m 0); try lia; exact E.
  - destruct fuel2 as [|fuel2]; [lia|]. cbn [write_loop] in E |- *. destruct (m <=? 0); [exact E|]. cbv zeta in E |- *.
    destruct (pop c _ (w_rs w)) as [x| |]; cbn [bind] in E |- *; try discriminate E.
    destruct (_ <? _) in E |- *; [discriminate E|].
    destruct (ch * Z.of_nat (length (out ++ fst x)) =? S).
    + match type of E with bind ?a _ = _ => destruct a as [[y|]| |] eqn:Y end; cbn [bind] in E; try discriminate E.
      rewrite (IH _ _ _ _ Y fuel2 ltac:(lia)). exact E.
    + apply (IH _ _ _ _ E). lia.
Qed.
Lemma writes_fuel c ch S ir or : forall os fuel w r, writes fuel c ch S ir or w os = Ok (Some r) ->
  forall fuel2, (fuel <= fuel2)%nat -> writes fuel2 c ch S ir or w os = Ok (Some r).
Proof.
  induction os as [|o os IH]; intros fuel w r E fuel2 L; [exact E|]. destruct o as [m|m]; cbn [writes] in E |- *.
  - destruct (set_scaling c ir or m) as [x| |]; cbn [bind] in E |- *; try discriminate E. eapply IH; eauto.
  - destruct (write_loop fuel c ch S w [] m) as [[[l w2]|]| |] eqn:X; cbn [bind] in E; try discriminate E.
    rewrite (write_loop_fuel _ _ _ _ _ _ _ _ X fuel2 L). cbn [bind].
    destruct (writes fuel c ch S ir or w2 os) as [[y|]| |] eqn:Y; cbn [bind] in E; try discriminate E.
    rewrite (IH _ _ _ Y fuel2 L). exact E.
Qed.

Lemma writes_ok c ch S ir or : cfg_ok c -> 0 < ch -> 0 < S -> forall os w t p, par_ok c (r_par (w_rs w)) -> 0 < p_dt (r_par (w_rs w)) ->
  winv c w t p -> Forall (wscale_ok c ir or) os -> Forall (moves c ir or) os ->
  let ts := write_times c ir or t (p * c_frame c + w_fill w) (r_par (w_rs w)) os in
  (no_edge c (concat ts) -> exists fuel r, writes fuel c ch (ch * S) ir or w os = Ok (Some r)) /\
  (forall fuel fs w', writes fuel c ch (ch * S) ir or w os = Ok (Some (fs, w')) ->
     map (@concat _) fs = outs_of c ts /\ Forall (steady S) fs /\ no_edge c (concat ts)).
Proof.
  intros C HC HS. induction os as [|o os IH]; intros w t p P D W SC MV; cbv zeta.
  - cbn. split; [intros _; exists O; eauto|]. intros _ fs w' E. assert (fs = []) as -> by congruence. repeat split; constructor.
  - pose proof (Forall_inv SC) as S1. pose proof (Forall_inv_tail SC) as S2. pose proof (Forall_inv MV) as M1. pose proof (Forall_inv_tail MV) as M2. clear SC MV.
    destruct o as [m|m]; cbn [writes write_times].
    + destruct S1 as (r & Er & Hr). rewrite Er. cbn [bind]. cbn [moves] in M1.
      set (w2 := match r with Some q => mkWr (with_par (w_rs w) q) (w_fill w) | None => w end).
      assert (P2 : r_par (w_rs w2) = rescale c ir or m (r_par (w_rs w))) by (unfold rescale, w2; rewrite Er; destruct r; reflexivity).
      assert (F2 : w_fill w2 = w_fill w) by (unfold w2; destruct r; reflexivity).
      assert (I2 : winv c w2 t p) by (unfold w2; destruct r; [apply winv_par|]; exact W).
      assert (P3 : par_ok c (r_par (w_rs w2))) by (unfold w2; destruct r; [apply Hr; reflexivity|exact P]).
      assert (D2 : 0 < p_dt (r_par (w_rs w2))) by (unfold w2; destruct r; [apply M1; exact Er|exact D]).
      pose proof (IH w2 t p P3 D2 I2 S2 M2) as H. cbv zeta in H. rewrite P2, F2 in H. exact H.
    + cbn [wscale_ok] in S1. set (q := r_par (w_rs w)) in *. set (total := p * c_frame c + w_fill w).
      change (if 3 <=? (total + m - 1) / c_frame c then steps_before (((total + m - 1) / c_frame c - 1) * c_frame c * unit) t (p_dt q) else O) with (count c t total m q).
      set (n := count c t total m q). cbn [concat outs_of map].
      assert (WOK := fun fuel => write_ok c ch S C HC HS fuel w [] m t p P D W S1 ltac:(cbn [length]; lia)). cbv zeta in WOK. fold q total n in WOK.
      split.
      * intros NE. apply Forall_app in NE. destruct NE as [N1 N2].
        destruct (WOK (Z.to_nat (measure c t total m))) as [H1 H2].
        destruct (H1 N1 ltac:(lia)) as [[fs w'] E]. destruct (H2 _ _ E) as (B1 & B2 & B3 & B4 & p' & B5 & B6).
        destruct (IH w' _ p' ltac:(rewrite B4; exact P) ltac:(rewrite B4; exact D) B5 S2 M2) as [G1 _]. cbv zeta in G1. rewrite B4, B6 in G1.
        destruct (G1 N2) as (f2 & r & R). set (f := Nat.max (Z.to_nat (measure c t total m)) f2). exists f.
        rewrite (write_loop_fuel _ _ _ _ _ _ _ _ E f ltac:(unfold f; lia)). cbn [bind]. rewrite (writes_fuel _ _ _ _ _ _ _ _ _ R f ltac:(unfold f; lia)). cbn [bind]. eauto.
      * intros fuel fs w' E. destruct (WOK fuel) as [_ H2].
        destruct (write_loop fuel c ch (ch * S) w [] m) as [[[l w2]|]| |] eqn:X; cbn [bind] in E; try discriminate E.
        destruct (H2 _ _ eq_refl) as (B1 & B2 & B3 & B4 & p' & B5 & B6).
        destruct (IH w2 _ p' ltac:(rewrite B4; exact P) ltac:(rewrite B4; exact D) B5 S2 M2) as [_ G2]. cbv zeta in G2. rewrite B4, B6 in G2.
        destruct (writes fuel c ch (ch * S) ir or w2 os) as [[[y y2]|]| |] eqn:Y; cbn [bind fst snd] in E; try discriminate E.
        destruct (G2 fuel _ _ Y) as (A1 & A2 & A3). assert (fs = l :: y) as -> by congruence. cbn [map]. rewrite A1, B1.
        split; [reflexivity|]. split; [constructor; [exact B2|exact A2]|]. apply Forall_app. auto.
Qed.
