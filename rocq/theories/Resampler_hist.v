From Coq Require Import Reals ZArith List Bool Lia Lra.
From Flocq Require Import Core.Core IEEE754.BinarySingleNaN.
From Verif Require Import Base Float32 TimeConv_model TimeConv_proof Resampler_model Resampler_spec Resampler_proof.
Import ListNotations.
Local Open Scope Z_scope.
Local Open Scope res_scope.

Lemma run_frame_bound c b inc f n : forall i a x, run_frame c n b i a inc f = Ok x -> n <> O -> i + Z.of_nat n <= c_frame c.
Proof.
  induction n as [|n IH]; intros i a x E N; [congruence|]. cbn [run_frame] in E.
  assert (A : i < c_frame c).
  { unfold access in E at 1. destruct (Z.leb_spec 0 i); cbn [andb negb] in E; [|discriminate E].
    destruct (Z.ltb_spec i (c_frame c)); cbn [negb] in E; [lia|discriminate E]. }
  destruct (access c b i a f); cbn [bind] in E; try discriminate E.
  destruct (run_frame c n b (i + 1) (Base.u32 (a + inc)) inc f) as [y| |] eqn:R; cbn [bind] in E; try discriminate E.
  destruct n as [|n]; [lia|]. apply IH in R; [lia|congruence].
Qed.

Lemma resample_edge c st l : cfg_ok c -> par_ok c (r_par st) -> 0 <= r_sample st < c_frame c * 1048576 ->
  r_sample st + p_half (r_par st) = c_frame c * 1048576 -> resample c st <> Ok l.
Proof.
  intros C (P1 & P2 & P3 & P4 & _) HQ E R. unfold cfg_ok in C. unfold resample in R. rewrite qt_frame_eq in R by lia.
  rewrite E in R. rewrite (u32_small (c_frame c * 1048576)) in R by lia. rewrite Z.ltb_irrefl in R.
  rewrite (qfloor_eq (c_frame c * 1048576)) in R by lia. rewrite Z.div_mul in R by lia. rewrite (fixed_size_eq (c_frame c * 1048576)), Z.div_mul in R by lia.
  destruct (_ =? 0) in R; [discriminate R|].
  match type of R with (if ?b then _ else _) = _ => destruct b; [discriminate R|] end.
  match type of R with (if ?b then _ else _) = _ => destruct b; [discriminate R|] end.
  match type of R with (if ?b then _ else _) = _ => destruct b; [discriminate R|] end.
  match type of R with (if ?b then _ else _) = _ => destruct b; [discriminate R|] end.
  destruct (run_frame _ _ _ _ _ _ _) as [p| |] in R; cbn [bind] in R; try discriminate R.
  destruct (access _ _ _ _ _) as [t| |] in R; cbn [bind] in R; try discriminate R.
  destruct (run_left _ _ _ _ _ _ _) as [l1| |] in R; cbn [bind] in R; try discriminate R.
  destruct (Z.ltb_spec (c_frame c) (snd (fst l1) + 1)) as [L|L]; [discriminate R|].
  destruct (run_frame _ _ _ _ _ _ _) as [r| |] eqn:RR in R; cbn [bind] in R; try discriminate R.
  apply run_frame_bound in RR; lia.
Qed.

(* state of a resampler whose next output sample is at time [t] *)
Definition inv (c : cfg) (st : rs) (t pushed : Z) : Prop :=
  r_pushed st = pushed /\ 0 <= pushed /\ r_ready st = Z.min 3 pushed /\
  (1 <= pushed < 3 -> r_b0 st = 0) /\ (pushed = 2 -> r_b1 st = 1) /\
  (pushed < 3 -> r_sample st = 0 /\ t = c_frame c * 1048576) /\
  (3 <= pushed -> r_b0 st = pushed - 3 /\ r_b1 st = pushed - 2 /\ r_b2 st = pushed - 1 /\ state_at c st (pushed - 2) /\
     0 <= r_sample st < c_frame c * 1114112 /\ t = (pushed - 2) * c_frame c * 1048576 + r_sample st).

Lemma inv_new c : inv c rs_new (c_frame c * 1048576) 0.
Proof. unfold inv. cbn. repeat split; lia. Qed.

Lemma inv_par c st t p q : inv c st t p -> inv c (with_par st q) t p.
Proof. intros H. exact H. Qed.

Lemma snap_id q : snap q = q.
Proof.
  unfold snap, epsilon. rewrite land_fr. pose proof (Z.mod_pos_bound q 1048576 ltac:(lia)) as B. rewrite one_eq.
  destruct (Z.ltb_spec (q mod 1048576) 0); [lia|]. destruct (Z.ltb_spec (1048576 - q mod 1048576) 0); [lia|]. reflexivity.
Qed.

Lemma push_inv c st t p : cfg_ok c -> inv c st t p ->
  inv c (push c st) (if (3 <=? p) && (t <? (p - 1) * c_frame c * unit) then t + c_frame c * unit else t) (p + 1).
Proof.
  intros C (I1 & I2 & I3 & I4 & I5 & I6 & I7). unfold cfg_ok in C. unfold unit.
  destruct (Z.leb_spec 3 p) as [L|L]; cbn [andb].
  - destruct (I7 L) as (J1 & J2 & J3 & J4 & J5 & J6).
    assert (E : push c st = mkRs (r_b1 st) (r_b2 st) p (r_b1 st) (r_b2 st) p 3 (p + 1)
      (if c_frame c * 1048576 <=? r_sample st then Base.u32 (r_sample st - c_frame c * 1048576) else r_sample st) (r_par st)).
    { unfold push, begin_push, end_push. rewrite qt_frame_eq by lia. rewrite I3, Z.min_l by lia. cbn -[Z.mul Base.u32 Z.sub Z.leb Z.add]. rewrite I1. reflexivity. }
    rewrite E.
    assert (E' : (t <? (p - 1) * c_frame c * 1048576) = (r_sample st <? c_frame c * 1048576)).
    { rewrite J6. destruct (Z.ltb_spec (r_sample st) (c_frame c * 1048576)); [apply Z.ltb_lt; nia|apply Z.ltb_ge; nia]. }
    rewrite E'. clear E E'. unfold inv, state_at. cbn -[Z.mul Base.u32 Z.sub Z.leb Z.add Z.min].
    destruct (Z.leb_spec (c_frame c * 1048576) (r_sample st)); destruct (Z.ltb_spec (r_sample st) (c_frame c * 1048576)); try lia.
    all: try rewrite u32_small by lia; repeat split; lia.
  - destruct (I6 L) as (J1 & J2).
    assert (p = 0 \/ p = 1 \/ p = 2) as [->|[->| ->]] by lia; cbn in I3.
    all: unfold push, begin_push; rewrite I3; cbn [Z.ltb Z.compare Pos.compare Pos.compare_cont];
      unfold end_push; rewrite qt_frame_eq by lia; rewrite I3, J1, I1; destruct (Z.leb_spec (c_frame c * 1048576) 0); [lia|].
    all: unfold inv, state_at; cbn -[Z.mul]; rewrite ?I1; repeat split; try lia;
      try (rewrite I4 by lia); try (rewrite I5 by lia); try lia.
Qed.

Lemma push_par c st : r_par (push c st) = r_par st.
Proof. unfold push, end_push, begin_push. destruct (r_ready st <? 3); cbn; destruct (r_ready st =? 0), (r_ready st =? 1); reflexivity. Qed.

Lemma due_S n limit t dt : due (S n) limit t dt = if limit <=? t then ([], t) else (t :: fst (due n limit (t + dt) dt), snd (due n limit (t + dt) dt)).
Proof. reflexivity. Qed.

Lemma edge_iff c st t p : cfg_ok c -> par_ok c (r_par st) -> inv c st t p -> 3 <= p -> r_sample st < c_frame c * 1048576 ->
  at_edge c (t, r_par st) <-> r_sample st + p_half (r_par st) = c_frame c * 1048576.
Proof.
  intros C P (I1 & I2 & I3 & I4 & I5 & I6 & I7) L HQ. destruct (I7 L) as (J1 & J2 & J3 & J4 & J5 & J6). destruct P as (P1 & P2 & _).
  unfold at_edge, unit. cbn [fst snd]. rewrite J6. unfold cfg_ok in C.
  replace ((p - 2) * c_frame c * 1048576 + r_sample st + p_half (r_par st)) with (r_sample st + p_half (r_par st) + (p - 2) * (c_frame c * 1048576)) by ring.
  rewrite Z.mod_add by lia.
  assert (HF : p_half (r_par st) < c_frame c * 1048576) by (clear - P2; lia).
  set (X := c_frame c * 1048576) in *. set (Y := r_sample st + p_half (r_par st)). assert (0 < Y < 2 * X) by (unfold Y, X in *; lia).
  split; intros E.
  - apply Z.mod_divide in E; [|lia]. destruct E as [k E]. assert (k = 1) by nia. lia.
  - rewrite E. apply Z.mod_same. lia.
Qed.

Lemma pop_loop_ok c p n : forall st t, cfg_ok c -> par_ok c (r_par st) -> inv c st t p -> 3 <= p ->
  let d := due n ((p - 1) * c_frame c * unit) t (p_dt (r_par st)) in
  let l := map (fun t => (t, r_par st)) (fst d) in
  (Forall (fun x => ~ at_edge c x) l -> exists st', pop_loop c n st = Ok (outputs c l, st')) /\
  (forall r, pop_loop c n st = Ok r -> fst r = outputs c l /\ inv c (snd r) (snd d) p /\ r_par (snd r) = r_par st /\ Forall (fun x => ~ at_edge c x) l).
Proof.
  induction n as [|n IH]; intros st t C P I L.
  - cbn. split; [eauto|]. intros r E. assert (r = ([], st)) as -> by congruence. cbn. auto.
  - cbv zeta. rewrite due_S. cbn [pop_loop]. rewrite qt_frame_eq by (unfold cfg_ok in C; lia).
    pose proof I as (I1 & I2 & I3 & I4 & I5 & I6 & I7). destruct (I7 L) as (J1 & J2 & J3 & J4 & J5 & J6).
    assert (E : ((p - 1) * c_frame c * unit <=? t) = (c_frame c * 1048576 <=? r_sample st)).
    { rewrite J6. unfold unit. destruct (Z.leb_spec (c_frame c * 1048576) (r_sample st)); [apply Z.leb_le; nia|apply Z.leb_gt; nia]. }
    rewrite E. destruct (Z.leb_spec (c_frame c * 1048576) (r_sample st)) as [G|G].
    + cbn. split; [eauto|]. intros r R. assert (r = ([], st)) as -> by congruence. cbn. auto.
    + rewrite snap_id. assert (WS : with_sample st (r_sample st) = st) by (destruct st; reflexivity). rewrite WS.
      pose proof (edge_iff c st t p C P I L G) as EI.
      pose proof P as (P1 & P2 & P3 & P4 & P5). unfold cfg_ok in C.
      rewrite u32_small by lia.
      set (st2 := with_sample st (r_sample st + p_dt (r_par st))).
      assert (I' : inv c st2 (t + p_dt (r_par st)) p).
      { unfold inv, st2. cbn. repeat split; try lia; try apply J4. }
      destruct (IH st2 (t + p_dt (r_par st)) C P I' L) as [H1 H2]. cbv zeta in H1, H2. change (r_par st2) with (r_par st) in H1, H2.
      cbn [fst snd map]. split.
      * intros FA. pose proof (Forall_inv FA) as F1. pose proof (Forall_inv_tail FA) as F2. destruct (H1 F2) as [st' S']. exists st'.
        rewrite (resample_ok c st (p - 2)); [| exact C | exact P | exact J4 | lia | intros X; apply F1, EI, X].
        cbn [bind]. rewrite S'. cbn [bind fst snd outputs map]. rewrite <- J6. reflexivity.
      * intros r R. destruct (Z.eq_dec (r_sample st + p_half (r_par st)) (c_frame c * 1048576)) as [ED|ED].
        { exfalso. destruct (resample c st) as [x| |] eqn:RS; cbn [bind] in R; try discriminate R.
          revert RS. apply resample_edge; auto. lia. }
        rewrite (resample_ok c st (p - 2)) in R; [| exact C | exact P | exact J4 | lia | exact ED]. cbn [bind] in R.
        destruct (pop_loop c n st2) as [y| |] eqn:Y; cbn [bind] in R; try discriminate R.
        destruct (H2 y eq_refl) as (K1 & K2 & K3 & K4).
        assert (RE : r = (output_at c ((p - 2) * c_frame c * 1048576 + r_sample st) (r_par st) :: fst y, snd y)) by congruence.
        rewrite RE. cbn [fst snd outputs map]. split; [|split; [exact K2|split; [exact K3|]]].
        -- rewrite K1, <- J6. reflexivity.
        -- constructor; [intros X; apply ED, EI, X|exact K4].
Qed.

Definition scale_ok (c : cfg) (o : op) : Prop :=
  match o with
  | Scale i o m => exists r, set_scaling c i o m = Ok r /\ forall p, r = Some p -> par_ok c p
  | _ => True
  end.

Lemma history c os : forall st t p, cfg_ok c -> par_ok c (r_par st) -> inv c st t p -> Forall (scale_ok c) os ->
  let l := times c t p (r_par st) os in
  (Forall (fun x => ~ at_edge c x) l -> exists st', run c st os = Ok (outputs c l, st')) /\
  (forall r, run c st os = Ok r -> fst r = outputs c l /\ Forall (fun x => ~ at_edge c x) l).
Proof.
  induction os as [|o os IH]; intros st t p C P I S; cbv zeta.
  - cbn. split; [eauto|]. intros r E. assert (r = ([], st)) as -> by congruence. cbn. auto.
  - pose proof (Forall_inv S) as S1. pose proof (Forall_inv_tail S) as S2. clear S. destruct o as [i o m| |n]; cbn [run step times].
    + destruct S1 as (r & Er & Hr). rewrite Er. cbn [bind fst snd].
      set (st2 := match r with Some q => with_par st q | None => st end).
      assert (P2 : r_par st2 = match r with Some q => q | None => r_par st end) by (unfold st2; destruct r; reflexivity).
      assert (I2 : inv c st2 t p) by (unfold st2; destruct r; [apply inv_par|]; exact I).
      assert (P3 : par_ok c (r_par st2)) by (rewrite P2; destruct r; [apply Hr; reflexivity|exact P]).
      destruct (IH st2 t p C P3 I2 S2) as [H1 H2]. cbv zeta in H1, H2. rewrite P2 in H1, H2.
      replace (match r with Some q => q | None => r_par st end) with (match r with Some q => q | None => r_par st end) in * by reflexivity.
      split.
      * intros FA. destruct r; destruct (H1 FA) as [st' E]; exists st'; rewrite E; reflexivity.
      * intros x X. destruct (run c st2 os) as [y| |] eqn:Y; cbn [bind] in X; try discriminate X.
        assert (x = y) as -> by (destruct y; cbn in X; congruence). destruct r; exact (H2 y eq_refl).
    + cbn [bind fst snd]. pose proof (push_inv c st t p C I) as I2.
      assert (PP : r_par (push c st) = r_par st).
      { apply push_par. }
      destruct (IH (push c st) _ (p + 1) C ltac:(rewrite PP; exact P) I2 S2) as [H1 H2]. cbv zeta in H1, H2. 
      rewrite PP in H1, H2. split.
      * intros FA. destruct (H1 FA) as [st' E]. exists st'. rewrite E. reflexivity.
      * intros x X. destruct (run c (push c st) os) as [y| |] eqn:Y; cbn [bind] in X; try discriminate X.
        assert (x = y) as -> by (destruct y; cbn in X; congruence). exact (H2 y eq_refl).
    + pose proof I as (I1 & I0 & I3 & _). unfold pop. rewrite I3.
      destruct (Z.ltb_spec p 3) as [L|L].
      * destruct (Z.ltb_spec (Z.min 3 p) 3); [|lia]. cbn [bind fst snd map app].
        destruct (IH st t p C P I S2) as [H1 H2]. cbv zeta in H1, H2. split.
        -- intros FA. destruct (H1 FA) as [st' E]. exists st'. rewrite E. reflexivity.
        -- intros x X. destruct (run c st os) as [y| |] eqn:Y; cbn [bind] in X; try discriminate X.
           assert (x = y) as -> by (destruct y; cbn in X; congruence). exact (H2 y eq_refl).
      * destruct (Z.ltb_spec (Z.min 3 p) 3); [lia|].
        destruct (pop_loop_ok c p n st t C P I L) as [Q1 Q2]. cbv zeta in Q1, Q2.
        set (d := due n ((p - 1) * c_frame c * unit) t (p_dt (r_par st))) in *. split.
        -- intros FA. apply Forall_app in FA. destruct FA as [F1 F2]. destruct (Q1 F1) as [st1 E1]. rewrite E1. cbn [bind fst snd].
           destruct (Q2 _ E1) as (_ & K2 & K3 & _). cbn [snd] in K2, K3.
           destruct (IH st1 (snd d) p C ltac:(rewrite K3; exact P) K2 S2) as [H1 _]. cbv zeta in H1. rewrite K3 in H1.
           destruct (H1 F2) as [st' E]. exists st'. rewrite E. cbn [bind fst snd]. unfold outputs. rewrite map_app. reflexivity.
        -- intros x X. destruct (pop_loop c n st) as [y| |] eqn:Y; cbn [bind] in X; try discriminate X.
           destruct (Q2 y eq_refl) as (K1 & K2 & K3 & K4).
           destruct (IH (snd y) (snd d) p C ltac:(rewrite K3; exact P) K2 S2) as [_ H2]. cbv zeta in H2. rewrite K3 in H2.
           destruct (run c (snd y) os) as [z| |] eqn:Z1; cbn [bind] in X; try discriminate X.
           destruct (H2 z eq_refl) as (M1 & M2).
           assert (XE : x = (fst y ++ fst z, snd z)) by congruence. rewrite XE. cbn [fst]. rewrite K1, M1. split.
           ++ unfold outputs. rewrite map_app. reflexivity.
           ++ apply Forall_app. split; [exact K4|exact M2].
Qed.
