(** C27: rolling-window statistics. *)
From Verif Require Import Base RingQueue_model RingQueue_proof MovStats_model MovStats_spec MovStats_proof.
Open Scope res_scope.

(** For every window length and history: no panic, and the average and the
    deviation are those of exactly the last [win] values (of all the values
    while there are fewer). *)
Theorem C27_average (win : nat) (xs : list Z) :
  (0 < win)%nat ->
  exists s0 s, ms_new win = Ok s0 /\ ms_adds s0 xs = Ok s /\
    ms_avg s = mean (last_n win xs) /\ ms_var s = deviation (last_n win xs).
Proof.
  intros H. destruct (ms_new_sound win false H) as (s0 & E0 & I0 & F0 & N0). exists s0.
  destruct (ms_adds_sound win false xs s0 [] I0) as (s & E & I & F & N); auto.
  { rewrite F0. symmetry. apply Nat.leb_gt. cbn. lia. }
  { rewrite N0. cbn [length]. symmetry. apply Nat.mod_0_l. lia. }
  { discriminate. }
  cbn [app] in *. exists s. split; [exact E0|]. split; [exact E|].
  pose proof (minv_length _ _ _ _ I) as L. destruct I as [Hw Hi _ _ Hs Hs2 _]. unfold ms_avg, ms_var, mean, deviation.
  rewrite Hw, Hs, Hs2. destruct (last_n win xs) as [|y w] eqn:El; cbn [length] in L.
  - destruct (ms_full s); [lia|]. rewrite <- L. split; reflexivity.
  - replace (length (y :: w)) with (if ms_full s then win else ms_i s). destruct (ms_full s); [split; reflexivity|].
    replace (ms_i s =? 0)%nat with false by (symmetry; apply Nat.eqb_neq; lia). split; reflexivity.
Qed.
Print Assumptions C27_average.

(** Maximum and minimum are those of the last [win] values, provided that none
    of the first [win] values is zero. *)
Theorem C27_extremes_partial (win : nat) (xs : list Z) :
  (0 < win)%nat -> xs <> [] -> (forall x, In x (firstn win xs) -> x <> 0) ->
  exists s0 s, ms_new win = Ok s0 /\ ms_adds s0 xs = Ok s /\
    greatest (ms_max s) (last_n win xs) /\ least (ms_min s) (last_n win xs).
Proof.
  intros H Hne Hz. destruct (ms_new_sound win true H) as (s0 & E0 & I0 & F0 & N0). exists s0.
  destruct (ms_adds_sound win true xs s0 [] I0) as (s & E & I & F & N); auto.
  { rewrite F0. symmetry. apply Nat.leb_gt. cbn. lia. }
  { rewrite N0. cbn [length]. symmetry. apply Nat.mod_0_l. lia. }
  cbn [app] in *. exists s. split; [exact E0|]. split; [exact E|].
  assert (Lw : last_n win xs <> []).
  { intros El. apply (f_equal (@length Z)) in El. unfold last_n in El. rewrite skipn_length in El. destruct xs as [|z zs]; [congruence|]. cbn [length] in El. lia. }
  destruct I as [_ _ _ _ _ _ (lmax & lmin & _ & _ & _ & _ & Hn & C1 & C2 & Hex)].
  destruct (Hn Lw) as [N1 N2]. specialize (C1 N1). specialize (C2 N2). destruct (Hex eq_refl) as [-> ->].
  unfold ms_max, ms_min, greatest, least. rewrite <- C1, <- C2.
  destruct (recs_best _ _ Wmax (last_n win xs) Lw) as (m & t & -> & Hm & Hb).
  destruct (recs_best _ _ Wmin (last_n win xs) Lw) as (m' & t' & -> & Hm' & Hb').
  cbn [hd]. split; split; auto. intros x Hx. specialize (Hb' x Hx). lia.
Qed.
Print Assumptions C27_extremes_partial.

(** Without that condition the extremes are wrong: while the window fills, the
    code takes the initial zero of the buffer for a value leaving the window. *)
Theorem C27_extremes_refuted :
  (s0 <- ms_new 3 ;; s <- ms_adds s0 [0; -5] ;; Ok (ms_max s)) = Ok (-5) /\
  ~ greatest (-5) (last_n 3 [0; -5]).
Proof.
  split; [vm_compute; reflexivity|]. intros [_ H]. specialize (H 0 (or_introl eq_refl)). lia.
Qed.
Print Assumptions C27_extremes_refuted.

(** extend_win() does not extend the window: after extending 2 to 3 and adding
    three values the average is not that of the last three values, nor of the
    last two. *)
Theorem C27_extend_refuted :
  (s0 <- ms_new 2 ;; s1 <- ms_adds s0 [1; 2] ;; s2 <- ms_extend s1 3 ;;
   s <- ms_adds s2 [30; 40; 50] ;; Ok (ms_avg s)) = Ok 43 /\
  mean (last_n 3 [1; 2; 30; 40; 50]) = 40 /\ mean (last_n 2 [1; 2; 30; 40; 50]) = 45.
Proof. vm_compute. intuition congruence. Qed.
Print Assumptions C27_extend_refuted.

Example C27_ex :
  (s0 <- ms_new 3 ;; s <- ms_adds s0 [4; 9; -2; 5; 1] ;; Ok (ms_avg s, ms_max s, ms_min s)) = Ok (1, 5, -2).
Proof. vm_compute. reflexivity. Qed.

(** Until the window is full, extending it to a greater length changes neither the
    average nor the deviation of the values so far; a length that is not greater
    stops the program. *)
Lemma zsum_fold l : forall a, fold_left Z.add l a = a + zsum l.
Proof. induction l as [|x l IH]; intros a; cbn [fold_left zsum]; [lia|]. rewrite IH. lia. Qed.
Theorem C27_extend_partial (win new_win : nat) (xs : list Z) :
  (0 < win)%nat -> (length xs < win)%nat ->
  exists s0 s, ms_new win = Ok s0 /\ ms_adds s0 xs = Ok s /\
    ((new_win <= win)%nat -> ms_extend s new_win = Panic) /\
    ((win < new_win)%nat -> exists s', ms_extend s new_win = Ok s' /\ ms_avg s' = mean xs /\ ms_var s' = deviation xs).
Proof.
  intros H HL. destruct (ms_new_sound win false H) as (s0 & E0 & I0 & F0 & N0). exists s0.
  destruct (ms_adds_sound win false xs s0 [] I0) as (s & E & I & F & N); auto.
  { rewrite F0. symmetry. apply Nat.leb_gt. cbn. lia. }
  { rewrite N0. cbn [length]. symmetry. apply Nat.mod_0_l. lia. }
  { discriminate. }
  cbn [app] in *. exists s. split; [exact E0|]. split; [exact E|].
  assert (EL : last_n win xs = xs) by (unfold last_n; replace (length xs - win)%nat with 0%nat by lia; reflexivity). rewrite EL in I.
  assert (FF : ms_full s = false) by (rewrite F; apply Nat.leb_gt; lia).
  assert (NN : ms_i s = length xs) by (rewrite N; apply Nat.mod_small; lia).
  destruct I as [Hw Hi (a & o & c & Eb & La & Lb & Hc) Hb2 Hs Hs2 _]. rewrite FF in Hc. destruct Hc as [-> _].
  unfold ms_extend. rewrite Hw. split.
  - intros L. destruct (Nat.leb_spec new_win win); [reflexivity|lia].
  - intros L. destruct (Nat.leb_spec new_win win); [lia|]. eexists. split; [reflexivity|].
    unfold ms_avg, ms_var, mean, deviation. cbn [ms_full ms_i ms_sum ms_sum2].
    rewrite !zsum_fold, Hb2, Eb, NN, map_app, <- !app_assoc, !firstn_app, map_length, !Nat.sub_diag, !firstn_O, !app_nil_r.
    rewrite firstn_all. replace (firstn (length a) (map (fun x => x * x) a)) with (map (fun x => x * x) a)
      by (symmetry; rewrite <- (map_length (fun x => x * x) a); apply firstn_all).
    destruct a as [|y w]; [split; reflexivity|]. cbn [length Nat.eqb]. split; reflexivity.
Qed.
Print Assumptions C27_extend_partial.
Example C27_extend_ex : (s0 <- ms_new 4 ;; s1 <- ms_adds s0 [3; 8] ;; s2 <- ms_extend s1 6 ;; Ok (ms_avg s2)) = Ok 5.
Proof. vm_compute. reflexivity. Qed.
