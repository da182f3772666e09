(** C40: mixing of inputs. *)
From Coq Require Import Reals Lra.
From Flocq Require Import Core.Core IEEE754.BinarySingleNaN.
From Verif Require Import Base Base_lemmas Float32 Mixer_model Mixer_spec Mixer_proof.
Open Scope res_scope.
Open Scope Z_scope.

(** With any number of inputs except one, for every frame and every size of the
    temporary buffer: output sample [k] accumulates the samples [k] of the inputs
    that can be read, in order, saturating after each; flags are combined; and
    every input advances by the frame length. *)
Theorem C40_mix : forall (A : Type) (ar : arith A) max nch ins buf, length ins <> 1%nat -> (0 < max)%nat -> (0 < nch <= length buf)%nat ->
  mx_read ar max nch ins buf =
    Ok (map (fun k => fold_left (mix1 ar) (column (a_zero ar) ins k) (a_zero ar)) (seq 0 (length buf)),
        fold_left Z.lor (map in_flags (filter in_ok ins)) 0, map (fun i => in_skip i (length buf)) ins).
Proof.
  intros A ar max nch ins buf H1 H2 H3.
  assert (E : mx_read ar max nch ins buf = (r <- mx_loop ar (length buf) max (length buf) ins [] 0 ;; if (length buf / nch =? 0)%nat then Panic else Ok r)).
  { unfold mx_read. destruct ins as [|i [|j r]]; [reflexivity|exfalso; apply H1; reflexivity|reflexivity]. }
  rewrite E, mx_loop_spec by lia. cbn [bind].
  destruct (Nat.eqb_spec (length buf / nch) 0) as [Z|Z]; [apply Nat.div_small_iff in Z; lia|].
  destruct (Nat.eqb_spec (length buf) 0); [lia|]. reflexivity.
Qed.

(** The size of the temporary buffer does not matter. *)
Theorem C40_chunks : forall (A : Type) (ar : arith A) max1 max2 nch ins buf, (0 < max1)%nat -> (0 < max2)%nat -> (0 < nch <= length buf)%nat ->
  mx_read ar max1 nch ins buf = mx_read ar max2 nch ins buf.
Proof.
  intros A ar max1 max2 nch ins buf H1 H2 H3. destruct (Nat.eq_dec (length ins) 1) as [e|e].
  - destruct ins as [|i [|j r]]; try discriminate e. reflexivity.
  - now rewrite !C40_mix.
Qed.

(** Reading two frames one after the other gives what reading both at once gives. *)
Theorem C40_split : forall (A : Type) (ar : arith A) max nch ins b1 b2, (0 < max)%nat -> (0 < nch <= length b1)%nat -> (nch <= length b2)%nat ->
  forallb in_ok ins = true ->
  exists o1 f1 i1 o2 f2 i2 f, mx_read ar max nch ins b1 = Ok (o1, f1, i1) /\ mx_read ar max nch i1 b2 = Ok (o2, f2, i2) /\
    mx_read ar max nch ins (b1 ++ b2) = Ok (o1 ++ o2, f, i2).
Proof.
  intros A ar max nch ins b1 b2 Hm H1 H2 Hok.
  assert (Seq : forall f : nat -> A, map f (seq 0 (length b1 + length b2)) = map f (seq 0 (length b1)) ++ map (fun k => f (length b1 + k)%nat) (seq 0 (length b2))).
  { intros f. rewrite seq_app, map_app. f_equal. cbn [Nat.add]. rewrite <- (Nat.add_0_r (length b1)) at 1.
    clear. generalize 0%nat. induction (length b2) as [|m IH]; intros z; cbn; [reflexivity|]. f_equal. rewrite plus_n_Sm. apply IH. }
  destruct (Nat.eq_dec (length ins) 1) as [e|e].
  - destruct ins as [|i [|j r]]; try discriminate e. cbn in Hok. rewrite andb_true_r in Hok.
    destruct i as [d ok fl l]. cbn in Hok. subst ok. cbn. eexists _, _, _, _, _, _, _. split; [reflexivity|]. cbn.
    split; [reflexivity|]. unfold in_next, in_skip. cbn [in_ok in_smp in_id in_flags]. rewrite app_length, Seq, skipn_skipn, (Nat.add_comm (length b2)).
    replace (map (fun k => nth k (skipn (length b1) l) (a_zero ar)) (seq 0 (length b2))) with (map (fun k => nth (length b1 + k) l (a_zero ar)) (seq 0 (length b2)))
      by (apply map_ext; intros k; symmetry; apply nth_skip). reflexivity.
  - eexists _, _, _, _, _, _, _. split; [apply C40_mix; auto|]. split; [apply C40_mix; auto; [now rewrite map_length|lia]|].
    rewrite C40_mix; auto; [|rewrite app_length; lia]. f_equal. f_equal; [f_equal|].
    + rewrite app_length, Seq. f_equal. apply map_ext. intros k. f_equal. symmetry. apply column_skip.
    + rewrite app_length. symmetry. apply skip_skip.
Qed.

(** The mixed value is the exact sum when the sums of the first inputs stay in range... *)
Theorem C40_exact : forall lim l, 0 <= lim -> (forall k, (k <= length l)%nat -> - lim <= zsum (firstn k l) <= lim) ->
  fold_left (mix1 (z_arith lim)) l 0 = zsum l.
Proof. intros lim l H H2. rewrite fold_exact; auto. Qed.
(** ... and the clamped sum for two inputs in range, or for samples of one sign. *)
Theorem C40_two : forall lim x y, 0 <= lim -> - lim <= x <= lim -> fold_left (mix1 (z_arith lim)) [x; y] 0 = clamp (- lim) lim (x + y).
Proof. intros lim x y H Hx. cbn [fold_left]. rewrite !mix1_z by assumption. unfold clamp. lia. Qed.
Theorem C40_one_sign : forall lim l, 0 <= lim -> Forall (fun x => 0 <= x) l -> fold_left (mix1 (z_arith lim)) l 0 = clamp (- lim) lim (zsum l).
Proof. intros. rewrite fold_nonneg; auto; lia. Qed.
(** With three inputs it need not be the clamped sum: the intermediate saturation shows. *)
Theorem C40_clamp_refuted : exists lim l, 0 < lim /\ Forall (fun x => - lim <= x <= lim) l /\
  fold_left (mix1 (z_arith lim)) l 0 <> clamp (- lim) lim (zsum l).
Proof. exists 100, [75; 75; -75]. split; [lia|]. split; [repeat constructor; lia|]. vm_compute. discriminate. Qed.

(** The floating-point code: each input adds its value, rounded to single precision
    and clamped to [-1, 1] ... *)
Theorem C40_float : forall l, Forall (fun x => f32_fin x = true) l ->
  f32_val (fold_left (mix1 f32_arith) l f32_zero) = fold_left (fun r x => rclamp (rnd32 (r + f32_val x))) l 0%R.
Proof.
  intros l F. assert (I : inrange f32_zero) by (split; [reflexivity|cbn; lra]). assert (V : f32_val f32_zero = 0%R) by reflexivity.
  rewrite <- V at 1. clear V. revert I. generalize f32_zero. induction F as [|x l Hx F IH]; intros acc I; cbn [fold_left]; [reflexivity|].
  destruct (mix1_f32 acc x I Hx) as [J E]. rewrite IH by exact J. now rewrite E.
Qed.
(** ... and the result is always in [-1, 1], even for infinite samples. *)
Theorem C40_float_range : forall l, Forall (fun x => f32_nan x = false) l ->
  f32_fin (fold_left (mix1 f32_arith) l f32_zero) = true /\ (-1 <= f32_val (fold_left (mix1 f32_arith) l f32_zero) <= 1)%R.
Proof.
  intros l F. assert (I : inrange f32_zero) by (split; [reflexivity|cbn; lra]). change (inrange (fold_left (mix1 f32_arith) l f32_zero)).
  revert I. generalize f32_zero. induction F as [|x l Hx F IH]; intros acc I; cbn [fold_left]; [exact I|]. apply IH. now apply mix1_range.
Qed.

(** A removed input contributes nothing and an added one comes last. *)
Theorem C40_removed : forall (A : Type) (zero : A) ins id k,
  column zero (mx_remove ins id) k = map (fun i => nth k (in_smp i) zero) (filter (fun i => in_ok i && negb (in_id i =? id)) ins).
Proof.
  intros A zero ins id k. unfold column, mx_remove. f_equal. induction ins as [|i ins IH]; cbn; [reflexivity|].
  destruct (in_id i =? id); cbn; [rewrite andb_false_r; exact IH|]. rewrite andb_true_r. destruct (in_ok i); [now f_equal|exact IH].
Qed.
Theorem C40_added : forall (A : Type) (zero : A) ins i k, in_ok i = true ->
  column zero (mx_add ins i) k = column zero ins k ++ [nth k (in_smp i) zero].
Proof. intros A zero ins i k H. unfold column, mx_add. rewrite filter_app, map_app. cbn. now rewrite H. Qed.

(** With exactly one input the samples are passed on as they are: they are not
    clamped, and when the input refuses to read, the frame keeps its old content. *)
Theorem C40_single : forall (A : Type) (ar : arith A) max nch i buf, (0 < nch <= length buf)%nat ->
  mx_read ar max nch [i] buf = Ok (if in_ok i then map (fun k => nth k (in_smp i) (a_zero ar)) (seq 0 (length buf)) else buf,
    if in_ok i then in_flags i else 0, [in_skip i (length buf)]).
Proof.
  intros A ar max nch i buf H. unfold mx_read. destruct (in_ok i) eqn:E; [reflexivity|].
  destruct (Nat.eqb_spec (length buf / nch) 0) as [Z|Z]; [apply Nat.div_small_iff in Z; lia|]. unfold in_skip. now rewrite E.
Qed.
Theorem C40_single_refuted :
  (exists i out f r, mx_read (z_arith 100) 10 1 [i] [0] = Ok (out, f, r) /\ out = [150]) /\
  (exists i out f r, in_ok i = false /\ mx_read (z_arith 100) 10 1 [i] [77] = Ok (out, f, r) /\ out = [77]).
Proof.
  split.
  - exists (mkInput 1 true 0 [150]). eexists _, _, _. split; reflexivity.
  - exists (mkInput 1 false 0 [1]). eexists _, _, _. split; [reflexivity|]. split; reflexivity.
Qed.

(** Non-vacuity. *)
Example c40_run : exists f r, mx_read (z_arith 100) 2 1 [mkInput 1 true 1 [10; 20; 90]; mkInput 2 false 2 [50; 50; 50]; mkInput 3 true 4 [-5; 5; 50; 9]] [0; 0; 0; 0] =
  Ok ([5; 25; 100; 9], f, r) /\ f = 5.
Proof. eexists _, _. split; vm_compute; reflexivity. Qed.
Example c40_exact_case : forall k, (k <= length [60; -70; 30]%Z)%nat -> (-100 <= zsum (firstn k [60; -70; 30]) <= 100)%Z.
Proof. intros k Hk. destruct k as [|[|[|[|]]]]; cbn in *; lia. Qed.
Example c40_float_case : Beqb (fold_left (mix1 f32_arith) [f32_make 3 (-2); f32_make 3 (-2); f32_make (-3) (-2)] f32_zero) (f32_make 1 (-2)) = true.
Proof. vm_compute. reflexivity. Qed.

Print Assumptions C40_mix.
Print Assumptions C40_chunks.
Print Assumptions C40_split.
Print Assumptions C40_exact.
Print Assumptions C40_two.
Print Assumptions C40_one_sign.
Print Assumptions C40_clamp_refuted.
Print Assumptions C40_float.
Print Assumptions C40_float_range.
Print Assumptions C40_removed.
Print Assumptions C40_added.
Print Assumptions C40_single.
Print Assumptions C40_single_refuted.
