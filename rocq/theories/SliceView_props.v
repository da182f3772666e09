(** C62: slices are windows of one buffer. *)
From Verif Require Import Base Base_lemmas Slice_model Slice_lemmas SliceView_model.
Local Open Scope nat_scope.

(** *** Specification *)
(** The elements a slice shows, and all elements of the buffer from its beginning on. *)
Definition shows {A} (mem : list A) (v : view) : list A := match v with None => [] | Some s => firstn (s_size s) (skipn (s_off s) mem) end.
Definition onward {A} (mem : list A) (v : view) : list A := match v with None => [] | Some s => skipn (s_off s) mem end.
(** Elements [a] up to [b] (not included) of a list. *)
Definition part {A} (a b : nat) (l : list A) : list A := firstn (b - a) (skipn a l).
(** The slice lies in the buffer. *)
Definition inside {A} (mem : list A) (v : view) : Prop := match v with None => True | Some s => s_off s + s_size s <= length mem end.
(** Where element [i] of a slice is in the buffer. *)
Definition place (v : view) (i : nat) : option nat := match v with None => None | Some s => if i <? s_size s then Some (s_off s + i) else None end.

(** *** Theorems *)
Ltac ok2 := repeat match goal with |- context [?a <? ?b] => destruct (Nat.ltb_spec a b) end; try lia.

(** A part of a slice shows the named elements of it; more cannot be had. *)
Theorem C62_sub : forall A (mem : list A) v a b, inside mem v ->
  (a <= b <= length (shows mem v) /\ exists w, v_sub v a b = Ok w /\ inside mem w /\ shows mem w = part a b (shows mem v) /\ onward mem w = skipn a (onward mem v)) \/
  (~ a <= b <= length (shows mem v) /\ v_sub v a b = Panic).
Proof.
  intros A mem [s|] a b I; cbn [inside shows onward v_sub bind] in *.
  - assert (Ls : length (firstn (s_size s) (skipn (s_off s) mem)) = s_size s) by (rewrite firstn_length, skipn_length; lia). rewrite Ls.
    unfold sl_sub. destruct (Nat.ltb_spec b a); [right; split; [lia|reflexivity]|]. destruct (Nat.ltb_spec (s_size s) b); [right; split; [lia|reflexivity]|]. left. split; [lia|]. eexists. split; [reflexivity|]. cbn [inside shows onward s_size s_off]. split; [lia|].
    assert (E : skipn (s_off s + a) mem = skipn a (skipn (s_off s) mem)) by (rewrite skipn_skipn; f_equal; lia). split; [|exact E]. rewrite E.
    unfold part. rewrite skipn_firstn_comm, firstn_firstn. f_equal. lia.
  - cbn [length]. destruct (Nat.ltb_spec b a); [right; split; [lia|reflexivity]|]. destruct (Nat.ltb_spec 0 b); [right; split; [lia|reflexivity]|].
    left. split; [lia|]. exists None. replace b with 0 by lia. replace a with 0 by lia. repeat split.
Qed.
Print Assumptions C62_sub.

(** Moving the ends of a slice: any range from its beginning to the end of the buffer, so the beginning
    only moves forward and the capacity is what lies ahead. *)
Theorem C62_reslice : forall A (mem : list A) v a b, inside mem v -> v_cap (length mem) v = length (onward mem v) /\
  ((a <= b <= v_cap (length mem) v /\ exists w, v_reslice (length mem) v a b = Ok w /\ inside mem w /\ shows mem w = part a b (onward mem v) /\ onward mem w = skipn a (onward mem v)) \/
   (~ a <= b <= v_cap (length mem) v /\ v_reslice (length mem) v a b = Panic)).
Proof.
  intros A mem [s|] a b I; cbn [inside shows onward v_reslice v_cap bind] in *; unfold sl_cap.
  - rewrite skipn_length. split; [reflexivity|]. unfold sl_reslice, sl_cap.
    destruct (Nat.ltb_spec b a); [right; split; [lia|reflexivity]|]. destruct (Nat.ltb_spec (length mem - s_off s) b); [right; split; [lia|reflexivity]|]. left. split; [lia|]. eexists. split; [reflexivity|]. cbn [inside shows onward s_size s_off]. split; [lia|].
    assert (E : skipn (s_off s + a) mem = skipn a (skipn (s_off s) mem)) by (rewrite skipn_skipn; f_equal; lia). split; [|exact E]. rewrite E. reflexivity.
  - split; [reflexivity|]. destruct (Nat.ltb_spec b a); [right; split; [lia|reflexivity]|]. destruct (Nat.ltb_spec 0 b); [right; split; [lia|reflexivity]|].
    left. split; [lia|]. exists None. replace b with 0 by lia. replace a with 0 by lia. repeat split.
Qed.
Print Assumptions C62_reslice.

(** Extending shows the next elements of the buffer as well. *)
Theorem C62_extend : forall A (mem : list A) v k, inside mem v -> v <> None -> (Z.of_nat (length mem) + Z.of_nat k < 2 ^ 64)%Z ->
  (1 <= k <= length (onward mem v) - length (shows mem v) /\ exists w, v_extend (length mem) v k = Ok w /\ inside mem w /\
     shows mem w = shows mem v ++ firstn k (skipn (length (shows mem v)) (onward mem v)) /\ onward mem w = onward mem v) \/
  (~ 1 <= k <= length (onward mem v) - length (shows mem v) /\ v_extend (length mem) v k = Panic).
Proof.
  intros A mem [s|] k I N B; [|congruence]. cbn [inside shows onward v_extend] in *.
  assert (Ls : length (firstn (s_size s) (skipn (s_off s) mem)) = s_size s) by (rewrite firstn_length, skipn_length; lia). rewrite Ls, skipn_length.
  destruct (Nat.eqb_spec k 0); [right; split; [lia|reflexivity]|]. rewrite Z.mod_small by lia. replace (Z.to_nat (Z.of_nat (s_size s) + Z.of_nat k)) with (s_size s + k) by lia.
  destruct (C62_reslice A mem (Some s) 0 (s_size s + k) I) as (E & [(H & w & W1 & W2 & W3 & W4)|(H & W)]); cbn [onward v_cap] in *; unfold sl_cap in *.
  - left. split; [lia|]. exists w. split; [exact W1|]. split; [exact W2|]. split; [|exact W4]. rewrite W3. unfold part. cbn [skipn]. rewrite Nat.sub_0_r.
    rewrite <- (firstn_skipn (s_size s) (skipn (s_off s) mem)) at 1. rewrite firstn_app, Ls. replace (s_size s + k - s_size s) with k by lia. rewrite firstn_all2 by lia. reflexivity.
  - right. split; [lia|exact W].
Qed.
Print Assumptions C62_extend.
(** Without the bound it is false: the sum wraps, and the slice shrinks. *)
Theorem C62_extend_refuted : exists (mem : list Z) v k w, inside mem v /\ v_extend (length mem) v k = Ok w /\ v_size w < v_size v.
Proof.
  exists [1; 2]%Z, (Some (mkSl 0 1)), (Z.to_nat (2 ^ 64 - 1)), (Some (mkSl 0 0)). split; [cbn; lia|]. split; [|cbn; lia]. unfold v_extend.
  destruct (Nat.eqb_spec (Z.to_nat (2 ^ 64 - 1)) 0) as [E|_]. { apply (f_equal Z.of_nat) in E. rewrite Z2Nat.id in E by lia. discriminate E. }
  cbn [s_size]. rewrite Z2Nat.id by lia. change ((Z.of_nat 1 + (2 ^ 64 - 1)) mod 2 ^ 64)%Z with 0%Z. reflexivity.
Qed.
Print Assumptions C62_extend_refuted.

(** Reading gives the element shown; an index beyond the size stops the program. *)
Theorem C62_get : forall A (mem : list A) v i, inside mem v ->
  (forall x, nth_error (shows mem v) i = Some x -> v_get mem v i = Ok x) /\ (v = None \/ length (shows mem v) < i -> v_get mem v i = Panic).
Proof.
  intros A mem [s|] i I; cbn [inside shows v_get] in *.
  - assert (Ls : length (firstn (s_size s) (skipn (s_off s) mem)) = s_size s) by (rewrite firstn_length, skipn_length; lia). rewrite Ls. unfold sl_index, rd. split.
    + intros x E. assert (i < s_size s) by (rewrite <- Ls; apply nth_error_Some; congruence). destruct (Nat.ltb_spec (s_size s) i); [lia|]. destruct (Nat.ltb_spec i (s_size s)); [|lia].
      assert (E2 : nth_error mem (s_off s + i) = Some x). { rewrite <- E. rewrite <- (firstn_skipn (s_size s) (skipn (s_off s) mem)) in E. rewrite <- (firstn_skipn (s_off s) mem) at 1. rewrite nth_error_app2; rewrite firstn_length; [|lia]. replace (s_off s + i - Nat.min (s_off s) (length mem)) with i by lia. rewrite <- (firstn_skipn (s_size s) (skipn (s_off s) mem)) at 1. rewrite nth_error_app1; [reflexivity|rewrite Ls; lia]. }
      rewrite E2. reflexivity.
    + intros [C|C]; [discriminate C|]. destruct (Nat.ltb_spec (s_size s) i); [reflexivity|lia].
  - split; [intros x E; destruct i; discriminate E|reflexivity].
Qed.
Print Assumptions C62_get.
(** The index equal to the size is not stopped (slice.h:194 compares with > instead of >=): the element
    after the slice is accessed, which may be after the end of the buffer. *)
Theorem C62_get_refuted : exists (mem : list Z) v i, inside mem v /\ length (shows mem v) <= i /\ v_get mem v i = UB.
Proof. exists [1; 2]%Z, (v_whole 2), 2. repeat split; cbn; lia. Qed.
Print Assumptions C62_get_refuted.

(** Writing changes the element named, as seen through every slice of the buffer that shows it, and
    nothing else. *)
Theorem C62_set : forall A (mem : list A) v i x mem', inside mem v -> v_set mem v i x = Ok mem' ->
  length mem' = length mem /\ exists p, place v i = Some p /\
  forall w j, inside mem w -> j < v_size w -> exists q, place w j = Some q /\ nth_error (shows mem' w) j = if Nat.eq_dec q p then Some x else nth_error (shows mem w) j.
Proof.
  intros A mem [s|] i x mem' I E; cbn [inside v_set] in *; [|discriminate E]. destruct (Nat.ltb_spec (s_size s) i); [discriminate E|]. destruct (Nat.ltb_spec i (s_size s)) as [L|]; [|discriminate E].
  unfold wr in E. destruct (Nat.ltb_spec (s_off s + i) (length mem)); [|lia]. assert (M : mem' = upd mem (s_off s + i) x) by congruence. subst mem'. split; [apply length_upd|].
  exists (s_off s + i). unfold place at 1. destruct (Nat.ltb_spec i (s_size s)); [|lia]. split; [reflexivity|]. intros [w|] j Iw J; cbn [v_size inside] in *; [|lia]. exists (s_off w + j). unfold place. destruct (Nat.ltb_spec j (s_size w)); [|lia]. split; [reflexivity|].
  cbn [shows]. assert (Sh : forall m : list A, length m = length mem -> nth_error (firstn (s_size w) (skipn (s_off w) m)) j = nth_error m (s_off w + j)).
  { intros m Lm. transitivity (nth_error (skipn (s_off w) m) j).
    - rewrite <- (firstn_skipn (s_size w) (skipn (s_off w) m)) at 2. rewrite nth_error_app1; [reflexivity|]. rewrite firstn_length, skipn_length. lia.
    - rewrite <- (firstn_skipn (s_off w) m) at 2. rewrite nth_error_app2; rewrite firstn_length; [|lia]. f_equal. lia. }
  rewrite !Sh by (try apply length_upd; reflexivity). destruct (Nat.eq_dec (s_off w + j) (s_off s + i)) as [Q|Q].
  - rewrite Q. apply nth_error_upd_eq. lia.
  - apply nth_error_upd_neq. congruence.
Qed.
Print Assumptions C62_set.

(** In any program, with any number of slices of one buffer, all slices stay inside it, and memory outside
    of the buffer is accessed only by an access with an index equal to the size. *)
Theorem C62_program : forall A os (mem : list A) vs, Forall (inside mem) vs ->
  match v_run (mem, vs) os with
  | Ok (mem', vs') => length mem' = length mem /\ Forall (inside mem') vs'
  | Panic => True
  | UB => exists i k mem' vs' before, (exists rest, os = before ++ VGet i k :: rest \/ exists x, os = before ++ VSet i k x :: rest) /\
      v_run (mem, vs) before = Ok (mem', vs') /\ k = v_size (var vs' i)
  end.
Proof.
  intros A os. induction os as [|o os IH]; intros mem vs F; cbn [v_run bind]; [split; [reflexivity|exact F]|].
  assert (V : forall i, inside mem (var vs i)). { intros i. unfold var. destruct (Nat.ltb_spec i (length vs)); [rewrite Forall_forall in F; apply F, nth_In; lia|rewrite nth_overflow by lia; exact Logic.I]. }
  assert (S : match v_step (mem, vs) o with Ok (m, vs') => length m = length mem /\ Forall (inside m) vs' | Panic => True | UB => exists i k, (o = VGet i k \/ exists x, o = VSet i k x) /\ k = v_size (var vs i) end).
  { assert (App : forall v, inside mem v -> Forall (inside mem) (vs ++ [v])) by (intros v Hv; apply Forall_app; auto).
    assert (Up : forall i v, inside mem v -> Forall (inside mem) (upd vs i v)). { intros i v Hv. clear - F Hv. revert i. induction vs as [|y l IHl]; intros i; [destruct i; constructor|]. destruct i; cbn [upd]; constructor; auto; [apply (Forall_inv_tail F)|apply (Forall_inv F)|apply IHl, (Forall_inv_tail F)]. }
    destruct o as [ | |a b|i|i a b|i a b|i k|i j|i j x]; cbn [v_step bind].
    - split; [reflexivity|apply App; exact Logic.I].
    - split; [reflexivity|apply App; cbn; lia].
    - unfold v_range. destruct (Nat.ltb_spec b a); [exact Logic.I|]. destruct (Nat.ltb_spec (length mem) b); [exact Logic.I|]. split; [reflexivity|apply App; cbn; lia].
    - split; [reflexivity|apply App, V].
    - destruct (C62_sub A mem (var vs i) a b (V i)) as [(_ & w & -> & Hw & _)|(_ & ->)]; [|exact Logic.I]. split; [reflexivity|apply App, Hw].
    - destruct (C62_reslice A mem (var vs i) a b (V i)) as (_ & [(_ & w & -> & Hw & _)|(_ & ->)]); [|exact Logic.I]. split; [reflexivity|apply Up, Hw].
    - assert (X : forall r, v_extend (length mem) (var vs i) k = r -> (exists w, r = Ok w /\ inside mem w) \/ r = Panic).
      { intros r <-. unfold v_extend. destruct (var vs i) as [s|] eqn:Ev; [|right; reflexivity]. destruct (k =? 0); [right; reflexivity|].
        match goal with |- context [v_reslice _ _ 0 ?z] => destruct (C62_reslice A mem (Some s) 0 z) as (_ & [(_ & w & Ew & Hw & _)|(_ & Ew)]) end; [rewrite <- Ev; apply V|left; exists w; auto|right; exact Ew]. }
      destruct (X _ eq_refl) as [(w & -> & Hw)| ->]; [|exact Logic.I]. split; [reflexivity|apply Up, Hw].
    - pose proof (V i) as Vi. unfold v_get. destruct (var vs i) as [s|] eqn:Ev; [|exact Logic.I]. unfold sl_index, rd. cbn [inside] in Vi.
      destruct (Nat.ltb_spec (s_size s) j); [exact Logic.I|]. destruct (Nat.ltb_spec j (s_size s)).
      + destruct (nth_error mem (s_off s + j)) eqn:En; [split; [reflexivity|exact F]|]. apply nth_error_None in En. lia.
      + exists i, j. split; [left; reflexivity|]. rewrite Ev. cbn. lia.
    - pose proof (V i) as Vi. unfold v_set. destruct (var vs i) as [s|] eqn:Ev; [|exact Logic.I]. unfold wr. cbn [inside] in Vi.
      destruct (Nat.ltb_spec (s_size s) j); [exact Logic.I|]. destruct (Nat.ltb_spec j (s_size s)).
      + destruct (Nat.ltb_spec (s_off s + j) (length mem)); [|lia]. cbn [bind]. rewrite length_upd. split; [reflexivity|]. eapply Forall_impl; [|exact F]. intros [w|]; cbn; rewrite ?length_upd; auto.
      + exists i, j. split; [right; exists x; reflexivity|]. rewrite Ev. cbn. lia. }
  destruct (v_step (mem, vs) o) as [[m vs']| |] eqn:E; cbn [bind]; [|exact Logic.I|].
  - destruct S as [S1 S2]. specialize (IH m vs' S2). destruct (v_run (m, vs') os) as [[m2 vs2]| |] eqn:E2; [destruct IH; split; [congruence|assumption]|exact Logic.I|].
    destruct IH as (i & k & m3 & vs3 & bef & (rest & H) & R & K). exists i, k, m3, vs3, (o :: bef). split; [|split; [cbn [v_run]; rewrite E; exact R|exact K]].
    exists rest. destruct H as [-> |[x ->]]; [left; reflexivity|right; exists x; reflexivity].
  - destruct S as (i & k & H & K). exists i, k, mem, vs, []. split; [|split; [reflexivity|exact K]]. exists os. destruct H as [-> |[x ->]]; [left; reflexivity|right; exists x; reflexivity].
Qed.
Print Assumptions C62_program.

(** A header and a payload of one buffer: the header is cut off, the rest extended, and both see a write. *)
Example C62_ex : v_run ([1; 2; 3; 4; 5]%Z, []) [VRange 0 3; VSub 0 1 3; VExtend 1 1; VSet 1 0 9%Z; VGet 0 1; VReslice 0 1 5]
  = Ok ([1; 9; 3; 4; 5]%Z, [Some (mkSl 1 4); Some (mkSl 1 3)]).
Proof. reflexivity. Qed.
