(** C33: bounded string builder. *)
From Verif Require Import Base Base_lemmas StrBuilder_model StrBuilder_spec StrBuilder_proof.

(** Building into a buffer of any non-zero size never touches memory outside it
    (the run is [Ok], every store being checked), whatever was in the buffer
    before. The buffer keeps its size; it starts with the longest prefix of the
    text that fits, followed by a NUL. The builder reports success exactly when
    the whole text fitted, and the needed and actual sizes count the NUL. *)
Theorem C33_static buf ops :
  (0 < length buf)%nat ->
  let t := text [] ops in
  let k := Nat.min (length t) (length buf - 1) in
  exists s0 s out,
    sb_new (Some buf) (length buf) = Ok s0 /\ sb_run s0 ops = Ok s /\
    sb_buf s = Some out /\ length out = length buf /\
    firstn k out = firstn k t /\ nth_error out k = Some 0 /\
    (sb_ok s = true <-> (length t + 1 <= length buf)%nat) /\
    sb_needed s = (length t + 1)%nat /\ sb_actual s = (k + 1)%nat.
Proof.
  intros H t k. destruct (sb_new_inv buf H) as (s0 & E0 & I0).
  destruct (sb_run_inv (length buf) H ops s0 [] I0) as (s & E & rest & B & R & M & C & P & W & Er & T).
  fold t in B, R, M, C, P, W, T. fold k in B, R, C, W.
  assert (Hk : length (firstn k t) = k) by (rewrite firstn_length; lia).
  exists s0, s, (firstn k t ++ 0 :: rest). repeat split; auto.
  - rewrite app_length. cbn. lia.
  - rewrite firstn_app, Hk, Nat.sub_diag. cbn [firstn]. rewrite app_nil_r. apply firstn_all2. lia.
  - rewrite nth_error_app2 by lia. rewrite Hk, Nat.sub_diag. reflexivity.
  - unfold sb_ok. rewrite T, Er. cbn [negb andb]. rewrite andb_true_r. intros. lia.
  - unfold sb_ok. rewrite T, Er. cbn [negb]. rewrite andb_true_r. intros. lia.
  - unfold sb_needed. lia.
  - unfold sb_actual. rewrite B, Er, W. reflexivity.
Qed.
Print Assumptions C33_static.

(** The truncated text is read back as a C string: with NUL-free pieces, the
    first NUL of the buffer is at the end of the kept prefix. *)
Theorem C33_c_string buf ops :
  (0 < length buf)%nat -> Forall (fun c => c <> 0) (text [] ops) ->
  exists s0 s out, sb_new (Some buf) (length buf) = Ok s0 /\ sb_run s0 ops = Ok s /\ sb_buf s = Some out /\
    let k := Nat.min (length (text [] ops)) (length buf - 1) in
    nth_error out k = Some 0 /\ (forall i, (i < k)%nat -> nth_error out i <> Some 0).
Proof.
  intros H F. destruct (C33_static buf ops H) as (s0 & s & out & E0 & E & B & L & P & N & _).
  exists s0, s, out. repeat split; auto. intros i Hi Z0.
  assert (nth_error (firstn (Nat.min (length (text [] ops)) (length buf - 1)) out) i = Some 0).
  { rewrite nth_error_firstn. replace (i <? _)%nat with true by lia. exact Z0. }
  rewrite P, nth_error_firstn in H0. replace (i <? _)%nat with true in H0 by lia.
  apply nth_error_In in H0. rewrite Forall_forall in F. exact (F 0 H0 eq_refl).
Qed.
Print Assumptions C33_c_string.

(** A zero-sized buffer is never written and every request fails. *)
Theorem C33_empty_buffer ops :
  exists s0 s, sb_new (Some []) 0 = Ok s0 /\ sb_run s0 ops = Ok s /\ sb_buf s = Some [] /\
    sb_ok s = false /\ sb_actual s = 0%nat.
Proof.
  unfold sb_new, sb_reset. cbn. eexists.
  set (s0 := mkSb _ _ _ _ _ _ _ _).
  assert (G : forall ops s, sb_buf s = Some [] -> sb_werr s = true ->
    exists s', sb_run s ops = Ok s' /\ sb_buf s' = Some [] /\ sb_werr s' = true).
  { clear. induction ops as [|[x|x] ops IH]; intros s B E; cbn [sb_run]; [eauto| |].
    - unfold sb_assign, sb_reset. rewrite E. cbn. apply IH; auto.
    - unfold sb_append. cbn. rewrite E. cbn. apply IH; auto. }
  destruct (G ops s0 eq_refl eq_refl) as (s & E & B & W). exists s. repeat split; auto.
  - unfold sb_ok. rewrite W. apply andb_false_r.
  - unfold sb_actual. rewrite B, W. reflexivity.
Qed.
Print Assumptions C33_empty_buffer.

(** A NULL buffer measures: nothing is stored and the needed size is exact;
    with size zero there is no limit, otherwise success tells whether a buffer
    of that size would have sufficed. *)
Theorem C33_null_buffer n ops :
  exists s0 s, sb_new None n = Ok s0 /\ sb_run s0 ops = Ok s /\ sb_buf s = None /\
    sb_needed s = (length (text [] ops) + 1)%nat /\ sb_actual s = 0%nat /\
    (sb_ok s = true <-> n = 0%nat \/ (length (text [] ops) + 1 <= n)%nat).
Proof.
  unfold sb_new, sb_reset. cbn. eexists.
  set (s0 := mkSb _ _ _ _ _ _ _ _).
  destruct (nsb_run_inv n ops s0 []) as (s & E & B & M & P & W & T0 & T1).
  { unfold ninv, s0. cbn. repeat split; auto. }
  exists s. repeat split; auto.
  - unfold sb_needed. lia.
  - unfold sb_actual. rewrite B. reflexivity.
  - unfold sb_ok. rewrite W. intros. destruct n; [lia|]. destruct (T1 ltac:(lia)) as [_ T]. rewrite T in H. cbn [negb] in H. lia.
  - unfold sb_ok. rewrite W. intros. destruct n; [rewrite T0 by lia; reflexivity|]. destruct (T1 ltac:(lia)) as [_ T]. rewrite T. cbn [negb]. lia.
Qed.
Print Assumptions C33_null_buffer.

(** Building into a growing string: if the builder reports success the string is
    exactly the text, and it reports success when no allocation failed. *)
Theorem C33_dynamic old ops :
  let s := db_run (db_new old) ops in
  (db_ok s = true -> db_data s = dtext [] ops /\ db_actual s = (length (dtext [] ops) + 1)%nat) /\
  (Forall no_failure ops -> db_ok s = true).
Proof.
  intros s. destruct (db_run_spec ops (db_new old) []) as [H1 H2]; [auto|auto|]. fold s in H1, H2. split.
  - unfold db_ok, db_actual. intros E. destruct (db_werr s) eqn:W; [discriminate|]. destruct (H1 eq_refl) as [-> ->]. auto.
  - intros F. unfold db_ok. unfold s. rewrite db_run_ok; auto.
Qed.
Print Assumptions C33_dynamic.

(** Numbers: for every 64-bit value and every base from 2 to 16 the scratch
    array is never left and the appended text is the value's representation in
    that base, in upper case, without leading zeros. *)
Theorem C33_uint n base :
  2 <= base <= 16 -> 0 <= n < 18446744073709551616 ->
  exists ds, uint_digits n base = Ok ds /\ value base ds = n /\ ds <> [] /\
    Forall (fun c => (48 <= c <= 57 \/ 65 <= c <= 70) /\ 0 <= char_digit c < base) ds /\
    (forall x y l, ds = x :: y :: l -> x <> 48).
Proof.
  intros Hb Hn. destruct (uint_digits_spec n base Hb Hn) as (ds & E & V & N & F1 & F2 & L).
  exists ds. repeat split; auto. rewrite Forall_forall in *. auto.
Qed.
Print Assumptions C33_uint.

Example C33_example :
  let r s0 := match sb_new (Some [9;9;9;9;9]) 5 with Ok s => sb_run s s0 | _ => UB end in
  match r [SbAppend [65;66]; SbAppend []; SbAppend [67;68;69]; SbAppend [70]] with
  | Ok s => sb_buf s = Some [65;66;67;68;0] /\ sb_ok s = false /\ sb_needed s = 7%nat
  | _ => False end /\
  match r [SbAppend [65;66;67;68;69]; SbAssign [70;71]] with
  | Ok s => sb_buf s = Some [70;71;0;68;0] /\ sb_ok s = true | _ => False end.
Proof. vm_compute. auto. Qed.
Example C33_uint_example : uint_digits 48879 16 = Ok [66;69;69;70] /\ uint_digits 0 10 = Ok [48] /\ uint_digits 5 17 = Panic.
Proof. vm_compute. auto. Qed.

(** After memory ran out, the builder reports no result, and neither does it after anything else is added. *)
Theorem C33_dynamic_failed : forall old ops ops', db_ok (db_run (db_new old) ops) = false ->
  let s := db_run (db_new old) (ops ++ ops') in db_ok s = false /\ db_actual s = 0%nat.
Proof.
  intros old ops ops' E. assert (R : forall l1 l2 s, db_run s (l1 ++ l2) = db_run (db_run s l1) l2) by (induction l1 as [|[x a|x a1 a2] l1 IH]; intros l2 s; cbn [db_run app]; [reflexivity|apply IH|apply IH]).
  cbv zeta. rewrite R. set (s := db_run (db_new old) ops) in *. assert (W : db_werr s = true) by (unfold db_ok in E; destruct (db_werr s); [reflexivity|discriminate E]). clearbody s. clear E R.
  assert (K : forall l s, db_werr s = true -> db_werr (db_run s l) = true).
  { induction l as [|[x a|x a1 a2] l IH]; intros q Q; cbn [db_run]; [exact Q| |]; apply IH; [unfold db_reset; rewrite Q|]; unfold db_append; cbn [db_werr]; rewrite ?Q; cbn [fst]; first [exact Q|reflexivity]. }
  unfold db_ok, db_actual. rewrite (K ops' s W). split; reflexivity.
Qed.
Print Assumptions C33_dynamic_failed.
Example C33_dynamic_failed_ex : db_ok (db_run (db_new []) [DbAppend [65] true false]) = false.
Proof. reflexivity. Qed.
