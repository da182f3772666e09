(** C34: string list. *)
From Verif Require Import Base Base_lemmas StrList_model StrList_spec StrList_proof.

Lemma run_shape ops : shape (sl_run sl_empty ops) (pushed ops).
Proof. apply (shape_run ops sl_empty []). split; [reflexivity|split; [reflexivity|]]. intros H; contradiction H; reflexivity. Qed.

(** After any history of pushes (some of which may have failed for lack of
    memory) walking forwards from the front gives exactly the strings of the
    successful pushes in order, walking backwards gives them in reverse, and the
    size is their number. Walking never reads outside the list's memory. *)
Theorem C34_order ops :
  Forall good_str (pushed ops) ->
  let l := sl_run sl_empty ops in
  walk (sl_nextof l) l (sl_size l) (sl_front l) = Some (pushed ops) /\
  walk (sl_prevof l) l (sl_size l) (sl_last l) = Some (rev (pushed ops)) /\
  sl_size l = length (pushed ops).
Proof.
  intros Hg l. pose proof (run_shape ops) as Hs. fold l in Hs. pose proof Hs as (D & S & B).
  unfold sl_front, sl_last. rewrite S. destruct (pushed ops) as [|x ss] eqn:E; [cbn; auto|].
  rewrite <- E in *. replace (length (pushed ops) =? 0)%nat with false by (rewrite E; reflexivity).
  assert (0 < length (pushed ops))%nat by (rewrite E; cbn; lia).
  split; [|split; [|reflexivity]].
  - change 0%nat with (off (pushed ops) 0). rewrite (walk_fwd l _ Hs Hg (length (pushed ops))) by lia. reflexivity.
  - rewrite B by (rewrite E; discriminate). rewrite (walk_bwd l _ Hs Hg) by lia.
    replace (Datatypes.S (length (pushed ops) - 1)) with (length (pushed ops)) by lia. rewrite firstn_all. reflexivity.
Qed.
Print Assumptions C34_order.

(** What a lookup does, exactly: it ends, reads only the list's memory, and
    returns the first string that starts with the wanted text and occupies the
    same number of words as it; nothing if there is no such string. *)
Theorem C34_find ops t :
  Forall good_str (pushed ops) -> good_str t ->
  let l := sl_run sl_empty ops in
  exists r, sl_find l t = Ok r /\
    match r with
    | Some o => exists j s, nth_error (pushed ops) j = Some s /\ sl_str l o = Some s /\
        prefix t s /\ same_block t s /\
        (forall k s', (k < j)%nat -> nth_error (pushed ops) k = Some s' -> ~ (prefix t s' /\ same_block t s'))
    | None => forall s, In s (pushed ops) -> ~ (prefix t s /\ same_block t s)
    end.
Proof.
  intros Hg [Ht _] l. pose proof (run_shape ops) as Hs. fold l in Hs.
  assert (M : forall s, matches t s <-> prefix t s /\ same_block t s).
  { intros s. unfold matches, prefix. split; intros [H1 H2]; split; auto.
    - exists (skipn (length t) s). rewrite <- H2 at 1. symmetry. apply firstn_skipn.
    - destruct H1 as [r ->]. rewrite firstn_app, Nat.sub_diag, firstn_all. cbn. apply app_nil_r. }
  destruct (find_spec l _ Hs Hg t Ht) as (r & E & H). exists r. split; [exact E|]. destruct r as [o|].
  - destruct H as (j & s & H1 & H2 & H3 & H4). exists j, s. split; [exact H1|]. split.
    { rewrite H2. apply (str_at l _ Hs Hg j s H1). }
    apply M in H3. destruct H3. repeat split; auto. intros k s' Hk Ek Hp. apply (H4 k s' Hk Ek). apply M. exact Hp.
  - intros s Hin Hp. apply (H s Hin). apply M. exact Hp.
Qed.
Print Assumptions C34_find.

(** A string that was appended is always found. *)
Theorem C34_find_complete ops t :
  Forall good_str (pushed ops) -> In t (pushed ops) ->
  exists o, sl_find (sl_run sl_empty ops) t = Ok (Some o).
Proof.
  intros Hg Hin. assert (good_str t) by (rewrite Forall_forall in Hg; auto).
  destruct (C34_find ops t Hg H) as ([o|] & E & Hr); [eauto|].
  exfalso. apply (Hr t Hin). split; [exists []; symmetry; apply app_nil_r|reflexivity].
Qed.
Print Assumptions C34_find_complete.

(** The lookup is exact when no stored string is a proper extension of the
    wanted text within the same word. *)
Theorem C34_find_exact ops t :
  Forall good_str (pushed ops) -> good_str t ->
  (forall s, In s (pushed ops) -> prefix t s -> same_block t s -> s = t) ->
  exists r, sl_find (sl_run sl_empty ops) t = Ok r /\
    (forall o, r = Some o -> sl_str (sl_run sl_empty ops) o = Some t) /\ (r <> None <-> In t (pushed ops)).
Proof.
  intros Hg Ht Hx. destruct (C34_find ops t Hg Ht) as (r & E & Hr). exists r. split; [exact E|]. destruct r as [o|].
  - destruct Hr as (j & s & H1 & H2 & H3 & H4 & _). pose proof (nth_error_In _ _ H1) as Hin.
    pose proof (Hx s Hin H3 H4); subst s. split; [intros ? [= <-]; exact H2|]. split; [auto|discriminate].
  - split; [discriminate|]. split; [congruence|]. intros Hin _.
    apply (Hr t Hin). split; [exists []; symmetry; apply app_nil_r|reflexivity].
Qed.
Print Assumptions C34_find_exact.

(** In general a lookup is NOT exact: only the first |t| characters are
    compared (string_list.cpp:153-154), so "ab" is found in a list holding only
    "abc". *)
Theorem C34_find_prefix_refuted :
  exists ops t, Forall good_str (pushed ops) /\ good_str t /\ ~ In t (pushed ops) /\
    exists o, sl_find (sl_run sl_empty ops) t = Ok (Some o).
Proof.
  exists [([97;98;99], true)], [97;98].
  assert (G : forall s, Forall (fun c => 1 <= c < 256) s -> (length s < 10)%nat -> good_str s) by (intros; split; [assumption|lia]).
  split; [|split; [|split]].
  - constructor; [|constructor]. apply G; [repeat (constructor; [lia|]); constructor|cbn; lia].
  - apply G; [repeat (constructor; [lia|]); constructor|cbn; lia].
  - cbn. intros [H|[]]. discriminate.
  - exists 0%nat. vm_compute. reflexivity.
Qed.
Print Assumptions C34_find_prefix_refuted.

Example C34_example :
  let l := sl_run sl_empty [([97],true); ([98;99],false); ([],true); ([114;116;112;115;120],true)] in
  sl_find l [114;116;112;115;120] = Ok (Some 24%nat) /\ sl_find l [98;99] = Ok None /\
  walk (sl_nextof l) l 3 (sl_front l) = Some [[97]; []; [114;116;112;115;120]].
Proof. vm_compute. auto. Qed.
