(** C20, continued: when the participant changes its own source id. *)
From Verif Require Import Base Base_lemmas Reporter_model Reporter_spec.
Local Open Scope Z_scope.
Open Scope res_scope.

Definition flags (r : rep) := (r_coll r, r_crep r, r_local r).
Lemma flags_tab r t : flags (with_tab r t) = flags r. Proof. reflexivity. Qed.
Lemma flags_detect c r id : flags (detect_collision c r id) = flags r \/ (id = r_local r /\ r_coll r = false /\ flags (detect_collision c r id) = (true, false, r_local r)).
Proof.
  unfold detect_collision. destruct (r_coll r); [left; reflexivity|]. destruct (Z.eqb_spec id (r_local r)) as [E|E]; cbn [negb]; [|left; reflexivity].
  destruct (get (r_tab r) id) as [s|]; [|right; auto]. destruct (s_loop s); [left; reflexivity|]. destruct (_ =? _); [left; reflexivity|right; auto].
Qed.
Lemma flags_refresh c r p : flags (refresh c r p) = flags r.
Proof. unfold refresh. destruct (t_need _); [|reflexivity]. unfold rebuild_index. destruct (rebuild_recvs _ _ _ _ _ _). reflexivity. Qed.
Lemma flags_begin c st from now r p r' : begin_ c st from now r p = Ok r' -> flags r' = flags r.
Proof. unfold begin_. destruct (r_st r); try discriminate. destruct (now <=? 0); [discriminate|]. intros E. assert (X : r' = refresh c (mkR st (next_time (r_time r) now) from (r_local r) (r_send r) (r_recv r) (r_coll r) (r_crep r) (r_tab r) (r_idx r)) p) by congruence. rewrite X. rewrite flags_refresh. reflexivity. Qed.
Lemma pick_in t ids id : pick t ids = Some id -> In id ids /\ get t id = None.
Proof. induction ids as [|x l IH]; cbn [pick]; [discriminate|]. destruct (get t x) eqn:G; [intros H; destruct (IH H); split; [right|]; assumption|]. intros H. assert (E : x = id) by congruence. subst x. split; [left; reflexivity|exact G]. Qed.

Lemma step_flags fuel c r o r' ev : r_step fuel c r o = Ok (Some (r', ev)) ->
  flags r' = flags r \/
  (speaker o = Some (r_local r) /\ r_coll r = false /\ flags r' = (true, false, r_local r)) \/
  (o = RBlocks true /\ r_coll r' = r_coll r /\ r_local r' = r_local r) \/
  (exists ids, o = REndG ids /\ r_coll r = true /\ r_crep r = true /\ r_coll r' = false /\ In (r_local r') ids /\ get (r_tab r) (r_local r') = None).
Proof.
  assert (Dt : forall id x, flags x = flags (detect_collision c r id) -> flags x = flags r \/ (Some id = Some (r_local r) /\ r_coll r = false /\ flags x = (true, false, r_local r))).
  { intros id x E. destruct (flags_detect c r id) as [D|(D1 & D2 & D3)]; [left; congruence|right; split; [congruence|split; [exact D2|congruence]]]. }
  assert (Fin : forall P Q R : Prop, P \/ Q -> P \/ Q \/ R) by tauto.
  destruct o; cbn [r_step]; intros E.
  - destruct (begin_ _ _ _ _ _ _) eqn:B; cbn [bind] in E; try discriminate E. left. assert (X : r' = a) by (unfold lift in E; congruence). rewrite X. eapply flags_begin, B.
  - destruct (in_st r RProc); [|discriminate E]. unfold lift in E. cbn [speaker].
    assert (X : r' = fst (process_cname c r ok id name)) by (rewrite (surjective_pairing (process_cname c r ok id name)) in E; congruence). rewrite X. clear E X.
    assert (K : forall t u, flags (with_tab (detect_collision c (with_tab r t) id) u) = flags r \/
      (Some id = Some (r_local r) /\ r_coll r = false /\ flags (with_tab (detect_collision c (with_tab r t) id) u) = (true, false, r_local r))).
    { intros t u. rewrite flags_tab. destruct (flags_detect c (with_tab r t) id) as [D|(D1 & D2 & D3)]; [left; exact D|right; split; [rewrite D1; reflexivity|split; [exact D2|exact D3]]]. }
    apply Fin. unfold process_cname. destruct (name =? 0); [left; reflexivity|]. destruct (find_create ok (r_time r) (r_tab r) id) as [t [s|]]; [|left; reflexivity].
    destruct (s_cname s =? name); [left; reflexivity|]. destruct (negb (s_cname s =? 0)).
    + destruct (find_create _ _ (remove_stream t (s_uid s)) id) as [t1 [s1|]]; cbn [fst snd]; [apply K|left; reflexivity].
    + cbn [fst]. apply K.
  - destruct (in_st r RProc); [|discriminate E]. assert (X : r' = process_sr c r ok id ts) by (unfold lift in E; congruence). rewrite X. cbn [speaker]. apply Fin, (Dt id).
    unfold process_sr. destruct (find_create _ _ _ _) as [t [s|]]; reflexivity.
  - destruct (in_st r RProc); [|discriminate E]. assert (X : r' = process_reception c r ok id about) by (unfold lift in E; congruence). rewrite X. cbn [speaker]. apply Fin, (Dt id).
    unfold process_reception. destruct (_ || _); [reflexivity|]. destruct (find_create _ _ _ _) as [t [s|]]; reflexivity.
  - destruct (in_st r RProc); [|discriminate E]. assert (X : r' = process_dlrr c r id about) by (unfold lift in E; congruence). rewrite X. cbn [speaker]. apply Fin, (Dt id).
    unfold process_dlrr. destruct (negb _); [reflexivity|]. destruct (get _ _) as [s|]; [|reflexivity]. destruct (s_hass s); reflexivity.
  - destruct (in_st r RProc); [|discriminate E]. assert (X : r' = process_rrtr c r id ts) by (unfold lift in E; congruence). rewrite X. cbn [speaker]. apply Fin, (Dt id).
    unfold process_rrtr. destruct (get _ _) as [s|]; [|reflexivity]. destruct (s_hasr s); reflexivity.
  - destruct (in_st r RProc); [|discriminate E]. assert (X : r' = process_metrics c r id about) by (unfold lift in E; congruence). rewrite X. cbn [speaker]. apply Fin, (Dt id).
    unfold process_metrics. destruct (negb _); [reflexivity|]. destruct (get _ _) as [s|]; [|reflexivity]. destruct (s_hasr s); reflexivity.
  - destruct (in_st r RProc); [|discriminate E]. left. assert (X : r' = fst (process_goodbye r id)) by (unfold lift in E; rewrite (surjective_pairing (process_goodbye r id)) in E; congruence). rewrite X.
    unfold process_goodbye. cbn [fst]. destruct (get _ _); reflexivity.
  - destruct (in_st r RProc); [|discriminate E]. left. unfold end_processing in E. destruct (detect_timeouts _ _ _ _) as [[[t e]|]| |]; cbn [bind] in E; try discriminate E.
    destruct (if r_time r =? 0 then _ else _) eqn:N; cbn [bind] in E; try discriminate E. assert (X : r' = idle (with_tab r t)) by congruence. rewrite X. reflexivity.
  - destruct (begin_ _ _ _ _ _ _) eqn:B; cbn [bind] in E; try discriminate E. left. assert (X : r' = a) by (unfold lift in E; congruence). rewrite X. eapply flags_begin, B.
  - destruct (in_st r RGen); [|discriminate E]. destruct (gen_all r); cbn [bind] in E; try discriminate E. unfold lift in E. match type of E with Ok (Some (?x, _)) = _ => assert (X : r' = x) by congruence end. rewrite X. destruct bye.
    + right. right. left. repeat split.
    + left. unfold flags. cbn. rewrite orb_false_r. reflexivity.
  - destruct (in_st r RGen); [|discriminate E]. unfold end_generation, resolve_collision in E. cbn [idle r_coll r_crep r_tab] in E.
    destruct (r_coll r) eqn:C; cbn [negb] in E.
    + destruct (r_crep r) eqn:CR; cbn [negb] in E; [|discriminate E]. destruct (pick (r_tab r) ids) as [id|] eqn:P; cbn [bind] in E; [|discriminate E].
      destruct (detect_timeouts _ _ _ _) as [[[t e]|]| |]; cbn [bind] in E; try discriminate E. destruct (pick_in _ _ _ P) as [P1 P2].
      match type of E with Ok (Some (?x, _)) = _ => assert (X : r' = x) by congruence end. right. right. right. exists ids. rewrite X. cbn [with_tab r_coll r_local]. auto 10.
    + cbn [bind] in E. destruct (detect_timeouts _ _ _ _) as [[[t e]|]| |]; cbn [bind] in E; try discriminate E. match type of E with Ok (Some (?x, _)) = _ => assert (X : r' = x) by congruence end. left. rewrite X. reflexivity.
Qed.

(** What a collision in progress says about the past. *)
Definition told (l : list rop) (r : rep) : Prop := r_coll r = true ->
  exists l1 o1 l2, l = l1 ++ o1 :: l2 /\ speaker o1 = Some (r_local r) /\ (r_crep r = true -> In (RBlocks true) l2).
Lemma run_told fuel c : forall l past r r' ev, told past r -> r_run fuel c r l = Ok (Some (r', ev)) -> told (past ++ l) r'.
Proof.
  induction l as [|o l IH]; intros past r r' ev T E; cbn [r_run] in E; [rewrite app_nil_r; assert (X : r' = r) by congruence; rewrite X; exact T|].
  destruct (r_step fuel c r o) as [[[r1 e1]|]| |] eqn:S; cbn [bind] in E; try discriminate E.
  destruct (r_run fuel c r1 l) as [[[r2 e2]|]| |] eqn:R; cbn [bind] in E; try discriminate E. assert (X : r' = r2) by congruence. subst r'.
  replace (past ++ o :: l) with ((past ++ [o]) ++ l) by (rewrite <- app_assoc; reflexivity). eapply IH; [|exact R]. clear IH R E.
  intros C. destruct (step_flags _ _ _ _ _ _ S) as [F|[(F1 & F2 & F3)|[(F1 & F2 & F3)|(ids & _ & _ & _ & F & _)]]].
  - unfold flags in F. assert (F1 : r_coll r1 = r_coll r) by congruence. assert (F2 : r_crep r1 = r_crep r) by congruence. assert (F3 : r_local r1 = r_local r) by congruence.
    rewrite F1 in C. destruct (T C) as (l1 & o1 & l2 & E1 & E2 & E3). exists l1, o1, (l2 ++ [o]). rewrite E1, F2, F3. split; [rewrite <- app_assoc; reflexivity|]. split; [exact E2|]. intros K. apply in_or_app. auto.
  - unfold flags in F3. assert (K1 : r_crep r1 = false) by congruence. assert (K2 : r_local r1 = r_local r) by congruence. exists past, o, []. rewrite K1, K2. split; [reflexivity|]. split; [exact F1|discriminate].
  - rewrite F2 in C. destruct (T C) as (l1 & o1 & l2 & E1 & E2 & E3). exists l1, o1, (l2 ++ [o]). rewrite E1, F3. split; [rewrite <- app_assoc; reflexivity|]. split; [exact E2|]. intros K. apply in_or_app. right. left. exact F1.
  - congruence.
Qed.

(** The participant changes its id only at the end of a generation, only if it received a report of someone
    else under its id before and has said goodbye since, and the new one is one it proposed that no known
    stream has. *)
Theorem C20_own_id : forall fuel c local l r ev o r' ev', r_run fuel c (r_new local) l = Ok (Some (r, ev)) -> r_step fuel c r o = Ok (Some (r', ev')) ->
  r_local r' <> r_local r ->
  exists ids, o = REndG ids /\ In (r_local r') ids /\ ~ In (r_local r') (map s_id (known r)) /\
  exists l1 heard l2 l3, l = l1 ++ heard :: l2 ++ RBlocks true :: l3 /\ speaker heard = Some (r_local r).
Proof.
  intros fuel c local l r ev o r' ev' R S N. assert (T : told l r) by (apply (run_told fuel c l [] (r_new local) r ev); [intros C; discriminate C|exact R]).
  destruct (step_flags _ _ _ _ _ _ S) as [F|[(F1 & F2 & F3)|[(F1 & F2 & F3)|(ids & E & C & CR & _ & I & G)]]]; try (unfold flags in *; exfalso; apply N; congruence).
  exists ids. split; [exact E|]. split; [exact I|]. split.
  { intros H. apply in_map_iff in H. destruct H as (s & Hs & Hi). unfold get in G. apply (find_none _ _ G) in Hi. rewrite Hs, Z.eqb_refl in Hi. discriminate Hi. }
  destruct (T C) as (l1 & o1 & l2 & E1 & E2 & E3). destruct (in_split _ _ (E3 CR)) as (m1 & m2 & E4). exists l1, o1, m1, m2. split; [rewrite E1, E4; reflexivity|exact E2].
Qed.
Print Assumptions C20_own_id.

(** Someone else reports under id 5: after a goodbye, 5 is given up for 8, because 6 is in use. *)
Definition own_cfg := mkRc ReportBack 0 7 1000.
Example C20_own_id_ex : exists r ev r' ev',
  r_run 20 own_cfg (r_new 5) [RBeginP 1 50 (mkPart true []); RSr true 6 3; RSr true 5 3; REndP; RBeginG 60 (mkPart true []); RBlocks true] = Ok (Some (r, ev)) /\
  r_step 20 own_cfg r (REndG [6; 8]) = Ok (Some (r', ev')) /\ r_local r = 5 /\ r_local r' = 8.
Proof.
  destruct (r_run 20 own_cfg (r_new 5) [RBeginP 1 50 (mkPart true []); RSr true 6 3; RSr true 5 3; REndP; RBeginG 60 (mkPart true []); RBlocks true]) as [[[r ev]|]| |] eqn:E; vm_compute in E; try discriminate E. injection E as <- <-.
  eexists _, _, _, _. split; [reflexivity|]. split; [vm_compute; reflexivity|]. split; reflexivity.
Qed.
