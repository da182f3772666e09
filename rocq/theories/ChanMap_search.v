(** Which tables the channel mapper picks: the choice depends only on which of the masks
    in the tables cover the two channel sets, so it is determined by the smallest
    intersection of such masks that covers them. There are few intersections. *)
From Coq Require Import QArith.
From Verif Require Import Base Base_lemmas ChannelSet_model ChanMap_tables ChanMap_model ChanMap_mat.
Open Scope Z_scope.

Lemma subset_spec m M : subset m M = true <-> forall c, 0 <= c -> has m c = true -> has M c = true.
Proof.
  unfold subset, has. rewrite Z.eqb_eq. split.
  - intros E c C H. rewrite <- E in H. rewrite Z.land_spec in H. apply andb_true_iff in H. tauto.
  - intros H. apply Z.bits_inj'. intros c C. rewrite Z.land_spec. destruct (Z.testbit m c) eqn:B; auto. now rewrite H.
Qed.
Lemma subset_refl m : subset m m = true. Proof. apply subset_spec. auto. Qed.
Lemma subset_trans a b c : subset a b = true -> subset b c = true -> subset a c = true.
Proof. rewrite !subset_spec. auto. Qed.
Lemma subset_land m a b : subset m (Z.land a b) = subset m a && subset m b.
Proof.
  apply eq_iff_eq_true. rewrite andb_true_iff, !subset_spec. unfold has. split.
  - intros H. split; intros c C B; specialize (H c C B); rewrite Z.land_spec in H; apply andb_true_iff in H; tauto.
  - intros [H1 H2] c C B. rewrite Z.land_spec. now rewrite H1, H2.
Qed.
Lemma land_subset_l a b : subset (Z.land a b) a = true.
Proof. apply subset_spec. unfold has. intros c C. rewrite Z.land_spec. intros H. apply andb_true_iff in H. tauto. Qed.
Lemma land_subset_r a b : subset (Z.land a b) b = true.
Proof. apply subset_spec. unfold has. intros c C. rewrite Z.land_spec. intros H. apply andb_true_iff in H. tauto. Qed.

(** Masks of the tables, and the smallest intersection that covers a set. *)
Definition tmasks : list Z := nodup Z.eq_dec (map t_in tables ++ map t_out tables).
Definition cover (ms : list Z) (m : Z) : Z := fold_right (fun M a => if subset m M then Z.land M a else a) (-1) ms.
Definition cl (m : Z) : Z := cover tmasks m.

Lemma cover_sup ms m : subset m (cover ms m) = true.
Proof.
  induction ms as [|M ms IH]; cbn.
  - apply subset_spec. unfold has. intros c C _. now apply Z.bits_m1.
  - destruct (subset m M) eqn:E; auto. now rewrite subset_land, E.
Qed.
Lemma cover_inf ms m M : In M ms -> subset m M = true -> subset (cover ms m) M = true.
Proof.
  induction ms as [|N ms IH]; cbn; [tauto|]. intros [->|I] H.
  - rewrite H. apply land_subset_l.
  - destruct (subset m N); auto. eapply subset_trans; [apply land_subset_r|auto].
Qed.
Lemma cl_subset m M : In M tmasks -> subset (cl m) M = subset m M.
Proof.
  intros I. unfold cl. generalize dependent tmasks. intros ms I. apply eq_iff_eq_true. split; intros H.
  - eapply subset_trans; [apply (cover_sup ms)|exact H].
  - apply cover_inf; assumption.
Qed.
Lemma in_tmasks t : In t tables -> In (t_in t) tmasks /\ In (t_out t) tmasks.
Proof. intros H. unfold tmasks. split; apply nodup_In, in_app_iff; [left|right]; apply in_map; assumption. Qed.

Local Opaque tables tmasks.
(** All the intersections. *)
Fixpoint close (ms : list Z) : list Z :=
  match ms with
  | [] => [-1]
  | M :: r => let c := close r in nodup Z.eq_dec (c ++ map (Z.land M) c)
  end.
Lemma cover_close ms m : In (cover ms m) (close ms).
Proof.
  induction ms as [|M ms IH]; cbn; auto. apply nodup_In, in_app_iff.
  destruct (subset m M); [right; apply in_map; assumption|left; assumption].
Qed.
Definition classes : list Z := Eval vm_compute in close tmasks.
Local Opaque classes.
Lemma cl_sup m : subset m (cl m) = true.
Proof. unfold cl. apply cover_sup. Qed.
Lemma cl_class m : In (cl m) classes.
Proof. assert (E : classes = close tmasks) by (vm_cast_no_check (eq_refl classes)). rewrite E. apply cover_close. Qed.

(** The functions that pick a table see a set only through its class. *)
Definition same (m m' : Z) : Prop := forall M, In M tmasks -> subset m M = subset m' M.
Lemma same_cl m : same m (cl m). Proof. intros M I. symmetry. now apply cl_subset. Qed.
Lemma same_refl m : same m m. Proof. intros M I. reflexivity. Qed.

Lemma cluster_same ts M o o' : incl ts tables -> same o o' -> cluster ts M o = cluster ts M o'.
Proof.
  induction ts as [|t ts IH]; intros I S; cbn; auto. rewrite (S (t_out t)) by exact (proj2 (in_tmasks t (I t (or_introl eq_refl)))).
  destruct (negb _); auto. destruct (subset o' _); auto. apply IH; auto. intros x X. apply I. right; assumption.
Qed.
Lemma can_same ts i i' o o' : incl ts tables -> same i i' -> same o o' -> can_downmix ts i o = can_downmix ts i' o'.
Proof.
  induction ts as [|t ts IH]; intros I S S'; cbn [can_downmix]; auto. rewrite (S (t_in t)) by exact (proj1 (in_tmasks t (I t (or_introl eq_refl)))).
  destruct (negb _); [apply IH; auto; intros x X; apply I; right; assumption|]. apply cluster_same; assumption.
Qed.
Lemma next_down_same ts i i' o o' : incl ts tables -> same i i' -> same o o' -> next_downmix ts i o = next_downmix ts i' o'.
Proof.
  induction ts as [|t ts IH]; intros I S S'; cbn; auto. destruct (in_tmasks t (I t (or_introl eq_refl))) as [A B].
  rewrite (S _ A), (S _ B), (S' _ B). rewrite (IH (fun x X => I x (or_intror X)) S S'). reflexivity.
Qed.
Lemma pass_fold ts i i' o o' b : incl ts tables -> same i i' -> same o o' ->
  fold_left (fun best t => if subset i (t_out t) && subset o (t_in t) && negb (subset o (t_out t)) then Some t else best) ts b =
  fold_left (fun best t => if subset i' (t_out t) && subset o' (t_in t) && negb (subset o' (t_out t)) then Some t else best) ts b.
Proof.
  revert b. induction ts as [|t ts IH]; intros b I S S'; cbn [fold_left]; auto. destruct (in_tmasks t (I t (or_introl eq_refl))) as [A B].
  rewrite (S _ B), (S' _ A), (S' _ B). apply IH; auto. intros x X. apply I. right; assumption.
Qed.
Lemma pass_same i i' o o' : same i i' -> same o o' -> upmix_pass i o = upmix_pass i' o'.
Proof. intros A B. unfold upmix_pass. apply pass_fold; [|exact A|exact B]. intros x X. apply in_rev. exact X. Qed.
Lemma next_up_same fuel i i' o o' b : same i i' -> same o o' -> next_upmix fuel i o b = next_upmix fuel i' o' b.
Proof.
  revert o o' b. induction fuel as [|f IH]; intros o o' b S S'; cbn; auto. rewrite (pass_same i i' o o') by auto.
  destruct (upmix_pass i' o') as [t|]; auto. apply IH; auto. apply same_refl.
Qed.

(** What is picked is one of the tables, and covers both sets as it should. *)
Lemma next_down_in ts i o t : next_downmix ts i o = Some t -> In t ts /\ subset i (t_in t) = true /\ subset o (t_out t) = true.
Proof.
  induction ts as [|a ts IH]; cbn; [discriminate|]. destruct (subset i (t_in a) && subset o (t_out a) && negb (subset i (t_out a))) eqn:E.
  - intros H. injection H as <-. rewrite !andb_true_iff in E. tauto.
  - intros H. destruct (IH H) as (A & B). split; [right; assumption|auto].
Qed.
Lemma pass_in_fold ts i o b t :
  fold_left (fun best t => if subset i (t_out t) && subset o (t_in t) && negb (subset o (t_out t)) then Some t else best) ts b = Some t ->
  b = Some t \/ (In t ts /\ subset i (t_out t) = true).
Proof.
  revert b. induction ts as [|a ts IH]; intros b; cbn [fold_left]; [auto|]. intros H. destruct (IH _ H) as [E|(A & B)]; [|right; split; auto; right; assumption].
  destruct (subset i (t_out a) && subset o (t_in a) && negb (subset o (t_out a))) eqn:E'; auto.
  injection E as ->. rewrite !andb_true_iff in E'. right. split; [left; reflexivity|tauto].
Qed.
Lemma pass_in i o t : upmix_pass i o = Some t -> In t tables /\ subset i (t_out t) = true.
Proof. intros H. apply pass_in_fold in H as [H|[A B]]; [discriminate H|]. split; [apply in_rev; exact A|exact B]. Qed.
Lemma next_up_in fuel i o b t : next_upmix fuel i o b = Some (Some t) -> b = Some t \/ (In t tables /\ subset i (t_out t) = true).
Proof.
  revert o b. induction fuel as [|f IH]; intros o b; cbn; [discriminate|]. destruct (upmix_pass i o) as [u|] eqn:E.
  - intros H. apply IH in H as [H|H]; auto. injection H as <-. right. now apply (pass_in i o).
  - intros H. left. congruence.
Qed.

(** One step of the loop: the table and the direction. *)
Definition pick (fuel : nat) (cur out : Z) : option (option (table * bool)) :=
  let down := can_downmix tables cur out in
  match (if down then Some (next_downmix tables cur out) else next_upmix fuel cur out None) with
  | None => None
  | Some None => Some None
  | Some (Some t) => Some (Some (t, down))
  end.
Definition target (p : table * bool) : Z := if snd p then t_out (fst p) else t_in (fst p).
Definition source (p : table * bool) : Z := if snd p then t_in (fst p) else t_out (fst p).
Lemma pick_same fuel i i' o o' : same i i' -> same o o' -> pick fuel i o = pick fuel i' o'.
Proof.
  intros S S'. unfold pick. rewrite (can_same tables i i' o o') by (auto; apply incl_refl).
  rewrite (next_down_same tables i i' o o') by (auto; apply incl_refl). now rewrite (next_up_same fuel i i' o o').
Qed.
Lemma pick_in fuel i o p : pick fuel i o = Some (Some p) -> In (fst p) tables /\ subset i (source p) = true.
Proof.
  unfold pick, source. cbv zeta. destruct (can_downmix tables i o).
  - destruct (next_downmix tables i o) as [t|] eqn:E; [|discriminate]. intros H. assert (p = (t, true)) by congruence. subst p. cbn.
    apply next_down_in in E. tauto.
  - destruct (next_upmix fuel i o None) as [[t|]|] eqn:E; try discriminate. intros H. assert (p = (t, false)) by congruence. subst p. cbn.
    apply next_up_in in E as [E|E]; [discriminate E|auto].
Qed.

(** The whole sequence of steps. *)
Fixpoint chain (fuel : nat) (cur out : Z) : option (list (table * bool)) :=
  match fuel with
  | O => None
  | S f => match pick fuel cur out with
           | None => None
           | Some None => Some []
           | Some (Some p) => option_map (cons p) (chain f (target p) out)
           end
  end.
Lemma chain_same fuel i i' o o' : same i i' -> same o o' -> chain fuel i o = chain fuel i' o'.
Proof.
  revert i i'. induction fuel as [|f IH]; intros i i' S S'; [reflexivity|]. cbn [chain]. rewrite (pick_same (Datatypes.S f) i i' o o') by auto.
  destruct (pick (Datatypes.S f) i' o') as [[p|]|]; auto. f_equal. apply IH; auto. apply same_refl.
Qed.
Lemma chain_cl fuel i o : chain fuel i o = chain fuel (cl i) (cl o).
Proof. apply chain_same; apply same_cl. Qed.

(** The matrix is the combination of the matrices of the steps. *)
Definition step_map (cur : Z) (p : table * bool) : mat := fill (fst p) (snd p) cur (target p).
Fixpoint run (cur : Z) (acc : option mat) (l : list (table * bool)) : option mat :=
  match l with
  | [] => acc
  | p :: r => run (target p) (Some (match acc with None => step_map cur p | Some prev => combine_maps prev (step_map cur p) end)) r
  end.
Lemma build_chain fuel cur out acc : build_loop fuel cur out acc = option_map (run cur acc) (chain fuel cur out).
Proof.
  revert cur acc. induction fuel as [|f IH]; intros cur acc; [reflexivity|]. cbn [build_loop chain]. unfold pick. cbv zeta.
  destruct (can_downmix tables cur out) eqn:D.
  - destruct (next_downmix tables cur out) as [t|]; [|reflexivity]. rewrite IH.
    change (target (t, true)) with (t_out t). destruct (chain f (t_out t) out); reflexivity.
  - destruct (next_upmix (S f) cur out None) as [[t|]|]; [|reflexivity|reflexivity]. rewrite IH.
    change (target (t, false)) with (t_in t). destruct (chain f (t_in t) out); reflexivity.
Qed.

(** The classes other than that of the empty set and of LFE alone reach an end, each step
    works on sets that contain all the channels common to the two ends. *)
Definition lfe_only : Z := Z.shiftl 1 LFE.
Definition steps_keep (m : Z) (l : list (table * bool)) : bool :=
  forallb (fun p => subset m (t_in (fst p)) && subset m (t_out (fst p))) l.
Definition pair_ok (i o : Z) : bool :=
  (i =? lfe_only) || (o =? lfe_only) ||
  match chain 12 i o with None => false | Some l => steps_keep (Z.land i o) l end.
Lemma classes_ok : forallb (fun i => forallb (pair_ok i) classes) classes = true.
Proof. vm_compute. reflexivity. Qed.
Lemma chain_ok i o : cl i <> lfe_only -> cl o <> lfe_only -> exists l, chain 12 i o = Some l /\ steps_keep (Z.land i o) l = true.
Proof.
  intros A B. pose proof classes_ok as H. rewrite forallb_forall in H. specialize (H _ (cl_class i)). rewrite forallb_forall in H.
  specialize (H _ (cl_class o)). unfold pair_ok in H. apply Z.eqb_neq in A, B. rewrite A, B in H. cbn [orb] in H.
  rewrite <- chain_cl in H. destruct (chain 12 i o) as [l|]; [|discriminate H]. exists l. split; auto.
  unfold steps_keep in *. rewrite forallb_forall in *. intros p P. specialize (H p P). apply andb_true_iff in H as [H1 H2].
  assert (K : subset (Z.land i o) (Z.land (cl i) (cl o)) = true).
  { rewrite subset_land. apply andb_true_iff. split; [eapply subset_trans; [apply land_subset_l|apply cl_sup]|eapply subset_trans; [apply land_subset_r|apply cl_sup]]. }
  apply andb_true_iff. split; [exact (subset_trans _ _ _ K H1)|exact (subset_trans _ _ _ K H2)].
Qed.

(** More fuel changes nothing. *)
Lemma next_up_more f f' i o b r : next_upmix f i o b = Some r -> (f <= f')%nat -> next_upmix f' i o b = Some r.
Proof.
  revert f' o b. induction f as [|f IH]; intros f' o b H L; [discriminate H|]. destruct f' as [|f']; [lia|]. cbn in *.
  destruct (upmix_pass i o) as [t|]; auto. apply IH; auto. lia.
Qed.
Lemma pick_more f f' i o r : pick f i o = Some r -> (f <= f')%nat -> pick f' i o = Some r.
Proof.
  unfold pick. cbv zeta. destruct (can_downmix tables i o); auto. destruct (next_upmix f i o None) as [x|] eqn:E; [|discriminate].
  intros H L. now rewrite (next_up_more f f' i o None x E L).
Qed.
Lemma chain_more f f' i o l : chain f i o = Some l -> (f <= f')%nat -> chain f' i o = Some l.
Proof.
  revert f' i l. induction f as [|f IH]; intros f' i l H L; [discriminate H|]. destruct f' as [|f']; [lia|]. cbn [chain] in *.
  destruct (pick (S f) i o) as [x|] eqn:E; [|discriminate H]. rewrite (pick_more (S f) (S f') i o x E) by lia.
  destruct x as [p|]; auto. destruct (chain f (target p) o) as [k|] eqn:K; [|discriminate H]. rewrite (IH f' (target p) k) by (auto; lia). auto.
Qed.

(** Every step of a sequence starts where the previous one ended. *)
Fixpoint linked (cur : Z) (l : list (table * bool)) : Prop :=
  match l with
  | [] => True
  | p :: r => In (fst p) tables /\ subset cur (source p) = true /\ linked (target p) r
  end.
Lemma chain_linked f i o l : chain f i o = Some l -> linked i l.
Proof.
  revert i l. induction f as [|f IH]; intros i l H; [discriminate H|]. cbn [chain] in H.
  destruct (pick (S f) i o) as [[p|]|] eqn:E; [| |discriminate H].
  - destruct (chain f (target p) o) as [k|] eqn:K; [|discriminate H]. cbn in H. assert (l = p :: k) by congruence. subst l.
    destruct (pick_in _ _ _ _ E). cbn. auto.
  - assert (l = []) by congruence. now subst l.
Qed.

Lemma run_good i cur acc l inp : linked cur l -> (match acc with Some m => good m inp | None => cur = inp end) -> i = cur ->
  match run cur acc l with Some m => good m inp | None => l = [] /\ acc = None end.
Proof.
  intros L A _. revert cur acc L A. induction l as [|p l IH]; intros cur acc L A; cbn [run].
  - destruct acc; auto.
  - destruct L as (T & S & L). pose proof (good_fill (fst p) (snd p) cur (target p) (tables_ok _ T)) as G. fold (step_map cur p) in G.
    specialize (IH (target p) (Some (match acc with None => step_map cur p | Some prev => combine_maps prev (step_map cur p) end)) L).
    match type of IH with ?P -> _ => assert (B : P) end.
    { destruct acc as [m|]; [now apply (good_comb m _ inp cur)|now subst cur]. }
    specialize (IH B). destruct (run _ _ l) as [m|]; auto. destruct IH as [_ IH]. discriminate IH.
Qed.
Lemma chan_map_good f i o m : chan_map f i o = Some m -> m = fallback \/ good m i.
Proof.
  unfold chan_map. destruct (i =? o); [intros H; left; congruence|]. rewrite build_chain. destruct (chain f i o) as [l|] eqn:E; [|discriminate].
  cbn [option_map]. pose proof (run_good i i None l i (chain_linked _ _ _ _ E) eq_refl eq_refl) as G.
  destruct (run i None l) as [x|]; intros H; [right|left; congruence]. assert (m = x) by congruence. now subst m.
Qed.

(** Every table keeps the channels that it has on both sides. *)
Definition keeps (t : table) : bool :=
  forallb (fun c => negb (has (t_in t) c) || negb (has (t_out t) c) || negb (Qle_bool (get (tmat t) c c) 0)) chans.
Lemma tables_keep : forallb keeps tables = true.
Proof. vm_compute. reflexivity. Qed.
Lemma table_pos t c : In t tables -> inr c -> has (t_in t) c = true -> has (t_out t) c = true -> (0 < get (tmat t) c c)%Q.
Proof.
  intros T C A B. pose proof tables_keep as H. rewrite forallb_forall in H. specialize (H t T). unfold keeps in H. rewrite forallb_forall in H.
  specialize (H c (proj2 (in_chans c) C)). rewrite A, B in H. cbn in H. destruct (Qlt_le_dec 0 (get (tmat t) c c)) as [|G]; auto.
  apply Qle_bool_iff in G. rewrite G in H. discriminate H.
Qed.
Lemma step_pos cur p c : In (fst p) tables -> inr c -> has cur c = true -> has (t_in (fst p)) c = true -> has (t_out (fst p)) c = true ->
  (0 < get (step_map cur p) c c)%Q.
Proof.
  intros T C H A B. unfold step_map. rewrite fill_fill0. apply norm_pos; auto; [apply wf_tab|apply fill0_nn, tables_ok; auto|].
  rewrite get_fill0 by auto. assert (D : has (target p) c = true) by (unfold target; destruct (snd p); auto). rewrite D, H. cbn.
  pose proof (table_pos (fst p) c T C A B). destruct (snd p); auto.
Qed.
Lemma run_pos i cur acc l inp c : linked cur l -> inr c -> has cur c = true ->
  forallb (fun p => has (t_in (fst p)) c && has (t_out (fst p)) c) l = true ->
  (match acc with Some m => good m inp /\ (0 < get m c c)%Q | None => cur = inp end) -> i = cur ->
  match run cur acc l with Some m => (0 < get m c c)%Q | None => l = [] /\ acc = None end.
Proof.
  intros L C H K A _. revert cur acc L H K A. induction l as [|p l IH]; intros cur acc L H K A; cbn [run].
  - destruct acc; [tauto|auto].
  - destruct L as (T & S & L). cbn [forallb] in K. apply andb_true_iff in K as [K1 K]. apply andb_true_iff in K1 as [K1 K2].
    pose proof (good_fill (fst p) (snd p) cur (target p) (tables_ok _ T)) as G. fold (step_map cur p) in G.
    pose proof (step_pos cur p c T C H K1 K2) as P.
    specialize (IH (target p) (Some (match acc with None => step_map cur p | Some prev => combine_maps prev (step_map cur p) end)) L).
    match type of IH with ?X -> _ => assert (B : X) by (unfold target; destruct (snd p); auto) end. specialize (IH B K).
    match type of IH with ?P -> _ => assert (B' : P) end.
    { destruct acc as [m|].
      - destruct A as [A1 A2]. split; [now apply (good_comb m _ inp cur)|]. rewrite combine_comb0.
        destruct A1 as (W & N & _), G as (W' & N' & _). apply norm_pos; auto; [apply wf_tab|now apply comb0_nn|now apply comb0_pos].
      - subst cur. auto. }
    specialize (IH B'). destruct (run _ _ l) as [m|]; auto. destruct IH as [_ IH]. discriminate IH.
Qed.
