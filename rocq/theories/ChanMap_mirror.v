(** Exchange of left and right, independence of the order, termination and its failures. *)
From Coq Require Import QArith Lqa Permutation.
From Verif Require Import Base Base_lemmas ChannelSet_model ChannelSet_spec ChannelSet_proof ChannelSet_props.
From Verif Require Import ChanMap_tables ChanMap_model ChanMap_spec ChanMap_mat ChanMap_search ChanMap_frame ChanMap_proof.
Open Scope Z_scope.

Local Opaque tables tmasks classes.

Lemma mirror_inv c : mirror (mirror c) = c.
Proof.
  unfold mirror, FL, FR, FLC, FRC, SL, SR, BL, BR, TFL, TFR, TML, TMR, TBL, TBR.
  repeat match goal with |- context [if c =? ?x then _ else _] => destruct (Z.eqb_spec c x); [subst; reflexivity|] end.
  repeat match goal with N : c <> ?x |- context [c =? ?x] => rewrite (proj2 (Z.eqb_neq c x) N) end. reflexivity.
Qed.
Lemma mirror_inr c : inr c -> inr (mirror c).
Proof.
  intros H. apply in_chans in H. assert (E : forallb (fun c => (0 <=? mirror c) && (mirror c <? 17)) chans = true) by (vm_compute; reflexivity).
  rewrite forallb_forall in E. specialize (E c H). unfold inr. lia.
Qed.
Lemma mirror_chans : Permutation (map mirror chans) chans.
Proof.
  apply NoDup_Permutation.
  - vm_compute. repeat constructor; cbn; intuition discriminate.
  - vm_compute. repeat constructor; cbn; intuition discriminate.
  - intros c. rewrite in_map_iff. split.
    + intros (x & <- & I). apply in_chans. apply mirror_inr. now apply in_chans.
    + intros I. exists (mirror c). split; [apply mirror_inv|]. apply in_chans. apply mirror_inr. now apply in_chans.
Qed.

(** Both masks have the same channels but for a permutation [g] of the channels. *)
Section perm.
Variable g : Z -> Z.
Hypothesis g_inv : forall c, g (g c) = c.
Hypothesis g_inr : forall c, inr c -> inr (g c).
Hypothesis g_chans : Permutation (map g chans) chans.
Definition gmask (m m' : Z) : Prop := forall c, inr c -> has m' (g c) = has m c.
Definition gmat (m m' : mat) : Prop := forall o i, inr o -> inr i -> (get m' (g o) (g i) == get m o i)%Q.
Definition low (m : Z) : Prop := forall c, 0 <= c -> has m c = true -> inr c.
Hypothesis g_tmasks : forall M, In M tmasks -> gmask M M.
Hypothesis g_tables : forall t, In t tables -> gmat (tmat t) (tmat t).

Lemma g_sum (f f' : Z -> Q) : (forall c, inr c -> f' (g c) == f c)%Q -> (sumQ f' chans == sumQ f chans)%Q.
Proof.
  intros H. rewrite <- (sumQ_perm f' _ _ g_chans), sumQ_map. apply sumQ_ext. intros c C. apply H. now apply in_chans.
Qed.
Lemma gmat_norm m m' : wf m -> wf m' -> gmat m m' -> gmat (normalize m) (normalize m').
Proof.
  intros W W' G o i O I. destruct (get_norm m o i W O I) as [A B]. destruct (get_norm m' (g o) (g i) W' (g_inr _ O) (g_inr _ I)) as [A' B'].
  assert (E : (sumQ (get m' (g o)) chans == sumQ (get m o) chans)%Q) by (apply g_sum; intros c C; apply G; auto).
  destruct (Qeq_dec (sumQ (get m o) chans) 0) as [Z|Z].
  - rewrite A, A' by (rewrite ?E; auto). apply G; auto.
  - rewrite B, B', E by (rewrite ?E; auto). rewrite (G o i O I). reflexivity.
Qed.
Lemma gmat_fill t d i i' o o' : In t tables -> gmask i i' -> gmask o o' -> gmat (fill t d i o) (fill t d i' o').
Proof.
  intros T GI GO. rewrite !fill_fill0. apply gmat_norm; try apply wf_tab. intros a b A B. rewrite !get_fill0 by auto.
  rewrite (GI b B), (GO a A). destruct (negb _ || negb _); [reflexivity|]. destruct d; apply (g_tables t T); auto.
Qed.
Lemma gmat_comb p p' n n' : gmat p p' -> gmat n n' -> gmat (combine_maps p n) (combine_maps p' n').
Proof.
  intros P N. rewrite !combine_comb0. apply gmat_norm; try apply wf_tab. intros o i O I. rewrite !get_comb0 by auto.
  apply g_sum. intros c C. rewrite (N o c O C), (P c i C I). reflexivity.
Qed.
Lemma gmat_run l : forall cur cur' acc acc', linked cur l -> gmask cur cur' ->
  (match acc, acc' with None, None => True | Some m, Some m' => gmat m m' | _, _ => False end) ->
  match run cur acc l, run cur' acc' l with None, None => True | Some m, Some m' => gmat m m' | _, _ => False end.
Proof.
  induction l as [|p l IH]; intros cur cur' acc acc' L G A; cbn [run]; auto.
  destruct L as (T & _ & L). assert (GT : gmask (target p) (target p)).
  { apply g_tmasks. unfold target. destruct (in_tmasks (fst p) T). destruct (snd p); auto. }
  pose proof (gmat_fill (fst p) (snd p) cur cur' (target p) (target p) T G GT) as F.
  apply IH; [exact L|exact GT|]. destruct acc, acc'; [apply gmat_comb; [exact A|exact F]|destruct A|destruct A|exact F].
Qed.
Lemma gmask_same m m' : low m -> low m' -> gmask m m' -> same m m'.
Proof.
  intros L L' G M I. apply eq_true_iff_eq. rewrite !subset_spec. pose proof (g_tmasks M I) as GM. split; intros H c C K.
  - pose proof (L' c C K) as R. rewrite <- (g_inv c) in K. rewrite (G (g c) (g_inr _ R)) in K.
    rewrite <- (g_inv c), (GM (g c) (g_inr _ R)). apply H; auto. apply g_inr in R. unfold inr in R. lia.
  - pose proof (L c C K) as R. rewrite <- (GM c R). pose proof (g_inr c R) as R'. apply H; [unfold inr in R'; lia|]. now rewrite G.
Qed.
Lemma gmask_eq i i' o o' : low i -> low i' -> low o -> low o' -> gmask i i' -> gmask o o' -> i = o -> i' = o'.
Proof.
  intros LI LI' LO LO' GI GO E. apply Z.bits_inj'. intros c C.
  destruct (Z.lt_ge_cases c 17) as [H|H].
  - assert (R : inr c) by (unfold inr; lia). specialize (GI (g c) (g_inr _ R)). specialize (GO (g c) (g_inr _ R)). rewrite g_inv in *.
    unfold has in *. congruence.
  - destruct (Z.testbit i' c) eqn:A; [specialize (LI' c C A); unfold inr in LI'; lia|].
    destruct (Z.testbit o' c) eqn:B; [specialize (LO' c C B); unfold inr in LO'; lia|]. reflexivity.
Qed.
Lemma gmask_sym m m' : gmask m m' -> gmask m' m.
Proof. intros G c C. rewrite <- (g_inv c) at 2. rewrite (G (g c)); auto. Qed.
Lemma gmat_chan_map f i i' o o' m : low i -> low i' -> low o -> low o' -> gmask i i' -> gmask o o' ->
  chan_map f i o = Some m -> exists m', chan_map f i' o' = Some m' /\ gmat m m'.
Proof.
  intros LI LI' LO LO' GI GO. unfold chan_map.
  assert (FB : gmat fallback fallback).
  { intros a b A B. rewrite !get_fallback by auto. destruct (Z.eqb_spec a b) as [->|N]; [rewrite Z.eqb_refl; reflexivity|].
    destruct (Z.eqb_spec (g a) (g b)) as [E|_]; [|reflexivity]. exfalso. apply N. rewrite <- (g_inv a), E. apply g_inv. }
  destruct (Z.eqb_spec i o) as [E|N].
  - rewrite (proj2 (Z.eqb_eq i' o')) by (apply (gmask_eq i i' o o'); auto). intros H. assert (m = fallback) by congruence. subst m. eauto.
  - destruct (Z.eqb_spec i' o') as [E'|_]; [exfalso; apply N; apply (gmask_eq i' i o' o); auto using gmask_sym|].
    rewrite !build_chain. rewrite (chain_same f i i' o o') by (apply gmask_same; auto).
    destruct (chain f i' o') as [l|] eqn:E; [|discriminate]. cbn [option_map].
    assert (LK : linked i l) by (apply (chain_linked f i o); rewrite <- E; apply chain_same; apply gmask_same; auto).
    pose proof (gmat_run l i i' None None LK GI Logic.I) as R. destruct (run i None l) as [x|], (run i' None l) as [x'|]; try tauto.
    + intros H. assert (m = x) by congruence. subst x. eauto.
    + intros H. assert (m = fallback) by congruence. subst m. eauto.
Qed.
End perm.

(** The tables are the same on the left and on the right. *)
Lemma tmasks_mirror M : In M tmasks -> gmask mirror M M.
Proof.
  assert (H : forallb (fun M => forallb (fun c => Bool.eqb (has M (mirror c)) (has M c)) chans) tmasks = true) by (vm_compute; reflexivity).
  rewrite forallb_forall in H. intros I c C. specialize (H M I). rewrite forallb_forall in H. apply in_chans in C. specialize (H c C).
  now apply Bool.eqb_prop.
Qed.
Lemma tables_mirror t : In t tables -> gmat mirror (tmat t) (tmat t).
Proof.
  assert (H : forallb (fun t => let m := tmat t in forallb (fun o => forallb (fun i => Qeq_bool (get m (mirror o) (mirror i)) (get m o i)) chans) chans) tables = true)
    by (vm_compute; reflexivity).
  rewrite forallb_forall in H. intros I o i O J. specialize (H t I). cbv zeta in H. rewrite forallb_forall in H. apply in_chans in O, J.
  specialize (H o O). rewrite forallb_forall in H. specialize (H i J). now apply Qeq_bool_iff.
Qed.
Lemma order_mirror o c : In c (order_table o) -> In (mirror c) (order_table o).
Proof.
  assert (H : forallb (fun o => forallb (fun c => existsb (Z.eqb (mirror c)) (order_table o)) (order_table o)) [ONone; OSmpte; OAlsa] = true) by (vm_compute; reflexivity).
  rewrite forallb_forall in H. intros I. assert (IO : In o [ONone; OSmpte; OAlsa]) by (destruct o; cbn; auto). specialize (H o IO).
  rewrite forallb_forall in H. specialize (H c I). apply existsb_exists in H as (x & X & E). apply Z.eqb_eq in E. now subst x.
Qed.

(** Masks of sets. *)
Lemma mask_low s m : mask_of s m -> low m.
Proof. intros M c C H. apply M in H; auto. now apply (fchans_inr s). Qed.
Lemma mask_unique s m m' : mask_of s m -> mask_of s m' -> m = m'.
Proof.
  intros A B. apply Z.bits_inj'. intros c C. apply eq_true_iff_eq. unfold mask_of, has in *. rewrite (A c C), (B c C). reflexivity.
Qed.
Lemma mask_g g s s' m m' : (forall c, inr c -> In (g c) (fchans s') <-> In c (fchans s)) -> (forall c, inr c -> inr (g c)) ->
  mask_of s m -> mask_of s' m' -> gmask g m m'.
Proof.
  intros H G A B c C. apply eq_true_iff_eq. pose proof (G c C) as GC. unfold inr in C, GC.
  rewrite (A c), (B (g c)) by lia. now apply H.
Qed.
Lemma mirrored_fchans s s' c : mirrored s s' -> inr c -> In (mirror c) (fchans s') <-> In c (fchans s).
Proof.
  intros (O & M) C. unfold inr in C. rewrite !fchans_mem, O, (M c C). split; intros [A B]; split; auto using order_mirror.
  apply order_mirror in A. now rewrite mirror_inv in A.
Qed.

(** What the constructor does, in terms of the masks. *)
Lemma mapper_new_masks inp out : surround inp -> surround out -> exists mi mo, mask_of inp mi /\ mask_of out mo /\
  forall f, (chan_map f mi mo = None -> mapper_new f inp out = None) /\
    (forall cm, chan_map f mi mo = Some cm -> exists mp, mapper_new f inp out = Some (Ok mp)).
Proof.
  intros SI SO. unfold mapper_new. pose proof SI as (BI & VI & LI). pose proof SO as (BO & VO & LO). rewrite VI, VO, LI, LO. cbn [negb].
  unfold build. destruct (index_map_ok inp) as (im & EI & AI & PI). destruct (index_map_ok out) as (om & EO & AO & PO). rewrite EI, EO.
  exists (im_set im), (im_set om). split; [exact AI|]. split; [exact AO|]. intros f. destruct (chan_map f (im_set im) (im_set om)) as [cm|].
  - split; [discriminate|]. intros x _.
    destruct (populate_ok im om (fchans inp) (fchans out) cm AI AO PI PO (fchans_len inp) (fchans_len out) (fchans_inr inp) (fchans_inr out)) as (m & EP & _).
    rewrite EP. cbn [bind]. eauto.
  - split; [reflexivity|discriminate].
Qed.

(** Termination. *)
Lemma cl_not_lfe m c : 0 <= c -> c <> LFE -> has m c = true -> cl m <> lfe_only.
Proof.
  intros C N H E. pose proof (cl_sup m) as S. rewrite E in S. rewrite subset_spec in S. specialize (S c C H).
  unfold has, lfe_only in S. rewrite Z.shiftl_1_l, Z.pow2_bits_eqb in S by (unfold LFE; lia). apply Z.eqb_eq in S. congruence.
Qed.
Lemma chan_map_total f i o l : chain f i o = Some l -> exists m, chan_map f i o = Some m.
Proof. intros E. unfold chan_map. destruct (i =? o); [eauto|]. rewrite build_chain, E. cbn. destruct (run i None l); eauto. Qed.
Lemma terminates inp out ci co : surround inp -> surround out -> In ci (fchans inp) -> ci <> LFE -> In co (fchans out) -> co <> LFE ->
  exists mp, made inp out mp.
Proof.
  intros SI SO CI NI CO NO. destruct (mapper_new_masks inp out SI SO) as (mi & mo & MI & MO & H).
  assert (A : cl mi <> lfe_only) by (pose proof (fchans_inr _ _ CI) as R; unfold inr in R; apply (cl_not_lfe mi ci); [lia|auto|apply MI; [lia|auto]]).
  assert (B : cl mo <> lfe_only) by (pose proof (fchans_inr _ _ CO) as R; unfold inr in R; apply (cl_not_lfe mo co); [lia|auto|apply MO; [lia|auto]]).
  destruct (chain_ok mi mo A B) as (l & E & _). destruct (chan_map_total 12 mi mo l E) as (cm & EM). destruct (proj2 (H 12%nat) cm EM) as (mp & X).
  exists mp, 12%nat. exact X.
Qed.
Lemma made_same inp out mp mp' : surround inp -> surround out -> made inp out mp -> made inp out mp' -> mp = mp'.
Proof.
  assert (K : forall f f' i o m, chan_map f i o = Some m -> (f <= f')%nat -> chan_map f' i o = Some m).
  { intros f f' i o m. unfold chan_map. destruct (i =? o); auto. rewrite !build_chain. destruct (chain f i o) as [l|] eqn:E; [|discriminate].
    intros H L. now rewrite (chain_more f f' i o l E L). }
  assert (G : forall f f' mp, surround inp -> surround out -> mapper_new f inp out = Some (Ok mp) -> (f <= f')%nat -> mapper_new f' inp out = Some (Ok mp)).
  { intros f f' x SI SO. unfold mapper_new. pose proof SI as (BI & VI & LI). pose proof SO as (BO & VO & LO). rewrite VI, VO, LI, LO. cbn [negb].
    unfold build. destruct (index_map_ok inp) as (im & EI & _). destruct (index_map_ok out) as (om & EO & _). rewrite EI, EO.
    destruct (chan_map f (im_set im) (im_set om)) as [cm|] eqn:E; [|discriminate]. intros H L. rewrite (K f f' _ _ cm E L). exact H. }
  intros SI SO (f & H) (f' & H'). apply (G f (Nat.max f f')) in H; try lia; auto. apply (G f' (Nat.max f f')) in H'; try lia; auto. congruence.
Qed.

(** Failure to terminate. *)
Lemma cl_lfe m : low m -> (forall c, 0 <= c -> has m c = true -> c = LFE) -> cl m = lfe_only.
Proof.
  intros L H. assert (E : m = 0 \/ m = lfe_only).
  { destruct (has m LFE) eqn:B; [right|left]; apply Z.bits_inj'; intros c C.
    - unfold lfe_only. rewrite Z.shiftl_1_l, Z.pow2_bits_eqb by (unfold LFE; lia). destruct (Z.eqb_spec LFE c) as [<-|N]; [exact B|].
      destruct (Z.testbit m c) eqn:T; auto. apply H in T; congruence.
    - rewrite Z.bits_0. destruct (Z.testbit m c) eqn:T; auto. pose proof (H c C T). subst c. unfold has in B. congruence. }
  destruct E as [-> | ->]; vm_compute; reflexivity.
Qed.
Definition goes_down (M : Z) : bool := can_downmix tables M lfe_only && match next_downmix tables M lfe_only with Some _ => true | None => false end.
Lemma goes_down_pick M f : goes_down M = true -> exists p, pick f M lfe_only = Some (Some p) /\ In (fst p) tables.
Proof.
  unfold goes_down, pick. cbv zeta. destruct (can_downmix tables M lfe_only); [|discriminate]. destruct (next_downmix tables M lfe_only) as [t|] eqn:E; [|discriminate].
  intros _. exists (t, true). split; auto. apply next_down_in in E. cbn. tauto.
Qed.
Lemma target_tmasks p : In (fst p) tables -> In (target p) tmasks.
Proof. intros T. destruct (in_tmasks (fst p) T). unfold target. destruct (snd p); auto. Qed.
Lemma down_forever f : forall M, goes_down M = true -> chain f M lfe_only = None.
Proof.
  assert (H : forallb goes_down tmasks = true) by (vm_compute; reflexivity). rewrite forallb_forall in H.
  induction f as [|f IH]; intros M G; [reflexivity|]. cbn [chain]. destruct (goes_down_pick M (S f) G) as (p & E & T). rewrite E.
  rewrite (IH (target p)); [reflexivity|]. apply H. now apply target_tmasks.
Qed.
Lemma up_forever f : forall M b, (exists t, upmix_pass lfe_only M = Some t) -> next_upmix f lfe_only M b = None.
Proof.
  assert (H : forallb (fun M => match upmix_pass lfe_only M with Some _ => true | None => false end) tmasks = true) by (vm_compute; reflexivity).
  rewrite forallb_forall in H. induction f as [|f IH]; intros M b (t & E); [reflexivity|]. cbn [next_upmix]. rewrite E. apply IH.
  apply pass_in in E as [T _]. specialize (H (t_out t) (proj2 (in_tmasks t T))). destruct (upmix_pass lfe_only (t_out t)) as [x|]; [eauto|discriminate H].
Qed.
(** Chains from and to the class of LFE: without an end, or empty. *)
Lemma chain_to_lfe f i : cl i <> lfe_only -> cl i <> -1 -> chain f i lfe_only = None.
Proof.
  assert (H : forallb (fun c => (c =? lfe_only) || (c =? -1) || goes_down c) classes = true) by (vm_compute; reflexivity).
  rewrite forallb_forall in H. intros A B. specialize (H (cl i) (cl_class i)). apply Z.eqb_neq in A, B. rewrite A, B in H. cbn [orb] in H.
  rewrite (chain_same f i (cl i) lfe_only lfe_only); [|apply same_cl|apply same_refl]. now apply down_forever.
Qed.
Lemma chain_from_lfe f o : cl o <> lfe_only -> cl o <> -1 -> cl o <> M_1_1 -> chain f lfe_only o = None.
Proof.
  assert (H : forallb (fun c => (c =? lfe_only) || (c =? -1) || (c =? M_1_1) ||
      (negb (can_downmix tables lfe_only c) && match upmix_pass lfe_only c with Some _ => true | None => false end)) classes = true) by (vm_compute; reflexivity).
  rewrite forallb_forall in H. intros A B C. specialize (H (cl o) (cl_class o)). apply Z.eqb_neq in A, B, C. rewrite A, B, C in H. cbn [orb] in H.
  rewrite (chain_same f lfe_only lfe_only o (cl o)); [|apply same_refl|apply same_cl]. apply andb_true_iff in H as [H1 H2]. apply negb_true_iff in H1.
  destruct f as [|f]; [reflexivity|]. cbn [chain]. unfold pick. cbv zeta. rewrite H1. rewrite up_forever; [reflexivity|].
  destruct (upmix_pass lfe_only (cl o)); [eauto|discriminate H2].
Qed.
Lemma chain_det f f' i o l l' : chain f i o = Some l -> chain f' i o = Some l' -> l = l'.
Proof.
  intros A B. apply (chain_more f (Nat.max f f')) in A; [|lia]. apply (chain_more f' (Nat.max f f')) in B; [|lia]. congruence.
Qed.
Lemma chain_lfe_nil f i o l : chain f i o = Some l -> cl i = lfe_only \/ cl o = lfe_only -> l = [].
Proof.
  assert (C1 : chain 12 lfe_only lfe_only = Some []) by (vm_compute; reflexivity).
  assert (C2 : chain 12 (-1) lfe_only = Some []) by (vm_compute; reflexivity).
  assert (C3 : chain 12 lfe_only (-1) = Some []) by (vm_compute; reflexivity).
  assert (C4 : chain 12 lfe_only M_1_1 = Some []) by (vm_compute; reflexivity).
  intros E. rewrite (chain_cl f i o) in E. intros [H|H]; rewrite H in E.
  - destruct (Z.eq_dec (cl o) lfe_only) as [A|A]; [rewrite A in E; exact (chain_det _ _ _ _ _ _ E C1)|].
    destruct (Z.eq_dec (cl o) (-1)) as [B|B]; [rewrite B in E; exact (chain_det _ _ _ _ _ _ E C3)|].
    destruct (Z.eq_dec (cl o) M_1_1) as [C|C]; [rewrite C in E; exact (chain_det _ _ _ _ _ _ E C4)|].
    rewrite <- (chain_same f lfe_only lfe_only o (cl o)) in E; [|apply same_refl|apply same_cl]. rewrite chain_from_lfe in E by assumption. discriminate E.
  - destruct (Z.eq_dec (cl i) lfe_only) as [A|A]; [rewrite A in E; exact (chain_det _ _ _ _ _ _ E C1)|].
    destruct (Z.eq_dec (cl i) (-1)) as [B|B]; [rewrite B in E; exact (chain_det _ _ _ _ _ _ E C2)|].
    rewrite <- (chain_same f i (cl i) lfe_only lfe_only) in E; [|apply same_cl|apply same_refl]. rewrite chain_to_lfe in E by assumption. discriminate E.
Qed.

(** A channel on both sides is never dropped. *)
Lemma shared_pos f i o m c : chan_map f i o = Some m -> inr c -> has i c = true -> has o c = true -> (0 < get m c c)%Q.
Proof.
  unfold chan_map. intros E C HI HO. assert (FB : (0 < get fallback c c)%Q) by (rewrite get_fallback by auto; rewrite Z.eqb_refl; lra).
  destruct (i =? o); [assert (X : m = fallback) by congruence; rewrite X; exact FB|]. rewrite build_chain in E.
  destruct (chain f i o) as [l|] eqn:CH; [|discriminate E]. cbn [option_map] in E.
  destruct l as [|p l]; [cbn [run] in E; assert (X : m = fallback) by congruence; rewrite X; exact FB|].
  assert (A : cl i <> lfe_only) by (intros X; pose proof (chain_lfe_nil f i o _ CH (or_introl X)) as Y; discriminate Y).
  assert (B : cl o <> lfe_only) by (intros X; pose proof (chain_lfe_nil f i o _ CH (or_intror X)) as Y; discriminate Y).
  destruct (chain_ok i o A B) as (k & EK & SK). pose proof (chain_det _ _ _ _ _ _ CH EK) as Q. subst k.
  pose proof (run_pos i i None (p :: l) i c (chain_linked _ _ _ _ CH) C HI) as R. 
  match type of R with ?P -> _ => assert (K : P) end.
  { unfold steps_keep in SK. rewrite forallb_forall in *. intros q I. specialize (SK q I). apply andb_true_iff in SK as [S1 S2].
    assert (BIT : has (Z.land i o) c = true) by (unfold has in *; rewrite Z.land_spec, HI, HO; reflexivity).
    assert (C0 : 0 <= c) by (unfold inr in C; lia).
    rewrite subset_spec in S1, S2. rewrite (S1 c C0 BIT), (S2 c C0 BIT). reflexivity. }
  specialize (R K eq_refl eq_refl). destruct (run i None (p :: l)) as [x|]; [assert (X : m = x) by congruence; rewrite X; exact R|].
  destruct R as [R _]. discriminate R.
Qed.
