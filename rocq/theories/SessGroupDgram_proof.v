From Verif Require Import Base RtcpTrav_model RtcpBuild_model RtcpBuild_spec SessGroup_model SessGroupDgram_spec.
From Verif Require Reporter_model.
Local Open Scope Z_scope.

Lemma cstr_text t u : Forall (fun c => 1 <= c < 256) t -> cstr (t ++ 0 :: u) = t.
Proof. induction 1 as [|c t H _ IH]; cbn [app cstr]; [reflexivity|]. destruct (Z.eqb_spec c 0); [lia|]. rewrite IH. reflexivity. Qed.
Lemma cstr_id t : Forall (fun c => 1 <= c < 256) t -> cstr t = t.
Proof. induction 1 as [|c t H _ IH]; cbn [cstr]; [reflexivity|]. destruct (Z.eqb_spec c 0); [lia|]. rewrite IH. reflexivity. Qed.
Definition num (a : Z) (t : list Z) : Z := fold_left (fun a b => a * 256 + b) t a.
Lemma num_pos t : forall a, 1 <= a -> Forall (fun c => 1 <= c < 256) t -> 1 <= num a t.
Proof. induction t as [|c t IH]; intros a A H; cbn; [exact A|]. inversion H; subst. apply IH; auto. lia. Qed.
Lemma num_snoc a t c : num a (t ++ [c]) = num a t * 256 + c.
Proof. unfold num. rewrite fold_left_app. reflexivity. Qed.
Lemma num_inj t : forall t', Forall (fun c => 1 <= c < 256) t -> Forall (fun c => 1 <= c < 256) t' -> num 1 t = num 1 t' -> t = t'.
Proof.
  induction t as [|c t IH] using rev_ind; intros t' H H' E.
  - destruct t' as [|c' t'] using rev_ind; [reflexivity|]. rewrite num_snoc in E. cbn in E. apply Forall_app in H'. destruct H' as [H1 H2]. inversion H2; subst. pose proof (num_pos t' 1 ltac:(lia) H1). lia.
  - apply Forall_app in H. destruct H as [H1 H2]. inversion H2; subst. rewrite num_snoc in E. destruct t' as [|c' t'] using rev_ind.
    + cbn in E. pose proof (num_pos t 1 ltac:(lia) H1). lia.
    + clear IHt'. rewrite num_snoc in E. apply Forall_app in H'. destruct H' as [G3 G4]. inversion G4; subst. assert (c = c' /\ num 1 t = num 1 t') as [-> E'] by lia. rewrite (IH t' H1 G3 E'). reflexivity.
Qed.
Lemma name_num t : Forall (fun c => 1 <= c < 256) t -> name_code t = match t with [] => 0 | _ => num 1 t end.
Proof. intros H. unfold name_code. rewrite cstr_id by exact H. destruct t; reflexivity. Qed.
Lemma name_inj t t' : Forall (fun c => 1 <= c < 256) t -> Forall (fun c => 1 <= c < 256) t' -> name_code t = name_code t' -> t = t'.
Proof.
  intros H H' E. rewrite !name_num in E by assumption. destruct t as [|c t], t' as [|c' t'].
  - reflexivity.
  - pose proof (num_pos (c' :: t') 1 ltac:(lia) H'). lia.
  - pose proof (num_pos (c :: t) 1 ltac:(lia) H). lia.
  - apply num_inj; auto.
Qed.
Lemma desc_items s items l : Forall item_ok items -> (forall i, In i items -> fst i = 1 -> snd i <> []) ->
  desc_ops s (map (fun i => SItemV (fst i) (snd i)) items ++ l) = map (fun i => Reporter_model.RCname true s (name_code (snd i))) (filter (fun i => fst i =? 1) items) ++ desc_ops s l.
Proof.
  induction items as [|[ty t] items IH]; intros F N; cbn [map app]; [reflexivity|]. inversion F as [|? ? [F1 [_ F2]] F3]; subst. cbn [fst snd] in *.
  cbn [desc_ops filter fst snd]. destruct (Z.eqb_spec ty 1) as [->|Ne]; cbn [negb].
  - rewrite cstr_id by exact F2. specialize (N (1, t) (or_introl eq_refl) eq_refl) as N'. cbn [snd] in N'. destruct t as [|c t]; [contradiction|]. cbn [map app]. f_equal. apply IH; auto. intros i Hi. apply N. right. exact Hi.
  - apply IH; auto. intros i Hi. apply N. right. exact Hi.
Qed.
Lemma desc_chunks cs : Forall chunk_ok cs -> forall s, desc_ops s (concat (map see_chunk cs)) = names name_code (PSdes cs).
Proof.
  induction 1 as [|[s0 items] cs (U & F & n & E & N) _ IH]; intros s; [reflexivity|]. cbn [map concat names flat_map]. cbn [fst snd] in *. unfold see_chunk at 1. cbn [fst snd app desc_ops].
  rewrite desc_items; [f_equal; apply IH|exact F|]. intros i Hi Ei. assert (Q : In i (filter (fun i => fst i =? 1) items)) by (apply filter_In; rewrite Ei; auto). rewrite E in Q. destruct Q as [<-|[]]. exact N.
Qed.
Lemma fm_map {A B C} (f : A -> B) (g : B -> list C) (h : A -> list C) l : (forall a, In a l -> g (f a) = h a) -> flat_map g (map f l) = flat_map h l.
Proof. induction l as [|a l IH]; intros H; cbn; [reflexivity|]. rewrite (H a (or_introl eq_refl)), IH; auto. intros b Hb. apply H. right. exact Hb. Qed.
Lemma see_names p : pk_ok p -> sdes_ops (see p) = names name_code p.
Proof. destruct p; cbn [see sdes_ops names]; try reflexivity. intros [F _]. cbn [fst snd]. apply desc_chunks. exact F. Qed.
Lemma see_facts ts p : report_ops ts (see p) = facts ts p.
Proof.
  destruct p; cbn [see report_ops facts fst snd]; rewrite ?map_map; try reflexivity. apply fm_map. intros b _. destruct b; cbn [see_xin xr_ops]; rewrite ?map_map; reflexivity.
Qed.
Lemma see_byes p : bye_ops (see p) = goodbyes p.
Proof.
  destruct p; cbn [see bye_ops goodbyes fst snd]; try reflexivity. rewrite flat_map_app. replace (flat_map _ (match reason with Some t => [BReasonV t] | None => [] end)) with (@nil Reporter_model.rop) by (destruct reason; reflexivity). rewrite app_nil_r.
  induction ssrcs as [|s l IH]; [reflexivity|]. cbn [map flat_map app]. rewrite IH. reflexivity.
Qed.
Lemma see_all ts ps : Forall pk_ok ps -> flat_map sdes_ops (map see ps) ++ flat_map (report_ops ts) (map see ps) ++ flat_map bye_ops (map see ps) = told name_code ts ps.
Proof.
  intros F. rewrite Forall_forall in F. unfold told. rewrite (fm_map see sdes_ops (names name_code)), (fm_map see (report_ops ts) (facts ts)), (fm_map see bye_ops goodbyes); auto using see_facts, see_byes, see_names.
Qed.
Lemma told_mem code ts ps : with_mem [] (told code ts ps) = told code ts ps.
Proof.
  assert (A : forall l l', with_mem [] (l ++ l') = with_mem [] l ++ with_mem [] l') by (induction l as [|[] l IH]; intros; cbn; rewrite ?IH; reflexivity).
  assert (Bm : forall {A} (f : A -> Reporter_model.rop) l, (forall a, with_mem [] [f a] = [f a]) -> with_mem [] (map f l) = map f l).
  { intros T f l H. induction l as [|a l IH]; [reflexivity|]. cbn [map]. change (f a :: map f l) with ([f a] ++ map f l). rewrite A, H, IH. reflexivity. }
  assert (Bf : forall {A} (f : A -> list Reporter_model.rop) l, (forall a, with_mem [] (f a) = f a) -> with_mem [] (flat_map f l) = flat_map f l).
  { intros T f l H. induction l as [|a l IH]; [reflexivity|]. cbn [flat_map]. rewrite A, H, IH. reflexivity. }
  unfold told. rewrite !A. f_equal; [|f_equal]; apply Bf; intros p; destruct p; cbn [names facts goodbyes]; try reflexivity.
  - apply Bf. intros c. apply Bm. reflexivity.
  - cbn [with_mem hd tl]. f_equal. apply Bm. reflexivity.
  - apply Bm. reflexivity.
  - apply Bf. intros []; try reflexivity. apply Bm. reflexivity.
  - apply Bm. reflexivity.
Qed.
