From Coq Require Import Permutation.
From Verif Require Import Base Base_lemmas Seqnum_model Seqnum_proof SortedQueue_model SortedQueue_spec.

Section P.
Context {A : Type}.
Variable cmp : A -> A -> Z.
Variable key : A -> Z.

Fixpoint desc (l : list A) : Prop :=
  match l with
  | [] => True
  | p :: t => (forall q, In q t -> key q < key p) /\ desc t
  end.

Definition agree (p q : A) : Prop := cmp p q = Z.sgn (key p - key q).

Lemma list_back_app l (x : A) : list_back (l ++ [x]) = Some x.
Proof. induction l as [|a t IH]; cbn; auto. destruct (t ++ [x]) eqn:E; auto. destruct t; discriminate. Qed.

Lemma list_back_cases (l : list A) :
  (l = [] /\ list_back l = None) \/
  (exists t x, l = t ++ [x] /\ list_back l = Some x /\ removelast l = t).
Proof.
  induction l as [|a t _] using rev_ind; [left; auto|right].
  exists t, a. rewrite list_back_app, removelast_last. auto.
Qed.

Lemma insert_spec p l :
  desc l -> (forall q, In q l -> agree p q) ->
  match sq_insert cmp p l with
  | None => exists q, In q l /\ key q = key p
  | Some l' => (forall q, In q l -> key q <> key p) /\ Permutation l' (p :: l) /\ desc l'
  end.
Proof.
  induction l as [|q t IH]; intros Hd Ha.
  - cbn. split; [intros ? []|]. split; auto. split; [intros ? []|exact I].
  - destruct Hd as [Hq Hd]. cbn [sq_insert].
    assert (Eq : cmp p q = Z.sgn (key p - key q)) by (apply Ha; left; auto).
    rewrite Eq. destruct (Z.ltb_spec (Z.sgn (key p - key q)) 0) as [L|L].
    + assert (key p < key q) by lia.
      specialize (IH Hd ltac:(intros; apply Ha; right; auto)).
      destruct (sq_insert cmp p t) as [l'|]; cbn [option_map].
      * destruct IH as (Hne & Hp & Hd'). split.
        { intros x [->|Hx]; [lia|auto]. }
        split. { rewrite Hp. apply perm_swap. }
        split; auto. intros x Hx. apply (Permutation_in _ Hp) in Hx. destruct Hx as [<-|Hx]; [lia|auto].
      * destruct IH as (x & Hx & E). exists x. split; auto. right; auto.
    + destruct (Z.eqb_spec (Z.sgn (key p - key q)) 0) as [E|E].
      * exists q. split; [left; auto|lia].
      * assert (key q < key p) by lia. split.
        { intros x [->|Hx]; [lia|]. specialize (Hq _ Hx); lia. }
        split; auto. split; [|split; auto].
        intros x [<-|Hx]; [lia|]. specialize (Hq _ Hx); lia.
Qed.

Lemma desc_app_last t x : desc (t ++ [x]) -> (forall q, In q t -> key x < key q) /\ desc t.
Proof.
  induction t as [|a t IH]; cbn. { split; [intros ? []|auto]. }
  intros [Ha Hd]. destruct (IH Hd) as [H1 H2]. split.
  - intros q [<-|Hq]; auto. apply Ha. apply in_or_app; right; left; auto.
  - split; auto. intros q Hq. apply Ha. apply in_or_app; auto.
Qed.

Lemma write_spec s p :
  desc (sq_list s) -> (forall q, In q (sq_list s) -> agree p q) ->
  jb_step key (sq_max s) (sq_list s) (SqWrite p) [] (sq_list (sq_write cmp s p)) /\
  desc (sq_list (sq_write cmp s p)) /\ sq_max (sq_write cmp s p) = sq_max s.
Proof.
  intros Hd Ha. unfold sq_write.
  destruct ((0 <? sq_max s)%nat && (length (sq_list s) =? sq_max s)%nat) eqn:F.
  - split; [|auto]. apply jb_full; lia.
  - pose proof (insert_spec p (sq_list s) Hd Ha) as HI.
    destruct (sq_insert cmp p (sq_list s)) as [l'|]; cbn [sq_list sq_max].
    + destruct HI as (Hne & Hp & Hd'). split; [|auto]. apply jb_store; auto. lia.
    + destruct HI as (q & Hq & E). split; [|auto]. eapply jb_dup; eauto. lia.
Qed.

Lemma read_spec s :
  desc (sq_list s) ->
  jb_step key (sq_max s) (sq_list s) SqRead [snd (sq_read s)] (sq_list (fst (sq_read s))) /\
  desc (sq_list (fst (sq_read s))) /\ sq_max (fst (sq_read s)) = sq_max s.
Proof.
  intros Hd. unfold sq_read. destruct (list_back_cases (sq_list s)) as [[E ->]|(t & x & E & -> & ER)].
  - cbn. rewrite E. split; [apply jb_empty|]. cbn; auto.
  - cbn [fst snd sq_list sq_max]. rewrite ER. rewrite E in Hd |- *.
    apply desc_app_last in Hd. destruct Hd as [H1 H2]. split; [|auto].
    apply jb_read; auto. symmetry. apply Permutation_cons_append.
Qed.

(** The window condition: every packet written is comparable with what is
    stored at that moment. *)
Definition writes_agree (s0 : sq A) (ops : list (sq_op A)) : Prop :=
  forall pre p post, ops = pre ++ SqWrite p :: post ->
  forall q, In q (sq_list (fst (sq_run cmp s0 pre))) -> agree p q.

Lemma sq_run_cons s o ops :
  sq_run cmp s (o :: ops) =
  (fst (sq_run cmp (fst (sq_step cmp s o)) ops),
   match snd (sq_step cmp s o) with
   | Some x => x :: snd (sq_run cmp (fst (sq_step cmp s o)) ops)
   | None => snd (sq_run cmp (fst (sq_step cmp s o)) ops) end).
Proof. cbn [sq_run]. destruct (sq_step cmp s o) as [s1 r]. cbn. destruct (sq_run cmp s1 ops). reflexivity. Qed.

Lemma run_spec ops : forall s,
  desc (sq_list s) -> writes_agree s ops ->
  jb_run key (sq_max s) (sq_list s) ops (snd (sq_run cmp s ops)) (sq_list (fst (sq_run cmp s ops)))
  /\ desc (sq_list (fst (sq_run cmp s ops))) /\ sq_max (fst (sq_run cmp s ops)) = sq_max s.
Proof.
  induction ops as [|o ops IH]; intros s Hd Hw.
  - cbn. split; [constructor|auto].
  - assert (Hstep : exists s1 r, sq_step cmp s o = (s1, r) /\
      jb_step key (sq_max s) (sq_list s) o (match r with Some x => [x] | None => [] end) (sq_list s1)
      /\ desc (sq_list s1) /\ sq_max s1 = sq_max s).
    { destruct o as [p|].
      - exists (sq_write cmp s p), None. split; [reflexivity|]. apply write_spec; auto.
        intros q Hq. apply (Hw [] p ops eq_refl q). exact Hq.
      - exists (fst (sq_read s)), (Some (snd (sq_read s))).
        split. { cbn. destruct (sq_read s); reflexivity. } apply read_spec; auto. }
    destruct Hstep as (s1 & r & E & HS & Hd1 & Hm).
    assert (Hw1 : writes_agree s1 ops).
    { intros pre p post Ep q Hq. apply (Hw (o :: pre) p post).
      - rewrite Ep. reflexivity.
      - rewrite sq_run_cons, E. exact Hq. }
    destruct (IH s1 Hd1 Hw1) as (HR & Hd2 & Hm2).
    rewrite sq_run_cons, E. cbn [fst snd].
    split; [|split; [auto|congruence]].
    replace (match r with Some x => x :: snd (sq_run cmp s1 ops) | None => snd (sq_run cmp s1 ops) end)
      with ((match r with Some x => [x] | None => [] end) ++ snd (sq_run cmp s1 ops)) by (destruct r; reflexivity).
    econstructor; eauto. rewrite <- Hm. exact HR.
Qed.

Lemma jb_run_conserve max s ops rs s' :
  jb_run key max s ops rs s' ->
  exists dropped, Permutation (s ++ jb_written ops) (jb_returned rs ++ s' ++ dropped).
Proof.
  induction 1 as [s|s o r s1 ops rs s2 Hs Hr (d & IH)].
  - exists []. cbn. rewrite !app_nil_r. auto.
  - destruct Hs; cbn [jb_written jb_returned app].
    + exists (p :: d). rewrite <- Permutation_middle, IH.
      rewrite !app_assoc. apply Permutation_middle.
    + exists (p :: d). rewrite <- Permutation_middle, IH.
      rewrite !app_assoc. apply Permutation_middle.
    + exists d. rewrite <- Permutation_middle, app_comm_cons. rewrite <- H1. exact IH.
    + exists d. exact IH.
    + exists d. rewrite H. cbn. constructor. exact IH.
Qed.

Lemma write_cap s p :
  ((0 < sq_max s)%nat -> (length (sq_list s) <= sq_max s)%nat) ->
  ((0 < sq_max (sq_write cmp s p))%nat -> (length (sq_list (sq_write cmp s p)) <= sq_max (sq_write cmp s p))%nat).
Proof.
  intros H. unfold sq_write.
  destruct ((0 <? sq_max s)%nat && (length (sq_list s) =? sq_max s)%nat) eqn:F; auto.
  assert (HL : forall l l', sq_insert cmp p l = Some l' -> length l' = S (length l)).
  { induction l as [|q t IH]; cbn; intros l' E. { inversion E; reflexivity. }
    destruct (cmp p q <? 0).
    - destruct (sq_insert cmp p t) eqn:Et; cbn in E; inversion E; subst. cbn. rewrite (IH l); auto.
    - destruct (cmp p q =? 0); inversion E; reflexivity. }
  destruct (sq_insert cmp p (sq_list s)) eqn:E; cbn [sq_list sq_max]; intros; auto.
  rewrite (HL _ _ E). specialize (H ltac:(auto)). lia.
Qed.

Lemma run_cap ops : forall s,
  ((0 < sq_max s)%nat -> (length (sq_list s) <= sq_max s)%nat) ->
  sq_max (fst (sq_run cmp s ops)) = sq_max s /\
  ((0 < sq_max s)%nat -> (length (sq_list (fst (sq_run cmp s ops))) <= sq_max s)%nat).
Proof.
  induction ops as [|o ops IH]; intros s H; [cbn; auto|].
  rewrite sq_run_cons. cbn [fst].
  assert (sq_max (fst (sq_step cmp s o)) = sq_max s) as Em.
  { destruct o; cbn; [unfold sq_write|unfold sq_read].
    - destruct (_ && _); auto. destruct (sq_insert _ _ _); auto.
    - destruct (list_back _); auto. }
  rewrite <- Em. apply IH.
  destruct o; cbn.
  - apply write_cap; auto.
  - unfold sq_read. destruct (list_back (sq_list s)) eqn:E; cbn; auto.
    intros Hm. specialize (H Hm). destruct (list_back_cases (sq_list s)) as [[E2 _]|(t & x & E2 & _ & ER)].
    + rewrite E2 in *. cbn in *. lia.
    + rewrite ER. rewrite E2, app_length in H. lia.
Qed.

(** latest *)
Definition lat_ok (s : sq A) (ws : list A) : Prop :=
  match sq_latest s with
  | None => ws = []
  | Some m => In m ws /\ forall q, In q ws -> key q <= key m
  end.

Definition latest_agree (s0 : sq A) (ops : list (sq_op A)) : Prop :=
  forall pre p post, ops = pre ++ SqWrite p :: post ->
  forall m, sq_latest (fst (sq_run cmp s0 pre)) = Some m -> agree m p.

Lemma latest_run ops : forall s ws,
  sq_max s = O -> lat_ok s ws -> latest_agree s ops ->
  lat_ok (fst (sq_run cmp s ops)) (ws ++ jb_written ops).
Proof.
  induction ops as [|o ops IH]; intros s ws Hm Hl Ha.
  - cbn. rewrite app_nil_r. auto.
  - rewrite sq_run_cons. cbn [fst].
    assert (Ha1 : latest_agree (fst (sq_step cmp s o)) ops).
    { intros pre p post Ep m Hq. apply (Ha (o :: pre) p post).
      - rewrite Ep. reflexivity.
      - rewrite sq_run_cons. exact Hq. }
    destruct o as [p|]; cbn [jb_written sq_step fst] in *.
    + replace (ws ++ p :: jb_written ops) with ((ws ++ [p]) ++ jb_written ops) by (rewrite <- app_assoc; reflexivity).
      assert (HW : sq_max (sq_write cmp s p) = O /\ lat_ok (sq_write cmp s p) (ws ++ [p])).
      { unfold sq_write. rewrite Hm. cbn [Nat.ltb Nat.leb andb].
        assert (HL : lat_ok (mkSq (sq_list s) (match sq_latest s with
           | None => Some p | Some q => if cmp q p <=? 0 then Some p else Some q end) 0) (ws ++ [p])).
        { unfold lat_ok in *. cbn [sq_latest]. destruct (sq_latest s) as [m|] eqn:El.
          - destruct Hl as [Hi Hx].
            assert (Em : agree m p) by (apply (Ha [] p ops eq_refl m); exact El).
            red in Em. rewrite Em. destruct (Z.leb_spec (Z.sgn (key m - key p)) 0).
            + split; [apply in_or_app; right; left; auto|].
              intros q Hq. apply in_app_or in Hq as [Hq|[<-|[]]]; [|lia]. specialize (Hx _ Hq). lia.
            + split; [apply in_or_app; left; auto|].
              intros q Hq. apply in_app_or in Hq as [Hq|[<-|[]]]; [auto|lia].
          - subst ws. cbn. split; [auto|]. intros q [<-|[]]; lia. }
        destruct (sq_insert cmp p (sq_list s)); split; auto. }
      destruct HW as [HW1 HW2]. apply IH; auto.
    + assert (E : sq_latest (fst (sq_read s)) = sq_latest s /\ sq_max (fst (sq_read s)) = sq_max s).
      { unfold sq_read. destruct (list_back _); auto. }
      destruct E as [E1 E2].
      destruct (sq_read s) as [s1 r] eqn:Er. cbn [fst] in *. apply IH; auto; [congruence|].
      unfold lat_ok in *. rewrite E1. auto.
Qed.

Lemma run_reads_only n : forall s,
  desc (sq_list s) ->
  increasing key (jb_returned (snd (sq_run cmp s (repeat SqRead n)))) /\
  (forall q, In q (jb_returned (snd (sq_run cmp s (repeat SqRead n)))) -> In q (sq_list s)).
Proof.
  induction n as [|n IH]; intros s Hd; [cbn; split; [exact I|intros ? []]|].
  cbn [repeat]. rewrite sq_run_cons. cbn [sq_step].
  unfold sq_read at 1 3. 
  destruct (list_back_cases (sq_list s)) as [[E EB]|(t & x & E & EB & ER)]; cbn [sq_step].
  - assert (ES : sq_read s = (s, None)) by (unfold sq_read; rewrite EB; reflexivity).
    rewrite ES. rewrite EB. cbn. apply IH; auto.
  - assert (ES : sq_read s = (mkSq t (sq_latest s) (sq_max s), Some x)) by (unfold sq_read; rewrite EB, ER; reflexivity).
    rewrite ES. rewrite EB. cbn [fst snd jb_returned].
    rewrite E in Hd. apply desc_app_last in Hd as [H1 H2].
    destruct (IH (mkSq t (sq_latest s) (sq_max s)) H2) as [I1 I2]. cbn [sq_list] in I2.
    rewrite ER. split.
    + split; auto.
    + intros q [<-|Hq]; rewrite E; apply in_or_app; [right; left; auto|left; auto].
Qed.
End P.
