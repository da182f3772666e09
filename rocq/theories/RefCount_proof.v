From Coq Require Import Lia.
From Verif Require Import Base Base_lemmas RefCount_model RefCount_spec.

Fixpoint sumf {A} (f : A -> Z) (l : list A) : Z := match l with [] => 0 | x :: l' => f x + sumf f l' end.
Lemma sumf_app : forall {A} (f : A -> Z) l1 l2, sumf f (l1 ++ l2) = sumf f l1 + sumf f l2.
Proof. induction l1; cbn; intros; [lia|]. rewrite IHl1. lia. Qed.
Lemma sumf_upd : forall {A} (f : A -> Z) l i x y, nth_error l i = Some x -> sumf f (upd l i y) = sumf f l - f x + f y.
Proof.
  induction l as [|a l IH]; intros [|i] x y H; cbn in *; try discriminate.
  - inversion H; subst. lia.
  - rewrite (IH _ _ y H). lia.
Qed.
Lemma sumf_nonneg : forall {A} (f : A -> Z) l, (forall x, 0 <= f x) -> 0 <= sumf f l.
Proof. induction l; cbn; intros; [lia|]. specialize (IHl H). specialize (H a). lia. Qed.
Lemma sumf_ge : forall {A} (f : A -> Z) l i x, (forall x, 0 <= f x) -> nth_error l i = Some x -> f x <= sumf f l.
Proof.
  induction l as [|a l IH]; intros [|i] x P H; cbn in *; try discriminate.
  - inversion H; subst. pose proof (sumf_nonneg f l P). lia.
  - pose proof (IH _ _ P H). specialize (P a). lia.
Qed.
Lemma sumf_pos : forall {A} (f : A -> Z) l, (forall x, 0 <= f x) -> 0 < sumf f l -> exists i x, nth_error l i = Some x /\ 0 < f x.
Proof.
  induction l as [|a l IH]; cbn; intros P H; [lia|].
  destruct (Z_lt_dec 0 (f a)); [exists O, a; auto|].
  destruct IH as (i & x & Hi & Hx); auto; [specialize (P a); lia|]. exists (S i), x; auto.
Qed.
Lemma sumf_zero : forall {A} (f : A -> Z) l, Forall (fun x => f x = 0) l -> sumf f l = 0.
Proof. induction 1; cbn; lia. Qed.

Lemma sumf_nil : forall {A} (f : A -> Z), sumf f [] = 0. Proof. reflexivity. Qed.
Lemma sumf_cons : forall {A} (f : A -> Z) x l, sumf f (x :: l) = f x + sumf f l. Proof. reflexivity. Qed.

Definition ind (b : bool) : Z := if b then 1 else 0.
Definition w (o : nat) (c : cell) : Z := ind (negb (c_wr c) && opt_eqb (c_ptr c) (Some o)).
Definition fr (o : nat) (f : frame) : Z := match f with FRel x => ind (x =? o)%nat | _ => 0 end.
Definition fd (o : nat) (f : frame) : Z := match f with FMem x | FEnd x => ind (x =? o)%nat | _ => 0 end.
Definition wo (o : nat) (ob : robj) : Z := w o (o_mem ob).
Definition tr (o : nat) (th : rthread) : Z := sumf (fr o) (th_stk th).
Definition td (o : nat) (th : rthread) : Z := sumf (fd o) (th_stk th).
Definition R (s : rc) (o : nat) : Z := sumf (w o) (rc_loc s) + sumf (wo o) (rc_obj s) + sumf (tr o) (rc_th s).
Definition Dn (s : rc) (o : nat) : Z := sumf (td o) (rc_th s).

Lemma ind_nonneg : forall b, 0 <= ind b. Proof. destruct b; cbn; lia. Qed.
Lemma w_nonneg : forall o c, 0 <= w o c. Proof. intros; apply ind_nonneg. Qed.
Lemma wo_nonneg : forall o c, 0 <= wo o c. Proof. intros; apply ind_nonneg. Qed.
Lemma fr_nonneg : forall o f, 0 <= fr o f. Proof. destruct f; cbn; try lia; apply ind_nonneg. Qed.
Lemma fd_nonneg : forall o f, 0 <= fd o f. Proof. destruct f; cbn; try lia; apply ind_nonneg. Qed.
Lemma tr_nonneg : forall o th, 0 <= tr o th. Proof. intros; apply sumf_nonneg, fr_nonneg. Qed.
Lemma td_nonneg : forall o th, 0 <= td o th. Proof. intros; apply sumf_nonneg, fd_nonneg. Qed.
Lemma R_nonneg : forall s o, 0 <= R s o.
Proof.
  intros; unfold R. pose proof (sumf_nonneg (w o) (rc_loc s) (w_nonneg o)). pose proof (sumf_nonneg (wo o) (rc_obj s) (wo_nonneg o)).
  pose proof (sumf_nonneg (tr o) (rc_th s) (tr_nonneg o)). lia.
Qed.

Lemma opt_eqb_spec : forall a b, opt_eqb a b = true <-> a = b.
Proof.
  intros [x|] [y|]; cbn; split; intros; try discriminate; auto.
  - f_equal. now apply Nat.eqb_eq.
  - apply Nat.eqb_eq. congruence.
Qed.

Lemma nth_upd : forall {A} (l : list A) i j x, nth_error (upd l i x) j = if Nat.eqb i j then match nth_error l j with Some _ => Some x | None => None end else nth_error l j.
Proof.
  intros A l i j x. destruct (Nat.eqb_spec i j) as [->|N].
  - destruct (nth_error l j) eqn:E.
    + apply nth_error_upd_eq. apply nth_error_Some. congruence.
    + apply nth_error_None in E. apply nth_error_None. now rewrite length_upd.
  - now apply nth_error_upd_neq.
Qed.

Lemma get_R : forall s p o, get_cell s p = Some (mkCell (Some o) false) -> 1 <= R s o.
Proof.
  intros s p o H. unfold R.
  pose proof (sumf_nonneg (w o) (rc_loc s) (w_nonneg o)). pose proof (sumf_nonneg (wo o) (rc_obj s) (wo_nonneg o)).
  pose proof (sumf_nonneg (tr o) (rc_th s) (tr_nonneg o)).
  destruct p as [i|j]; cbn in H.
  - pose proof (sumf_ge (w o) _ _ _ (w_nonneg o) H) as G. unfold w in G at 1. cbn in G. rewrite Nat.eqb_refl in G. cbn in G. lia.
  - destruct (nth_error (rc_obj s) j) as [ob|] eqn:E; [|discriminate]. inversion H as [H'].
    pose proof (sumf_ge (wo o) _ _ _ (wo_nonneg o) E) as G. unfold wo in G at 1. unfold w in G at 1. rewrite H' in G. cbn in G. rewrite Nat.eqb_refl in G. cbn in G. lia.
Qed.
Lemma stk_R : forall s t th o, nth_error (rc_th s) t = Some th -> In (FRel o) (th_stk th) -> 1 <= R s o.
Proof.
  intros s t th o H F. unfold R.
  pose proof (sumf_nonneg (w o) (rc_loc s) (w_nonneg o)). pose proof (sumf_nonneg (wo o) (rc_obj s) (wo_nonneg o)).
  pose proof (sumf_ge (tr o) _ _ _ (tr_nonneg o) H) as G.
  apply In_nth_error in F. destruct F as [i F].
  pose proof (sumf_ge (fr o) _ _ _ (fr_nonneg o) F) as G'. unfold tr in G at 1. cbn in G'. rewrite Nat.eqb_refl in G'. cbn in G'. lia.
Qed.
Lemma stk_D : forall s t th o f, nth_error (rc_th s) t = Some th -> In f (th_stk th) -> (f = FMem o \/ f = FEnd o) -> 1 <= Dn s o.
Proof.
  intros s t th o f H F E. unfold Dn.
  pose proof (sumf_ge (td o) _ _ _ (td_nonneg o) H) as G.
  apply In_nth_error in F. destruct F as [i F].
  pose proof (sumf_ge (fd o) _ _ _ (fd_nonneg o) F) as G'. unfold td in G at 1.
  destruct E; subst; cbn in G'; rewrite Nat.eqb_refl in G'; cbn in G'; lia.
Qed.

(** How the sums change *)
Lemma R_set_cell : forall s p c c' o, get_cell s p = Some c -> R (set_cell s p c') o = R s o - w o c + w o c'.
Proof.
  intros s p c c' o H. unfold R. destruct p as [i|j]; cbn in *.
  - rewrite (sumf_upd _ _ _ _ c' H). lia.
  - destruct (nth_error (rc_obj s) j) as [ob|] eqn:E; [|discriminate]. inversion H; subst. cbn.
    rewrite (sumf_upd _ _ _ _ _ E). unfold wo at 2 3. cbn. lia.
Qed.
Lemma R_set_obj : forall s j ob ob' o, nth_error (rc_obj s) j = Some ob -> R (set_obj s j ob') o = R s o - w o (o_mem ob) + w o (o_mem ob').
Proof. intros s j ob ob' o H. unfold R; cbn. rewrite (sumf_upd _ _ _ _ ob' H). unfold wo at 2 3. lia. Qed.
Lemma R_set_th : forall s t th th' o, nth_error (rc_th s) t = Some th -> R (set_th s t th') o = R s o - tr o th + tr o th'.
Proof. intros s t th th' o H. unfold R; cbn. rewrite (sumf_upd _ _ _ _ th' H). lia. Qed.
Lemma D_set_th : forall s t th th' o, nth_error (rc_th s) t = Some th -> Dn (set_th s t th') o = Dn s o - td o th + td o th'.
Proof. intros s t th th' o H. unfold Dn; cbn. rewrite (sumf_upd _ _ _ _ th' H). lia. Qed.

Lemma th_set_cell : forall s p c, rc_th (set_cell s p c) = rc_th s.
Proof. intros s [i|j] c; cbn; auto. destruct (nth_error (rc_obj s) j); auto. Qed.
Lemma len_set_cell : forall s p c, length (rc_obj (set_cell s p c)) = length (rc_obj s).
Proof. intros s [i|j] c; cbn; auto. destruct (nth_error (rc_obj s) j); auto. cbn. apply length_upd. Qed.
Lemma get_set_cell : forall s p c c' q, get_cell s p = Some c ->
  get_cell (set_cell s p c') q = if place_eqb p q then Some c' else get_cell s q.
Proof.
  intros s [i|j] c c' q H; cbn in H.
  - destruct q as [k|k]; cbn; auto. rewrite nth_upd. destruct (Nat.eqb_spec i k) as [<-|]; auto. now rewrite H.
  - destruct (nth_error (rc_obj s) j) as [ob|] eqn:E; [|discriminate]. cbn. rewrite E.
    destruct q as [k|k]; cbn; auto. rewrite nth_upd. destruct (Nat.eqb_spec j k) as [<-|]; auto. now rewrite E.
Qed.
(** Status and counter of an object after a cell update *)
Lemma obj_set_cell : forall s p c o ob', nth_error (rc_obj (set_cell s p c)) o = Some ob' ->
  exists ob, nth_error (rc_obj s) o = Some ob /\ o_st ob' = o_st ob /\ o_cnt ob' = o_cnt ob /\ (p <> PMem o -> ob' = ob).
Proof.
  intros s [i|j] c o ob' H; cbn in H; [exists ob'; repeat split; auto|].
  destruct (nth_error (rc_obj s) j) as [ob|] eqn:E; [|exists ob'; auto]. cbn in H. rewrite nth_upd in H.
  destruct (Nat.eqb_spec j o) as [<-|N]; [|exists ob'; auto].
  rewrite E in H. inversion H; subst. exists ob. repeat split; auto. congruence.
Qed.
Lemma place_eqb_spec : forall a b, place_eqb a b = true <-> a = b.
Proof. intros [i|i] [j|j]; cbn; split; intros; try discriminate; try (f_equal; now apply Nat.eqb_eq); apply Nat.eqb_eq; congruence. Qed.
Lemma place_refl : forall a, place_eqb a a = true. Proof. intros; now apply place_eqb_spec. Qed.
Lemma place_neq : forall a b, a <> b -> place_eqb a b = false.
Proof. intros a b H. destruct (place_eqb a b) eqn:E; auto. apply place_eqb_spec in E. congruence. Qed.

Definition new_of (ph : phase) : option (nat * bool) :=
  match ph with Idle | PSet _ None _ _ => None | PSet _ (Some x) _ f => Some (x, f) | PAcq _ x _ f => Some (x, f) end.
Definition fresh_in (th : rthread) (x : nat) : Prop := new_of (th_ph th) = Some (x, true).

(** The cells an operation in progress relies on *)
Definition via (s : rc) (rds : list place) (o : nat) : Prop := exists q, In (PLoc q) rds /\ get_cell s (PLoc q) = Some (mkCell (Some o) false).
Record op_ok (s : rc) (ph : phase) : Prop := {
  k_dest : forall p, dest_of ph = Some p -> exists v, get_cell s p = Some (mkCell v true) /\ (match ph with PAcq _ x _ _ => v = Some x | _ => True end);
  k_dmem : forall o, dest_of ph = Some (PMem o) -> via s (reads_of ph) o;
  k_reads : forall r, In r (reads_of ph) -> exists v, get_cell s r = Some (mkCell v false);
  k_rmem : forall o, In (PMem o) (reads_of ph) -> via s (reads_of ph) o;
  k_new : forall x, new_of ph = Some (x, false) -> exists r, In r (reads_of ph) /\ get_cell s r = Some (mkCell (Some x) false) }.

(** [ex]: an object just created and not yet being assigned *)
Record invx (ex : option nat) (s : rc) : Prop := {
  v_obj : forall o ob, nth_error (rc_obj s) o = Some ob ->
    match o_st ob with
    | Alive => o_cnt ob = R s o /\ o_cnt ob <= max_counter
    | Dying => o_cnt ob = 0 /\ R s o = 0
    | Freed => R s o = 0
    end;
  v_dying : forall o ob, nth_error (rc_obj s) o = Some ob -> Dn s o = match o_st ob with Dying => 1 | _ => 0 end;
  v_len : forall o, (length (rc_obj s) <= o)%nat -> R s o = 0 /\ Dn s o = 0;
  v_op : forall t th, nth_error (rc_th s) t = Some th -> op_ok s (th_ph th);
  v_excl : forall t u th th' p, nth_error (rc_th s) t = Some th -> nth_error (rc_th s) u = Some th' ->
    dest_of (th_ph th) = Some p -> dest_of (th_ph th') = Some p -> t = u;
  v_fresh : forall t th x, nth_error (rc_th s) t = Some th -> fresh_in th x ->
    R s x = 0 /\ (exists ob, nth_error (rc_obj s) x = Some ob /\ o_st ob = Alive) /\
    (forall u th', nth_error (rc_th s) u = Some th' -> fresh_in th' x -> t = u);
  v_wr : forall p v, get_cell s p = Some (mkCell v true) -> exists t th, nth_error (rc_th s) t = Some th /\ dest_of (th_ph th) = Some p;
  v_live : forall o ob, nth_error (rc_obj s) o = Some ob -> o_st ob = Alive ->
    1 <= R s o \/ (exists t th, nth_error (rc_th s) t = Some th /\ fresh_in th o) \/ ex = Some o }.
Notation inv := (invx None).

Lemma repeat_nth : forall {A} (x : A) n i y, nth_error (repeat x n) i = Some y -> y = x.
Proof. intros A x n i y H. apply nth_error_In in H. now apply repeat_spec in H. Qed.

Lemma inv0 : forall T L, inv (rc_new T L).
Proof.
  intros T L.
  assert (R0 : forall o, R (rc_new T L) o = 0).
  { intros o. unfold R; cbn. rewrite !sumf_zero; auto; apply Forall_forall; intros x Hx; apply repeat_spec in Hx; now subst. }
  assert (D0 : forall o, Dn (rc_new T L) o = 0).
  { intros o. unfold Dn; cbn. rewrite !sumf_zero; auto; apply Forall_forall; intros x Hx; apply repeat_spec in Hx; now subst. }
  constructor; cbn [rc_new rc_obj rc_th].
  - intros [|] ob H; discriminate.
  - intros [|] ob H; discriminate.
  - auto.
  - intros t th H. apply repeat_nth in H. subst. constructor; cbn; try discriminate; tauto.
  - intros t u th th' p H. apply repeat_nth in H. subst. discriminate.
  - intros t th x H F. apply repeat_nth in H. subst. discriminate.
  - intros [i|[|o]] v H; cbn in H; try discriminate. apply repeat_nth in H. discriminate.
  - intros [|] ob H; discriminate.
Qed.

(** Facts used by all steps *)
Lemma held_alive : forall ex s p x, invx ex s -> get_cell s p = Some (mkCell (Some x) false) ->
  exists ob, nth_error (rc_obj s) x = Some ob /\ o_st ob = Alive.
Proof.
  intros ex s p x I H. pose proof (get_R _ _ _ H) as G.
  destruct (nth_error (rc_obj s) x) as [ob|] eqn:E.
  - exists ob. split; auto. pose proof (v_obj _ _ I _ _ E) as V. destruct (o_st ob); auto; lia.
  - apply nth_error_None in E. pose proof (v_len _ _ I _ E). lia.
Qed.
Lemma pos_alive : forall ex s x, invx ex s -> 1 <= R s x -> exists ob, nth_error (rc_obj s) x = Some ob /\ o_st ob = Alive.
Proof.
  intros ex s x I G. destruct (nth_error (rc_obj s) x) as [ob|] eqn:E.
  - exists ob. split; auto. pose proof (v_obj _ _ I _ _ E) as V. destruct (o_st ob); auto; lia.
  - apply nth_error_None in E. pose proof (v_len _ _ I _ E). lia.
Qed.
Lemma pos_dying : forall ex s x, invx ex s -> 1 <= Dn s x -> exists ob, nth_error (rc_obj s) x = Some ob /\ o_st ob = Dying.
Proof.
  intros ex s x I G. destruct (nth_error (rc_obj s) x) as [ob|] eqn:E.
  - exists ob. split; auto. pose proof (v_dying _ _ I _ _ E) as V. destruct (o_st ob); auto; lia.
  - apply nth_error_None in E. pose proof (v_len _ _ I _ E). lia.
Qed.

(** An operation's requirements survive changes to other cells. *)
Lemma op_ok_frame : forall s s' ph, op_ok s ph ->
  (forall p, (dest_of ph = Some p \/ In p (reads_of ph)) -> get_cell s' p = get_cell s p) -> op_ok s' ph.
Proof.
  intros s s' ph [K1 K2 K3 K4 K5] H. constructor.
  - intros p E. destruct (K1 p E) as (v & G & X). exists v. rewrite H; auto.
  - intros o E. destruct (K2 o E) as (q & G & X). exists q. rewrite H; auto.
  - intros r E. destruct (K3 r E) as (v & G). exists v. rewrite H; auto.
  - intros o E. destruct (K4 o E) as (q & G & X). exists q. rewrite H; auto.
  - intros x E. destruct (K5 x E) as (r & G & X). exists r. rewrite H; auto.
Qed.

Lemma op_frame_idle : forall s, op_ok s Idle.
Proof. constructor; cbn; try discriminate; tauto. Qed.

Ltac thd H t u := rewrite nth_upd in H; destruct (Nat.eqb_spec t u) as [<-|?]; [|].

Lemma begin_inv : forall ex s t p old new rds fresh,
  invx ex s -> nth_error (rc_th s) t = Some (mkTh [] Idle) ->
  get_cell s p = Some (mkCell old false) ->
  (forall u th, nth_error (rc_th s) u = Some th -> dest_of (th_ph th) <> Some p /\ ~ In p (reads_of (th_ph th))) ->
  ~ In p rds ->
  (forall o, p = PMem o -> via s rds o) ->
  (forall r, In r rds -> exists v, get_cell s r = Some (mkCell v false)) ->
  (forall o, In (PMem o) rds -> via s rds o) ->
  (forall x, fresh = false -> new = Some x -> exists r, In r rds /\ get_cell s r = Some (mkCell (Some x) false)) ->
  (fresh = false /\ ex = None \/ exists x, new = Some x /\ ex = Some x /\ fresh = true /\ R s x = 0 /\ 
     (exists ob, nth_error (rc_obj s) x = Some ob /\ o_st ob = Alive) /\
     (forall u th', nth_error (rc_th s) u = Some th' -> ~ fresh_in th' x)) ->
  inv (set_th (set_cell s p (mkCell old true)) t (mkTh (match old with Some o => [FRel o] | None => [] end) (PSet p new rds fresh))).
Proof.
  intros ex s t p old new rds fresh I Ht Hp Hu Hpr Hm Hr Hrm Hn Hf.
  set (th' := mkTh _ _). set (s1 := set_cell s p (mkCell old true)).
  assert (T1 : rc_th s1 = rc_th s) by apply th_set_cell.
  assert (Ht1 : nth_error (rc_th s1) t = Some (mkTh [] Idle)) by now rewrite T1.
  assert (RR : forall o, R (set_th s1 t th') o = R s o).
  { intros o. rewrite (R_set_th _ _ _ _ _ Ht1). unfold s1. rewrite (R_set_cell _ _ _ _ _ Hp).
    unfold th', w, tr. cbn. destruct old as [y|]; cbn; lia. }
  assert (DD : forall o, Dn (set_th s1 t th') o = Dn s o).
  { intros o. rewrite (D_set_th _ _ _ _ _ Ht1). unfold Dn at 1. rewrite T1. fold (Dn s o).
    unfold th', td. cbn. destruct old as [y|]; cbn; lia. }
  assert (GG : forall q, get_cell (set_th s1 t th') q = if place_eqb p q then Some (mkCell old true) else get_cell s q).
  { intros q. change (get_cell (set_th s1 t th') q) with (get_cell s1 q). apply (get_set_cell _ _ _ _ _ Hp). }
  assert (GN : forall q, q <> p -> get_cell (set_th s1 t th') q = get_cell s q).
  { intros q N. rewrite GG, place_neq; auto. }
  assert (OO : forall o ob', nth_error (rc_obj (set_th s1 t th')) o = Some ob' ->
     exists ob, nth_error (rc_obj s) o = Some ob /\ o_st ob' = o_st ob /\ o_cnt ob' = o_cnt ob).
  { intros o ob' H. cbn [set_th rc_obj] in H. destruct (obj_set_cell _ _ _ _ _ H) as (ob & A & B & C & _). eauto. }
  constructor.
  - intros o ob' H. destruct (OO _ _ H) as (ob & A & B & C). rewrite RR, B, C. now apply (v_obj _ _ I).
  - intros o ob' H. destruct (OO _ _ H) as (ob & A & B & C). rewrite DD, B. now apply (v_dying _ _ I).
  - intros o H. cbn [set_th rc_obj] in H. unfold s1 in H. rewrite len_set_cell in H. rewrite RR, DD. now apply (v_len _ _ I).
  - intros u th H. cbn [set_th rc_th] in H. rewrite T1 in H. thd H t u.
    + rewrite Ht in H. inversion H; subst th. unfold th'; cbn [th_ph].
      assert (VIA : forall o, via s rds o -> via (set_th s1 t th') rds o).
      { intros o (q & A & B). exists q. split; auto. rewrite GN; auto. intros E; subst; auto. }
      constructor; cbn [dest_of reads_of].
      * intros p' E. inversion E; subst p'. exists old. rewrite GG, place_refl. auto.
      * intros o E. inversion E as [E']. apply VIA. now apply Hm.
      * intros r E. destruct (Hr r E) as (v & G). exists v. rewrite GN; auto. intros X; subst; auto.
      * intros o E. apply VIA. now apply Hrm.
      * intros x E. destruct new as [y|]; cbn in E; [|discriminate]. inversion E; subst.
        destruct (Hn x eq_refl eq_refl) as (r & A & B). exists r. split; auto. rewrite GN; auto. intros X; subst; auto.
    + eapply op_ok_frame; [eapply v_op; eauto|]. destruct (Hu _ _ H) as (N1 & N2). intros q [E|E]; apply GN; congruence.
  - intros u v th1 th2 p' H1 H2 E1 E2. cbn [set_th rc_th] in *. rewrite T1 in *.
    thd H1 t u; thd H2 t v; auto.
    + rewrite Ht in H1. inversion H1; subst th1. cbn in E1. inversion E1; subst p'. exfalso. apply (proj1 (Hu _ _ H2)); auto.
    + rewrite Ht in H2. inversion H2; subst th2. cbn in E2. inversion E2; subst p'. exfalso. apply (proj1 (Hu _ _ H1)); auto.
    + eapply (v_excl _ _ I); eauto.
  - intros u th x H F. cbn [set_th rc_th] in H. rewrite T1 in H. rewrite RR.
    assert (ALV : (exists ob, nth_error (rc_obj s) x = Some ob /\ o_st ob = Alive) ->
      exists ob, nth_error (rc_obj (set_th s1 t th')) x = Some ob /\ o_st ob = Alive).
    { intros (ob & A & B). destruct (nth_error (rc_obj (set_th s1 t th')) x) as [ob'|] eqn:E.
      - exists ob'. split; auto. destruct (OO _ _ E) as (ob2 & A2 & B2 & _). congruence.
      - exfalso. apply nth_error_None in E. cbn [set_th rc_obj] in E. unfold s1 in E. rewrite len_set_cell in E.
        apply nth_error_None in E. congruence. }
    thd H t u.
    + rewrite Ht in H. inversion H; subst th. unfold fresh_in, th' in F; cbn in F.
      destruct new as [y|]; [|discriminate]. inversion F; subst y fresh.
      destruct Hf as [[F0 _]|(x' & E & _ & _ & R0 & A & U)]; [discriminate|]. inversion E; subst x'.
      split; [auto|split; [auto|]]. intros v th2 H2 F2. cbn [set_th rc_th] in H2. rewrite T1 in H2. thd H2 t v; auto.
      exfalso. eapply U; eauto.
    + destruct (v_fresh _ _ I _ _ _ H F) as (R0 & A & U). split; [auto|split; [auto|]].
      intros v th2 H2 F2. cbn [set_th rc_th] in H2. rewrite T1 in H2. thd H2 t v; [|eapply U; eauto].
      rewrite Ht in H2. inversion H2; subst th2. unfold fresh_in, th' in F2; cbn in F2.
      destruct new as [y|]; [|discriminate]. inversion F2; subst y fresh.
      destruct Hf as [[F0 _]|(x' & E & _ & _ & _ & _ & U')]; [discriminate|]. inversion E; subst x'.
      exfalso. eapply U'; eauto.
  - intros q v H. rewrite GG in H. destruct (place_eqb p q) eqn:E.
    + apply place_eqb_spec in E. subst q. exists t, th'. split; [|reflexivity]. cbn [set_th rc_th]. rewrite nth_upd, Nat.eqb_refl, Ht1. reflexivity.
    + destruct (v_wr _ _ I _ _ H) as (u & th & A & B). exists u, th. split; auto. cbn [set_th rc_th]. rewrite nth_upd, T1.
      destruct (Nat.eqb_spec t u) as [<-|]; auto. rewrite Ht in A. inversion A; subst. discriminate.
  - intros o ob' H Al. destruct (OO _ _ H) as (ob & A & B & C). rewrite RR. rewrite B in Al.
    destruct (v_live _ _ I _ _ A Al) as [L|[(u & th & L1 & L2)|L]]; auto.
    + right; left. exists u, th. split; auto. cbn [set_th rc_th]. rewrite nth_upd, T1.
      destruct (Nat.eqb_spec t u) as [<-|]; auto. rewrite Ht in L1. inversion L1; subst. discriminate.
    + right; left. destruct Hf as [[F0 F1]|(x' & E & E1 & E2 & _)]; [congruence|].
      assert (x' = o) by congruence. subst x'.
      exists t, th'. cbn [set_th rc_th]. rewrite nth_upd, Nat.eqb_refl, Ht1. split; auto. unfold fresh_in, th'; cbn. now rewrite E, E2.
Qed.

Lemma nw_false : forall ex s p v wr, invx ex s -> not_written s p -> get_cell s p = Some (mkCell v wr) -> wr = false.
Proof.
  intros ex s p v wr I N G. destruct wr; auto. destruct (v_wr _ _ I _ _ G) as (t & th & A & B).
  exfalso. unfold not_written in N. rewrite Forall_forall in N. apply (N th); auto. eapply nth_error_In; eauto.
Qed.
Lemma used_all : forall s p, not_used s p ->
  forall u th, nth_error (rc_th s) u = Some th -> dest_of (th_ph th) <> Some p /\ ~ In p (reads_of (th_ph th)).
Proof.
  intros s p [N1 N2] u th H. apply nth_error_In in H. unfold not_written in N1. rewrite Forall_forall in N1, N2. auto.
Qed.
Lemma read_loc : forall s i v, get_cell s (PLoc i) = Some (mkCell v false) -> read s (PLoc i) = Ok v.
Proof. intros s i v H. cbn in *. unfold rd. now rewrite H. Qed.
Lemma read_mem : forall s o ob, nth_error (rc_obj s) o = Some ob -> o_st ob = Alive -> read s (PMem o) = Ok (c_ptr (o_mem ob)).
Proof. intros s o ob H A. cbn. unfold rd. rewrite H. cbn. now rewrite A. Qed.

Lemma alloc_inv : forall s, inv s -> invx (Some (length (rc_obj s))) (mkRc (rc_loc s) (rc_obj s ++ [mkObj 0 (mkCell None false) Alive]) (rc_th s)).
Proof.
  intros s I. set (n := length (rc_obj s)). set (s' := mkRc _ _ _).
  assert (RR : forall o, R s' o = R s o).
  { intros o. unfold R, s'; cbn. rewrite sumf_app. cbn. lia. }
  assert (DD : forall o, Dn s' o = Dn s o) by reflexivity.
  assert (OO : forall o ob, nth_error (rc_obj s') o = Some ob ->
    nth_error (rc_obj s) o = Some ob \/ o = n /\ ob = mkObj 0 (mkCell None false) Alive).
  { intros o ob H. cbn in H. destruct (Nat.lt_ge_cases o n) as [L|L].
    - rewrite nth_error_app1 in H by auto. auto.
    - rewrite nth_error_app2 in H by auto. right. fold n in H.
      destruct (o - n)%nat as [|k] eqn:E; cbn in H; [inversion H; split; auto; lia|]. destruct k; discriminate. }
  assert (GG : forall p c, get_cell s p = Some c -> get_cell s' p = Some c).
  { intros [i|o] c H; auto. cbn in *. destruct (nth_error (rc_obj s) o) as [ob|] eqn:E; [|discriminate].
    rewrite nth_error_app1, E; auto. apply nth_error_Some. congruence. }
  destruct (v_len _ _ I n (le_n _)) as [Rn Dn'].
  constructor.
  - intros o ob H. rewrite RR. destruct (OO _ _ H) as [E|[-> ->]]; [now apply (v_obj _ _ I)|].
    cbn. unfold max_counter. lia.
  - intros o ob H. rewrite DD. destruct (OO _ _ H) as [E|[-> ->]]; [now apply (v_dying _ _ I)|]. auto.
  - intros o H. rewrite RR, DD. apply (v_len _ _ I). cbn in H. rewrite app_length in H. cbn in H. lia.
  - intros t th H. pose proof (v_op _ _ I _ _ H) as [K1 K2 K3 K4 K5]. constructor.
    + intros p E. destruct (K1 p E) as (v & A & B). eauto.
    + intros o E. destruct (K2 o E) as (q & A & B). exists q. eauto.
    + intros r E. destruct (K3 r E) as (v & A). eauto.
    + intros o E. destruct (K4 o E) as (q & A & B). exists q. eauto.
    + intros x E. destruct (K5 x E) as (r & A & B). exists r. eauto.
  - apply (v_excl _ _ I).
  - intros t th x H F. destruct (v_fresh _ _ I _ _ _ H F) as (A & (ob & B & C) & D). rewrite RR. split; [auto|]. split; [|auto].
    exists ob. split; auto. cbn. rewrite nth_error_app1; auto. apply nth_error_Some. congruence.
  - intros p v H. apply (v_wr _ _ I p v). destruct p as [i|o]; auto. cbn [get_cell] in H.
    destruct (nth_error (rc_obj s') o) as [ob|] eqn:E; [|discriminate].
    destruct (OO _ _ E) as [E'|[-> ->]]; [|discriminate]. cbn. now rewrite E'.
  - intros o ob H Al. rewrite RR. destruct (OO _ _ H) as [E|[-> ->]]; [|auto].
    destruct (v_live _ _ I _ _ E Al) as [L|[L|L]]; auto. discriminate.
Qed.

Lemma start_inv : forall s t o, inv s -> nth_error (rc_th s) t = Some (mkTh [] Idle) -> may_start s o ->
  exists out s', start s t o = Ok (out, s') /\ inv s'.
Proof.
  intros s t o I Ht M.
  assert (PT : forall q v, points s q v -> not_written s (PLoc q) -> get_cell s (PLoc q) = Some (mkCell v false)).
  { intros q v [wr H] N. pose proof (nw_false _ _ (PLoc q) v wr I N H). subst wr. exact H. }
  assert (BR : forall p old new rds, get_cell s p = Some (mkCell old false) -> read s p = Ok old -> not_used s p -> (new <> old -> ~ In p rds) ->
     (forall o, p = PMem o -> via s rds o) ->
     (forall r, In r rds -> exists v, get_cell s r = Some (mkCell v false)) ->
     (forall o, In (PMem o) rds -> via s rds o) ->
     (forall x, new = Some x -> exists r, In r rds /\ get_cell s r = Some (mkCell (Some x) false)) ->
     exists s', begin_reset s t p new rds false = Ok s' /\ inv s').
  { intros p old new rds G Rd NU NI H1 H2 H3 H4. unfold begin_reset. rewrite Rd. cbn [bind].
    destruct (opt_eqb new old) eqn:E; [eauto|].
    eexists; split; [reflexivity|]. apply (begin_inv None); auto.
    - apply used_all; auto.
    - apply NI. intros X. apply opt_eqb_spec in X. congruence. }
  destruct o as [p|p q|p q|q p|p]; cbn [may_start] in M.
  - destruct M as ((v & P) & NU). pose proof (PT _ _ P (proj1 NU)) as G.
    cbn [start]. set (n := length (rc_obj s)). set (s1 := mkRc (rc_loc s) _ _).
    pose proof (alloc_inv s I) as I1. fold n in I1. fold s1 in I1.
    unfold begin_reset. rewrite (read_loc s1 p v G). cbn [bind].
    destruct (v_len _ _ I n (le_n _)) as [Rn _].
    destruct (opt_eqb (Some n) v) eqn:E.
    { exfalso. apply opt_eqb_spec in E. subst v. pose proof (get_R _ _ _ G). lia. }
    eexists _, _; split; [reflexivity|]. eapply begin_inv; [exact I1|exact Ht|exact G| | | | | | |].
    + apply used_all; auto.
    + auto.
    + discriminate.
    + intros r [].
    + intros o [].
    + discriminate.
    + right. exists n. repeat split; auto.
      * unfold R, s1; cbn. rewrite sumf_app. cbn. unfold R in Rn. lia.
      * exists (mkObj 0 (mkCell None false) Alive). split; auto. cbn. rewrite nth_error_app2 by auto. fold n. now rewrite Nat.sub_diag.
      * intros u th' H F. destruct (v_fresh _ _ I _ _ _ H F) as (_ & (ob & A & _) & _).
        assert (n < length (rc_obj s))%nat by (apply nth_error_Some; congruence). unfold n in *. lia.
  - destruct M as ((v & P) & NU & (v' & Q) & NW). pose proof (PT _ _ P (proj1 NU)) as G. pose proof (PT _ _ Q NW) as G'.
    cbn [start]. rewrite (read_loc _ _ _ G'). cbn [bind].
    destruct (BR (PLoc p) v v' [PLoc q]) as (s' & E & I'); auto.
    + now apply read_loc.
    + intros N [X|[]]. inversion X; subst. congruence.
    + discriminate.
    + intros r [<-|[]]. eauto.
    + intros o [X|[]]; discriminate.
    + intros x ->. exists (PLoc q). split; [left|]; auto.
    + rewrite E. cbn [bind]. eauto.
  - destruct M as (NE & (v & P) & NU & NW & x & Q & NM). pose proof (PT _ _ P (proj1 NU)) as G. pose proof (PT _ _ Q NW) as G'.
    destruct (held_alive _ _ _ _ I G') as (ob & Eo & Al).
    cbn [start]. rewrite (read_loc _ _ _ G'). cbn [bind deref]. rewrite (read_mem _ _ _ Eo Al). cbn [bind].
    assert (GM : get_cell s (PMem x) = Some (mkCell (c_ptr (o_mem ob)) false)).
    { assert (GM0 : get_cell s (PMem x) = Some (o_mem ob)) by (cbn; now rewrite Eo). destruct (o_mem ob) as [mv mw] eqn:Em.
      pose proof (nw_false _ _ _ _ _ I NM GM0). subst mw. exact GM0. }
    assert (VX : via s [PLoc q; PMem x] x) by (exists q; split; [left|]; auto).
    destruct (BR (PLoc p) v (c_ptr (o_mem ob)) [PLoc q; PMem x]) as (s' & E & I'); auto.
    + now apply read_loc.
    + intros _ [X|[X|[]]]; congruence.
    + discriminate.
    + intros r [<-|[<-|[]]]; eauto.
    + intros o [X|[X|[]]]; try discriminate. inversion X; subst. auto.
    + intros y Ey. exists (PMem x). split; [right; left; auto|]. rewrite GM, Ey. auto.
    + rewrite E. cbn [bind]. eauto.
  - destruct M as ((v & P) & NP & NW & x & Q & NM). pose proof (PT _ _ P NP) as G. pose proof (PT _ _ Q NW) as G'.
    destruct (held_alive _ _ _ _ I G') as (ob & Eo & Al).
    cbn [start]. rewrite (read_loc _ _ _ G'). cbn [bind deref]. rewrite (read_loc _ _ _ G). cbn [bind].
    assert (GM : get_cell s (PMem x) = Some (mkCell (c_ptr (o_mem ob)) false)).
    { assert (GM0 : get_cell s (PMem x) = Some (o_mem ob)) by (cbn; now rewrite Eo). destruct (o_mem ob) as [mv mw] eqn:Em.
      pose proof (nw_false _ _ _ _ _ I (proj1 NM) GM0). subst mw. exact GM0. }
    assert (VX : via s [PLoc q; PLoc p] x) by (exists q; split; [left|]; auto).
    destruct (BR (PMem x) (c_ptr (o_mem ob)) v [PLoc q; PLoc p]) as (s' & E & I'); auto.
    + now apply read_mem.
    + intros _ [X|[X|[]]]; congruence.
    + intros o X. inversion X; subst. auto.
    + intros r [<-|[<-|[]]]; eauto.
    + intros o [X|[X|[]]]; discriminate.
    + intros y ->. exists (PLoc p). split; [right; left; auto|]. auto.
    + rewrite E. cbn [bind]. eauto.
  - destruct M as ((v & P) & NU). pose proof (PT _ _ P (proj1 NU)) as G.
    cbn [start]. destruct (BR (PLoc p) v None []) as (s' & E & I'); auto.
    + now apply read_loc.
    + discriminate.
    + intros r [].
    + intros o [].
    + discriminate.
    + rewrite E. cbn [bind]. eauto.
Qed.

Lemma obj_step_inv : forall s t stk ph stk' o ob ob',
  inv s -> nth_error (rc_th s) t = Some (mkTh stk ph) -> nth_error (rc_obj s) o = Some ob ->
  let s' := set_th (set_obj s o ob') t (mkTh stk' ph) in
  (forall x, x <> o -> R s' x = R s x /\ Dn s' x = Dn s x) ->
  match o_st ob' with
  | Alive => o_cnt ob' = R s' o /\ o_cnt ob' <= max_counter /\ 1 <= R s' o
  | Dying => o_cnt ob' = 0 /\ R s' o = 0
  | Freed => R s' o = 0
  end ->
  Dn s' o = match o_st ob' with Dying => 1 | _ => 0 end ->
  (o_mem ob' = o_mem ob \/ c_wr (o_mem ob') = false /\ R s o = 0) ->
  (forall u th, nth_error (rc_th s) u = Some th -> ~ fresh_in th o) ->
  inv s'.
Proof.
  intros s t stk ph stk' o ob ob' I Ht Ho s' HR HO HD HM HF.
  assert (THS : forall u th, nth_error (rc_th s') u = Some th -> exists th0, nth_error (rc_th s) u = Some th0 /\ th_ph th = th_ph th0).
  { intros u th H. cbn in H. thd H t u; eauto. rewrite Ht in H. inversion H; subst. eexists; split; [exact Ht|]. reflexivity. }
  assert (THB : forall u th0, nth_error (rc_th s) u = Some th0 -> exists th, nth_error (rc_th s') u = Some th /\ th_ph th = th_ph th0).
  { intros u th0 H. cbn. rewrite nth_upd. destruct (Nat.eqb_spec t u) as [<-|]; eauto. rewrite H. eexists; split; [reflexivity|].
    rewrite Ht in H. inversion H; subst. reflexivity. }
  assert (OO : forall x ob2, nth_error (rc_obj s') x = Some ob2 -> x = o /\ ob2 = ob' \/ x <> o /\ nth_error (rc_obj s) x = Some ob2).
  { intros x ob2 H. cbn in H. rewrite nth_upd in H. destruct (Nat.eqb_spec o x) as [<-|]; auto. rewrite Ho in H. inversion H; auto. }
  assert (GG : forall p, p <> PMem o -> get_cell s' p = get_cell s p).
  { intros [i|j] N; cbn; auto. rewrite nth_upd. destruct (Nat.eqb_spec o j) as [<-|]; [congruence|auto]. }
  assert (GU : forall u th p, nth_error (rc_th s) u = Some th -> (dest_of (th_ph th) = Some p \/ In p (reads_of (th_ph th))) -> get_cell s' p = get_cell s p).
  { intros u th p H U. destruct p as [i|j]; [apply GG; discriminate|]. destruct (Nat.eq_dec j o) as [->|N]; [|apply GG; congruence].
    destruct HM as [HM|[_ R0]].
    - cbn. rewrite nth_upd, Nat.eqb_refl, Ho. now rewrite HM.
    - exfalso. pose proof (v_op _ _ I _ _ H) as K.
      assert (V : via s (reads_of (th_ph th)) o) by (destruct U; [eapply k_dmem|eapply k_rmem]; eauto).
      destruct V as (q & _ & V). apply get_R in V. lia. }
  constructor.
  - intros x ob2 H. destruct (OO _ _ H) as [[-> ->]|[N H']].
    + destruct (o_st ob'); intuition.
    + rewrite (proj1 (HR x N)). now apply (v_obj _ _ I).
  - intros x ob2 H. destruct (OO _ _ H) as [[-> ->]|[N H']]; auto. rewrite (proj2 (HR x N)). now apply (v_dying _ _ I).
  - intros x H. cbn in H. rewrite length_upd in H.
    assert (N : x <> o). { intros ->. apply nth_error_None in H. congruence. }
    destruct (HR x N) as [-> ->]. now apply (v_len _ _ I).
  - intros u th H. destruct (THS _ _ H) as (th0 & H0 & E). rewrite E. eapply op_ok_frame; [eapply v_op; eauto|]. intros p U. eapply GU; eauto.
  - intros u v th1 th2 p H1 H2 E1 E2. destruct (THS _ _ H1) as (a & A1 & A2). destruct (THS _ _ H2) as (b & B1 & B2).
    rewrite A2 in E1. rewrite B2 in E2. eapply (v_excl _ _ I); eauto.
  - intros u th x H F. destruct (THS _ _ H) as (th0 & H0 & E). unfold fresh_in in F. rewrite E in F. 
    assert (N : x <> o) by (intros ->; eapply HF; eauto).
    destruct (v_fresh _ _ I _ _ _ H0 F) as (A & (ob2 & B & C) & D). rewrite (proj1 (HR x N)). split; [auto|]. split.
    + exists ob2. split; auto. cbn. rewrite nth_upd. destruct (Nat.eqb_spec o x); congruence.
    + intros v th2 H2 F2. destruct (THS _ _ H2) as (b & B1 & B2). unfold fresh_in in F2. rewrite B2 in F2. eapply D; eauto.
  - intros p v H.
    assert (W : get_cell s p = Some (mkCell v true)).
    { destruct p as [i|j]; [now rewrite <- GG by discriminate|]. destruct (Nat.eq_dec j o) as [->|N]; [|rewrite <- GG by congruence; auto].
      cbn in H. rewrite nth_upd, Nat.eqb_refl, Ho in H. inversion H as [H']. cbn. rewrite Ho.
      destruct HM as [HM|[HM _]]; [congruence|]. rewrite H' in HM. discriminate. }
    destruct (v_wr _ _ I _ _ W) as (u & th & A & B). destruct (THB _ _ A) as (th' & A' & B'). exists u, th'. split; auto. now rewrite B'.
  - intros x ob2 H Al. destruct (OO _ _ H) as [[-> ->]|[N H']].
    + rewrite Al in HO. left; tauto.
    + rewrite (proj1 (HR x N)). destruct (v_live _ _ I _ _ H' Al) as [L|[(u & th & A & B)|L]]; auto.
      right; left. destruct (THB _ _ A) as (th' & A' & B'). exists u, th'. split; auto. unfold fresh_in. now rewrite B'.
Qed.

Lemma ind_sym : forall a b, ind (a =? b)%nat = 0 \/ a = b.
Proof. intros; destruct (Nat.eqb_spec a b); auto. Qed.
Lemma ind_neq : forall a b, a <> b -> ind (a =? b)%nat = 0.
Proof. intros; destruct (Nat.eqb_spec a b); [congruence|reflexivity]. Qed.
Lemma ind_eq : forall a, ind (a =? a)%nat = 1.
Proof. intros; now rewrite Nat.eqb_refl. Qed.

Lemma D_set_obj : forall s o ob x, Dn (set_obj s o ob) x = Dn s x. Proof. reflexivity. Qed.

Lemma frame_inv : forall s t f stk ph, inv s -> nth_error (rc_th s) t = Some (mkTh (f :: stk) ph) ->
  exists out s', step_frame s t f stk ph = Ok (out, s') /\ inv s'.
Proof.
  intros s t f stk ph I Ht. destruct f as [o|o|o]; cbn [step_frame].
  - assert (P : 1 <= R s o) by (eapply stk_R; eauto; left; auto).
    destruct (pos_alive _ _ _ I P) as (ob & Ho & Al). unfold rd. rewrite Ho. cbn [bind]. rewrite Al.
    pose proof (v_obj _ _ I _ _ Ho) as V. rewrite Al in V. destruct V as [V1 V2].
    pose proof (v_dying _ _ I _ _ Ho) as VD. rewrite Al in VD.
    assert (B : bad (o_cnt ob - 1) = false).
    { unfold bad. apply Bool.orb_false_iff. split; apply Z.ltb_ge; lia. }
    rewrite B.
    assert (NF : forall u th, nth_error (rc_th s) u = Some th -> ~ fresh_in th o).
    { intros u th H F. destruct (v_fresh _ _ I _ _ _ H F) as (R0 & _). lia. }
    assert (RS : forall ob' stk' x, o_mem ob' = o_mem ob -> tr x (mkTh stk' ph) = tr x (mkTh stk ph) ->
       R (set_th (set_obj s o ob') t (mkTh stk' ph)) x = R s x - ind (o =? x)%nat).
    { intros ob' stk' x E1 E2. assert (Ht' : nth_error (rc_th (set_obj s o ob')) t = Some (mkTh (FRel o :: stk) ph)) by exact Ht.
      rewrite (R_set_th _ _ _ _ _ Ht'), (R_set_obj _ _ _ _ _ Ho), E1, E2. unfold tr at 1. cbn. unfold tr; cbn. lia. }
    destruct (Z.eqb_spec (o_cnt ob - 1) 0) as [Z0|Z0].
    + eexists _, _; split; [reflexivity|]. eapply obj_step_inv; eauto.
      * intros x N. rewrite RS by reflexivity. rewrite ind_neq by auto. split; [lia|].
        rewrite (D_set_th _ _ _ _ _ (Ht : nth_error (rc_th (set_obj s o _)) t = _)), D_set_obj. unfold td; cbn [th_stk sumf fd]. rewrite ind_neq by auto. lia.
      * cbn [o_st o_cnt]. rewrite RS by reflexivity. rewrite ind_eq. lia.
      * cbn [o_st]. rewrite (D_set_th _ _ _ _ _ (Ht : nth_error (rc_th (set_obj s o _)) t = _)), D_set_obj. unfold td; cbn [th_stk sumf fd]. rewrite ind_eq. lia.
    + eexists _, _; split; [reflexivity|]. eapply obj_step_inv; eauto.
      * intros x N. rewrite RS by reflexivity. rewrite ind_neq by auto. split; [lia|].
        rewrite (D_set_th _ _ _ _ _ (Ht : nth_error (rc_th (set_obj s o _)) t = _)), D_set_obj. unfold td; cbn [th_stk sumf fd]. lia.
      * cbn [o_st o_cnt]. rewrite RS by reflexivity. rewrite ind_eq. lia.
      * cbn [o_st]. rewrite (D_set_th _ _ _ _ _ (Ht : nth_error (rc_th (set_obj s o _)) t = _)), D_set_obj. unfold td; cbn [th_stk sumf fd]. lia.
  - assert (P : 1 <= Dn s o) by (eapply stk_D; [exact Ht|left; reflexivity|auto]).
    destruct (pos_dying _ _ _ I P) as (ob & Ho & Dy). unfold rd. rewrite Ho. cbn [bind]. rewrite Dy.
    pose proof (v_obj _ _ I _ _ Ho) as V. rewrite Dy in V. destruct V as [V1 V2].
    pose proof (v_dying _ _ I _ _ Ho) as VD. rewrite Dy in VD.
    assert (NF : forall u th, nth_error (rc_th s) u = Some th -> ~ fresh_in th o).
    { intros u th H F. destruct (v_fresh _ _ I _ _ _ H F) as (_ & (ob2 & A & B) & _). congruence. }
    assert (NW : c_wr (o_mem ob) = false).
    { destruct (c_wr (o_mem ob)) eqn:E; auto.
      assert (G : get_cell s (PMem o) = Some (mkCell (c_ptr (o_mem ob)) true)).
      { cbn. rewrite Ho. destruct (o_mem ob); cbn in *; congruence. }
      destruct (v_wr _ _ I _ _ G) as (u & th & A & B). pose proof (k_dmem _ _ (v_op _ _ I _ _ A) _ B) as (q & _ & X). apply get_R in X. lia. }
    eexists _, _; split; [reflexivity|].
    assert (RS : forall x, R (set_th (set_obj s o (mkObj (o_cnt ob) (mkCell None false) Dying)) t
       (mkTh ((match c_ptr (o_mem ob) with Some y => [FRel y] | None => [] end) ++ FEnd o :: stk) ph)) x = R s x).
    { intros x. assert (Ht' : nth_error (rc_th (set_obj s o (mkObj (o_cnt ob) (mkCell None false) Dying))) t = Some (mkTh (FMem o :: stk) ph)) by exact Ht.
      rewrite (R_set_th _ _ _ _ _ Ht'), (R_set_obj _ _ _ _ _ Ho). unfold w, tr. cbn. rewrite NW. cbn.
      destruct (c_ptr (o_mem ob)); cbn; lia. }
    assert (DS : forall x, Dn (set_th (set_obj s o (mkObj (o_cnt ob) (mkCell None false) Dying)) t
       (mkTh ((match c_ptr (o_mem ob) with Some y => [FRel y] | None => [] end) ++ FEnd o :: stk) ph)) x = Dn s x).
    { intros x. rewrite (D_set_th _ _ _ _ _ (Ht : nth_error (rc_th (set_obj s o _)) t = _)), D_set_obj. unfold td. cbn [th_stk sumf fd].
      destruct (c_ptr (o_mem ob)); cbn [app sumf fd]; lia. }
    eapply obj_step_inv; eauto.
    + cbn [o_st o_cnt]. rewrite RS. lia.
    + cbn [o_st]. rewrite DS. auto.
  - assert (P : 1 <= Dn s o) by (eapply stk_D; [exact Ht|left; reflexivity|auto]).
    destruct (pos_dying _ _ _ I P) as (ob & Ho & Dy). unfold rd. rewrite Ho. cbn [bind]. rewrite Dy.
    pose proof (v_obj _ _ I _ _ Ho) as V. rewrite Dy in V. destruct V as [V1 V2].
    pose proof (v_dying _ _ I _ _ Ho) as VD. rewrite Dy in VD. rewrite V1. cbn [Z.eqb negb].
    assert (NF : forall u th, nth_error (rc_th s) u = Some th -> ~ fresh_in th o).
    { intros u th H F. destruct (v_fresh _ _ I _ _ _ H F) as (_ & (ob2 & A & B) & _). congruence. }
    eexists _, _; split; [reflexivity|].
    assert (RS : forall x, R (set_th (set_obj s o (mkObj (-1) (o_mem ob) Freed)) t (mkTh stk ph)) x = R s x).
    { intros x. assert (Ht' : nth_error (rc_th (set_obj s o (mkObj (-1) (o_mem ob) Freed))) t = Some (mkTh (FEnd o :: stk) ph)) by exact Ht.
      rewrite (R_set_th _ _ _ _ _ Ht'), (R_set_obj _ _ _ _ _ Ho). unfold tr. cbn. lia. }
    eapply obj_step_inv; eauto.
    + intros x N. rewrite RS. split; auto.
      rewrite (D_set_th _ _ _ _ _ (Ht : nth_error (rc_th (set_obj s o _)) t = _)), D_set_obj. unfold td; cbn [th_stk sumf fd]. rewrite ind_neq by auto. lia.
    + cbn [o_st]. now rewrite RS.
    + cbn [o_st]. rewrite (D_set_th _ _ _ _ _ (Ht : nth_error (rc_th (set_obj s o _)) t = _)), D_set_obj. unfold td; cbn [th_stk sumf fd]. rewrite ind_eq. lia.
Qed.

Lemma phase_inv : forall s s1 t ph p v0 c' ph',
  inv s -> nth_error (rc_th s) t = Some (mkTh [] ph) -> dest_of ph = Some p -> get_cell s p = Some (mkCell v0 true) ->
  rc_th s1 = rc_th s -> (forall q, get_cell s1 q = get_cell s q) -> (forall o, R s1 o = R s o) -> length (rc_obj s1) = length (rc_obj s) ->
  (forall o ob', nth_error (rc_obj s1) o = Some ob' -> exists ob, nth_error (rc_obj s) o = Some ob /\ o_st ob' = o_st ob /\
     o_cnt ob' = o_cnt ob + w o c' /\ (o_st ob = Alive -> o_cnt ob' <= max_counter)) ->
  (forall o, w o c' <> 0 -> exists ob, nth_error (rc_obj s) o = Some ob /\ o_st ob = Alive) ->
  (ph' = Idle /\ c_wr c' = false \/ exists x rds fr, ph = PSet p (Some x) rds fr /\ ph' = PAcq p x rds fr /\ c' = mkCell (Some x) true) ->
  (forall u th y, u <> t -> nth_error (rc_th s) u = Some th -> fresh_in th y -> w y c' = 0) ->
  (forall o, new_of ph = Some (o, true) -> ph' = Idle -> w o c' = 1) ->
  inv (set_th (set_cell s1 p c') t (mkTh [] ph')).
Proof.
  intros s s1 t ph p v0 c' ph' I Ht Hd Hc T1 G1 R1 LN O1 HA Hph HF HL.
  set (s' := set_th (set_cell s1 p c') t (mkTh [] ph')).
  assert (Hc1 : get_cell s1 p = Some (mkCell v0 true)) by now rewrite G1.
  assert (T2 : rc_th (set_cell s1 p c') = rc_th s) by (rewrite th_set_cell; auto).
  assert (Ht1 : nth_error (rc_th (set_cell s1 p c')) t = Some (mkTh [] ph)) by now rewrite T2.
  assert (RR : forall o, R s' o = R s o + w o c').
  { intros o. unfold s'. rewrite (R_set_th _ _ _ _ _ Ht1), (R_set_cell _ _ _ _ _ Hc1), R1. change (w o (mkCell v0 true)) with 0. change (tr o (mkTh [] ph)) with 0. change (tr o (mkTh [] ph')) with 0. lia. }
  assert (DD : forall o, Dn s' o = Dn s o).
  { intros o. unfold s'. rewrite (D_set_th _ _ _ _ _ Ht1). unfold Dn. rewrite T2. change (td o (mkTh [] ph)) with 0. change (td o (mkTh [] ph')) with 0. lia. }
  assert (GG : forall q, get_cell s' q = if place_eqb p q then Some c' else get_cell s q).
  { intros q. change (get_cell s' q) with (get_cell (set_cell s1 p c') q). rewrite (get_set_cell _ _ _ _ _ Hc1). now rewrite G1. }
  assert (GN : forall q, q <> p -> get_cell s' q = get_cell s q).
  { intros q N. rewrite GG, place_neq; auto. }
  assert (OO : forall o ob', nth_error (rc_obj s') o = Some ob' -> exists ob, nth_error (rc_obj s) o = Some ob /\ o_st ob' = o_st ob /\
     o_cnt ob' = o_cnt ob + w o c' /\ (o_st ob = Alive -> o_cnt ob' <= max_counter)).
  { intros o ob' H. cbn [s' set_th rc_obj] in H. destruct (obj_set_cell _ _ _ _ _ H) as (ob1 & A & B & C & _).
    destruct (O1 _ _ A) as (ob & A' & B' & C' & D'). exists ob. rewrite B, C. auto. }
  assert (LL : length (rc_obj s') = length (rc_obj s)).
  { cbn [s' set_th rc_obj]. rewrite len_set_cell; auto. }
  assert (OK : op_ok s ph) by (apply (v_op _ _ I _ _ Ht)).
  constructor.
  - intros o ob' H. destruct (OO _ _ H) as (ob & A & B & C & D). rewrite B, C, RR.
    pose proof (v_obj _ _ I _ _ A) as V.
    destruct (o_st ob) eqn:E; [split; [lia|rewrite <- C; auto]| |].
    + destruct (Z.eq_dec (w o c') 0) as [->|N]; [lia|]. destruct (HA _ N) as (ob2 & X & Y). congruence.
    + destruct (Z.eq_dec (w o c') 0) as [->|N]; [lia|]. destruct (HA _ N) as (ob2 & X & Y). congruence.
  - intros o ob' H. destruct (OO _ _ H) as (ob & A & B & C & D). rewrite B, DD. now apply (v_dying _ _ I).
  - intros o H. rewrite LL in H. rewrite RR, DD. destruct (v_len _ _ I _ H) as [A B]. rewrite A, B. split; auto.
    destruct (Z.eq_dec (w o c') 0) as [->|N]; [lia|]. destruct (HA _ N) as (ob2 & X & Y). apply nth_error_None in H. congruence.
  - intros u th H. cbn [s' set_th rc_th] in H. rewrite T2 in H. thd H t u.
    + rewrite Ht in H. inversion H; subst th. cbn [th_ph].
      destruct Hph as [[-> _]|(x & rds & fr & -> & -> & ->)]; [apply op_frame_idle|].
      destruct OK as [K1 K2 K3 K4 K5]. cbn [dest_of reads_of] in *.
      assert (NP : ~ In p rds). { intros X. destruct (K3 _ X) as (v & Y). congruence. }
      assert (VIA : forall o, via s rds o -> via s' rds o).
      { intros o (q & A & B). exists q. split; auto. rewrite GN; auto. congruence. }
      constructor; cbn [dest_of reads_of].
      * intros p' E. inversion E; subst p'. exists (Some x). rewrite GG, place_refl. auto.
      * intros o E. apply VIA, K2. auto.
      * intros r E. destruct (K3 r E) as (v & Y). exists v. rewrite GN; auto. congruence.
      * intros o E. apply VIA, K4. auto.
      * intros y E. destruct (K5 y E) as (r & A & B). exists r. split; auto. rewrite GN; auto. congruence.
    + pose proof (v_op _ _ I _ _ H) as K. eapply op_ok_frame; [exact K|].
      intros q [E|E]; apply GN; intros ->.
      * apply n. eapply (v_excl _ _ I); eauto.
      * destruct (k_reads _ _ K _ E) as (v & Y). congruence.
  - intros u v th1 th2 q H1 H2 E1 E2. cbn [s' set_th rc_th] in *. rewrite T2 in *.
    assert (DP : forall q, dest_of ph' = Some q -> q = p).
    { intros q'. destruct Hph as [[-> _]|(x & rds & fr & -> & -> & ->)]; cbn; congruence. }
    thd H1 t u; thd H2 t v; auto.
    + rewrite Ht in H1. inversion H1; subst th1. cbn [th_ph] in E1. apply DP in E1. subst q. eapply (v_excl _ _ I); [exact Ht|exact H2| |]; eauto.
    + rewrite Ht in H2. inversion H2; subst th2. cbn [th_ph] in E2. apply DP in E2. subst q. eapply (v_excl _ _ I); [exact H1|exact Ht| |]; eauto.
    + eapply (v_excl _ _ I); eauto.
  - intros u th x H F. cbn [s' set_th rc_th] in H. rewrite T2 in H.
    assert (ALV : (exists ob, nth_error (rc_obj s) x = Some ob /\ o_st ob = Alive) ->
      exists ob, nth_error (rc_obj s') x = Some ob /\ o_st ob = Alive).
    { intros (ob & A & B). destruct (nth_error (rc_obj s') x) as [ob'|] eqn:E.
      - exists ob'. split; auto. destruct (OO _ _ E) as (ob2 & A2 & B2 & _). congruence.
      - exfalso. apply nth_error_None in E. rewrite LL in E. apply nth_error_None in E. congruence. }
    assert (TF : fresh_in (mkTh [] ph') x -> fresh_in (mkTh [] ph) x /\ w x c' = 0).
    { destruct Hph as [[-> _]|(y & rds & fr & -> & -> & ->)]; unfold fresh_in; cbn; [discriminate|]. auto. }
    rewrite RR. thd H t u.
    + rewrite Ht in H. inversion H; subst th. destruct (TF F) as [F' W0]. destruct (v_fresh _ _ I _ _ _ Ht F') as (A & B & C).
      rewrite A, W0. split; [lia|]. split; [auto|].
      intros v th2 H2 F2. cbn [s' set_th rc_th] in H2. rewrite T2 in H2. thd H2 t v; auto. eapply C; eauto.
    + destruct (v_fresh _ _ I _ _ _ H F) as (A & B & C). rewrite A, (HF u th x); auto. split; [lia|]. split; [auto|].
      intros v th2 H2 F2. cbn [s' set_th rc_th] in H2. rewrite T2 in H2. thd H2 t v; [|eapply C; eauto].
      rewrite Ht in H2. inversion H2; subst th2. destruct (TF F2) as [F' _]. eapply C; eauto.
  - intros q v H. rewrite GG in H. destruct (place_eqb p q) eqn:E.
    + apply place_eqb_spec in E. subst q. inversion H; subst c'.
      destruct Hph as [[_ X]|(y & rds & fr & -> & -> & X)]; [discriminate|].
      exists t, (mkTh [] (PAcq p y rds fr)). split; auto. cbn [s' set_th rc_th]. rewrite nth_upd, Nat.eqb_refl, Ht1. reflexivity.
    + destruct (v_wr _ _ I _ _ H) as (u & th & A & B). exists u, th. split; auto. cbn [s' set_th rc_th]. rewrite nth_upd, T2.
      destruct (Nat.eqb_spec t u) as [<-|]; auto. exfalso. rewrite Ht in A. inversion A; subst th. cbn [th_ph] in B.
      assert (p = q) by congruence. subst. rewrite place_refl in E. discriminate.
  - intros o ob' H Al. destruct (OO _ _ H) as (ob & A & B & C & D). rewrite B in Al. rewrite RR.
    assert (0 <= w o c') by apply w_nonneg.
    destruct (v_live _ _ I _ _ A Al) as [L|[(u & th & L1 & L2)|L]]; [left; lia| |discriminate].
    destruct (Nat.eq_dec u t) as [->|N].
    + rewrite Ht in L1. inversion L1; subst th. unfold fresh_in in L2; cbn [th_ph] in L2.
      destruct Hph as [[-> _]|(y & rds & fr & -> & -> & ->)].
      * left. rewrite (HL o L2 eq_refl). pose proof (R_nonneg s o). lia.
      * right; left. exists t. eexists. cbn [s' set_th rc_th]. rewrite nth_upd, Nat.eqb_refl, Ht1. split; [reflexivity|]. exact L2.
    + right; left. exists u, th. cbn [s' set_th rc_th]. rewrite nth_upd, T2. destruct (Nat.eqb_spec t u); [congruence|]. auto.
Qed.

(** A step fails only when a counter would exceed its limit. *)
Definition overflow (s : rc) : Prop := exists o ob, nth_error (rc_obj s) o = Some ob /\ o_st ob = Alive /\ o_cnt ob = R s o /\ o_cnt ob = max_counter.

Lemma thread_inv : forall s t th, inv s -> nth_error (rc_th s) t = Some th ->
  match step_thread s t th with
  | None => th = mkTh [] Idle
  | Some (Ok (_, s')) => inv s'
  | Some Panic => overflow s
  | Some UB => False
  end.
Proof.
  intros s t [stk ph] I Ht. unfold step_thread. cbn [th_stk th_ph].
  destruct stk as [|f stk].
  2: { destruct (frame_inv _ _ _ _ _ I Ht) as (out & s' & E & I'). rewrite E. exact I'. }
  pose proof (v_op _ _ I _ _ Ht) as K. cbn [th_ph] in K.
  destruct ph as [|p new rds fr|p x rds fr]; auto.
  - destruct (k_dest _ _ K p eq_refl) as (v & G & _).
    destruct new as [x|].
    + apply (phase_inv s s t (PSet p (Some x) rds fr) p v); auto.
      * intros o ob' H. exists ob'. repeat split; auto; [unfold w; cbn; lia|]. intros Al. pose proof (v_obj _ _ I _ _ H) as V. rewrite Al in V. tauto.
      * intros o H. exfalso. apply H. reflexivity.
      * right. eauto 6.
      * intros o _ X. discriminate.
    + apply (phase_inv s s t (PSet p None rds fr) p v); auto.
      * intros o ob' H. exists ob'. repeat split; auto; [unfold w; cbn; lia|]. intros Al. pose proof (v_obj _ _ I _ _ H) as V. rewrite Al in V. tauto.
      * intros o H. exfalso. apply H. reflexivity.
      * intros o X _. discriminate.
  - destruct (k_dest _ _ K p eq_refl) as (v & G & Ev). subst v.
    assert (AL : exists ob, nth_error (rc_obj s) x = Some ob /\ o_st ob = Alive).
    { destruct fr.
      - apply (v_fresh _ _ I _ _ x Ht). reflexivity.
      - destruct (k_new _ _ K x eq_refl) as (r & _ & A). eapply held_alive; eauto. }
    destruct AL as (ob & Ho & Al). unfold rd. rewrite Ho. cbn [bind]. rewrite Al.
    pose proof (v_obj _ _ I _ _ Ho) as V. rewrite Al in V. destruct V as [V1 V2].
    pose proof (R_nonneg s x) as RN.
    destruct (bad (o_cnt ob + 1)) eqn:B.
    { unfold bad in B. apply Bool.orb_true_iff in B. exists x, ob. repeat split; auto.
      destruct B as [B|B]; apply Z.ltb_lt in B; lia. }
    unfold bad in B. apply Bool.orb_false_iff in B. destruct B as [_ B]. apply Z.ltb_ge in B.
    assert (W : forall o, w o (mkCell (Some x) false) = ind (x =? o)%nat) by reflexivity.
    apply (phase_inv s _ t (PAcq p x rds fr) p (Some x)); auto.
    + intros [i|j]; cbn; auto. rewrite nth_upd. destruct (Nat.eqb_spec x j) as [<-|]; auto. rewrite Ho. reflexivity.
    + intros o. rewrite (R_set_obj _ _ _ _ _ Ho). cbn. lia.
    + cbn. apply length_upd.
    + intros o ob' H. cbn in H. rewrite nth_upd in H. rewrite W. destruct (Nat.eqb_spec x o) as [<-|N].
      * rewrite Ho in H. inversion H; subst ob'. exists ob. cbn. repeat split; auto.
      * exists ob'. cbn. repeat split; auto; [lia|]. intros Al'. pose proof (v_obj _ _ I _ _ H) as V. rewrite Al' in V. tauto.
    + intros o. rewrite W. destruct (Nat.eqb_spec x o) as [<-|N]; cbn; [eauto|congruence].
    + intros u th y N H F. rewrite W. apply ind_neq. intros <-.
      destruct (v_fresh _ _ I _ _ _ H F) as (R0 & _ & U). destruct fr.
      * apply N. eapply U; eauto. reflexivity.
      * destruct (k_new _ _ K x eq_refl) as (r & _ & A). apply get_R in A. lia.
    + intros o E _. cbn in E. inversion E; subst. rewrite W. apply ind_eq.
Qed.

Lemma step_inv : forall s l, inv s -> (match l with RStart _ o => may_start s o | _ => True end) ->
  match rc_step s l with
  | None => True
  | Some (Ok (_, s')) => inv s'
  | Some Panic => overflow s
  | Some UB => False
  end.
Proof.
  intros s [t o|t] I M; cbn [rc_step].
  - destruct (nth_error (rc_th s) t) as [[[|f stk] [| |]]|] eqn:Ht; auto.
    destruct (start_inv _ _ _ I Ht M) as (out & s' & E & I'). rewrite E. exact I'.
  - destruct (nth_error (rc_th s) t) as [th|] eqn:Ht; auto.
    pose proof (thread_inv _ _ _ I Ht) as X. destruct (step_thread s t th) as [[[]| |]|]; auto.
Qed.

Definition st_of (s : rc) (o : nat) : option ost := match nth_error (rc_obj s) o with Some ob => Some (o_st ob) | None => None end.
Lemma st_set_cell : forall s p c o, st_of (set_cell s p c) o = st_of s o.
Proof.
  intros s [i|j] c o; cbn; auto. destruct (nth_error (rc_obj s) j) as [ob|] eqn:E; auto. unfold st_of; cbn. rewrite nth_upd.
  destruct (Nat.eqb_spec j o) as [<-|]; auto. now rewrite E.
Qed.
Lemma st_set_obj : forall s j ob ob' o, nth_error (rc_obj s) j = Some ob -> st_of (set_obj s j ob') o = if Nat.eqb j o then Some (o_st ob') else st_of s o.
Proof. intros s j ob ob' o H. unfold st_of; cbn. rewrite nth_upd. destruct (Nat.eqb_spec j o) as [<-|]; auto. now rewrite H. Qed.
Lemma st_set_th : forall s t th o, st_of (set_th s t th) o = st_of s o. Proof. reflexivity. Qed.

(** What the outputs say about the objects *)
Definition explains (out : rout) (s s' : rc) : Prop :=
  (forall o, st_of s' o = Some Freed <-> st_of s o = Some Freed \/ out = RDestroyed o) /\
  (forall o, out = RDestroyed o -> st_of s o <> Some Freed) /\
  (match out with RCreated x => x = length (rc_obj s) /\ length (rc_obj s') = S (length (rc_obj s)) | _ => length (rc_obj s') = length (rc_obj s) end).

Lemma explains_none : forall s s', (forall o, st_of s' o = Some Freed <-> st_of s o = Some Freed) -> length (rc_obj s') = length (rc_obj s) ->
  explains RNone s s'.
Proof. intros s s' H L. split; [|split]; [|discriminate|auto]. intros o. rewrite H. intuition discriminate. Qed.

Lemma begin_explains : forall s t p new rds fr s', begin_reset s t p new rds fr = Ok s' ->
  (forall o, st_of s' o = st_of s o) /\ length (rc_obj s') = length (rc_obj s).
Proof.
  intros s t p new rds fr s' H. unfold begin_reset in H. destruct (read s p) as [old| |]; try discriminate. cbn [bind] in H.
  destruct (opt_eqb new old); inversion H; subst; auto. split; intros; [rewrite st_set_th; apply st_set_cell|]. cbn. apply len_set_cell.
Qed.

Lemma step_explains : forall s l out s', rc_step s l = Some (Ok (out, s')) -> explains out s s'.
Proof.
  intros s [t o|t] out s' H; cbn [rc_step] in H.
  - destruct (nth_error (rc_th s) t) as [[[|f stk] [| |]]|]; try discriminate. inversion H as [H']; clear H.
    assert (BR : forall p new rds fr, (s'' <- begin_reset s t p new rds fr ;; Ok (RNone, s'')) = Ok (out, s') -> explains out s s').
    { intros p new rds fr E. destruct (begin_reset s t p new rds fr) as [s2| |] eqn:E2; cbn in E; try discriminate. inversion E; subst.
      apply begin_explains in E2. destruct E2 as [E2 L]. apply explains_none; auto. intros o'. now rewrite E2. }
    destruct o as [p|p q|p q|q p|p]; cbn [start] in H'.
    + set (s1 := mkRc (rc_loc s) _ _) in H'.
      destruct (begin_reset s1 t (PLoc p) (Some (length (rc_obj s))) [] true) as [s2| |] eqn:E2; cbn in H'; try discriminate. inversion H'; subst.
      apply begin_explains in E2. destruct E2 as [E2 L]. split; [|split].
      * intros o. rewrite E2. unfold st_of, s1; cbn. destruct (Nat.lt_ge_cases o (length (rc_obj s))) as [X|X].
        -- rewrite nth_error_app1 by auto. intuition discriminate.
        -- rewrite nth_error_app2 by auto. rewrite (proj2 (nth_error_None _ _) X).
           destruct (o - _)%nat as [|k]; cbn; [|destruct k; cbn]; intuition discriminate.
      * discriminate.
      * split; auto. rewrite L. unfold s1; cbn. rewrite app_length; cbn. lia.
    + destruct (read s (PLoc q)); cbn [bind] in H'; try discriminate. eapply BR; eauto.
    + destruct (read s (PLoc q)); cbn [bind] in H'; try discriminate. destruct (deref a); cbn [bind] in H'; try discriminate.
      destruct (read s (PMem a0)); cbn [bind] in H'; try discriminate. eapply BR; eauto.
    + destruct (read s (PLoc q)); cbn [bind] in H'; try discriminate. destruct (deref a); cbn [bind] in H'; try discriminate.
      destruct (read s (PLoc p)); cbn [bind] in H'; try discriminate. eapply BR; eauto.
    + eapply BR; eauto.
  - destruct (nth_error (rc_th s) t) as [[stk ph]|]; try discriminate. unfold step_thread in H; cbn [th_stk th_ph] in H.
    destruct stk as [|f stk].
    + destruct ph as [|p [x|] rds fr|p x rds fr]; try discriminate.
      * inversion H; subst. apply explains_none; [intros o; now rewrite st_set_th, st_set_cell|cbn; apply len_set_cell].
      * inversion H; subst. apply explains_none; [intros o; now rewrite st_set_th, st_set_cell|cbn; apply len_set_cell].
      * unfold rd in H. destruct (nth_error (rc_obj s) x) as [ob|] eqn:Ho; cbn [bind] in H; try discriminate.
        destruct (o_st ob) eqn:Al; try discriminate. destruct (bad _); inversion H; subst.
        apply explains_none; [|cbn; rewrite len_set_cell; cbn; apply length_upd].
        intros o. rewrite st_set_th, st_set_cell. rewrite (st_set_obj _ _ _ _ _ Ho). destruct (Nat.eqb_spec x o) as [<-|]; [|tauto].
        unfold st_of. rewrite Ho, Al. cbn. intuition discriminate.
    + inversion H as [H']; clear H. destruct f as [o|o|o]; cbn [step_frame] in H'; unfold rd in H';
        (destruct (nth_error (rc_obj s) o) as [ob|] eqn:Ho; cbn [bind] in H'; try discriminate); destruct (o_st ob) eqn:Al; try discriminate.
      * destruct (bad _); try discriminate. destruct (_ =? _); inversion H'; subst; (apply explains_none; [|cbn; apply length_upd]);
          intros o'; rewrite st_set_th, (st_set_obj _ _ _ _ _ Ho); destruct (Nat.eqb_spec o o') as [<-|]; try tauto;
          unfold st_of; rewrite Ho, Al; cbn; intuition discriminate.
      * inversion H'; subst; (apply explains_none; [|cbn; apply length_upd]);
          intros o'; rewrite st_set_th, (st_set_obj _ _ _ _ _ Ho); destruct (Nat.eqb_spec o o') as [<-|]; try tauto;
          unfold st_of; rewrite Ho, Al; cbn; intuition discriminate.
      * destruct (negb _); inversion H'; subst. split; [|split]; [| |cbn; apply length_upd].
        -- intros o'. rewrite st_set_th, (st_set_obj _ _ _ _ _ Ho). destruct (Nat.eqb_spec o o') as [<-|N]; cbn; [tauto|].
           split; [auto|]. intros [E|E]; auto. congruence.
        -- intros o' E. inversion E; subst. unfold st_of. rewrite Ho, Al. discriminate.
Qed.

(** The member of an object is gone once its destructor has released it. *)
Definition mem_of (s : rc) (o : nat) : option (option nat) := match nth_error (rc_obj s) o with Some ob => Some (c_ptr (o_mem ob)) | None => None end.
Definition gone (s : rc) : Prop :=
  (forall o, st_of s o = Some Freed -> mem_of s o = Some None) /\
  (forall t th o, nth_error (rc_th s) t = Some th -> In (FEnd o) (th_stk th) -> mem_of s o = Some None).

Lemma mem_set_cell : forall s p c o, p <> PMem o -> mem_of (set_cell s p c) o = mem_of s o.
Proof.
  intros s [i|j] c o N; cbn; auto. destruct (nth_error (rc_obj s) j) as [ob|] eqn:E; auto. unfold mem_of; cbn. rewrite nth_upd.
  destruct (Nat.eqb_spec j o) as [<-|]; auto. congruence.
Qed.
Lemma mem_set_obj : forall s j ob ob' o, nth_error (rc_obj s) j = Some ob -> mem_of (set_obj s j ob') o = if Nat.eqb j o then Some (c_ptr (o_mem ob')) else mem_of s o.
Proof. intros s j ob ob' o H. unfold mem_of; cbn. rewrite nth_upd. destruct (Nat.eqb_spec j o) as [<-|]; auto. now rewrite H. Qed.

Lemma end_dying : forall s t th o, inv s -> nth_error (rc_th s) t = Some th -> In (FEnd o) (th_stk th) -> st_of s o = Some Dying.
Proof.
  intros s t th o I H F. assert (P : 1 <= Dn s o) by (eapply stk_D; eauto).
  destruct (pos_dying _ _ _ I P) as (ob & A & B). unfold st_of. now rewrite A, B.
Qed.

(** Assigning to a variable of which the owner is alive *)
Lemma gone_cell : forall s p c, inv s -> gone s -> (forall o, p = PMem o -> st_of s o = Some Alive) -> gone (set_cell s p c).
Proof.
  intros s p c I [G1 G2] A. split.
  - intros o H. rewrite st_set_cell in H. rewrite mem_set_cell; auto. intros ->. rewrite (A o eq_refl) in H. discriminate.
  - intros t th o H F. rewrite th_set_cell in H. rewrite mem_set_cell; [eapply G2; eauto|]. intros ->.
    pose proof (end_dying _ _ _ _ I H F) as X. rewrite (A o eq_refl) in X. discriminate.
Qed.
Lemma gone_th : forall s t th stk ph, gone s -> nth_error (rc_th s) t = Some th -> (forall o, In (FEnd o) stk -> In (FEnd o) (th_stk th) \/ mem_of s o = Some None) ->
  gone (set_th s t (mkTh stk ph)).
Proof.
  intros s t th stk ph [G1 G2] Ht H. split; [exact G1|]. intros u th' o Hu F. cbn in Hu. change (mem_of (set_th s t (mkTh stk ph)) o) with (mem_of s o).
  rewrite nth_upd in Hu. destruct (Nat.eqb_spec t u) as [<-|]; [|eapply G2; eauto].
  rewrite Ht in Hu. inversion Hu; subst. cbn in F. destruct (H o F) as [X|X]; auto. eapply G2; eauto.
Qed.
Lemma gone_obj : forall s o ob ob', gone s -> nth_error (rc_obj s) o = Some ob -> 
  (c_ptr (o_mem ob') = c_ptr (o_mem ob) /\ (o_st ob' = Freed -> c_ptr (o_mem ob) = None) \/ c_ptr (o_mem ob') = None) -> gone (set_obj s o ob').
Proof.
  intros s o ob ob' [G1 G2] Ho H.
  assert (MO : mem_of s o = Some (c_ptr (o_mem ob))) by (unfold mem_of; now rewrite Ho).
  split.
  - intros x Hx. rewrite (st_set_obj _ _ _ _ _ Ho) in Hx. rewrite (mem_set_obj _ _ _ _ _ Ho). destruct (Nat.eqb_spec o x) as [E0|]; auto.
    destruct H as [[H1 H2]|H]; [|now rewrite H]. rewrite H1. inversion Hx as [X]. now rewrite (H2 X).
  - intros t th x Ht F. rewrite (mem_set_obj _ _ _ _ _ Ho). destruct (Nat.eqb_spec o x) as [E0|]; [subst x|eapply G2; eauto].
    destruct H as [[H1 H2]|H]; [|now rewrite H]. rewrite H1, <- MO. eapply G2; eauto.
Qed.

Lemma begin_gone : forall s t p new rds fr s', inv s \/ (forall o, p <> PMem o) -> gone s -> nth_error (rc_th s) t = Some (mkTh [] Idle) ->
  (forall u th o, nth_error (rc_th s) u = Some th -> In (FEnd o) (th_stk th) -> st_of s o <> Some Alive) ->
  begin_reset s t p new rds fr = Ok s' -> gone s'.
Proof.
  intros s t p new rds fr s' HI G Ht HE H. unfold begin_reset in H.
  destruct (read s p) as [old| |] eqn:Er; try discriminate. cbn [bind] in H.
  destruct (opt_eqb new old); inversion H; subst; auto.
  assert (GC : gone (set_cell s p (mkCell old true))).
  { destruct G as [G1 G2].
    assert (AL : forall o, p = PMem o -> st_of s o = Some Alive).
    { intros o ->. cbn in Er. unfold rd in Er. unfold st_of. destruct (nth_error (rc_obj s) o) as [ob|]; cbn in Er; try discriminate. destruct (o_st ob); try discriminate. reflexivity. }
    split.
    - intros o X. rewrite st_set_cell in X. rewrite mem_set_cell; auto. intros ->. rewrite (AL o eq_refl) in X. discriminate.
    - intros u th o X F. rewrite th_set_cell in X. rewrite mem_set_cell; [eapply G2; eauto|]. intros ->. eapply HE; eauto. }
  eapply gone_th; eauto; [rewrite th_set_cell; eauto|].
  intros o F. destruct old; cbn in F; intuition discriminate.
Qed.

Lemma step_gone : forall s l out s', inv s -> gone s -> rc_step s l = Some (Ok (out, s')) -> gone s'.
Proof.
  intros s [t o|t] out s' I G H; cbn [rc_step] in H.
  - destruct (nth_error (rc_th s) t) as [[[|f stk] [| |]]|] eqn:Ht; try discriminate. inversion H as [H']; clear H.
    assert (HE : forall u th o, nth_error (rc_th s) u = Some th -> In (FEnd o) (th_stk th) -> st_of s o <> Some Alive).
    { intros u th x Hu F. rewrite (end_dying _ _ _ _ I Hu F). discriminate. }
    assert (BR : forall p new rds fr, (s'' <- begin_reset s t p new rds fr ;; Ok (RNone, s'')) = Ok (out, s') -> gone s').
    { intros p new rds fr E. destruct (begin_reset s t p new rds fr) as [s2| |] eqn:E2; cbn in E; try discriminate. inversion E; subst. eapply begin_gone; eauto. }
    destruct o as [p|p q|p q|q p|p]; cbn [start] in H'.
    + set (s1 := mkRc (rc_loc s) _ _) in H'.
      destruct (begin_reset s1 t (PLoc p) (Some (length (rc_obj s))) [] true) as [s2| |] eqn:E2; cbn in H'; try discriminate. inversion H'; subst.
      assert (SM : forall o, mem_of s o = Some None -> mem_of s1 o = Some None).
      { intros o X. unfold mem_of in *; cbn. destruct (nth_error (rc_obj s) o) eqn:E; [|discriminate]. rewrite nth_error_app1, E; auto. apply nth_error_Some. congruence. }
      assert (SS : forall o, st_of s1 o = st_of s o \/ st_of s1 o = Some Alive /\ (length (rc_obj s) <= o)%nat).
      { intros o. unfold st_of; cbn. destruct (Nat.lt_ge_cases o (length (rc_obj s))) as [X|X].
        - rewrite nth_error_app1 by auto. auto.
        - rewrite nth_error_app2 by auto. rewrite (proj2 (nth_error_None _ _) X). destruct (o - _)%nat as [|k]; cbn; auto. destruct k; auto. }
      eapply (begin_gone s1 t (PLoc p)); [right; discriminate| |exact Ht| |exact E2].
      * destruct G as [G1 G2]. split.
        -- intros o X. apply SM. apply G1. destruct (SS o) as [Y|[Y _]]; congruence.
        -- intros u th o X F. apply SM. eapply G2; eauto.
      * intros u th o X F. pose proof (end_dying _ _ _ _ I X F) as Y. destruct (SS o) as [Z|[Z L]]; [congruence|].
        unfold st_of in Y. rewrite (proj2 (nth_error_None _ _) L) in Y. discriminate.
    + destruct (read s (PLoc q)); cbn [bind] in H'; try discriminate. eapply BR; eauto.
    + destruct (read s (PLoc q)); cbn [bind] in H'; try discriminate. destruct (deref a); cbn [bind] in H'; try discriminate.
      destruct (read s (PMem a0)); cbn [bind] in H'; try discriminate. eapply BR; eauto.
    + destruct (read s (PLoc q)); cbn [bind] in H'; try discriminate. destruct (deref a); cbn [bind] in H'; try discriminate.
      destruct (read s (PLoc p)); cbn [bind] in H'; try discriminate. eapply BR; eauto.
    + eapply BR; eauto.
  - destruct (nth_error (rc_th s) t) as [[stk ph]|] eqn:Ht; try discriminate. unfold step_thread in H; cbn [th_stk th_ph] in H.
    assert (DA : forall p, dest_of ph = Some p -> forall o, p = PMem o -> st_of s o = Some Alive).
    { intros p D o ->. destruct (k_dmem _ _ (v_op _ _ I _ _ Ht) _ D) as (q & _ & X). destruct (held_alive _ _ _ _ I X) as (ob & A & B).
      unfold st_of. now rewrite A, B. }
    destruct stk as [|f stk].
    + destruct ph as [|p [x|] rds fr|p x rds fr]; try discriminate.
      * inversion H; subst. eapply gone_th; [apply gone_cell; [exact I|exact G|exact (DA _ eq_refl)]|rewrite th_set_cell; eauto|intros ? []].
      * inversion H; subst. eapply gone_th; [apply gone_cell; [exact I|exact G|exact (DA _ eq_refl)]|rewrite th_set_cell; eauto|intros ? []].
      * unfold rd in H. destruct (nth_error (rc_obj s) x) as [ob|] eqn:Ho; cbn [bind] in H; try discriminate.
        destruct (o_st ob) eqn:Al; try discriminate. destruct (bad _); inversion H; subst.
        assert (G' : gone (set_obj s x (mkObj (o_cnt ob + 1) (o_mem ob) Alive))) by (eapply gone_obj; eauto; left; split; [reflexivity|discriminate]).
        eapply gone_th; [|rewrite th_set_cell; eauto|intros ? []].
        destruct G' as [G1 G2]. split.
        -- intros o X. rewrite st_set_cell in X. rewrite mem_set_cell; auto. intros ->. rewrite (st_set_obj _ _ _ _ _ Ho) in X. 
           pose proof (DA _ eq_refl o eq_refl) as Y. destruct (Nat.eqb_spec x o); [discriminate|congruence].
        -- intros u th o X F. rewrite th_set_cell in X. rewrite mem_set_cell; [eapply G2; eauto|]. intros ->.
           pose proof (DA _ eq_refl o eq_refl) as Y. pose proof (end_dying s u th o I X F) as Y'. congruence.
    + inversion H as [H']; clear H. destruct f as [o|o|o]; cbn [step_frame] in H'; unfold rd in H';
        (destruct (nth_error (rc_obj s) o) as [ob|] eqn:Ho; cbn [bind] in H'; try discriminate); destruct (o_st ob) eqn:Al; try discriminate.
      * destruct (bad _); try discriminate. destruct (_ =? _); inversion H'; subst; (eapply gone_th; [eapply gone_obj; eauto; left; split; [reflexivity|discriminate]|exact Ht|]); cbn; intros x X; intuition discriminate.
      * inversion H'; subst. eapply gone_th; [eapply gone_obj; eauto|exact Ht|]. intros x X. cbn [th_stk]. rewrite (mem_set_obj _ _ _ _ _ Ho).
        destruct (Nat.eqb_spec o x) as [<-|N]; [auto|]. left. right. apply in_app_iff in X. destruct X as [X|[X|X]]; auto; [|congruence].
        destruct (c_ptr (o_mem ob)); cbn in X; intuition discriminate.
      * destruct (negb _); inversion H'; subst. eapply gone_th; [eapply gone_obj; eauto|exact Ht|].
        -- left. split; auto. intros _. assert (M : mem_of s o = Some None) by (eapply (proj2 G); [exact Ht|left; reflexivity]).
           unfold mem_of in M. rewrite Ho in M. congruence.
        -- intros x X. left; right; auto.
Qed.

Record hist (outs : list rout) (s : rc) : Prop := {
  h_inv : inv s;
  h_gone : gone s;
  h_dead : forall o, In o (destroyed outs) <-> st_of s o = Some Freed;
  h_once : NoDup (destroyed outs);
  h_created : created outs = seq 0 (length (rc_obj s)) }.

Lemma created_app : forall a b, created (a ++ b) = created a ++ created b. Proof. intros; apply flat_map_app. Qed.
Lemma destroyed_app : forall a b, destroyed (a ++ b) = destroyed a ++ destroyed b. Proof. intros; apply flat_map_app. Qed.

Lemma nodup_snoc' : forall (l : list nat) x, NoDup l -> ~ In x l -> NoDup (l ++ [x]).
Proof.
  induction l as [|a l IH]; cbn; intros x N H; [repeat constructor; auto|].
  apply NoDup_cons_iff in N. destruct N as [N1 N2]. constructor; [|apply IH; auto].
  rewrite in_app_iff. cbn. intros [X|[X|[]]]; [auto|subst; auto].
Qed.

Lemma hist_step : forall outs s l, hist outs s -> (match l with RStart _ o => may_start s o | _ => True end) ->
  match rc_step s l with
  | None => True
  | Some (Ok (o, s')) => hist (outs ++ [o]) s'
  | Some Panic => overflow s
  | Some UB => False
  end.
Proof.
  intros outs s l [I G D N C] M. pose proof (step_inv s l I M) as SI.
  destruct (rc_step s l) as [[[o s']| |]|] eqn:E; auto.
  destruct (step_explains _ _ _ _ E) as (X1 & X2 & X3).
  assert (DA : destroyed (outs ++ [o]) = destroyed outs ++ match o with RDestroyed x => [x] | _ => [] end).
  { rewrite destroyed_app. destruct o; reflexivity. }
  constructor; auto.
  - exact (step_gone _ _ _ _ I G E).
  - intros x. rewrite DA, in_app_iff, D, X1. clear. destruct o; cbn; split; (intros [H|H]; [auto|]); try discriminate; try tauto; try (destruct H as [->|[]]; auto); inversion H; auto.
  - rewrite DA. destruct o as [| |x]; rewrite ?app_nil_r; auto. apply nodup_snoc'; auto. rewrite D. auto.
  - rewrite created_app, C. destruct o as [|x|x]; cbn; rewrite ?app_nil_r; try (now rewrite X3).
    destruct X3 as [-> ->]. rewrite seq_S. reflexivity.
Qed.

Lemma run_hist : forall ls outs s, hist outs s -> well_used s ls ->
  match rc_run s ls with
  | Ok (o2, s2) => hist (outs ++ o2) s2
  | Panic => exists ls1 o1 s1, rc_run s ls1 = Ok (o1, s1) /\ overflow s1
  | UB => False
  end.
Proof.
  induction ls as [|l ls IH]; intros outs s H W; cbn [rc_run].
  - now rewrite app_nil_r.
  - cbn [well_used] in W. pose proof (hist_step outs s l H) as HS. destruct (rc_step s l) as [[[o s']| |]|] eqn:E.
    + destruct W as [W1 W2]. specialize (HS W1). cbn [bind snd fst].
      specialize (IH _ _ HS W2). destruct (rc_run s' ls) as [[o2 s2]| |]; cbn; auto.
      * rewrite <- app_assoc in IH. exact IH.
      * destruct IH as (ls1 & o1 & s1 & A & B). exists (l :: ls1), (o :: o1), s1. cbn [rc_run]. rewrite E. cbn. rewrite A. auto.
    + destruct W as [W1 _]. cbn. exists [], [], s. split; auto.
    + destruct W as [W1 _]. exact (HS W1).
    + apply IH; auto.
Qed.
Lemma hist0 : forall T L, hist [] (rc_new T L).
Proof.
  intros. constructor; [apply inv0| | |constructor|reflexivity].
  { split; [intros [|o] H; discriminate|]. intros t th o H F. cbn in H. apply repeat_nth in H. subst. destruct F. }
  intros o. unfold st_of; cbn. destruct o; cbn; intuition discriminate.
Qed.

Lemma held_pos : forall outs s o, hist outs s -> held s o -> 1 <= R s o.
Proof.
  intros outs s o H [(i & (wr & P) & NW)|(j & ob & E & S & P & NW)].
  - pose proof (nw_false _ s (PLoc i) (Some o) wr (h_inv _ _ H) NW P). subst. eapply (get_R s (PLoc i)); eauto.
  - assert (G : get_cell s (PMem j) = Some (mkCell (Some o) (c_wr (o_mem ob)))).
    { cbn. rewrite E. destruct (o_mem ob) as [v b]; cbn in *; now subst. }
    pose proof (nw_false _ _ _ _ _ (h_inv _ _ H) NW G) as X. rewrite X in G. eapply get_R; eauto.
Qed.
Lemma held_not_destroyed : forall outs s o, hist outs s -> held s o -> ~ In o (destroyed outs).
Proof.
  intros outs s o H Hd D. apply (h_dead _ _ H) in D. apply (held_pos _ _ _ H) in Hd.
  destruct (pos_alive _ _ _ (h_inv _ _ H) Hd) as (ob & A & B). unfold st_of in D. rewrite A, B in D. discriminate.
Qed.
(** Freed objects have no members left *)
Lemma idle_held : forall outs s o, hist outs s -> idle s -> 1 <= R s o -> held s o.
Proof.
  intros outs s o H Id P.
  assert (FM : forall j ob, nth_error (rc_obj s) j = Some ob -> o_st ob = Freed -> c_ptr (o_mem ob) = None).
  { intros j ob E F. assert (M : mem_of s j = Some None) by (apply (proj1 (h_gone _ _ H)); unfold st_of; now rewrite E, F).
    unfold mem_of in M. rewrite E in M. congruence. } unfold idle in Id. rewrite Forall_forall in Id.
  assert (NW : forall p, not_written s p).
  { intros p. apply Forall_forall. intros th Hth. rewrite (Id th Hth). discriminate. }
  assert (T0 : sumf (tr o) (rc_th s) = 0).
  { apply sumf_zero, Forall_forall. intros th Hth. rewrite (Id th Hth). reflexivity. }
  unfold R in P. rewrite T0 in P.
  pose proof (sumf_nonneg (w o) (rc_loc s) (w_nonneg o)). pose proof (sumf_nonneg (wo o) (rc_obj s) (wo_nonneg o)).
  assert (WP : forall c, 0 < w o c -> c_ptr c = Some o).
  { intros c Hc. unfold w in Hc. destruct (negb (c_wr c)); cbn in Hc; [|lia]. destruct (opt_eqb (c_ptr c) (Some o)) eqn:E; cbn in Hc; [|lia]. now apply opt_eqb_spec in E. }
  destruct (Z_lt_dec 0 (sumf (w o) (rc_loc s))) as [X|X].
  - destruct (sumf_pos _ _ (w_nonneg o) X) as (i & c & A & B). left. exists i. split; auto. exists (c_wr c). rewrite A. f_equal.
    destruct c; cbn in *. f_equal. apply (WP _ B).
  - destruct (sumf_pos (wo o) (rc_obj s) (wo_nonneg o)) as (j & ob & A & B); [lia|]. right. exists j, ob. split; [auto|]. split; [|split; [apply (WP _ B)|auto]].
    intros F. pose proof (FM _ _ A F) as X'. pose proof (WP _ B). congruence.
Qed.

Lemma idle_destroyed : forall outs s o, hist outs s -> idle s -> In o (created outs) -> (In o (destroyed outs) <-> ~ held s o).
Proof.
  intros outs s o H Id C. split; [intros D X; eapply held_not_destroyed; eauto|]. intros NH.
  rewrite (h_created _ _ H) in C. apply in_seq in C. pose proof (h_inv _ _ H) as I.
  destruct (nth_error (rc_obj s) o) as [ob|] eqn:E; [|apply nth_error_None in E; lia].
  apply (h_dead _ _ H). unfold st_of. rewrite E. f_equal.
  unfold idle in Id. rewrite Forall_forall in Id.
  destruct (o_st ob) eqn:S; auto; exfalso.
  - destruct (v_live _ _ I _ _ E S) as [L|[(t & th & A & B)|L]]; [|apply nth_error_In in A; rewrite (Id _ A) in B; discriminate|discriminate].
    apply NH. eapply idle_held; eauto. unfold idle. now apply Forall_forall.
  - pose proof (v_dying _ _ I _ _ E) as V. rewrite S in V. unfold Dn in V. rewrite sumf_zero in V; [discriminate|].
    apply Forall_forall. intros th Hth. rewrite (Id th Hth). reflexivity.
Qed.

Lemma idle_count : forall outs s o, hist outs s -> idle s -> In o (created outs) -> ~ In o (destroyed outs) -> counter s o = Some (holders s o).
Proof.
  intros outs s o H Id C ND. pose proof (h_inv _ _ H) as I.
  rewrite (h_created _ _ H) in C. apply in_seq in C.
  unfold idle in Id. rewrite Forall_forall in Id.
  unfold counter. destruct (nth_error (rc_obj s) o) as [ob|] eqn:E; [|apply nth_error_None in E; lia]. f_equal.
  assert (Al : o_st ob = Alive).
  { destruct (o_st ob) eqn:S; auto; exfalso.
    - pose proof (v_dying _ _ I _ _ E) as V. rewrite S in V. unfold Dn in V. rewrite sumf_zero in V; [discriminate|].
      apply Forall_forall. intros th Hth. rewrite (Id th Hth). reflexivity.
    - apply ND. apply (h_dead _ _ H). unfold st_of. now rewrite E, S. }
  pose proof (v_obj _ _ I _ _ E) as V. rewrite Al in V. destruct V as [V _]. rewrite V. unfold R.
  assert (T0 : sumf (tr o) (rc_th s) = 0).
  { apply sumf_zero, Forall_forall. intros th Hth. rewrite (Id th Hth). reflexivity. }
  rewrite T0, Z.add_0_r.
  assert (NW : forall p v b, get_cell s p = Some (mkCell v b) -> b = false).
  { intros p v b G. destruct b; auto. destruct (v_wr _ _ I _ _ G) as (t & th & A & B). apply nth_error_In in A. rewrite (Id _ A) in B. discriminate. }
  unfold holders. rewrite filter_app, app_length, Nat2Z.inj_add. f_equal.
  - assert (F : Forall (fun c => c_wr c = false) (rc_loc s)).
    { apply Forall_forall. intros c Hc. apply In_nth_error in Hc. destruct Hc as [i Hi]. destruct c as [v b]. apply (NW (PLoc i) v). exact Hi. }
    induction F as [|c l F0 F IH]; auto. cbn [sumf filter]. rewrite IH. unfold w. rewrite F0. cbn [negb andb].
    unfold opt_eqb. destruct (c_ptr c) as [x|]; cbn; [|lia]. destruct (x =? o)%nat; cbn [ind length]; lia.
  - assert (F : Forall (fun b => c_wr (o_mem b) = false) (rc_obj s)).
    { apply Forall_forall. intros b Hc. apply In_nth_error in Hc. destruct Hc as [i Hi]. destruct (o_mem b) as [v x] eqn:Em. apply (NW (PMem i) v). cbn. rewrite Hi. congruence. }
    clear C E V. induction F as [|c l F0 F IH]; auto. cbn [sumf filter map]. rewrite IH. unfold wo, w. rewrite F0. cbn [negb andb].
    unfold opt_eqb. destruct (c_ptr (o_mem c)) as [x|]; cbn; [|lia]. destruct (x =? o)%nat; cbn [ind length]; lia.
Qed.
