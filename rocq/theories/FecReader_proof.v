(** Invariants of the FEC reader: what the blocks hold, and where the packets read come from. *)
From Verif Require Import Base Base_lemmas Seqnum_model Seqnum_proof RtpFilter_proof SortedQueue_model MemLimiter_proof FecReader_model FecReader_spec.
Open Scope res_scope.
Local Open Scope Z_scope.

(** * The queues *)
Lemma back_in {A} (l : list A) p : list_back l = Some p -> l = removelast l ++ [p].
Proof.
  induction l as [|x l IH]; cbn; [discriminate|]. destruct l; [intros [= ->]; reflexivity|].
  intros H. rewrite (IH H) at 1. reflexivity.
Qed.
Lemma back_none {A} (l : list A) : list_back l = None -> l = [].
Proof. induction l as [|x l IH]; [auto|]. cbn. destruct l; [discriminate|]. intros H. specialize (IH H). discriminate. Qed.
Lemma head_read (q : sq rpk) p : sq_head q = Some p -> sq_read q = (mkSq (removelast (sq_list q)) (sq_latest q) (sq_max q), Some p).
Proof. unfold sq_head, sq_read. intros ->. reflexivity. Qed.
Lemma insert_forall (P : rpk -> Prop) p l l' : P p -> Forall P l -> sq_insert pk_cmp p l = Some l' -> Forall P l'.
Proof.
  intros Hp. revert l'. induction l as [|q l IH]; cbn; intros l' Hl E.
  - injection E as <-. auto.
  - inversion Hl; subst. destruct (_ <? 0).
    + destruct (sq_insert pk_cmp p l); [|discriminate]. injection E as <-. auto.
    + destruct (_ =? 0); [discriminate|]. injection E as <-. auto.
Qed.
Lemma write_forall (P : rpk -> Prop) p q : P p -> Forall P (sq_list q) -> Forall P (sq_list (sq_write pk_cmp q p)).
Proof.
  intros Hp Hq. unfold sq_write. destruct (_ && _); [exact Hq|].
  destruct (sq_insert pk_cmp p (sq_list q)) as [l|] eqn:E; [cbn|exact Hq]. eapply insert_forall; eauto.
Qed.
Lemma fetch_forall (P : rpk -> Prop) e l : forall q err q' al ok, (forall p, In p l -> P p) ->
  Forall (fun p => P p /\ k_fec p <> None) (sq_list q) ->
  fetch e q l err = Ok (q', al, ok) -> Forall (fun p => P p /\ k_fec p <> None) (sq_list q').
Proof.
  induction l as [|p l IH]; intros q err q' al ok HP Hq; cbn [fetch].
  - intros [= <- _ _]. exact Hq.
  - unfold scheme_ok. destruct (k_fec p) eqn:Ef; [cbn [bind]|discriminate].
    destruct (_ =? _); [|intros [= <- _ _]; exact Hq].
    apply IH; [intros; apply HP; right; auto|].
    apply write_forall; [|exact Hq]. split; [apply HP; left; auto|congruence].
Qed.

Ltac splits := repeat match goal with |- _ /\ _ => split end.

Definition empty (l : list (option rpk)) : Prop := forall i p, nth_error l i <> Some (Some p).
Lemma nth_repeat_none n i (p : rpk) : nth_error (repeat None n) i <> Some (Some p).
Proof. revert i. induction n; destruct i; cbn; try discriminate. apply IHn. Qed.
Lemma empty_repeat n : empty (repeat None n).
Proof. intros i p. apply nth_repeat_none. Qed.
Lemma empty_resize l n : empty l -> empty (resize_to l n).
Proof.
  intros H i p E. unfold resize_to in E. destruct (Nat.lt_ge_cases i (length (firstn n l))).
  - rewrite nth_error_app1 in E by auto. apply (H i p). rewrite <- E. rewrite nth_error_firstn.
    rewrite firstn_length in *. destruct (i <? n)%nat eqn:Ei; [auto|lia].
  - rewrite nth_error_app2 in E by auto. exact (nth_repeat_none _ _ _ E).
Qed.
Lemma length_resize l n : length (resize_to l n) = n.
Proof. unfold resize_to. rewrite app_length, firstn_length, repeat_length. lia. Qed.
Lemma resize_same l : resize_to l (length l) = l.
Proof. unfold resize_to. rewrite firstn_all, Nat.sub_diag. apply app_nil_r. Qed.


Lemma removelast_forall {A} (P : A -> Prop) l : Forall P l -> Forall P (removelast l).
Proof.
  intros H. rewrite Forall_forall in *. intros x Hx. apply H. clear H P.
  induction l as [|y l IH]; [destruct Hx|]. cbn in Hx. destruct l; [destruct Hx|]. destruct Hx as [<-|Hx]; [left; auto|right; auto].
Qed.
Lemma back_forall {A} (P : A -> Prop) l p : Forall P l -> list_back l = Some p -> P p.
Proof. intros H E. apply back_in in E. rewrite E in H. apply Forall_app in H as [_ H]. inversion H; auto. Qed.
Lemma removelast_length {A} (l : list A) p : list_back l = Some p -> length l = Datatypes.S (length (removelast l)).
Proof. intros E. apply back_in in E. rewrite E at 1. rewrite app_length. cbn. lia. Qed.

Section Inv.
Variable e : renv.
Variables SP RP : rpk -> Prop.

Definition slot (k pay : nat) (b : Z) (i : nat) (p : rpk) : Prop :=
  SP p /\ exists f, k_fec p = Some f /\ c_sbn f = u16 b /\ c_esi f = i /\ c_sblen f = k /\ c_psize f = pay /\ pay <> O.
Definition rslot (k pay : nat) (b : Z) (i : nat) (p : rpk) : Prop :=
  RP p /\ exists f, k_fec p = Some f /\ c_sbn f = u16 b /\ c_esi f = (k + i)%nat /\ c_sblen f = k /\ c_psize f = pay /\ pay <> O.
Definition rest (b : Z) (i : nat) (p : rpk) : Prop := k_fec p = None /\ restored e SP RP (b, i) p.
Record inv (r : fr) (b : Z) : Prop := mkInv {
  v_sbn : r_sbn r = u16 b;
  v_src : Forall (fun p => SP p /\ k_fec p <> None) (sq_list (r_src r));
  v_rep : Forall (fun p => RP p /\ k_fec p <> None) (sq_list (r_rep r));
  v_sb : forall i p, nth_error (r_sb r) i = Some (Some p) -> slot (length (r_sb r)) (r_psize r) b i p \/ rest b i p;
  v_rb : forall i p, nth_error (r_rb r) i = Some (Some p) -> rslot (length (r_sb r)) (r_psize r) b i p;
  v_s0 : r_sres r = false -> empty (r_sb r) /\ empty (r_rb r);
  v_p0 : r_pres r = false -> empty (r_sb r) /\ empty (r_rb r);
  v_r0 : r_rres r = false -> empty (r_rb r);
  v_rs : r_rres r = true -> r_sres r = true }.
(** The length of the block is the one announced for it. *)
Definition szd (r : fr) (b : Z) : Prop := r_sres r = true -> block_length SP RP b (length (r_sb r)).

(** * Accepting a packet *)
(** What process_source leaves alone. *)
Definition frame_s (r r' : fr) : Prop :=
  r_src r' = r_src r /\ r_rep r' = r_rep r /\ r_rb r' = r_rb r /\ r_started r' = r_started r /\ r_can r' = r_can r
  /\ r_next r' = r_next r /\ r_sbn r' = r_sbn r /\ r_rres r' = r_rres r.
Record ps_spec (r : fr) (f : fec) (r' : fr) (ok : bool) : Prop := {
  s_frame : frame_s r r';
  s_ok : ok = true -> source_ok f = true /\ r_alive r' = r_alive r /\ length (r_sb r') = c_sblen f /\ r_psize r' = c_psize f
                      /\ r_sres r' = true /\ r_pres r' = true /\ (r_sb r' = r_sb r \/ r_sres r = false);
  s_no : ok = false -> r_sb r' = r_sb r /\ r_sres r' = r_sres r;
  s_sb : r_sb r' = r_sb r \/ (r_sres r = false /\ r_sb r' = resize_to (r_sb r) (c_sblen f));
  s_res : r_sres r = true -> r_sres r' = true;
  s_pay : r_psize r' = r_psize r \/ r_pres r = false;
  s_pres : r_pres r' = true \/ (r_pres r' = r_pres r /\ r_psize r' = r_psize r);
  s_alive : r_alive r' = true -> r_alive r = true }.
Lemma process_source_spec r f : ps_spec r f (fst (process_source e r f)) (snd (process_source e r f)).
Proof.
  unfold process_source. destruct (source_ok f) eqn:Eok; cbn [negb].
  2:{ split; cbn; unfold frame_s; intuition (try congruence; auto). }
  destruct (can_payload r (c_psize f)) eqn:Ep; cbn [negb].
  2:{ split; cbn; unfold frame_s; intuition (try congruence; auto). }
  assert (Hp : c_psize f = r_psize r \/ r_pres r = false).
  { unfold can_payload in Ep. apply Bool.orb_true_iff in Ep as [Ep|Ep]; [left; lia|right; destruct (r_pres r); auto; discriminate]. }
  unfold can_source. destruct (length (r_sb r) =? c_sblen f)%nat eqn:El.
  - unfold update_source. cbn. rewrite El. apply Nat.eqb_eq in El. split; cbn; unfold frame_s; intuition (try congruence; auto).
  - destruct (r_sres r) eqn:Es; cbn [negb snd fst].
    { split; cbn; unfold frame_s; intuition (try congruence; auto). }
    destruct (o_max e <? c_sblen f)%nat; cbn [negb snd fst].
    { split; cbn; unfold frame_s; intuition (try congruence; auto). }
    unfold update_source. cbn. rewrite El. destruct (o_alloc e (r_tick r)); cbn.
    + split; cbn; unfold frame_s; rewrite ?length_resize; intuition (try congruence; auto).
    + split; cbn; unfold frame_s; intuition (try congruence; auto).
Qed.
Lemma inv_process_source r f b : inv r b -> inv (fst (process_source e r f)) b.
Proof.
  intros [V1 V2 V3 V4 V5 V6 V7 V8 V9]. destruct (process_source_spec r f) as [F A1 A2 A3 A4 A5 A6 A7].
  set (r' := fst (process_source e r f)) in *. destruct F as (F1 & F2 & F3 & F4 & F5 & F6 & F7 & F8).
  assert (Hs : r_sb r' = r_sb r \/ (empty (r_sb r') /\ empty (r_rb r))).
  { destruct A3 as [A3|[A3 A3']]; [auto|]. right. destruct (V6 A3). split; [rewrite A3'; apply empty_resize; auto|auto]. }
  assert (Hq : r_psize r' = r_psize r \/ (empty (r_sb r) /\ empty (r_rb r))).
  { destruct A5 as [A5|A5]; [auto|]. right. apply V7. exact A5. }
  assert (He : empty (r_sb r) -> empty (r_sb r')).
  { destruct Hs as [-> |[Hs _]]; auto. }
  constructor.
  - congruence.
  - congruence.
  - congruence.
  - intros i p Hi. destruct Hs as [Hs|[Hs _]]; [|exfalso; exact (Hs _ _ Hi)].
    destruct Hq as [Hq|[Hq _]]; [|rewrite Hs in Hi; exfalso; exact (Hq _ _ Hi)].
    rewrite Hs in Hi |- *. rewrite Hq. auto.
  - intros i p Hi. rewrite F3 in Hi. destruct Hs as [Hs|[_ Hs]]; [|exfalso; exact (Hs _ _ Hi)].
    destruct Hq as [Hq|[_ Hq]]; [|exfalso; exact (Hq _ _ Hi)]. rewrite Hs, Hq. auto.
  - intros Hr. assert (r_sres r = false) by (destruct (r_sres r); auto; rewrite A4 in Hr; auto).
    rewrite F3. destruct (V6 H). auto.
  - intros Hr. assert (r_pres r = false) by (destruct A6 as [A6|[A6 _]]; congruence).
    rewrite F3. destruct (V7 H). auto.
  - rewrite F3, F8. exact V8.
  - rewrite F8. auto.
Qed.

Definition frame_r (r r' : fr) : Prop :=
  r_src r' = r_src r /\ r_rep r' = r_rep r /\ r_started r' = r_started r /\ r_can r' = r_can r
  /\ r_next r' = r_next r /\ r_sbn r' = r_sbn r.
Record pr_spec (r : fr) (f : fec) (r' : fr) (ok : bool) : Prop := {
  t_frame : frame_r r r';
  t_ok : ok = true -> repair_ok f = true /\ r_alive r' = r_alive r /\ length (r_sb r') = c_sblen f /\ r_psize r' = c_psize f
                      /\ r_sres r' = true /\ r_rres r' = true /\ r_pres r' = true /\ (length (r_sb r') + length (r_rb r') = c_blen f)%nat;
  t_sb : r_sb r' = r_sb r \/ (r_sres r = false /\ r_sb r' = resize_to (r_sb r) (c_sblen f));
  t_len : r_sres r' = true -> r_sres r = true \/ length (r_sb r') = c_sblen f;
  t_rb : r_rb r' = r_rb r \/ (r_rres r = false /\ exists n, r_rb r' = resize_to (r_rb r) n);
  t_res : r_sres r = true -> r_sres r' = true;
  t_rres : r_rres r = true -> r_rres r' = true;
  t_rres' : r_rres r' = true -> r_rres r = true \/ ok = true;
  t_pay : r_psize r' = r_psize r \/ r_pres r = false;
  t_pres : r_pres r' = true \/ (r_pres r' = r_pres r /\ r_psize r' = r_psize r);
  t_alive : r_alive r' = true -> r_alive r = true }.
Lemma process_repair_spec r f u : process_repair e r f = Ok u -> (r_rres r = true -> r_sres r = true) -> pr_spec r f (fst u) (snd u).
Proof.
  intros E Hrs. unfold process_repair in E. destruct (repair_ok f) eqn:Eok; cbn [negb] in E.
  2:{ injection E as <-. split; cbn; unfold frame_r; intuition (try congruence; auto). }
  destruct (can_payload r (c_psize f)) eqn:Ep; cbn [negb] in E.
  2:{ injection E as <-. split; cbn; unfold frame_r; intuition (try congruence; auto). }
  assert (Hp : c_psize f = r_psize r \/ r_pres r = false).
  { unfold can_payload in Ep. apply Bool.orb_true_iff in Ep as [Ep|Ep]; [left; lia|right; destruct (r_pres r); auto; discriminate]. }
  unfold can_source in E. destruct (length (r_sb r) =? c_sblen f)%nat eqn:El; cbn [snd fst negb] in E.
  - unfold can_repair_size in E. destruct (c_blen f =? length (r_sb r) + length (r_rb r))%nat eqn:Eb; cbn [snd fst negb] in E.
    + unfold update_source in E. cbn in E. rewrite El in E. cbn in E. unfold update_repair in E. cbn in E. rewrite Eb in E. injection E as <-.
      apply Nat.eqb_eq in El, Eb. split; cbn; unfold frame_r; intuition (try congruence; auto).
    + destruct (r_rres r) eqn:Er; cbn [snd fst negb] in E.
      { injection E as <-. split; cbn; unfold frame_r; intuition (try congruence; auto). }
      destruct (o_max e <? c_blen f)%nat; cbn [snd fst negb] in E.
      { injection E as <-. split; cbn; unfold frame_r; intuition (try congruence; auto). }
      unfold update_source in E. cbn in E. rewrite El in E. cbn in E. unfold update_repair in E. cbn in E. rewrite Eb in E.
      destruct (c_blen f <=? length (r_sb r))%nat eqn:Ex; [discriminate|].
      destruct (o_alloc e (r_tick r)); injection E as <-; cbn.
      * apply Nat.eqb_eq in El. apply Nat.leb_gt in Ex. split; cbn; unfold frame_r; rewrite ?length_resize; intuition (try congruence; try lia; eauto).
      * apply Nat.eqb_eq in El. split; cbn; unfold frame_r; intuition (try congruence; auto).
  - destruct (r_sres r) eqn:Es; cbn [negb snd fst] in E.
    { injection E as <-. split; cbn; unfold frame_r; intuition (try congruence; auto). }
    destruct (o_max e <? c_sblen f)%nat; cbn [negb snd fst] in E.
    { injection E as <-. split; cbn; unfold frame_r; intuition (try congruence; auto). }
    assert (Er : r_rres r = false) by (destruct (r_rres r); auto; discriminate Hrs; auto).
    assert (Hcan : can_repair_size e r (c_blen f) = (r, true) \/ can_repair_size e r (c_blen f) = (set_dead r, false)).
    { unfold can_repair_size. rewrite Er. destruct (c_blen f =? _)%nat; [left; reflexivity|].
      destruct (o_max e <? c_blen f)%nat; [right|left]; reflexivity. }
    destruct Hcan as [Hcan|Hcan]; rewrite Hcan in E; cbn [negb snd fst] in E.
    2:{ injection E as <-. split; cbn; unfold frame_r; intuition (try congruence; auto). }
    unfold update_source in E. cbn in E. rewrite El in E. destruct (o_alloc e (r_tick r)); cbn in E.
    2:{ injection E as <-. split; cbn; unfold frame_r; intuition (try congruence; auto). }
    unfold update_repair in E. cbn in E. rewrite length_resize in E.
    destruct (c_blen f =? c_sblen f + length (r_rb r))%nat eqn:Eb; [injection E as <-|].
    + apply Nat.eqb_eq in Eb. split; cbn; unfold frame_r; rewrite ?length_resize; intuition (try congruence; try lia; auto).
    + destruct (c_blen f <=? c_sblen f)%nat eqn:Ex; [discriminate|]. apply Nat.leb_gt in Ex.
      destruct (o_alloc e (Datatypes.S (r_tick r))); injection E as <-; cbn;
        split; cbn; unfold frame_r; rewrite ?length_resize; intuition (try congruence; try lia; eauto).
Qed.
Lemma inv_process_repair r f b u : inv r b -> process_repair e r f = Ok u -> inv (fst u) b.
Proof.
  intros [V1 V2 V3 V4 V5 V6 V7 V8 V9] E. destruct (process_repair_spec r f u E V9) as [F A1 A2 A3 A4 A5 A6 A7 A8 A9 A10].
  set (r' := fst u) in *. destruct F as (F1 & F2 & F3 & F4 & F5 & F6).
  assert (Hs : r_sb r' = r_sb r \/ (empty (r_sb r') /\ empty (r_rb r))).
  { destruct A2 as [A2|[A2 A2']]; [auto|]. right. destruct (V6 A2). split; [rewrite A2'; apply empty_resize; auto|auto]. }
  assert (Hr : r_rb r' = r_rb r \/ empty (r_rb r')).
  { destruct A4 as [A4|(A4 & n & A4')]; [auto|]. right. rewrite A4'. apply empty_resize. auto. }
  assert (Hq : r_psize r' = r_psize r \/ (empty (r_sb r) /\ empty (r_rb r))).
  { destruct A8 as [A8|A8]; [auto|]. right. apply V7. exact A8. }
  assert (He : empty (r_sb r) -> empty (r_sb r')).
  { destruct Hs as [-> |[Hs _]]; auto. }
  assert (He' : empty (r_rb r) -> empty (r_rb r')).
  { destruct Hr as [-> | Hr]; auto. }
  constructor.
  - congruence.
  - congruence.
  - congruence.
  - intros i p Hi. destruct Hs as [Hs|[Hs _]]; [|exfalso; exact (Hs _ _ Hi)].
    destruct Hq as [Hq|[Hq _]]; [|rewrite Hs in Hi; exfalso; exact (Hq _ _ Hi)].
    rewrite Hs in Hi |- *. rewrite Hq. auto.
  - intros i p Hi. destruct Hr as [Hr|Hr]; [|exfalso; exact (Hr _ _ Hi)]. rewrite Hr in Hi.
    destruct Hs as [Hs|[_ Hs]]; [|exfalso; exact (Hs _ _ Hi)].
    destruct Hq as [Hq|[_ Hq]]; [|exfalso; exact (Hq _ _ Hi)]. rewrite Hs, Hq. auto.
  - intros Hx. assert (r_sres r = false) by (destruct (r_sres r); auto; rewrite A5 in Hx; auto). destruct (V6 H). auto.
  - intros Hx. assert (r_pres r = false) by (destruct A9 as [A9|[A9 _]]; congruence). destruct (V7 H). auto.
  - intros Hx. assert (r_rres r = false) by (destruct (r_rres r); auto; rewrite A6 in Hx; auto). auto.
  - intros Hx. destruct (A7 Hx) as [Hy|Hy]; [auto|]. apply A1 in Hy. tauto.
Qed.

(** * Filling the block *)
Record grow (r r' : fr) : Prop := mkGrow {
  g_started : r_started r' = r_started r;
  g_next : r_next r' = r_next r;
  g_sbn : r_sbn r' = r_sbn r;
  g_slots : forall i p, nth_error (r_sb r) i = Some (Some p) -> nth_error (r_sb r') i = Some (Some p);
  g_len : r_sres r = true -> length (r_sb r') = length (r_sb r);
  g_sres : r_sres r = true -> r_sres r' = true;
  g_pos : (0 < length (r_sb r) -> 0 < length (r_sb r'))%nat;
  g_alive : r_alive r' = true -> r_alive r = true }.
Lemma grow_refl r : grow r r.
Proof. constructor; auto. Qed.
Lemma grow_trans a b c : grow a b -> grow b c -> grow a c.
Proof. intros [] []. constructor; try congruence; auto. intros H. rewrite g_len1 by auto. auto. Qed.
Definition ahead (r : fr) : Prop := r_alive r = true -> forall p f, sq_head (r_src r) = Some p -> k_fec p = Some f ->
  0 < s16 (c_sbn f - r_sbn r) <= o_jump e.

Lemma inv_set_src r b q : inv r b -> Forall (fun p => SP p /\ k_fec p <> None) (sq_list q) -> inv (set_src r q) b.
Proof. intros [V1 V2 V3 V4 V5 V6 V7 V8 V9] H. constructor; auto. Qed.
Lemma inv_set_rep r b q : inv r b -> Forall (fun p => RP p /\ k_fec p <> None) (sq_list q) -> inv (set_rep r q) b.
Proof. intros [V1 V2 V3 V4 V5 V6 V7 V8 V9] H. constructor; auto. Qed.
Lemma inv_dead r b : inv r b -> inv (set_dead r) b.
Proof. intros [V1 V2 V3 V4 V5 V6 V7 V8 V9]. constructor; auto. Qed.
(** Storing a packet in an empty slot. *)
Lemma inv_store_s r b i p : inv r b -> nth_error (r_sb r) i = Some None -> slot (length (r_sb r)) (r_psize r) b i p ->
  r_sres r = true -> r_pres r = true -> inv (set_can (set_sb r (upd (r_sb r) i (Some p))) true) b.
Proof.
  intros [V1 V2 V3 V4 V5 V6 V7 V8 V9] Hi Hp Hs Hq. constructor; cbn; auto; rewrite ?length_upd; auto; try congruence.
  intros j q Hj. destruct (Nat.eq_dec i j) as [->|N].
  - rewrite nth_error_upd_eq in Hj by (apply nth_error_Some; congruence). injection Hj as <-. auto.
  - rewrite nth_error_upd_neq in Hj by auto. auto.
Qed.
Lemma inv_store_r r b i p : inv r b -> nth_error (r_rb r) i = Some None -> rslot (length (r_sb r)) (r_psize r) b i p ->
  r_sres r = true -> r_pres r = true -> r_rres r = true -> inv (set_can (set_rb r (upd (r_rb r) i (Some p))) true) b.
Proof.
  intros [V1 V2 V3 V4 V5 V6 V7 V8 V9] Hi Hp Hs Hq Hr. constructor; cbn; auto; try congruence.
  intros j q Hj. destruct (Nat.eq_dec i j) as [->|N].
  - rewrite nth_error_upd_eq in Hj by (apply nth_error_Some; congruence). injection Hj as <-. auto.
  - rewrite nth_error_upd_neq in Hj by auto. auto.
Qed.
Lemma source_ok_spec f : source_ok f = true -> (c_esi f < c_sblen f)%nat /\ c_psize f <> O.
Proof. unfold source_ok. intros H. rewrite !Bool.andb_true_iff in H. lia. Qed.
Lemma repair_ok_spec f : repair_ok f = true -> (c_sblen f <= c_esi f)%nat /\ (0 < c_sblen f)%nat /\ c_psize f <> O
  /\ (c_blen f <> O -> c_esi f < c_blen f)%nat.
Proof. unfold repair_ok. intros H. rewrite !Bool.andb_true_iff in H. destruct (c_blen f =? 0)%nat eqn:E; lia. Qed.
Lemma near_spec r f : sbn_near e r f = true -> blknum_le (c_sbn f) (r_sbn r) = false -> 0 < s16 (c_sbn f - r_sbn r) <= o_jump e.
Proof.
  unfold sbn_near, blknum_le, blknum_diff. intros H E. pose proof (s16_range (c_sbn f - r_sbn r)).
  destruct (_ <? 0) eqn:E0; [lia|]. assert (u64 (s16 (c_sbn f - r_sbn r)) = s16 (c_sbn f - r_sbn r)).
  { unfold u64, wrapu. apply Z.mod_small. pose proof p64. lia. }
  lia.
Qed.

Lemma process_source_grow r f b : inv r b -> grow r (fst (process_source e r f)).
Proof.
  intros V. destruct (process_source_spec r f) as [F A1 A2 A3 A4 A5 A6 A7]. destruct F as (F1 & F2 & F3 & F4 & F5 & F6 & F7 & F8).
  constructor; auto.
  - intros i p Hi. destruct A3 as [-> |[A3 _]]; [auto|]. destruct (v_s0 _ _ V A3) as [He _]. exfalso. exact (He _ _ Hi).
  - intros Hs. destruct A3 as [-> |[A3 _]]; congruence.
  - intros H. destruct (snd (process_source e r f)) eqn:Eo.
    + destruct (A1 eq_refl) as (B1 & _ & B2 & _). rewrite B2. apply source_ok_spec in B1. lia.
    + destruct (A2 eq_refl) as [-> _]. exact H.
Qed.
Lemma fill_source_inv n : forall r b r', fill_source n e r = Ok r' -> inv r b -> szd r b ->
  inv r' b /\ szd r' b /\ grow r r' /\ ahead r' /\ r_rep r' = r_rep r.
Proof.
  induction n as [|n IH]; intros r b r' E V Z; [discriminate|]. cbn [fill_source] in E.
  destruct (sq_head (r_src r)) as [p|] eqn:Eh.
  2:{ injection E as <-. splits; auto using grow_refl. intros _ p f Hp. congruence. }
  pose proof (back_forall _ _ _ (v_src _ _ V) Eh) as [Sp Fp]. unfold fec_of in E. destruct (k_fec p) as [f|] eqn:Ef; [|congruence]. cbn [bind] in E.
  destruct (sbn_near e r f) eqn:En; cbn [negb] in E.
  2:{ injection E as <-. splits; [apply inv_dead; exact V|exact Z|constructor; cbn; auto; discriminate|intros Hx; discriminate|reflexivity]. }
  destruct (blknum_le (c_sbn f) (r_sbn r)) eqn:El; cbn [negb] in E.
  2:{ injection E as <-. splits; auto using grow_refl. intros _ q g Hq Hg. assert (q = p) by congruence. subst q. assert (g = f) by congruence. subst g.
      apply near_spec; auto. }
  rewrite (head_read _ _ Eh) in E. cbn [fst] in E. set (r1 := set_src r _) in E.
  assert (V1 : inv r1 b). { apply inv_set_src; auto. cbn. apply removelast_forall. apply (v_src _ _ V). }
  assert (G1 : grow r r1) by (constructor; auto).
  destruct (blknum_lt (c_sbn f) (r_sbn r1)) eqn:Elt.
  { apply IH with (b := b) in E as (H1 & H2 & H3 & H4 & H5); auto. splits; auto. eapply grow_trans; eauto. }
  destruct (c_sbn f =? r_sbn r1) eqn:Eq; cbn [negb] in E; [|discriminate].
  pose proof (process_source_spec r1 f) as [F A1 A2 A3 A4 A5 A6 A7]. pose proof (inv_process_source r1 f b V1) as V2.
  pose proof (process_source_grow r1 f b V1) as G2. set (u := process_source e r1 f) in *.
  assert (Hb : c_sbn f = u16 b). { rewrite <- (v_sbn _ _ V1). lia. }
  assert (Z2 : szd (fst u) b).
  { intros Hs. destruct (snd u) eqn:Eu.
    - destruct (A1 eq_refl) as (_ & _ & -> & _). exists p, f. auto.
    - destruct (A2 eq_refl) as [B1 B2]. rewrite B1. apply Z. rewrite B2 in Hs. exact Hs. }
  destruct (snd u) eqn:Eu; cbn [negb] in E.
  2:{ apply IH with (b := b) in E as (H1 & H2 & H3 & H4 & H5); auto. splits; auto.
      - eapply grow_trans; [|exact H3]. eapply grow_trans; eauto.
      - rewrite H5. destruct F as (_ & F2 & _). exact F2. }
  destruct (A1 eq_refl) as (B1 & B2 & B3 & B4 & B5 & B6 & B7). apply source_ok_spec in B1 as [B1 B1'].
  destruct (c_sblen f =? length (r_sb (fst u)))%nat eqn:E1; cbn [negb] in E; [|discriminate].
  destruct (c_esi f <? length (r_sb (fst u)))%nat eqn:E2; cbn [negb] in E; [|discriminate].
  unfold arr in E. destruct (nth_error (r_sb (fst u)) (c_esi f)) as [[q|]|] eqn:E3; cbn [bind] in E; [| |discriminate].
  - apply IH with (b := b) in E as (H1 & H2 & H3 & H4 & H5); auto. splits; auto.
    + eapply grow_trans; [|exact H3]. eapply grow_trans; eauto.
    + rewrite H5. destruct F as (_ & F2 & _). exact F2.
  - apply IH with (b := b) in E as (H1 & H2 & H3 & H4 & H5).
    + splits; auto.
      * eapply grow_trans; [|exact H3]. eapply grow_trans; [exact G1|]. eapply grow_trans; [exact G2|].
        constructor; cbn; auto; rewrite ?length_upd; auto.
        intros j q Hj. destruct (Nat.eq_dec (c_esi f) j) as [Ej|N]; [rewrite <- Ej in Hj; congruence|]. rewrite nth_error_upd_neq by auto. exact Hj.
      * rewrite H5. cbn. destruct F as (_ & F2 & _). exact F2.
    + apply inv_store_s; auto. split; auto. exists f. rewrite B4. splits; auto.
    + intros Hs. cbn. rewrite length_upd. apply Z2. exact B5.
Qed.

Lemma process_repair_grow r f b u : inv r b -> process_repair e r f = Ok u -> grow r (fst u).
Proof.
  intros V E. pose proof (process_repair_spec r f u E (v_rs _ _ V)) as [F A1 A2 A3 A4 A5 A6 A7 A8 A9 A10].
  destruct F as (F1 & F2 & F3 & F4 & F5 & F6).
  assert (Hrok : repair_ok f = true \/ r_sb (fst u) = r_sb r).
  { destruct (repair_ok f) eqn:Er; auto. right. unfold process_repair in E. rewrite Er in E. injection E as <-. reflexivity. }
  constructor; auto.
  - intros i p Hi. destruct A2 as [-> |[A2 _]]; [auto|]. destruct (v_s0 _ _ V A2) as [He _]. exfalso. exact (He _ _ Hi).
  - intros Hs. destruct A2 as [-> |[A2 _]]; congruence.
  - intros H. destruct A2 as [-> |[A2 A2']]; [exact H|]. destruct Hrok as [Hrok| ->]; [|exact H].
    rewrite A2', length_resize. apply repair_ok_spec in Hrok. lia.
Qed.
Lemma fill_repair_inv n : forall r b r', fill_repair n e r = Ok r' -> inv r b -> szd r b ->
  inv r' b /\ szd r' b /\ grow r r' /\ r_src r' = r_src r.
Proof.
  induction n as [|n IH]; intros r b r' E V Z; [discriminate|]. cbn [fill_repair] in E.
  destruct (sq_head (r_rep r)) as [p|] eqn:Eh.
  2:{ injection E as <-. splits; auto using grow_refl. }
  pose proof (back_forall _ _ _ (v_rep _ _ V) Eh) as [Sp Fp]. unfold fec_of in E. destruct (k_fec p) as [f|] eqn:Ef; [|congruence]. cbn [bind] in E.
  destruct (sbn_near e r f) eqn:En; cbn [negb] in E.
  2:{ injection E as <-. splits; [apply inv_dead; exact V|exact Z|constructor; cbn; auto; discriminate|reflexivity]. }
  destruct (blknum_le (c_sbn f) (r_sbn r)) eqn:El; cbn [negb] in E.
  2:{ injection E as <-. splits; auto using grow_refl. }
  rewrite (head_read _ _ Eh) in E. cbn [fst] in E. set (r1 := set_rep r _) in E.
  assert (V1 : inv r1 b). { apply inv_set_rep; auto. cbn. apply removelast_forall. apply (v_rep _ _ V). }
  assert (G1 : grow r r1) by (constructor; auto).
  destruct (blknum_lt (c_sbn f) (r_sbn r1)) eqn:Elt.
  { apply IH with (b := b) in E as (H1 & H2 & H3 & H4); auto. splits; auto. eapply grow_trans; eauto. }
  destruct (c_sbn f =? r_sbn r1) eqn:Eq; cbn [negb] in E; [|discriminate].
  destruct (process_repair e r1 f) as [u| |] eqn:Eu0; cbn [bind] in E; try discriminate.
  pose proof (process_repair_spec r1 f u Eu0 (v_rs _ _ V1)) as [F A1 A2 A3 A4 A5 A6 A7 A8 A9 A10].
  pose proof (inv_process_repair r1 f b u V1 Eu0) as V2. pose proof (process_repair_grow r1 f b u V1 Eu0) as G2.
  assert (Hb : c_sbn f = u16 b). { rewrite <- (v_sbn _ _ V1). lia. }
  assert (Z2 : szd (fst u) b).
  { intros Hs. destruct (A3 Hs) as [A3'|A3']; [|rewrite A3'; exists p, f; auto].
    rewrite (g_len _ _ G2 A3'). apply Z. exact A3'. }
  assert (Fs : r_src (fst u) = r_src r) by (destruct F as (F1 & _); exact F1).
  destruct (snd u) eqn:Eu; cbn [negb] in E.
  2:{ apply IH with (b := b) in E as (H1 & H2 & H3 & H4); auto. splits; auto; [|congruence].
      eapply grow_trans; [|exact H3]. eapply grow_trans; eauto. }
  destruct (A1 eq_refl) as (B1 & B2 & B3 & B4 & B5 & B6 & B7 & B8). apply repair_ok_spec in B1 as (B1 & B1' & B1'' & _).
  destruct (c_sblen f =? length (r_sb (fst u)))%nat eqn:E1; cbn [negb] in E; [|discriminate].
  destruct (length (r_sb (fst u)) <=? c_esi f)%nat eqn:E2; cbn [negb] in E; [|discriminate].
  destruct (c_esi f <? length (r_sb (fst u)) + length (r_rb (fst u)))%nat eqn:E3; cbn [negb] in E; [|discriminate].
  unfold arr in E. destruct (nth_error (r_rb (fst u)) (c_esi f - c_sblen f)) as [[q|]|] eqn:E4; cbn [bind] in E; [| |discriminate].
  - apply IH with (b := b) in E as (H1 & H2 & H3 & H4); auto. splits; auto; [|congruence].
    eapply grow_trans; [|exact H3]. eapply grow_trans; eauto.
  - apply IH with (b := b) in E as (H1 & H2 & H3 & H4).
    + splits; auto; [|cbn in H4; congruence].
      eapply grow_trans; [|exact H3]. eapply grow_trans; [exact G1|]. eapply grow_trans; [exact G2|]. constructor; cbn; auto.
    + apply inv_store_r; auto. split; auto. exists f. rewrite B4. splits; auto; lia.
    + intros Hs. cbn. apply Z2. exact B5.
Qed.
Lemma fill_block_inv r b r' : fill_block e r = Ok r' -> inv r b -> szd r b ->
  inv r' b /\ szd r' b /\ grow r r' /\ ahead r'.
Proof.
  intros E V Z. unfold fill_block in E. destruct (fill_source _ e r) as [r1| |] eqn:E1; cbn [bind] in E; try discriminate.
  apply fill_source_inv with (b := b) in E1 as (V1 & Z1 & G1 & H1 & _); auto.
  apply fill_repair_inv with (b := b) in E as (V2 & Z2 & G2 & H2); auto.
  splits; auto; [eapply grow_trans; eauto|]. intros Ha p f Hp Hf. rewrite (g_sbn _ _ G2). apply (H1 (g_alive _ _ G2 Ha) p); auto. congruence.
Qed.
End Inv.
