From Verif Require Import Base Base_lemmas Mpsc_model Mpsc_spec.

(** Neighbours in a list. *)
Fixpoint adj (a b : Z) (L : list Z) : Prop :=
  match L with [] => False | x :: tl => (x = a /\ hd_error tl = Some b) \/ adj a b tl end.

Lemma adj_in a b L : adj a b L -> In a L /\ In b L.
Proof.
  induction L as [|x L IH]; cbn [adj]; [tauto|]. intros [(-> & H)|H].
  - destruct L; cbn in *; [discriminate|]. injection H as ->. auto.
  - destruct (IH H). cbn [In]. auto.
Qed.
Lemma adj_snoc a b x L : adj a b (L ++ [x]) <-> adj a b L \/ (b = x /\ exists l, L = l ++ [a]).
Proof.
  induction L as [|y L IH].
  - cbn. split; [intros [(-> & H)|[]]; discriminate|]. intros [[]|(-> & l & H)]. destruct l; discriminate.
  - cbn [app adj]. rewrite IH. clear IH. split.
    + intros [(-> & H)|[H|(-> & l & ->)]]; [|tauto|].
      * destruct L; cbn in H.
        -- injection H as ->. right. split; [auto|]. exists []. auto.
        -- left. left. auto.
      * right. split; [auto|]. exists (y :: l). auto.
    + intros [[(-> & H)|H]|(-> & l & H)]; [|tauto|].
      * left. split; [auto|]. destruct L; [discriminate|]. auto.
      * destruct l as [|z l]; cbn in H.
        -- injection H as -> ->. left. auto.
        -- injection H as -> ->. right. right. split; [auto|]. exists l. auto.
Qed.
Lemma adj_func a b b' L : NoDup L -> adj a b L -> adj a b' L -> b = b'.
Proof.
  induction L as [|x L IH]; cbn [adj]; [tauto|]. intros N. inversion N; subst.
  intros [(-> & H)|H] [(E & H')|H']; [congruence| | |auto].
  - apply adj_in in H'. tauto.
  - subst. apply adj_in in H. tauto.
Qed.
Lemma adj_last t b l : NoDup (l ++ [t]) -> ~ adj t b (l ++ [t]).
Proof.
  intros N H. apply adj_snoc in H. assert (HN : ~ In t l).
  { clear H. induction l as [|x l IH]; [auto|]. cbn [app] in N. inversion N; subst. cbn [In]. intros [->|H]; [|apply IH; auto].
    apply H1. rewrite in_app_iff. cbn. auto. }
  destruct H as [H|(-> & l' & ->)]; [apply adj_in in H; tauto|]. apply HN. rewrite in_app_iff. cbn. auto.
Qed.
Lemma adj_succ a l t : In a (l ++ [t]) -> a <> t -> exists b, adj a b (l ++ [t]).
Proof.
  induction l as [|x l IH]; cbn [app In].
  - intros [Hx|[]] Hne; congruence.
  - intros [->|H] Hne.
    + destruct l as [|y l]; cbn; eauto.
    + destruct (IH H Hne) as (b & Hb). exists b. cbn [adj]. auto.
Qed.
Lemma adj_tail a b h tl : NoDup (h :: tl) -> adj a b (h :: tl) -> a <> h -> adj a b tl.
Proof. intros N [(E & _)|H] Hne; [congruence|auto]. Qed.

Definition node_of (p : mprod) : option Z := match p with MPIdle => None | MPOwned x | MPCleared x | MPLink x _ => Some x end.
Definition pre_node (p : mprod) : option Z := match p with MPOwned x | MPCleared x => Some x | _ => None end.
Definition elems (L : list Z) : list Z := filter (fun x => negb (x =? stub)) L.
Definition in_hand (c : mcons) : list Z := match c with MCRelease x => [x] | _ => [] end.

Definition phase (s : mq) (L : list Z) : Prop :=
  match mq_cons s with
  | MCIdle => True
  | MCTail1 _ => mq_head s = stub
  | MCWait1 _ _ => mq_head s = stub /\ mq_tail s <> mq_head s
  | MCNext _ | MCTail2 _ => mq_head s <> stub
  | MCStubClear _ => mq_head s <> stub /\ ~ In stub L
  | MCStubXchg _ => mq_head s <> stub /\ ~ In stub L /\ mq_next s stub = None
  | MCStubLink _ a => mq_head s <> stub /\ mq_tail s <> mq_head s /\ adj a stub L /\ mq_next s a = None
  | MCWait2 _ _ => mq_head s <> stub /\ mq_tail s <> mq_head s
  | MCRelease x => x <> stub /\ ~ In x L /\ mq_owned s x = true /\ (forall t, node_of (mq_prods s t) <> Some x)
  end.

Record qinv (s : mq) (L : list Z) : Prop := mkQ {
  q_head : exists tl, L = mq_head s :: tl;
  q_tail : exists l, L = l ++ [mq_tail s];
  q_nodup : NoDup L;
  q_last : mq_next s (mq_tail s) = None;
  q_adj : forall a b, adj a b L -> mq_next s a = Some b \/
      (mq_next s a = None /\ ((exists t, mq_prods s t = MPLink b a) \/ (b = stub /\ exists spin, mq_cons s = MCStubLink spin a)));
  q_link : forall t b a, mq_prods s t = MPLink b a -> adj a b L /\ mq_next s a = None;
  q_uniq : forall t t' x, node_of (mq_prods s t) = Some x -> node_of (mq_prods s t') = Some x -> t = t';
  q_nstub : forall t, node_of (mq_prods s t) <> Some stub;
  q_owned : forall x, mq_owned s x = false -> (x <> stub -> ~ In x L) /\ forall t, node_of (mq_prods s t) <> Some x;
  q_pre : forall t x, pre_node (mq_prods s t) = Some x -> ~ In x L;
  q_clr : forall t x, mq_prods s t = MPCleared x -> mq_next s x = None;
  q_phase : phase s L }.

Lemma pre_is_node p x : pre_node p = Some x -> node_of p = Some x.
Proof. destruct p; cbn; auto; discriminate. Qed.

Lemma upn_eq {A} (f : Z -> A) x v : upn f x v x = v.
Proof. unfold upn. rewrite Z.eqb_refl. auto. Qed.
Lemma upn_neq {A} (f : Z -> A) x v y : y <> x -> upn f x v y = f y.
Proof. unfold upn. intros. destruct (Z.eqb_spec y x); [congruence|auto]. Qed.
Lemma upt_eq f t v : upt f t v t = v.
Proof. unfold upt. rewrite Nat.eqb_refl. auto. Qed.
Lemma upt_neq f t v u : u <> t -> upt f t v u = f u.
Proof. unfold upt. intros. destruct (Nat.eqb_spec u t); [congruence|auto]. Qed.

Lemma elems_app l1 l2 : elems (l1 ++ l2) = elems l1 ++ elems l2.
Proof. apply filter_app. Qed.

Lemma nodup_snoc (L : list Z) x : NoDup L -> ~ In x L -> NoDup (L ++ [x]).
Proof.
  induction L as [|y L IH]; intros N H; cbn [app]; [constructor; [auto|constructor]|]. inversion N; subst. constructor.
  - rewrite in_app_iff. cbn [In] in *. intros [|[|[]]]; [auto|]. subst. apply H. auto.
  - apply IH; auto. cbn in H. tauto.
Qed.

(** Effect of a step on the order of nodes: pushed nodes appear at the end. *)
Definition lin_of (o : mqout) : list Z := match o with QLin _ x => [x] | _ => [] end.
Definition pop_of (o : mqout) : list Z := match o with QPopped (Some x) => [x] | _ => [] end.

Lemma qinv_push s L t x : qinv s L -> mq_prods s t = MPIdle -> x <> stub -> mq_owned s x = false ->
  qinv (mkMq (mq_next s) (upn (mq_owned s) x true) (mq_tail s) (mq_head s) (upt (mq_prods s) t (MPOwned x)) (mq_cons s)) L.
Proof.
  intros [H T N LA AD LK U NS OW PR CL PH] Et Hx Eo. destruct (OW x Eo) as (OL & OT). specialize (OL Hx).
  constructor; cbn [mq_next mq_owned mq_tail mq_head mq_prods mq_cons]; auto.
  - intros a b Hab. destruct (AD a b Hab) as [|(? & [(u & Hu)|])]; auto.
    right. split; [auto|]. left. exists u. rewrite upt_neq; [auto|]. intros ->. congruence.
  - intros u b a. destruct (Nat.eq_dec u t) as [->|]; [rewrite upt_eq; discriminate|]. rewrite upt_neq by auto. apply LK.
  - intros u u' y. destruct (Nat.eq_dec u t) as [->|], (Nat.eq_dec u' t) as [->|]; rewrite ?upt_eq, ?upt_neq by auto; cbn [node_of]; auto.
    + intros E1 E2. injection E1 as <-. exfalso. exact (OT u' E2).
    + intros E1 E2. injection E2 as <-. exfalso. exact (OT u E1).
    + apply U.
  - intros u. destruct (Nat.eq_dec u t) as [->|]; [rewrite upt_eq; cbn; congruence|]. rewrite upt_neq by auto. apply NS.
  - intros y. destruct (Z.eq_dec y x) as [->|]; [rewrite upn_eq; discriminate|]. rewrite upn_neq by auto. intros Ey.
    destruct (OW y Ey) as (? & Oy). split; [auto|]. intros u. destruct (Nat.eq_dec u t) as [->|]; [rewrite upt_eq; cbn; congruence|]. rewrite upt_neq by auto. auto.
  - intros u y. destruct (Nat.eq_dec u t) as [->|]; [rewrite upt_eq; cbn; intros E; injection E as <-; auto|]. rewrite upt_neq by auto. apply PR.
  - intros u y. destruct (Nat.eq_dec u t) as [->|]; [rewrite upt_eq; discriminate|]. rewrite upt_neq by auto. apply CL.
  - unfold phase in *. cbn [mq_next mq_owned mq_tail mq_head mq_prods mq_cons]. destruct (mq_cons s); auto.
    destruct PH as (P1 & P2 & P3 & P4). assert (x0 <> x) by congruence. rewrite upn_neq by auto. split; [auto|]. split; [auto|]. split; [auto|].
    intros u. destruct (Nat.eq_dec u t) as [->|]; [rewrite upt_eq; cbn; congruence|]. rewrite upt_neq by auto. auto.
Qed.

Lemma in_tail s L : qinv s L -> In (mq_tail s) L.
Proof. intros I. destruct (q_tail _ _ I) as (l & ->). rewrite in_app_iff. cbn. auto. Qed.
Lemma in_head s L : qinv s L -> In (mq_head s) L.
Proof. intros I. destruct (q_head _ _ I) as (l & ->). cbn. auto. Qed.

Lemma qinv_clear s L t x : qinv s L -> mq_prods s t = MPOwned x ->
  qinv (mkMq (upn (mq_next s) x None) (mq_owned s) (mq_tail s) (mq_head s) (upt (mq_prods s) t (MPCleared x)) (mq_cons s)) L.
Proof.
  intros I Et. pose proof (in_tail _ _ I) as IT. destruct I as [H T N LA AD LK U NS OW PR CL PH].
  assert (XL : ~ In x L) by (apply (PR t x); rewrite Et; auto).
  assert (NX : forall a, In a L -> upn (mq_next s) x None a = mq_next s a) by (intros a Ha; apply upn_neq; intros ->; auto).
  assert (UN : forall u p, mq_prods s u = MPLink (fst p) (snd p) -> u <> t) by (intros u p E ->; congruence).
  constructor; cbn [mq_next mq_owned mq_tail mq_head mq_prods mq_cons]; auto.
  - rewrite NX by auto. auto.
  - intros a b Hab. rewrite NX by (apply adj_in in Hab; tauto). destruct (AD a b Hab) as [|(? & [(u & Hu)|])]; auto.
    right. split; [auto|]. left. exists u. rewrite upt_neq; [auto|]. intros ->. congruence.
  - intros u b a. destruct (Nat.eq_dec u t) as [->|]; [rewrite upt_eq; discriminate|]. rewrite upt_neq by auto. intros E.
    destruct (LK u b a E) as (L1 & L2). split; [auto|]. rewrite NX; [auto|apply adj_in in L1; tauto].
  - intros u u' y. assert (ND : forall v, node_of (upt (mq_prods s) t (MPCleared x) v) = node_of (mq_prods s v)).
    { intros v. destruct (Nat.eq_dec v t) as [->|]; [rewrite upt_eq, Et; auto|rewrite upt_neq by auto; auto]. }
    rewrite !ND. apply U.
  - intros u. destruct (Nat.eq_dec u t) as [->|]; [rewrite upt_eq; specialize (NS t); rewrite Et in NS; auto|]. rewrite upt_neq by auto. apply NS.
  - intros y Ey. destruct (OW y Ey) as (? & Oy). split; [auto|]. intros u. destruct (Nat.eq_dec u t) as [->|]; [rewrite upt_eq; specialize (Oy t); rewrite Et in Oy; auto|]. rewrite upt_neq by auto. auto.
  - intros u y. destruct (Nat.eq_dec u t) as [->|]; [rewrite upt_eq; cbn; intros E; injection E as <-; auto|]. rewrite upt_neq by auto. apply PR.
  - intros u y. destruct (Nat.eq_dec u t) as [->|]; [rewrite upt_eq; intros E; injection E as <-; apply upn_eq|]. rewrite upt_neq by auto.
    intros E. destruct (Z.eq_dec y x) as [->|]; [apply upn_eq|]. rewrite upn_neq by auto. eauto.
  - assert (XS : x <> stub) by (intros ->; specialize (NS t); rewrite Et in NS; apply NS; auto).
    unfold phase in *. cbn [mq_next mq_owned mq_tail mq_head mq_prods mq_cons]. destruct (mq_cons s); auto.
    + destruct PH as (? & ? & ?). rewrite upn_neq by congruence. auto.
    + destruct PH as (? & ? & P3 & ?). split; [auto|]. split; [auto|]. split; [auto|]. rewrite NX; [auto|apply adj_in in P3; tauto].
    + destruct PH as (P1 & P2 & P3 & P4). split; [auto|]. split; [auto|]. split; [auto|].
      intros u. destruct (Nat.eq_dec u t) as [->|]; [rewrite upt_eq; specialize (P4 t); rewrite Et in P4; auto|]. rewrite upt_neq by auto. auto.
Qed.

Lemma qinv_xchg s L t x : qinv s L -> mq_prods s t = MPCleared x ->
  qinv (mkMq (mq_next s) (mq_owned s) x (mq_head s) (upt (mq_prods s) t (MPLink x (mq_tail s))) (mq_cons s)) (L ++ [x]).
Proof.
  intros I Et. pose proof (in_tail _ _ I) as IT. pose proof (in_head _ _ I) as IH. destruct I as [H T N LA AD LK U NS OW PR CL PH].
  assert (XL : ~ In x L) by (apply (PR t x); rewrite Et; auto).
  assert (XS : x <> stub) by (intros ->; specialize (NS t); rewrite Et in NS; apply NS; auto).
  assert (OX : mq_owned s x = true). { destruct (mq_owned s x) eqn:E; [auto|]. destruct (OW x E) as (_ & O). specialize (O t). rewrite Et in O. cbn in O. congruence. }
  assert (ND : forall v, node_of (upt (mq_prods s) t (MPLink x (mq_tail s)) v) = node_of (mq_prods s v)).
  { intros v. destruct (Nat.eq_dec v t) as [->|]; [rewrite upt_eq, Et; auto|rewrite upt_neq by auto; auto]. }
  destruct T as (l & T).
  constructor; cbn [mq_next mq_owned mq_tail mq_head mq_prods mq_cons].
  - destruct H as (tl & ->). exists (tl ++ [x]). auto.
  - exists L. auto.
  - apply nodup_snoc; auto.
  - eauto.
  - intros a b Hab. apply adj_snoc in Hab. destruct Hab as [Hab|(-> & l' & E)].
    + destruct (AD a b Hab) as [|(? & [(u & Hu)|])]; auto.
      right. split; [auto|]. left. exists u. rewrite upt_neq; [auto|]. intros ->. congruence.
    + rewrite T in E. apply app_inj_tail in E. destruct E as (_ & <-). right. split; [auto|]. left. exists t. apply upt_eq.
  - intros u b a. destruct (Nat.eq_dec u t) as [->|].
    + rewrite upt_eq. intros E. injection E as <- <-. split; [|auto]. apply adj_snoc. right. split; [auto|]. exists l. auto.
    + rewrite upt_neq by auto. intros E. destruct (LK u b a E). split; [apply adj_snoc; auto|auto].
  - intros u u' y. rewrite !ND. apply U.
  - intros u. rewrite ND. apply NS.
  - intros y Ey. destruct (OW y Ey) as (O1 & O2). split; [|intros u; rewrite ND; auto].
    intros Hy. rewrite in_app_iff. cbn [In]. intros [HI|[<-|[]]]; [exact (O1 Hy HI)|congruence].
  - intros u y. destruct (Nat.eq_dec u t) as [->|]; [rewrite upt_eq; discriminate|]. rewrite upt_neq by auto. intros E.
    rewrite in_app_iff. cbn [In]. intros [HI|[->|[]]]; [exact (PR u y E HI)|]. apply n. apply (U u t y); [apply pre_is_node; auto|rewrite Et; auto].
  - intros u y. destruct (Nat.eq_dec u t) as [->|]; [rewrite upt_eq; discriminate|]. rewrite upt_neq by auto. apply CL.
  - assert (XH : x <> mq_head s) by congruence.
    unfold phase in *. cbn [mq_next mq_owned mq_tail mq_head mq_prods mq_cons]. destruct (mq_cons s); auto.
    + tauto.
    + destruct PH. split; [auto|]. rewrite in_app_iff. cbn [In]. tauto.
    + destruct PH as (? & ? & ?). split; [auto|]. split; [|auto]. rewrite in_app_iff. cbn [In]. tauto.
    + destruct PH as (? & ? & ? & ?). split; [auto|]. split; [auto|]. split; [apply adj_snoc; auto|auto].
    + tauto.
    + destruct PH as (P1 & P2 & P3 & P4). split; [auto|]. split; [|split; [auto|intros u; rewrite ND; auto]].
      rewrite in_app_iff. cbn [In]. intros [HI|[<-|[]]]; [auto|]. apply (P4 t). rewrite Et. auto.
Qed.

Lemma qinv_link s L t x prev : qinv s L -> mq_prods s t = MPLink x prev ->
  qinv (mkMq (upn (mq_next s) prev (Some x)) (mq_owned s) (mq_tail s) (mq_head s) (upt (mq_prods s) t MPIdle) (mq_cons s)) L.
Proof.
  intros [H T N LA AD LK U NS OW PR CL PH] Et. destruct (LK t x prev Et) as (AJ & NP).
  assert (TP : mq_tail s <> prev). { intros <-. destruct T as (l & ->). exact (adj_last _ _ _ N AJ). }
  assert (IP : In prev L) by (apply adj_in in AJ; tauto).
  assert (ND : forall v y, node_of (upt (mq_prods s) t MPIdle v) = Some y -> node_of (mq_prods s v) = Some y).
  { intros v y. destruct (Nat.eq_dec v t) as [->|]; [rewrite upt_eq; discriminate|rewrite upt_neq by auto; auto]. }
  constructor; cbn [mq_next mq_owned mq_tail mq_head mq_prods mq_cons]; auto.
  - rewrite upn_neq; auto.
  - intros a b Hab. destruct (Z.eq_dec a prev) as [->|].
    + rewrite upn_eq. left. f_equal. eapply adj_func; eauto.
    + rewrite upn_neq by auto. destruct (AD a b Hab) as [|(? & [(u & Hu)|])]; auto.
      right. split; [auto|]. left. exists u. rewrite upt_neq; [auto|]. intros ->. congruence.
  - intros u b a. destruct (Nat.eq_dec u t) as [->|]; [rewrite upt_eq; discriminate|]. rewrite upt_neq by auto. intros E.
    destruct (LK u b a E) as (L1 & L2). split; [auto|]. rewrite upn_neq; [auto|]. intros ->.
    apply n. pose proof (adj_func _ _ _ _ N L1 AJ) as ->. apply (U u t x); [rewrite E|rewrite Et]; auto.
  - intros u u' y E1 E2. apply ND in E1. apply ND in E2. eauto.
  - intros u E. apply ND in E. exact (NS u E).
  - intros y Ey. destruct (OW y Ey) as (O1 & O2). split; [auto|]. intros u E. apply ND in E. exact (O2 u E).
  - intros u y. destruct (Nat.eq_dec u t) as [->|]; [rewrite upt_eq; discriminate|]. rewrite upt_neq by auto. apply PR.
  - intros u y. destruct (Nat.eq_dec u t) as [->|]; [rewrite upt_eq; discriminate|]. rewrite upt_neq by auto. intros E.
    rewrite upn_neq; [eauto|]. intros ->. apply (PR u prev); [rewrite E; auto|auto].
  - unfold phase in *. cbn [mq_next mq_owned mq_tail mq_head mq_prods mq_cons]. destruct (mq_cons s); auto.
    + destruct PH as (? & HS & ?). split; [auto|]. split; [auto|]. rewrite upn_neq; [auto|]. intros <-. auto.
    + destruct PH as (? & ? & P3 & P4). split; [auto|]. split; [auto|]. split; [auto|]. rewrite upn_neq; [auto|]. intros ->.
      pose proof (adj_func _ _ _ _ N P3 AJ) as E. apply (NS t). rewrite Et. cbn. congruence.
    + destruct PH as (P1 & P2 & P3 & P4). split; [auto|]. split; [auto|]. split; [auto|]. intros u E. apply ND in E. exact (P4 u E).
Qed.

(** The head leaves the list. *)
Lemma head_next s L n : qinv s L -> mq_next s (mq_head s) = Some n -> exists tl, L = mq_head s :: n :: tl.
Proof.
  intros [H T N LA AD LK U NS OW PR CL PH] E. destruct H as (tl & HL). destruct T as (l & T).
  assert (mq_head s <> mq_tail s) by congruence.
  destruct (adj_succ (mq_head s) l (mq_tail s)) as (b & Hb); [rewrite <- T, HL; left; auto|auto|].
  rewrite <- T in Hb. destruct (AD _ _ Hb) as [E2|(E2 & _)]; [|congruence]. rewrite E in E2. injection E2 as <-.
  rewrite HL in Hb. cbn [adj] in Hb. destruct Hb as [(_ & Hb)|Hb].
  - destruct tl as [|z tl]; [discriminate|]. cbn in Hb. injection Hb as ->. exists tl. auto.
  - rewrite HL in N. inversion N; subst. apply adj_in in Hb. tauto.
Qed.

Lemma qinv_behead s L n c : qinv s L -> mq_next s (mq_head s) = Some n ->
  phase (mkMq (mq_next s) (mq_owned s) (mq_tail s) n (mq_prods s) c) (tl L) ->
  (forall spin a, mq_cons s <> MCStubLink spin a) ->
  qinv (mkMq (mq_next s) (mq_owned s) (mq_tail s) n (mq_prods s) c) (tl L).
Proof.
  intros I E PH' NL. destruct (head_next s L n I E) as (tl' & EL). destruct I as [H T N LA AD LK U NS OW PR CL PH].
  rewrite EL in *. cbn [tl] in *. pose proof N as N0. inversion N0 as [|? ? NH NT]; subst x l.
  constructor; cbn [mq_next mq_owned mq_tail mq_head mq_prods mq_cons]; auto.
  - eauto.
  - destruct T as (l & T). destruct l as [|z l]; [discriminate|]. cbn [app] in T. injection T as _ T. exists l. auto.
  - intros a b Hab. destruct (AD a b (or_intror Hab)) as [|(? & [?|(-> & spin & HC)])]; auto. exfalso. exact (NL _ _ HC).
  - intros t b a Et. destruct (LK t b a Et) as (L1 & L2). split; [|auto]. eapply adj_tail; eauto. congruence.
  - intros x Ex. destruct (OW x Ex) as (O1 & O2). split; [|auto]. intros Hx HI. apply (O1 Hx). right. auto.
  - intros t x Et HI. apply (PR t x Et). right. auto.
Qed.

(** The consumer changes only its own phase. *)
Lemma qinv_goto s L c : qinv s L -> phase (mkMq (mq_next s) (mq_owned s) (mq_tail s) (mq_head s) (mq_prods s) c) L ->
  (forall spin a, mq_cons s <> MCStubLink spin a) ->
  qinv (mkMq (mq_next s) (mq_owned s) (mq_tail s) (mq_head s) (mq_prods s) c) L.
Proof.
  intros [H T N LA AD LK U NS OW PR CL PH] P NL. constructor; cbn [mq_next mq_owned mq_tail mq_head mq_prods mq_cons]; auto.
  intros a b Hab. destruct (AD a b Hab) as [|(? & [?|(-> & spin & HC)])]; auto. exfalso. exact (NL _ _ HC).
Qed.

Lemma single s L : qinv s L -> mq_tail s = mq_head s -> L = [mq_head s].
Proof.
  intros [H T N LA AD LK U NS OW PR CL PH] E. destruct H as (tl & H). destruct T as (l & T). rewrite H in *.
  destruct l as [|z l]; cbn [app] in T; [injection T as T; congruence|].
  injection T as -> T. rewrite T in N. inversion N; subst. exfalso. apply H2. rewrite in_app_iff. cbn. auto.
Qed.

Definition pending (s : mq) : Prop := exists t x a, mq_prods s t = MPLink x a.
Lemma blocked s L : qinv s L -> mq_tail s <> mq_head s -> mq_next s (mq_head s) = None ->
  (forall spin a, mq_cons s <> MCStubLink spin a) -> pending s.
Proof.
  intros I Hne E NL. pose proof (in_head _ _ I) as IH. destruct I as [H T N LA AD LK U NS OW PR CL PH]. destruct T as (l & T).
  destruct (adj_succ (mq_head s) l (mq_tail s)) as (b & Hb); [rewrite <- T; auto|auto|]. rewrite <- T in Hb.
  destruct (AD _ _ Hb) as [E2|(_ & [(t & Ht)|(_ & spin & HC)])]; [congruence| |exfalso; exact (NL _ _ HC)].
  exists t, b, (mq_head s). auto.
Qed.

Lemma qinv_stub_clear s L spin : qinv s L -> mq_cons s = MCStubClear spin ->
  qinv (mkMq (upn (mq_next s) stub None) (mq_owned s) (mq_tail s) (mq_head s) (mq_prods s) (MCStubXchg spin)) L.
Proof.
  intros I EC. pose proof (in_tail _ _ I) as IT. destruct I as [H T N LA AD LK U NS OW PR CL PH].
  unfold phase in PH. rewrite EC in PH. destruct PH as (P1 & P2).
  assert (NX : forall a, In a L -> upn (mq_next s) stub None a = mq_next s a) by (intros a Ha; apply upn_neq; intros ->; auto).
  constructor; cbn [mq_next mq_owned mq_tail mq_head mq_prods mq_cons]; auto.
  - rewrite NX; auto.
  - intros a b Hab. rewrite NX by (apply adj_in in Hab; tauto). destruct (AD a b Hab) as [|(? & [?|(-> & sp & HC)])]; auto. congruence.
  - intros t b a Et. destruct (LK t b a Et) as (L1 & L2). split; [auto|]. rewrite NX; [auto|apply adj_in in L1; tauto].
  - intros t x Et. rewrite upn_neq; [eauto|]. intros ->. apply (NS t). rewrite Et. auto.
  - unfold phase. cbn [mq_next mq_owned mq_tail mq_head mq_prods mq_cons]. split; [auto|]. split; [auto|apply upn_eq].
Qed.
Lemma qinv_stub_xchg s L spin : qinv s L -> mq_cons s = MCStubXchg spin ->
  qinv (mkMq (mq_next s) (mq_owned s) stub (mq_head s) (mq_prods s) (MCStubLink spin (mq_tail s))) (L ++ [stub]).
Proof.
  intros I EC. pose proof (in_head _ _ I) as IH. destruct I as [H T N LA AD LK U NS OW PR CL PH].
  unfold phase in PH. rewrite EC in PH. destruct PH as (P1 & P2 & P3). destruct T as (l & T).
  constructor; cbn [mq_next mq_owned mq_tail mq_head mq_prods mq_cons]; auto.
  - destruct H as (tl & ->). exists (tl ++ [stub]). auto.
  - exists L. auto.
  - apply nodup_snoc; auto.
  - intros a b Hab. apply adj_snoc in Hab. destruct Hab as [Hab|(-> & l' & E)].
    + destruct (AD a b Hab) as [|(? & [?|(-> & sp & HC)])]; auto. congruence.
    + rewrite T in E. apply app_inj_tail in E. destruct E as (_ & <-). right. split; [auto|]. right. split; [auto|]. exists spin. auto.
  - intros t b a Et. destruct (LK t b a Et). split; [apply adj_snoc; auto|auto].
  - intros y Ey. destruct (OW y Ey) as (O1 & O2). split; [|auto]. intros Hy. rewrite in_app_iff. cbn [In]. intros [HI|[<-|[]]]; [exact (O1 Hy HI)|congruence].
  - intros t x Et. rewrite in_app_iff. cbn [In]. intros [HI|[<-|[]]]; [exact (PR t x Et HI)|]. apply (NS t). apply pre_is_node. auto.
  - unfold phase. cbn [mq_next mq_owned mq_tail mq_head mq_prods mq_cons]. split; [auto|]. split; [congruence|].
    split; [apply adj_snoc; right; split; [auto|exists l; auto]|auto].
Qed.
Lemma qinv_stub_link s L spin prev : qinv s L -> mq_cons s = MCStubLink spin prev ->
  qinv (mkMq (upn (mq_next s) prev (Some stub)) (mq_owned s) (mq_tail s) (mq_head s) (mq_prods s) (MCWait2 spin retries)) L.
Proof.
  intros [H T N LA AD LK U NS OW PR CL PH] EC. unfold phase in PH. rewrite EC in PH. destruct PH as (P1 & P2 & P3 & P4).
  assert (TP : mq_tail s <> prev). { intros <-. destruct T as (l & ->). exact (adj_last _ _ _ N P3). }
  assert (IP : In prev L) by (apply adj_in in P3; tauto).
  constructor; cbn [mq_next mq_owned mq_tail mq_head mq_prods mq_cons]; auto.
  - rewrite upn_neq; auto.
  - intros a b Hab. destruct (Z.eq_dec a prev) as [->|].
    + rewrite upn_eq. left. f_equal. eapply adj_func; eauto.
    + rewrite upn_neq by auto. destruct (AD a b Hab) as [|(? & [?|(-> & sp & HC)])]; auto. congruence.
  - intros t b a Et. destruct (LK t b a Et) as (L1 & L2). split; [auto|]. rewrite upn_neq; [auto|]. intros ->.
    pose proof (adj_func _ _ _ _ N L1 P3) as ->. apply (NS t). rewrite Et. auto.
  - intros t x Et. rewrite upn_neq; [eauto|]. intros ->. apply (PR t prev); [rewrite Et; auto|auto].
  - unfold phase. cbn [mq_next mq_owned mq_tail mq_head mq_prods mq_cons]. auto.
Qed.
Lemma qinv_release s L x : qinv s L -> mq_cons s = MCRelease x ->
  qinv (mkMq (mq_next s) (upn (mq_owned s) x false) (mq_tail s) (mq_head s) (mq_prods s) MCIdle) L.
Proof.
  intros [H T N LA AD LK U NS OW PR CL PH] EC. unfold phase in PH. rewrite EC in PH. destruct PH as (P1 & P2 & P3 & P4).
  constructor; cbn [mq_next mq_owned mq_tail mq_head mq_prods mq_cons]; auto.
  - intros a b Hab. destruct (AD a b Hab) as [|(? & [?|(-> & sp & HC)])]; auto. congruence.
  - intros y. destruct (Z.eq_dec y x) as [->|]; [auto|]. rewrite upn_neq by auto. apply OW.
  - exact I.
Qed.

(** One step of anybody. *)
Lemma step_qinv s L l r : qinv s L -> mq_step s l = Some r ->
  match r with
  | Ok (o, s') => exists L', qinv s' L' /\
      in_hand (mq_cons s) ++ elems L ++ lin_of o = pop_of o ++ in_hand (mq_cons s') ++ elems L' /\
      (o = QPopped None -> (in_hand (mq_cons s) ++ elems L = [] \/ pending s))
  | Panic => exists t x, l = QPush t x /\ mq_owned s x = true
  | UB => False
  end.
Proof.
  intros I E. destruct l as [t x|t|spin|]; cbn [mq_step] in E.
  - destruct (mq_prods s t) eqn:Et; try discriminate. destruct (Z.eqb_spec x stub); [discriminate|]. injection E as <-.
    destruct (mq_owned s x) eqn:Eo; [exists t, x; auto|].
    exists L. split; [apply qinv_push; auto|]. cbn [lin_of pop_of mq_cons app]. rewrite app_nil_r. split; [auto|discriminate].
  - unfold mq_prod_step in E. destruct (mq_prods s t) as [|x|x|x prev] eqn:Et; try discriminate; injection E as <-.
    + exists L. split; [apply qinv_clear; auto|]. cbn [lin_of pop_of mq_cons app]. rewrite app_nil_r. split; [auto|discriminate].
    + exists (L ++ [x]). split; [apply qinv_xchg; auto|]. cbn [lin_of pop_of mq_cons app]. rewrite elems_app. split; [|discriminate].
      f_equal. f_equal. cbn. destruct (Z.eqb_spec x stub) as [->|]; [|auto].
      exfalso. apply (q_nstub _ _ I t). rewrite Et. auto.
    + exists L. split; [eapply qinv_link; eauto|]. cbn [lin_of pop_of mq_cons app]. rewrite app_nil_r. split; [auto|discriminate].
  - destruct (mq_cons s) eqn:EC; try discriminate. injection E as <-.
    assert (NL : forall spin a, mq_cons s <> MCStubLink spin a) by (intros; congruence).
    unfold mq_begin_pop. destruct (mq_next s (mq_head s)) as [n|] eqn:En.
    + destruct (head_next _ _ _ I En) as (tl' & EL). destruct (Z.eqb_spec (mq_head s) stub) as [HS|HS]; cbn [advance finish].
      * exists (tl L). split.
        -- apply qinv_behead; auto. unfold phase. cbn. pose proof (q_nodup _ _ I) as N. rewrite EL in N. apply NoDup_cons_iff in N. destruct N as (H1 & _). intros ->. apply H1. left. auto.
        -- rewrite EL. cbn [lin_of pop_of mq_cons in_hand app tl]. rewrite app_nil_r. split; [|discriminate]. cbn [elems filter]. rewrite HS. reflexivity.
      * exists (tl L). split.
        -- apply qinv_behead; auto. unfold phase. cbn [mq_cons mq_owned mq_prods]. rewrite EL. cbn [tl]. pose proof (q_nodup _ _ I) as N. rewrite EL in N. apply NoDup_cons_iff in N. destruct N as (H1 & _).
           assert (OH : mq_owned s (mq_head s) = true).
           { destruct (mq_owned s (mq_head s)) eqn:E; [auto|]. destruct (q_owned _ _ I _ E) as (O & _). exfalso. apply (O HS). apply (in_head s L I). }
           split; [auto|]. split; [auto|]. split; [auto|]. intros t Et. 
           destruct (mq_prods s t) eqn:Ep; cbn in Et; try discriminate; injection Et as ->.
           ++ apply (q_pre _ _ I t (mq_head s)); [rewrite Ep; auto|apply (in_head s L I)].
           ++ apply (q_pre _ _ I t (mq_head s)); [rewrite Ep; auto|apply (in_head s L I)].
           ++ destruct (q_link _ _ I _ _ _ Ep) as (AJ & _). rewrite EL in AJ. cbn [adj] in AJ. destruct AJ as [(E1 & E2)|AJ].
              ** cbn in E2. injection E2 as E2. apply H1. left. auto.
              ** apply H1. change ((n = prev /\ hd_error tl' = Some (mq_head s)) \/ adj prev (mq_head s) tl') with (adj prev (mq_head s) (n :: tl')) in AJ. apply adj_in in AJ. tauto.
        -- rewrite EL. cbn [lin_of pop_of mq_cons in_hand app tl]. rewrite app_nil_r. split; [|discriminate]. cbn [elems filter]. destruct (Z.eqb_spec (mq_head s) stub); [congruence|]. reflexivity.
    + destruct (Z.eqb_spec (mq_head s) stub) as [HS|HS]; cbn [goto]; exists L; (split; [apply qinv_goto; auto|]);
        cbn [lin_of pop_of mq_cons in_hand app]; rewrite app_nil_r; (split; [auto|discriminate]).
  - assert (FIN : forall n, mq_next s (mq_head s) = Some n -> mq_head s <> stub -> (forall spin a, mq_cons s <> MCStubLink spin a) -> in_hand (mq_cons s) = [] ->
        match finish s n with Ok (o, s') => exists L', qinv s' L' /\
          in_hand (mq_cons s) ++ elems L ++ lin_of o = pop_of o ++ in_hand (mq_cons s') ++ elems L' /\
          (o = QPopped None -> (in_hand (mq_cons s) ++ elems L = [] \/ pending s)) | _ => False end).
    { intros n En HS NL IH. destruct (head_next _ _ _ I En) as (tl' & EL). cbn [finish]. exists (tl L). split.
      - apply qinv_behead; auto. unfold phase. cbn [mq_cons mq_owned mq_prods]. rewrite EL. cbn [tl]. pose proof (q_nodup _ _ I) as N. rewrite EL in N. apply NoDup_cons_iff in N. destruct N as (H1 & _).
        assert (OH : mq_owned s (mq_head s) = true).
        { destruct (mq_owned s (mq_head s)) eqn:E1; [auto|]. destruct (q_owned _ _ I _ E1) as (O & _). exfalso. apply (O HS). apply (in_head s L I). }
        split; [auto|]. split; [auto|]. split; [auto|]. intros t Et. 
        destruct (mq_prods s t) eqn:Ep; cbn in Et; try discriminate; injection Et as ->.
        + apply (q_pre _ _ I t (mq_head s)); [rewrite Ep; auto|apply (in_head s L I)].
        + apply (q_pre _ _ I t (mq_head s)); [rewrite Ep; auto|apply (in_head s L I)].
        + destruct (q_link _ _ I _ _ _ Ep) as (AJ & _). rewrite EL in AJ. cbn [adj] in AJ. destruct AJ as [(E1 & E2)|AJ].
          * cbn in E2. injection E2 as E2. apply H1. left. auto.
          * apply H1. change ((n = prev /\ hd_error tl' = Some (mq_head s)) \/ adj prev (mq_head s) tl') with (adj prev (mq_head s) (n :: tl')) in AJ. apply adj_in in AJ. tauto.
      - rewrite IH, EL. cbn [lin_of pop_of mq_cons in_hand app tl]. rewrite app_nil_r. split; [|discriminate]. cbn [elems filter]. destruct (Z.eqb_spec (mq_head s) stub); [congruence|]. reflexivity. }
    assert (ADV : forall n spin, mq_next s (mq_head s) = Some n -> mq_head s = stub -> (forall spin a, mq_cons s <> MCStubLink spin a) -> in_hand (mq_cons s) = [] ->
        match advance s spin n with Ok (o, s') => exists L', qinv s' L' /\
          in_hand (mq_cons s) ++ elems L ++ lin_of o = pop_of o ++ in_hand (mq_cons s') ++ elems L' /\
          (o = QPopped None -> (in_hand (mq_cons s) ++ elems L = [] \/ pending s)) | _ => False end).
    { intros n spin En HS NL IH. destruct (head_next _ _ _ I En) as (tl' & EL). cbn [advance]. exists (tl L). split.
      - apply qinv_behead; auto. unfold phase. cbn. pose proof (q_nodup _ _ I) as N. rewrite EL in N. apply NoDup_cons_iff in N. destruct N as (H1 & _). intros ->. apply H1. left. auto.
      - rewrite IH, EL. cbn [lin_of pop_of mq_cons in_hand app tl]. rewrite app_nil_r. split; [|discriminate]. cbn [elems filter]. rewrite HS. reflexivity. }
    assert (GO : forall c, phase (mkMq (mq_next s) (mq_owned s) (mq_tail s) (mq_head s) (mq_prods s) c) L -> (forall spin a, mq_cons s <> MCStubLink spin a) ->
        in_hand (mq_cons s) = [] -> in_hand c = [] ->
        match goto s c with Ok (o, s') => exists L', qinv s' L' /\
          in_hand (mq_cons s) ++ elems L ++ lin_of o = pop_of o ++ in_hand (mq_cons s') ++ elems L' /\
          (o = QPopped None -> (in_hand (mq_cons s) ++ elems L = [] \/ pending s)) | _ => False end).
    { intros c PH NL IH IC. cbn [goto]. exists L. split; [apply qinv_goto; auto|]. rewrite IH. cbn [lin_of pop_of mq_cons app]. rewrite IC, app_nil_r. split; [auto|discriminate]. }
    assert (RN : (forall spin a, mq_cons s <> MCStubLink spin a) -> in_hand (mq_cons s) = [] -> (elems L = [] \/ pending s) ->
        match return_null s with Ok (o, s') => exists L', qinv s' L' /\
          in_hand (mq_cons s) ++ elems L ++ lin_of o = pop_of o ++ in_hand (mq_cons s') ++ elems L' /\
          (o = QPopped None -> (in_hand (mq_cons s) ++ elems L = [] \/ pending s)) | _ => False end).
    { intros NL IH Q. cbn [return_null]. exists L. split; [apply qinv_goto; auto; exact Logic.I|]. rewrite IH. cbn [lin_of pop_of mq_cons in_hand app]. rewrite app_nil_r. auto. }
    assert (LIFT : forall r : res (mqout * mq), match r with Ok (o, s') => exists L', qinv s' L' /\
          in_hand (mq_cons s) ++ elems L ++ lin_of o = pop_of o ++ in_hand (mq_cons s') ++ elems L' /\
          (o = QPopped None -> (in_hand (mq_cons s) ++ elems L = [] \/ pending s)) | _ => False end ->
        match r with Ok (o, s') => exists L', qinv s' L' /\
          in_hand (mq_cons s) ++ elems L ++ lin_of o = pop_of o ++ in_hand (mq_cons s') ++ elems L' /\
          (o = QPopped None -> (in_hand (mq_cons s) ++ elems L = [] \/ pending s))
        | Panic => exists t x, QCons = QPush t x /\ mq_owned s x = true | UB => False end).
    { intros [(o, s')| |]; tauto. }
    pose proof (q_phase _ _ I) as PH. unfold phase in PH.
    unfold mq_cons_step in E.
    assert (NLD : (exists spin a, mq_cons s = MCStubLink spin a) \/ forall spin a, mq_cons s <> MCStubLink spin a).
    { destruct (mq_cons s); try (right; intros; congruence). left. eauto. }
    destruct (mq_cons s) as [|spin|spin k|spin|spin|spin|spin|spin prev|spin k|x] eqn:EC; try discriminate; injection E as <-;
      try (destruct NLD as [(? & ? & ?)|NL]; [discriminate|]).
    + apply LIFT. destruct (Z.eqb_spec (mq_tail s) (mq_head s)) as [Et|Et].
      * apply RN; auto. left. rewrite (single _ _ I Et). cbn. rewrite PH. reflexivity.
      * apply GO; auto. unfold phase. cbn. auto.
    + apply LIFT. destruct PH as (P1 & P2). destruct (mq_next s (mq_head s)) as [n|] eqn:En; [apply ADV; auto|].
      destruct spin; [apply GO; auto; unfold phase; cbn; auto|]. destruct k; [|apply GO; auto; unfold phase; cbn; auto].
      apply RN; auto. right. eapply blocked; eauto. rewrite EC. auto.
    + apply LIFT. destruct (mq_next s (mq_head s)) as [n|] eqn:En; [apply FIN; auto|]. apply GO; auto.
    + apply LIFT. destruct (Z.eqb_spec (mq_tail s) (mq_head s)) as [Et|Et].
      * apply GO; auto. unfold phase. cbn. split; [auto|]. rewrite (single _ _ I Et). cbn. tauto.
      * apply GO; auto. unfold phase. cbn. auto.
    + exists L. split; [apply qinv_stub_clear; auto|]. cbn [lin_of pop_of mq_cons in_hand app]. rewrite app_nil_r. split; [auto|discriminate].
    + exists (L ++ [stub]). split; [apply qinv_stub_xchg; auto|]. cbn [lin_of pop_of mq_cons in_hand app]. rewrite app_nil_r, elems_app. cbn. rewrite app_nil_r. split; [auto|discriminate].
    + exists L. split; [eapply qinv_stub_link; eauto|]. cbn [lin_of pop_of mq_cons in_hand app]. rewrite app_nil_r. split; [auto|discriminate].
    + apply LIFT. destruct PH as (P1 & P2). destruct (mq_next s (mq_head s)) as [n|] eqn:En; [apply FIN; auto|].
      destruct spin; [apply GO; auto; unfold phase; cbn; auto|]. destruct k; [|apply GO; auto; unfold phase; cbn; auto].
      apply RN; auto. right. eapply blocked; eauto. rewrite EC. auto.
    + destruct PH as (P1 & P2 & P3 & P4). rewrite P3. exists L. split; [apply qinv_release; auto|].
      cbn [lin_of pop_of mq_cons in_hand app]. rewrite app_nil_r. split; [auto|discriminate].
Qed.

Lemma new_qinv : qinv mq_new [stub].
Proof.
  constructor; cbn; auto; try discriminate.
  - exists []. auto.
  - exists []. auto.
  - repeat constructor. intros [].
  - intros a b [(_ & H)|[]]. discriminate.
  - intros x _. split; [intros H [|[]]; congruence|discriminate].
Qed.

Lemma queued_cons o outs : queued (o :: outs) = lin_of o ++ queued outs. Proof. reflexivity. Qed.
Lemma popped_cons o outs : popped (o :: outs) = pop_of o ++ popped outs. Proof. reflexivity. Qed.

Lemma run_qinv : forall ls s L outs s', qinv s L -> mq_run s ls = Ok (outs, s') ->
  exists L', qinv s' L' /\ in_hand (mq_cons s) ++ elems L ++ queued outs = popped outs ++ in_hand (mq_cons s') ++ elems L'.
Proof.
  induction ls as [|l ls IH]; intros s L outs s' I E; cbn [mq_run] in E.
  - injection E as <- <-. exists L. split; [auto|]. cbn [queued popped flat_map app]. rewrite app_nil_r. auto.
  - destruct (mq_step s l) as [r|] eqn:ES; [|eauto]. pose proof (step_qinv s L l r I ES) as ST.
    destruct r as [(o, s1)| |]; cbn [bind] in E; [|discriminate..]. destruct ST as (L1 & I1 & E1 & _). cbn [snd fst] in E.
    destruct (mq_run s1 ls) as [(outs1, s2)| |] eqn:ER; cbn [bind] in E; [|discriminate..]. injection E as <- <-. cbn [fst snd].
    destruct (IH s1 L1 outs1 s2 I1 ER) as (L2 & I2 & E2). exists L2. split; [auto|].
    rewrite queued_cons, popped_cons. rewrite !app_assoc in *. rewrite E1. rewrite <- !app_assoc in *. rewrite E2. auto.
Qed.

Lemma run_step ls : forall s outs s' l o s2, mq_run s ls = Ok (outs, s') -> mq_step s' l = Some (Ok (o, s2)) ->
  mq_run s (ls ++ [l]) = Ok (outs ++ [o], s2).
Proof.
  induction ls as [|l0 ls IH]; intros s outs s' l o s2 E ES; cbn [mq_run app] in *.
  - injection E as <- <-. rewrite ES. reflexivity.
  - destruct (mq_step s l0) as [r|]; [|eauto]. destruct r as [(o1, s1)| |]; cbn [bind snd fst] in *; [|discriminate..].
    destruct (mq_run s1 ls) as [(outs1, s3)| |] eqn:ER; cbn [bind] in E; [|discriminate..]. injection E as <- <-. cbn [fst snd] in *.
    rewrite (IH _ _ _ _ _ _ ER ES). reflexivity.
Qed.

Lemma run_app l1 : forall l2 s o1 s1 o2 s2, mq_run s l1 = Ok (o1, s1) -> mq_run s1 l2 = Ok (o2, s2) -> mq_run s (l1 ++ l2) = Ok (o1 ++ o2, s2).
Proof.
  induction l1 as [|l l1 IH]; intros l2 s o1 s1 o2 s2 E1 E2; cbn [mq_run app] in *.
  - injection E1 as <- <-. auto.
  - destruct (mq_step s l) as [r|]; [|eauto]. destruct r as [(o, s0)| |]; cbn [bind snd fst] in *; [|discriminate..].
    destruct (mq_run s0 l1) as [(outs1, s3)| |] eqn:ER; cbn [bind] in E1; [|discriminate..]. injection E1 as <- <-. cbn [fst snd] in *.
    rewrite (IH _ _ _ _ _ _ ER E2). reflexivity.
Qed.

(** Bookkeeping of producers. *)
Definition tcase (p : mprod) (calls lin rets : list Z) : Prop :=
  match p with
  | MPIdle => lin = calls /\ rets = calls
  | MPOwned x | MPCleared x => calls = lin ++ [x] /\ rets = lin
  | MPLink x _ => lin = calls /\ calls = rets ++ [x]
  end.
Definition call_of (t : nat) (o : mqout) : list Z := match o with QCall u x => if Nat.eqb u t then [x] else [] | _ => [] end.
Definition lin_of_t (t : nat) (o : mqout) : list Z := match o with QLin u x => if Nat.eqb u t then [x] else [] | _ => [] end.
Definition ret_of (t : nat) (o : mqout) : list Z := match o with QRet u x => if Nat.eqb u t then [x] else [] | _ => [] end.

Lemma step_tcase s l o s' t calls lin rets : mq_step s l = Some (Ok (o, s')) -> tcase (mq_prods s t) calls lin rets ->
  tcase (mq_prods s' t) (calls ++ call_of t o) (lin ++ lin_of_t t o) (rets ++ ret_of t o).
Proof.
  intros E H.
  assert (SAME : forall c : mcons, call_of t o = [] -> lin_of_t t o = [] -> ret_of t o = [] -> mq_prods s' t = mq_prods s t ->
    tcase (mq_prods s' t) (calls ++ call_of t o) (lin ++ lin_of_t t o) (rets ++ ret_of t o)).
  { intros c E1 E2 E3 E4. rewrite E1, E2, E3, E4, !app_nil_r. auto. }
  specialize (SAME MCIdle).
  destruct l as [u x|u|spin|]; cbn [mq_step] in E.
  - destruct (mq_prods s u) eqn:Eu; try discriminate. destruct (x =? stub); [discriminate|]. destruct (mq_owned s x); [discriminate|].
    injection E as <- <-. cbn [call_of lin_of_t ret_of mq_prods] in *. rewrite !app_nil_r. destruct (Nat.eqb_spec u t) as [->|Hne].
    + rewrite upt_eq. rewrite Eu in H. cbn [tcase] in *. destruct H as (-> & ->). auto.
    + rewrite upt_neq by auto. rewrite app_nil_r. auto.
  - unfold mq_prod_step in E. destruct (mq_prods s u) eqn:Eu; try discriminate; injection E as <- <-;
      cbn [call_of lin_of_t ret_of mq_prods] in *; rewrite !app_nil_r.
    + destruct (Nat.eq_dec u t) as [->|]; [rewrite upt_eq, Eu in *; auto|rewrite upt_neq by auto; auto].
    + destruct (Nat.eqb_spec u t) as [->|Hne].
      * rewrite upt_eq. rewrite Eu in H. cbn [tcase] in *. destruct H as (-> & ->). auto.
      * rewrite upt_neq by auto. rewrite app_nil_r. auto.
    + destruct (Nat.eqb_spec u t) as [->|Hne].
      * rewrite upt_eq. rewrite Eu in H. cbn [tcase] in *. destruct H as (-> & ->). auto.
      * rewrite upt_neq by auto. rewrite app_nil_r. auto.
  - destruct (mq_cons s); try discriminate. unfold mq_begin_pop, goto, advance, finish in E.
    destruct (mq_next s (mq_head s)), (mq_head s =? stub); injection E as <- <-; apply SAME; reflexivity.
  - unfold mq_cons_step, goto, advance, finish, return_null in E. destruct (mq_cons s) as [|spin|spin k|spin|spin|spin|spin|spin prev|spin k|x]; try discriminate.
    + destruct (mq_tail s =? mq_head s); injection E as <- <-; apply SAME; reflexivity.
    + destruct (mq_next s (mq_head s)), spin, k; injection E as <- <-; apply SAME; reflexivity.
    + destruct (mq_next s (mq_head s)); injection E as <- <-; apply SAME; reflexivity.
    + destruct (mq_tail s =? mq_head s); injection E as <- <-; apply SAME; reflexivity.
    + injection E as <- <-; apply SAME; reflexivity.
    + injection E as <- <-; apply SAME; reflexivity.
    + injection E as <- <-; apply SAME; reflexivity.
    + destruct (mq_next s (mq_head s)), spin, k; injection E as <- <-; apply SAME; reflexivity.
    + destruct (mq_owned s x); [|discriminate]; injection E as <- <-; apply SAME; reflexivity.
Qed.

Lemma run_tcase t : forall ls s outs s' calls lin rets, mq_run s ls = Ok (outs, s') -> tcase (mq_prods s t) calls lin rets ->
  tcase (mq_prods s' t) (calls ++ calls_of t outs) (lin ++ queued_of t outs) (rets ++ returned_of t outs).
Proof.
  induction ls as [|l ls IH]; intros s outs s' calls lin rets E H; cbn [mq_run] in E.
  - injection E as <- <-. cbn [calls_of queued_of returned_of flat_map]. rewrite !app_nil_r. auto.
  - destruct (mq_step s l) as [r|] eqn:ES; [|eauto]. destruct r as [(o, s1)| |]; cbn [bind snd fst] in *; [|discriminate..].
    destruct (mq_run s1 ls) as [(outs1, s3)| |] eqn:ER; cbn [bind] in E; [|discriminate..]. injection E as <- <-. cbn [fst snd] in *.
    pose proof (IH _ _ _ _ _ _ ER (step_tcase _ _ _ _ _ _ _ _ ES H)) as Q.
    rewrite <- !app_assoc in Q. exact Q.
Qed.

(** Who owns a node, by counting calls. *)
Definition called_of (o : mqout) : list Z := match o with QCall _ x => [x] | _ => [] end.
Definition ocase (b : bool) (x : Z) (calls pops : list Z) : Prop :=
  count_occ Z.eq_dec calls x = (count_occ Z.eq_dec pops x + (if b then 1 else 0))%nat.
Lemma step_ocase s l o s' x calls pops : mq_step s l = Some (Ok (o, s')) -> ocase (mq_owned s x) x calls pops ->
  ocase (mq_owned s' x) x (calls ++ called_of o) (pops ++ pop_of o).
Proof.
  intros E H. unfold ocase in *. rewrite !count_occ_app.
  destruct l as [u y|u|spin|]; cbn [mq_step] in E.
  - destruct (mq_prods s u) eqn:Eu; try discriminate. destruct (y =? stub); [discriminate|]. destruct (mq_owned s y) eqn:Eo; [discriminate|].
    injection E as <- <-. cbn [called_of pop_of mq_owned count_occ]. destruct (Z.eq_dec y x) as [->|].
    + rewrite upn_eq. rewrite Eo in H. lia.
    + rewrite upn_neq by auto. lia.
  - unfold mq_prod_step in E. destruct (mq_prods s u) eqn:Eu; try discriminate; injection E as <- <-; cbn [called_of pop_of mq_owned count_occ]; lia.
  - destruct (mq_cons s); try discriminate. unfold mq_begin_pop, goto, advance, finish in E.
    destruct (mq_next s (mq_head s)), (mq_head s =? stub); injection E as <- <-; cbn [called_of pop_of mq_owned count_occ]; lia.
  - unfold mq_cons_step, goto, advance, finish, return_null in E. destruct (mq_cons s) as [|spin|spin k|spin|spin|spin|spin|spin prev|spin k|y]; try discriminate.
    + destruct (mq_tail s =? mq_head s); injection E as <- <-; cbn [called_of pop_of mq_owned count_occ]; lia.
    + destruct (mq_next s (mq_head s)), spin, k; injection E as <- <-; cbn [called_of pop_of mq_owned count_occ]; lia.
    + destruct (mq_next s (mq_head s)); injection E as <- <-; cbn [called_of pop_of mq_owned count_occ]; lia.
    + destruct (mq_tail s =? mq_head s); injection E as <- <-; cbn [called_of pop_of mq_owned count_occ]; lia.
    + injection E as <- <-; cbn [called_of pop_of mq_owned count_occ]; lia.
    + injection E as <- <-; cbn [called_of pop_of mq_owned count_occ]; lia.
    + injection E as <- <-; cbn [called_of pop_of mq_owned count_occ]; lia.
    + destruct (mq_next s (mq_head s)), spin, k; injection E as <- <-; cbn [called_of pop_of mq_owned count_occ]; lia.
    + destruct (mq_owned s y) eqn:Eo; [|discriminate]. injection E as <- <-; cbn [called_of pop_of mq_owned count_occ]. destruct (Z.eq_dec y x) as [->|].
      * rewrite upn_eq. rewrite Eo in H. lia.
      * rewrite upn_neq by auto. lia.
Qed.
Lemma run_ocase x : forall ls s outs s' calls pops, mq_run s ls = Ok (outs, s') -> ocase (mq_owned s x) x calls pops ->
  ocase (mq_owned s' x) x (calls ++ called outs) (pops ++ popped outs).
Proof.
  induction ls as [|l ls IH]; intros s outs s' calls pops E H; cbn [mq_run] in E.
  - injection E as <- <-. cbn [called popped flat_map]. rewrite !app_nil_r. auto.
  - destruct (mq_step s l) as [r|] eqn:ES; [|eauto]. destruct r as [(o, s1)| |]; cbn [bind snd fst] in *; [|discriminate..].
    destruct (mq_run s1 ls) as [(outs1, s3)| |] eqn:ER; cbn [bind] in E; [|discriminate..]. injection E as <- <-. cbn [fst snd] in *.
    pose proof (IH _ _ _ _ _ ER (step_ocase _ _ _ _ _ _ _ ES H)) as Q. rewrite <- !app_assoc in Q. exact Q.
Qed.

(** The consumer alone, when no push is in progress. *)
Lemma drain_one s L b : qinv s L -> mq_cons s = MCIdle -> (forall t, mq_prods s t = MPIdle) ->
  exists outs s' L', mq_run s (one_pop b) = Ok (outs, s') /\ qinv s' L' /\ mq_cons s' = MCIdle /\ (forall t, mq_prods s' t = MPIdle) /\
    popped outs = firstn 1 (elems L) /\ elems L' = skipn 1 (elems L) /\ queued outs = [] /\ In (QPopped (hd_error (elems L))) outs.
Proof.
  intros I EC EP.
  assert (LINK : forall a c, adj a c L -> mq_next s a = Some c).
  { intros a c H. destruct (q_adj _ _ I a c H) as [|(_ & [(t & Ht)|(_ & sp & HC)])]; [auto|rewrite EP in Ht; discriminate|congruence]. }
  destruct (q_head _ _ I) as (tl & EL).
  assert (NL : mq_tail s = last L 0). { destruct (q_tail _ _ I) as (l & ->). rewrite last_last. auto. }
  assert (NT : mq_next s (mq_tail s) = None) by apply (q_last _ _ I).
  pose proof (q_nodup _ _ I) as ND.
  assert (OWN : forall x, In x L -> x <> stub -> mq_owned s x = true).
  { intros x H1 H2. destruct (mq_owned s x) eqn:E; [auto|]. destruct (q_owned _ _ I x E) as (O & _). exfalso. exact (O H2 H1). }
  (* it suffices to run the consumer *)
  assert (GOAL : forall outs s', mq_run s (one_pop b) = Ok (outs, s') -> mq_cons s' = MCIdle -> mq_prods s' = mq_prods s ->
     popped outs = firstn 1 (elems L) -> queued outs = [] -> In (QPopped (hd_error (elems L))) outs ->
     exists outs s' L', mq_run s (one_pop b) = Ok (outs, s') /\ qinv s' L' /\ mq_cons s' = MCIdle /\ (forall t, mq_prods s' t = MPIdle) /\
    popped outs = firstn 1 (elems L) /\ elems L' = skipn 1 (elems L) /\ queued outs = [] /\ In (QPopped (hd_error (elems L))) outs).
  { intros outs s' R C P PO QU IN. destruct (run_qinv _ _ _ _ _ I R) as (L' & I' & E'). exists outs, s', L'.
    rewrite QU, EC, C in E'. cbn [in_hand app] in E'. rewrite app_nil_r in E'.
    split; [auto|]. split; [auto|]. split; [auto|]. split; [intros t; rewrite P; auto|]. split; [auto|]. split; [|auto].
    rewrite PO in E'. rewrite <- (firstn_skipn 1 (elems L)) in E' at 1. apply app_inv_head in E'. auto. }
  clear I. unfold one_pop in *. cbn [repeat] in *.
  destruct tl as [|x tl].
  - (* a single node *)
    rewrite EL in NL. cbn [last] in NL. rewrite NL in NT.
    destruct (Z.eq_dec (mq_head s) stub) as [HS|HS].
    + eapply GOAL.
      * cbn [mq_run mq_step]. rewrite EC. unfold mq_begin_pop. rewrite NT, HS. cbn [Z.eqb stub goto bind fst snd mq_step mq_cons_step mq_cons mq_tail mq_head].
        rewrite NL, HS. cbn [Z.eqb return_null bind fst snd mq_step mq_cons_step mq_cons]. reflexivity.
      * reflexivity.
      * reflexivity.
      * rewrite EL. cbn. rewrite HS. reflexivity.
      * reflexivity.
      * rewrite EL. cbn. rewrite HS. cbn. auto.
    + assert (HO : mq_owned s (mq_head s) = true) by (apply OWN; [rewrite EL; left; auto|auto]).
      assert (HE : (mq_head s =? stub) = false) by (apply Z.eqb_neq; auto).
      eapply GOAL.
      * cbn [mq_run mq_step]. rewrite EC. unfold mq_begin_pop. rewrite NT, HE. cbn [goto bind fst snd mq_step mq_cons_step mq_cons mq_tail mq_head mq_next mq_owned mq_prods].
        rewrite NL, Z.eqb_refl. cbn [goto bind fst snd mq_step mq_cons_step mq_cons mq_tail mq_head mq_next mq_owned mq_prods].
        rewrite ?NL, upn_eq. cbn [finish bind fst snd mq_step mq_cons_step mq_cons mq_tail mq_head mq_next mq_owned mq_prods].
        rewrite HO. cbn [bind fst snd mq_step mq_cons_step mq_cons]. reflexivity.
      * reflexivity.
      * reflexivity.
      * rewrite EL. cbn [elems filter]. rewrite HE. reflexivity.
      * reflexivity.
      * rewrite EL. cbn [elems filter]. rewrite HE. cbn. tauto.
  - (* at least two nodes *)
    assert (N1 : mq_next s (mq_head s) = Some x) by (apply LINK; rewrite EL; left; auto).
    assert (XH : x <> mq_head s). { rewrite EL in ND. apply NoDup_cons_iff in ND. destruct ND as (ND & _). intros ->. apply ND. left. auto. }
    destruct (Z.eq_dec (mq_head s) stub) as [HS|HS].
    + assert (XS : x <> stub) by congruence. assert (XE : (x =? stub) = false) by (apply Z.eqb_neq; auto).
      assert (HO : mq_owned s x = true) by (apply OWN; [rewrite EL; right; left; auto|auto]).
      assert (EE : elems L = x :: elems tl). { rewrite EL. cbn [elems filter]. rewrite HS, XE. reflexivity. }
      destruct tl as [|y tl].
      * rewrite EL in NL. cbn [last] in NL. rewrite NL in NT.
        eapply GOAL.
        -- cbn [mq_run mq_step]. rewrite EC. unfold mq_begin_pop. rewrite N1, HS. cbn [Z.eqb stub advance bind fst snd mq_step mq_cons_step mq_cons mq_tail mq_head mq_next mq_owned mq_prods].
           rewrite NT. cbn [goto bind fst snd mq_step mq_cons_step mq_cons mq_tail mq_head mq_next mq_owned mq_prods].
           rewrite NL, Z.eqb_refl. cbn [goto bind fst snd mq_step mq_cons_step mq_cons mq_tail mq_head mq_next mq_owned mq_prods].
           rewrite ?NL, upn_eq. cbn [finish bind fst snd mq_step mq_cons_step mq_cons mq_tail mq_head mq_next mq_owned mq_prods].
           rewrite HO. cbn [bind fst snd mq_step mq_cons_step mq_cons]. reflexivity.
        -- reflexivity.
        -- reflexivity.
        -- rewrite EE. reflexivity.
        -- reflexivity.
        -- rewrite EE. cbn. tauto.
      * assert (N2 : mq_next s x = Some y) by (apply LINK; rewrite EL; right; left; auto).
        eapply GOAL.
        -- cbn [mq_run mq_step]. rewrite EC. unfold mq_begin_pop. rewrite N1, HS. cbn [Z.eqb stub advance bind fst snd mq_step mq_cons_step mq_cons mq_tail mq_head mq_next mq_owned mq_prods].
           rewrite N2. cbn [finish bind fst snd mq_step mq_cons_step mq_cons mq_tail mq_head mq_next mq_owned mq_prods].
           rewrite HO. cbn [bind fst snd mq_step mq_cons_step mq_cons]. reflexivity.
        -- reflexivity.
        -- reflexivity.
        -- rewrite EE. reflexivity.
        -- reflexivity.
        -- rewrite EE. cbn. tauto.
    + assert (HE : (mq_head s =? stub) = false) by (apply Z.eqb_neq; auto).
      assert (HO : mq_owned s (mq_head s) = true) by (apply OWN; [rewrite EL; left; auto|auto]).
      eapply GOAL.
      * cbn [mq_run mq_step]. rewrite EC. unfold mq_begin_pop. rewrite N1, HE. cbn [finish bind fst snd mq_step mq_cons_step mq_cons mq_tail mq_head mq_next mq_owned mq_prods].
        rewrite HO. cbn [bind fst snd mq_step mq_cons_step mq_cons]. reflexivity.
      * reflexivity.
      * reflexivity.
      * rewrite EL. cbn [elems filter]. rewrite HE. reflexivity.
      * reflexivity.
      * rewrite EL. cbn [elems filter]. rewrite HE. cbn. tauto.
Qed.
