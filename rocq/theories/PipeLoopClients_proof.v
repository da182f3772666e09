(** Any number of schedule calls that overlap arbitrarily, with no frame and no background
    processing in progress. *)
From Coq Require Import Lia.
From Verif Require Import Base Base_lemmas PipeLoop_model PipeLoop_spec PipeLoop_proof PipeLoopLive_proof.

Ltac splits := repeat match goal with |- _ /\ _ => split end.

(** Program counters of a scheduling call, and what is known at each of them on its own. *)
Definition at_client (s : shared) (p : pc) : Prop :=
  match p with
  | Idle | CInc _ _ | CLoad1 _ _ | CAllow _ _ | CPush1 _ _ _ | CPush2 _ _ _ | CFrames _ _ | CTry _ _ | CNf _ _ | CRet _ _ _ | CWait _
  | ERun KClient _ _ | EDec KClient _ _
  | SLoad1 (RClient _ _ _) | STry (RClient _ _ _) | SState (RClient _ _ _) | SCall (RClient _ _ _) => True
  | CLoad2 _ _ v | SLoad2 (RClient _ _ _) v => v = ver s
  | CUnlock _ _ n | CCheck _ _ n => n = 0
  | SSet (RClient _ _ _) => armed s = true
  | SUnlock (RClient _ _ _) | SFrames (RClient _ _ _) => armed s = true
  | _ => False
  end.

(** The thread will see to it that background processing is armed if tasks are left. *)
Definition resp (p : pc) : bool :=
  match p with
  | CLoad1 _ _ | CLoad2 _ _ _ | CAllow _ _ | CPush1 _ _ true | CPush2 _ _ true | CFrames _ _ | CTry _ _ | CNf _ _
  | CUnlock _ _ _ | CCheck _ _ _ | ERun KClient _ _ | EDec KClient _ _
  | SLoad1 _ | SLoad2 _ _ | STry _ | SState _ | SCall _ | SSet _ => true
  | _ => false
  end.
Definition isset (p : pc) : bool := match p with SSet _ => true | _ => false end.

Record cinv (s : state) : Prop := {
  k_at : forall i p, nth_error (pcs s) i = Some p -> at_client (sh s) p;
  k_frames : frames (sh s) = 0;
  k_ver : Z.odd (ver (sh s)) = false;
  k_run : pstate (sh s) <> Running;
  k_sched : pstate (sh s) = Scheduled -> armed (sh s) = true;
  k_armed : armed (sh s) = true -> pstate (sh s) = Scheduled \/ exists j p, nth_error (pcs s) j = Some p /\ isset p = true;
  k_resp : armed (sh s) = true \/ pend (sh s) = 0 \/ exists j p, nth_error (pcs s) j = Some p /\ resp p = true
}.

(** Effect of one step on what is shared. *)
Lemma client_step c i b s p s' p' : at_client s p -> frames s = 0 -> Z.odd (ver s) = false -> pstate s <> Running -> (pstate s = Scheduled -> armed s = true) ->
  pstep c i b s p = Some (s', p') ->
  at_client s' p' /\ frames s' = 0 /\ ver s' = ver s /\ pstate s' <> Running /\ (armed s = true -> armed s' = true) /\
  (pstate s' = Scheduled -> armed s' = true) /\ (pstate s = Scheduled -> pstate s' = Scheduled) /\
  (armed s' = true -> armed s = true \/ isset p' = true) /\ (isset p = true -> pstate s' = Scheduled).
Proof.
  intros A F V R SA H. cases_step p H; cbn [at_client] in A; try contradiction; try (destruct r; try contradiction); try (destruct k; try contradiction);
    cbs; split_pc; cbn [at_client isset] in *; splits; try tauto; try congruence; try discriminate; auto.
  all: try (apply SA; assumption).
  all: try (apply Z.eqb_neq in Heqb0; congruence).
Qed.

Lemma client_resp c i b s p s' p' : at_client s p -> frames s = 0 -> Z.odd (ver s) = false -> pstate s <> Running -> (pstate s = Scheduled -> armed s = true) ->
  0 <= pend s -> pstep c i b s p = Some (s', p') ->
  (resp p = false -> pend s' <> 0 -> pend s <> 0 \/ resp p' = true) /\
  (resp p = true -> resp p' = true \/ armed s' = true \/ pend s' = 0 \/ (exists j, pmutex s = Some j /\ holdP p = false) \/ (exists j, smutex s = Some j /\ holdS p = false)).
Proof.
  intros A F V R SA P H. cases_step p H; cbn [at_client] in A; try contradiction; try (destruct r; try contradiction); try (destruct k; try contradiction);
    cbs; split_pc; cbn [at_client resp] in *; split; intros X; try discriminate X; auto; try (left; lia); try (intros Y; auto; left; lia); eauto 6.
  all: try congruence.
  all: try (apply Z.eqb_neq in Heqb0; congruence).
  all: try (subst n; cbn in Heqb0; apply negb_false_iff, Z.eqb_eq in Heqb0; auto; fail).
  all: try (destruct a; try discriminate X; auto; fail).
  all: try (right; right; right; left; eexists; split; reflexivity).
  all: try (right; right; right; right; eexists; split; reflexivity).
Qed.

Lemma step_cinv c s i a s' : inv s -> cinv s -> (match a with ASched _ _ | AStep _ => True | _ => False end) -> step c s i a = Some s' -> cinv s'.
Proof.
  intros I [A F V R SA AS L] Ha H. destruct s as [s ps]. unfold step in H. cbn [pcs sh] in *.
  destruct (nth_error ps i) as [p|] eqn:Hp; [|discriminate].
  assert (Li : (i < length ps)%nat) by (apply nth_error_Some; congruence).
  assert (EX : forall (f : pc -> bool) p1, f p = false -> (exists j q, nth_error ps j = Some q /\ f q = true) -> exists j q, nth_error (upd ps i p1) j = Some q /\ f q = true).
  { intros f p1 Fp (j & q & Hj & Hf). exists j, q. split; [|exact Hf]. rewrite nth_error_upd_neq; [exact Hj|]. intros ->. congruence. }
  destruct a as [t w|d| |b]; try contradiction.
  - destruct p; try discriminate. destruct (Nat.eqb i 0 || _); [discriminate|]. injection H as <-.
    split; cbn [sh pcs add_log frames ver pstate armed pend]; auto.
    + intros j q Hj. destruct (Nat.eq_dec i j) as [->|Nj].
      * rewrite nth_error_upd_eq in Hj by exact Li. injection Hj as <-. exact Logic.I.
      * rewrite nth_error_upd_neq in Hj by congruence. apply (A _ _ Hj).
    + intros X. destruct (AS X) as [Y|Y]; [left; exact Y|right]. apply EX; [reflexivity|exact Y].
    + destruct L as [Y|[Y|Y]]; [auto|auto|]. right. right. apply EX; [reflexivity|exact Y].
  - destruct (pstep c i b s p) as [[s1 p1]|] eqn:E; [|discriminate]. injection H as <-.
    destruct (client_step _ _ _ _ _ _ _ (A _ _ Hp) F V R SA E) as (B1 & B2 & B3 & B4 & B5 & B6 & B7 & B8 & B9).
    assert (PP : 0 <= pend s).
    { pose proof (i_pend _ I) as E0. cbn [sh pcs] in E0. assert (0 <= sumf weight ps).
      { clear. induction ps as [|q ps IH]; cbn; [lia|]. destruct q; cbn [weight]; try destruct k; lia. } lia. }
    destruct (client_resp _ _ _ _ _ _ _ (A _ _ Hp) F V R SA PP E) as (C1 & C2).
    split; cbn [sh pcs]; auto.
    + intros j q Hj. destruct (Nat.eq_dec i j) as [->|Nj].
      * rewrite nth_error_upd_eq in Hj by exact Li. injection Hj as <-. exact B1.
      * rewrite nth_error_upd_neq in Hj by congruence. pose proof (A _ _ Hj) as X. destruct q; cbn [at_client] in *; try (destruct r); try (destruct k); auto; congruence.
    + rewrite B3. exact V.
    + intros X. destruct (B8 X) as [Y|Y].
      * destruct (AS Y) as [Z0|(j & q & Hj & Hq)]; [left; auto|]. destruct (Nat.eq_dec i j) as [->|Nj].
        -- left. apply B9. congruence.
        -- right. exists j, q. rewrite nth_error_upd_neq by congruence. auto.
      * right. exists i, p1. rewrite nth_error_upd_eq by exact Li. auto.
    + destruct (resp p) eqn:Rp.
      * destruct (C2 eq_refl) as [Y|[Y|[Y|[(j & Y & HP)|(j & Y & HS)]]]]; auto.
        -- right. right. exists i, p1. rewrite nth_error_upd_eq by exact Li. auto.
        -- assert (Lj : (j < length ps)%nat) by (apply (i_lt _ I); auto). destruct (nth_error ps j) as [q|] eqn:Hj; [|apply nth_error_None in Hj; lia].
           pose proof (proj2 (i_pm _ I _ _ Hj) Y) as HQ. assert (j <> i) by congruence.
           right. right. exists j, q. rewrite nth_error_upd_neq by congruence. split; [exact Hj|]. pose proof (A _ _ Hj) as X.
           destruct q; cbn in HQ, X |- *; try discriminate HQ; try contradiction; try reflexivity; destruct k; try contradiction; reflexivity.
        -- assert (Lj : (j < length ps)%nat) by (apply (i_lt _ I); auto). destruct (nth_error ps j) as [q|] eqn:Hj; [|apply nth_error_None in Hj; lia].
           pose proof (proj2 (i_sm _ I _ _ Hj) Y) as HQ. assert (j <> i) by congruence. pose proof (A _ _ Hj) as X.
           assert (armed s = true \/ resp q = true) as [Z0|Z0].
           { destruct q; cbn in HQ, X |- *; try discriminate HQ; try contradiction; try (right; reflexivity); destruct r; try contradiction; auto. }
           { auto. } right. right. exists j, q. rewrite nth_error_upd_neq by congruence. auto.
      * destruct L as [Y|[Y|(j & q & Hj & Hq)]]; auto.
        -- destruct (Z.eq_dec (pend s1) 0) as [Z0|Z0]; auto. destruct (C1 eq_refl Z0) as [W|W]; [congruence|].
           right. right. exists i, p1. rewrite nth_error_upd_eq by exact Li. auto.
        -- right. right. apply EX; [exact Rp|]. exists j, q. auto.
Qed.

Lemma run_cinv c l : forall s s', inv s -> cinv s -> sched_only l -> run c s l = Some s' -> cinv s'.
Proof.
  induction l as [|[i a] l IH]; intros s s' I K S H; cbn [run] in H; [congruence|]. destruct (step c s i a) as [s1|] eqn:E; [|discriminate].
  apply Forall_cons_iff in S. destruct S as [Sa S]. eapply IH; [eapply step_inv; eassumption|eapply step_cinv; eassumption|exact S|exact H].
Qed.

(** From a quiet state in which nothing is left behind to another one. *)
Lemma overlap_settled c s l s' : inv s -> inv2 s -> quiet s -> pcs s <> [] -> coherent (sh s) -> settled (sh s) ->
  sched_only l -> run c s l = Some s' -> quiet s' -> coherent (sh s') /\ settled (sh s').
Proof.
  intros I I2 Q N C S O R Q'. 
  assert (Z : forall f s, quiet s -> f Idle = 0 -> sumf f (pcs s) = 0).
  { intros f s0 Q0 Hf. apply sumf_zero. eapply Forall_impl; [|exact Q0]. intros q ->. exact Hf. }
  assert (NI : forall s0 j q, quiet s0 -> nth_error (pcs s0) j = Some q -> q = Idle).
  { intros s0 j q Q0 Hj. exact (proj1 (Forall_forall _ _) Q0 q (nth_error_In _ _ Hj)). }
  assert (K : cinv s).
  { split.
    - intros i p Hp. rewrite (NI _ _ _ Q Hp). exact Logic.I.
    - rewrite (i_frames _ I). apply Z; [exact Q|reflexivity].
    - pose proof (v_par _ I2) as V. rewrite (Z st2 s Q eq_refl), Z.sub_0_r, <- Z.negb_odd in V. apply negb_true_iff in V. exact V.
    - intros X. destruct (v_run _ I2 X) as (j & q & Hj & Hb). rewrite (NI _ _ _ Q Hj) in Hb. discriminate Hb.
    - apply C.
    - intros X. left. apply C. exact X.
    - destruct S as [S|[S _]]; [right; left|left; exact S]. rewrite (i_pend _ I), (Z weight s Q eq_refl), S. reflexivity. }
  pose proof (run_cinv _ _ _ _ I K O R) as [A F V Ru SA AS L]. pose proof (run_inv _ _ _ _ I R) as I'.
  assert (C' : coherent (sh s')).
  { split; [|exact SA]. intros X. destruct (AS X) as [Y|(j & q & Hj & Hb)]; [exact Y|]. rewrite (NI _ _ _ Q' Hj) in Hb. discriminate Hb. }
  split; [exact C'|]. destruct L as [L|[L|(j & q & Hj & Hb)]].
  - right. split; [exact L|]. apply C'. exact L.
  - left. rewrite (i_pend _ I'), (Z weight s' Q' eq_refl) in L. destruct (queue (sh s')); [reflexivity|cbn [length] in L; lia].
  - rewrite (NI _ _ _ Q' Hj) in Hb. discriminate Hb.
Qed.
