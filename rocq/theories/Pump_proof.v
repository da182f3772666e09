From Coq Require Import ZArith List Bool Lia Arith.
From Verif Require Import Base Pump_model Pump_spec.
Import ListNotations.
Local Open Scope Z_scope.

Definition nmain (l : list src) : nat := length (filter (src_eqb Main) l).

Lemma nmain_in l : nmain l <> 0%nat <-> In Main l.
Proof.
  unfold nmain. induction l as [|[] l IH]; cbn in *.
  - split; [lia|tauto].
  - split; auto.
  - rewrite IH. split; auto. intros [H|H]; [discriminate H|auto].
Qed.

(* one ahead: a frame was read and not yet written *)
Definition ahead (c : pcfg) (cur : src) (tr : list (call * ans)) (f : frame) : Prop :=
  exists r rest, frames_read tr = (cur, r) :: rest /\ same_frame c r f /\
    f_cts f = f_cts r /\ Forall2 (same_frame c) (map snd rest) (frames_written tr) /\
    map fst rest = reclocked tr.
Definition ahead' (c : pcfg) (cur : src) (tr : list (call * ans)) (f : frame) : Prop :=
  exists r rest, frames_read tr = (cur, r) :: rest /\ same_frame c r f /\
    Forall2 (same_frame c) (map snd rest) (frames_written tr) /\
    map fst rest = reclocked tr.
(* written, source not yet told *)
Definition done (c : pcfg) (cur : src) (tr : list (call * ans)) : Prop :=
  Forall2 (same_frame c) (map snd (frames_read tr)) (frames_written tr) /\
  map fst (frames_read tr) = cur :: reclocked tr.
Definition even (c : pcfg) (tr : list (call * ans)) : Prop :=
  Forall2 (same_frame c) (map snd (frames_read tr)) (frames_written tr) /\
  map fst (frames_read tr) = reclocked tr.

Definition flow (c : pcfg) (tr : list (call * ans)) (s : pst) : Prop :=
  match p_pc s with
  | PLat f d => f_cts f = 0 /\ d = duration f /\ ahead c (p_cur s) tr f
  | PNow f d l => f_cts f = 0 /\ d = duration f /\ ahead c (p_cur s) tr f /\
      exists x tr', tr = (CLatency (p_cur s), ALat x) :: tr' /\
        l = match x with None => 0 | Some y => y + to_ns c d end
  | PWrite f d => d = duration f /\ ahead' c (p_cur s) tr f /\
      (forall r rest, frames_read tr = (p_cur s, r) :: rest -> f_cts r = 0 ->
        exists t x tr', tr = (CClock, ATime t) :: (CLatency (p_cur s), ALat x) :: tr' /\
          f_cts f = t - match x with None => 0 | Some y => y + to_ns c (duration f) end)
  | PSink f d => d = duration f /\ done c (p_cur s) tr /\
      exists tr', tr = (CWrite f, AUnit) :: tr'
  | PNow2 f l => done c (p_cur s) tr /\
      exists x tr', tr = (CSinkLatency, ALat x) :: (CWrite f, AUnit) :: tr' /\
        l = match x with None => 0 | Some y => y - to_ns c (duration f) end
  | PReclock f t => done c (p_cur s) tr /\
      exists n x tr', tr = (CClock, ATime n) :: (CSinkLatency, ALat x) :: (CWrite f, AUnit) :: tr' /\
        t = n + match x with None => 0 | Some y => y - to_ns c (duration f) end
  | _ => even c tr
  end.

Definition moving (p : pc) : bool :=
  match p with
  | PLat _ _ | PNow _ _ _ | PWrite _ _ | PSink _ _ | PNow2 _ _ | PReclock _ _ => true
  | _ => false
  end.

Record inv (c : pcfg) (tr : list (call * ans)) (s : pst) : Prop := {
  v_flow : flow c tr s;
  v_n : p_n s = nmain (reclocked tr);
  v_bk : p_cur s = Backup -> has_backup c = true /\ running Backup tr = true;
  v_mn : p_cur s = Main -> running Main tr = true \/ backup_ended tr = true;
  v_rs : p_pc s = PRestart -> has_backup c = true /\ active tr = false /\ p_cur s = Main;
  v_re : p_pc s = PResume -> active tr = true /\ p_cur s = Backup;
  v_pb : p_pc s = PPauseB -> active tr = true /\ p_cur s = Main;
  v_pm : p_pc s = PPauseM -> active tr = false /\ p_cur s = Backup;
  v_rd : p_pc s = PRead ->
    match p_cur s with
    | Backup => active tr = false \/ switch_failed tr = true
    | Main => active tr = true \/ has_backup c = false \/ switch_failed tr = true
    end;
  v_since : since_stop tr = match p_pc s with
                            | PTop => since_stop tr
                            | PStop2 => since_stop tr
                            | PEnd _ => 0
                            | p => if moving p then 1 else 0
                            end%nat /\ (since_stop tr <= 1)%nat;
  v_iter : (iterations tr + (if moving (p_pc s) then 1 else
              match p_pc s with PTop | PState => 1 | _ => 0 end)
            <= length (frames_read tr) + ends_of_file tr + 1)%nat;
  v_end : p_pc s = PStop2 -> end_reason c tr;
  v_done : forall b, p_pc s = PEnd b -> exists x tr', tr = (CStop, ABool x) :: tr' /\ b = negb x /\
     end_reason c tr'
}.

Lemma same_dur c f : same_frame c f (with_duration c f) /\ f_cts (with_duration c f) = f_cts f.
Proof.
  unfold with_duration, same_frame. destruct (f_dur f) eqn:E; cbn; repeat split; auto; try congruence.
Qed.

Lemma init_inv c : inv c [] p_new.
Proof.
  constructor; cbn; auto; try discriminate; try lia.
  split; constructor.
Qed.

Ltac t0 := cbn [p_pc p_cur p_n at_pc next_call] in *.
Ltac fin := intros; t0; repeat match goal with
  | H : ?a = ?b |- _ => discriminate H
  end; auto.

Lemma step_inv c tr s k a s' :
  inv c tr s -> next_call s = Some k -> next c s a = Some s' -> inv c ((k, a) :: tr) s'.
Proof.
  intros [Vf Vn Vb Vm Vrs Vre Vpb Vpm Vrd [Vs Vs'] Vi Ve Vd] K H.
  destruct s as [cur n p]. unfold next in H. t0.
  destruct p; t0; cbn [moving] in *;
    assert (K' : Some k = Some k) by reflexivity;
    try (assert (Ek : k = match Some k with Some x => x | None => k end) by reflexivity).
  - (* PTop *)
    destruct a; try discriminate H. assert (k = CStop) by congruence. subst k.
    assert (s' = mkP cur n (if b then PStop2 else PState)) by (unfold at_pc in H; cbn in H; congruence). subst s'.
    destruct b; constructor; t0; fin; try (split; auto; fail).
    all: cbn in *; auto; try lia.
  - (* PState *)
    destruct a; try discriminate H. assert (k = CState) by congruence. subst k.
    destruct b.
    + assert (s' = mkP cur n (if src_eqb cur Backup then PResume else PRead)) by (unfold at_pc in H; cbn in H; congruence). subst s'.
      destruct cur; cbn [src_eqb]; constructor; fin; cbn in *; auto; try lia.
    + assert (E : s' = mkP cur n (if oneshot c && negb (Nat.eqb n 0) then PStop2
                     else if has_backup c && negb (src_eqb cur Backup) then PRestart
                     else PRead)) by (unfold at_pc in H; cbn in H; congruence). subst s'. clear H.
      destruct (oneshot c && negb (n =? 0)%nat) eqn:O.
      * apply andb_true_iff in O. destruct O as [O1 O2]. apply negb_true_iff, Nat.eqb_neq in O2.
        constructor; fin; cbn in *; auto; try lia.
        split; auto. apply nmain_in. congruence.
      * clear O. destruct (has_backup c) eqn:B; destruct cur; cbn [andb negb src_eqb]; constructor; fin; cbn in *; auto; try lia; try (rewrite B; auto; fail).
  - (* PResume *)
    destruct a; try discriminate H. assert (k = CResume) by congruence. subst k.
    destruct (Vre eq_refl) as [A C]. subst cur.
    destruct b.
    + assert (s' = mkP Main n PPauseB) by congruence. subst s'.
      constructor; fin; cbn in *; auto; try lia.
    + assert (s' = mkP Backup n PRead) by (unfold at_pc in H; cbn in H; congruence). subst s'.
      constructor; fin; cbn in *; auto; try lia.
  - (* PPauseB *)
    destruct a; try discriminate H. assert (k = CPause Backup) by congruence. subst k.
    destruct (Vpb eq_refl) as [A C]. subst cur.
    assert (s' = mkP Main n PRead) by (unfold at_pc in H; cbn in H; congruence). subst s'.
    constructor; fin; cbn in *; auto; try lia.
  - (* PRestart *)
    destruct a; try discriminate H. assert (k = CRestart) by congruence. subst k.
    destruct (Vrs eq_refl) as (B & A & C). subst cur.
    destruct b.
    + assert (s' = mkP Backup n PPauseM) by congruence. subst s'.
      constructor; fin; cbn in *; auto; try lia.
    + assert (s' = mkP Main n PRead) by (unfold at_pc in H; cbn in H; congruence). subst s'.
      constructor; fin; cbn in *; auto; try lia.
  - (* PPauseM *)
    destruct a; try discriminate H. assert (k = CPause Main) by congruence. subst k.
    destruct (Vpm eq_refl) as [A C]. subst cur.
    assert (s' = mkP Backup n PRead) by (unfold at_pc in H; cbn in H; congruence). subst s'.
    constructor; fin; cbn in *; auto; try lia.
  - (* PRead *)
    destruct a; try discriminate H. assert (k = CRead cur) by congruence. subst k.
    destruct f as [f|].
    + destruct (same_dur c f) as [Q1 Q2]. set (g := with_duration c f) in *.
      assert (AH : ahead c cur ((CRead cur, AFrame (Some f)) :: tr) g).
      { exists f, (frames_read tr). cbn. cbn in Vf. destruct Vf. auto. }
      assert (E : s' = mkP cur n (if f_cts g =? 0 then PLat g (duration g) else PWrite g (duration g)))
        by (unfold at_pc in H; cbn in H; congruence). subst s'. clear H.
      destruct (Z.eqb_spec (f_cts g) 0).
      * constructor; fin; cbn in *; auto; try lia.
        destruct cur; auto.
      * constructor; fin; try (cbn in *; auto; try lia; fail).
        -- unfold flow; t0. split; auto. split.
           ++ destruct AH as (r & rest & A1 & A2 & A3 & A4 & A5). exists r, rest; auto.
           ++ intros r rest A Hr. cbn in A. assert (r = f) by congruence. subst. congruence.
        -- destruct Vm as [V|V]; auto. right. cbn. destruct cur; auto.
    + destruct cur; cbn [src_eqb] in H.
      * assert (s' = mkP Main n PStop2) by (unfold at_pc in H; cbn in H; congruence). subst s'.
        constructor; fin; cbn in *; auto; try lia.
      * assert (s' = mkP Main n PTop) by congruence. subst s'.
        constructor; fin; cbn in *; auto; try lia.
  - (* PLat *)
    destruct a; try discriminate H. assert (k = CLatency cur) by congruence. subst k.
    assert (E : s' = mkP cur n (PNow f d (match l with None => 0 | Some y => y + to_ns c d end)))
      by (destruct l; unfold at_pc in H; cbn in H; congruence). subst s'. clear H.
    constructor; fin; try (cbn in *; auto; try lia; fail).
    cbn in Vf. destruct Vf as (F1 & F2 & F3). cbn. repeat split; auto. eauto.
  - (* PNow *)
    destruct a; try discriminate H. assert (k = CClock) by congruence. subst k.
    assert (E : s' = mkP cur n (PWrite (with_cts f (t - l)) d))
      by (unfold at_pc in H; cbn in H; congruence). subst s'. clear H.
    constructor; fin; try (cbn in *; auto; try lia; fail).
    cbn in Vf. destruct Vf as (F1 & F2 & F3 & x & tr' & F4 & F5). cbn. split; auto. split.
    + destruct F3 as (r & rest & A1 & A2 & A3 & A4 & A5). exists r, rest. cbn. split; auto. split; auto.
      destruct A2 as (B1 & B2 & B3 & B4 & B5). unfold same_frame; cbn. repeat split; auto. intros N. congruence.
    + intros r rest R0 Z0. exists t, x, tr'. split; [congruence|]. subst l d. reflexivity.
  - (* PWrite *)
    destruct a; try discriminate H. assert (k = CWrite f) by congruence. subst k.
    assert (E : s' = mkP cur n (PSink f d)) by (unfold at_pc in H; cbn in H; congruence). subst s'. clear H.
    constructor; fin; try (cbn in *; auto; try lia; fail).
    cbn in Vf. destruct Vf as (F1 & (r & rest & A1 & A2 & A4 & A5) & _). cbn. split; auto. split; eauto.
    split; cbn; rewrite A1; cbn; auto. congruence.
  - (* PSink *)
    destruct a; try discriminate H. assert (k = CSinkLatency) by congruence. subst k.
    assert (E : s' = mkP cur n (PNow2 f (match l with None => 0 | Some y => y - to_ns c d end)))
      by (destruct l; unfold at_pc in H; cbn in H; congruence). subst s'. clear H.
    constructor; fin; try (cbn in *; auto; try lia; fail).
    cbn in Vf. destruct Vf as (F1 & F2 & tr' & F3). cbn. split; auto. subst d. exists l, tr'. split; congruence.
  - (* PNow2 *)
    destruct a; try discriminate H. assert (k = CClock) by congruence. subst k.
    assert (E : s' = mkP cur n (PReclock f (t + l))) by (unfold at_pc in H; cbn in H; congruence). subst s'. clear H.
    constructor; fin; try (cbn in *; auto; try lia; fail).
    cbn in Vf. destruct Vf as (F2 & x & tr' & F3 & F4). cbn. split; auto. exists t, x, tr'. split; congruence.
  - (* PReclock *)
    destruct a; try discriminate H. assert (k = CReclock cur t) by congruence. subst k.
    assert (E : s' = mkP cur (if src_eqb cur Main then S n else n) PTop) by congruence. subst s'. clear H.
    cbn in Vf. destruct Vf as ((F1 & F2) & _).
    destruct cur; constructor; fin; cbn in *; auto; try lia; try (split; auto; fail).
  - (* PStop2 *)
    destruct a; try discriminate H. assert (k = CStop) by congruence. subst k.
    assert (E : s' = mkP cur n (PEnd (negb b))) by (unfold at_pc in H; cbn in H; congruence). subst s'. clear H.
    constructor; fin; try (cbn in *; auto; try lia; fail).
    exists b, tr. repeat split; auto. congruence.
  - discriminate K.
Qed.

Lemma runs_inv c tr s : runs c tr s -> inv c tr s.
Proof. induction 1. apply init_inv. eapply step_inv; eauto. Qed.
