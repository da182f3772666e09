(** C49: RTCP: at every report generation, the blocks offered to the packet builder are exactly the blocks due. *)
From Coq Require Import Permutation.
From Verif Require Import Base Base_lemmas Reporter_model Reporter_spec Reporter_proof ReporterIndex_proof ReporterRun_proof.
Open Scope res_scope.
Local Open Scope Z_scope.

(** After any history, when generation of reports begins: every block can be generated (no panic, no dangling pointer); every receiver that measured us and every sender we receive
    from has exactly one block, under its own destination, and the reception block carries the numbers of the right stream; nothing else is generated; and there is exactly one
    entry per destination, including the configured one. *)
Theorem C49_complete : forall fuel c local sending l r ev,
  rc_cname c <> 0 -> 0 < rc_timeout c -> on_time 0 l -> steady sending None l -> Forall dated l ->
  (forall l1 o l2 r1 e1, l = l1 ++ o :: l2 -> r_run fuel c (r_new local) l1 = Ok (Some (r1, e1)) -> prompt r1 o) ->
  r_run fuel c (r_new local) l = Ok (Some (r, ev)) -> r_st r = RGen ->
  (exists b, gen_all r = Ok b /\ Permutation b (dlrrs_due c (r_send r) (known r) ++ receptions_due c (r_recv r) (known r))) /\
  NoDup (i_index (r_idx r)) /\ (forall k, In k (i_index (r_idx r)) <-> dests_due c (r_send r) (r_recv r) (known r) k).
Proof.
  intros fuel c local sending l r ev Hc Hd Ht Hs Hda Hp H Hg.
  destruct (good_run fuel c sending l None (r_new local) r ev (good_new c sending local) Hc Hd Ht Hs Hda Hp H) as (last & [G1 G2 G3 G4 G5 G6]).
  specialize (G4 (G5 Hg)); split.
  - destruct (gen_exact True (r_time r) r c G1 G2 G4) as (b & B1 & B2); exists b; split; [exact B1|]; rewrite (evs_items _ _ _ c _ _ G1) in B2; exact B2.
  - exact (dests_exact True (r_time r) r c G1 G2 G4).
Qed.
Print Assumptions C49_complete.

(** Every stream the participant receives from has a stream entry when generation begins (so that, in the fixed-address mode, no reception block is missing) *)
Theorem C49_received_known : forall fuel c local sending l r ev,
  rc_cname c <> 0 -> 0 < rc_timeout c -> on_time 0 l -> steady sending None l -> Forall dated l ->
  (forall l1 o l2 r1 e1, l = l1 ++ o :: l2 -> r_run fuel c (r_new local) l1 = Ok (Some (r1, e1)) -> prompt r1 o) ->
  r_run fuel c (r_new local) l = Ok (Some (r, ev)) -> r_st r = RGen ->
  forall id, In id (r_recv r) -> exists s, In s (known r) /\ s_id s = id.
Proof.
  intros fuel c local sending l r ev Hc Hd Ht Hs Hda Hp H Hg id Hi.
  destruct (good_run fuel c sending l None (r_new local) r ev (good_new c sending local) Hc Hd Ht Hs Hda Hp H) as (last & [G1 G2 G3 G4 G5 G6]).
  apply In_nth_error in Hi; destruct Hi as (j & Hj); destruct (ex_lrr _ _ _ _ _ (G4 (G5 Hg)) j id Hj) as (s & G & _); exists s; apply get_in; exact G.
Qed.
Print Assumptions C49_received_known.

(** The conditions are met by a history with two receivers of our stream and two senders, one of which says goodbye *)
Definition ix_cfg := mkRc ReportBack 0 7 1000.
Definition ix_part := mkPart true [30; 31].
Definition ix_in id now := [RBeginP id now ix_part; RCname true id (id + 100); RReception true id 5; RRrtr id 3; REndP].
Definition ix_sr id now := [RBeginP id now ix_part; RSr true id 3; REndP].
Definition ix_hist := ix_in 10 50 ++ ix_in 11 55 ++ ix_sr 30 60 ++ ix_sr 31 70 ++ [RBeginP 11 80 ix_part; RBye 11; REndP; RBeginG 100 ix_part].
Example C49_witness : exists r ev, r_run 20 ix_cfg (r_new 5) ix_hist = Ok (Some (r, ev)) /\ r_st r = RGen /\
  rc_cname ix_cfg <> 0 /\ 0 < rc_timeout ix_cfg /\ on_time 0 ix_hist /\ steady true None ix_hist /\ Forall dated ix_hist /\
  (forall l1 o l2 r1 e1, ix_hist = l1 ++ o :: l2 -> r_run 20 ix_cfg (r_new 5) l1 = Ok (Some (r1, e1)) -> prompt r1 o) /\
  gen_all r = Ok [Dlrr 10 10; Reception 30 30 30; Reception 31 31 31] /\ map s_id (known r) = [30; 31; 10].
Proof.
  destruct (r_run 20 ix_cfg (r_new 5) ix_hist) as [[[r ev]|]| |] eqn:E; vm_compute in E; try discriminate E; injection E as <- <-.
  eexists _, _; split; [reflexivity|]; split; [reflexivity|]; split; [discriminate|]; split; [reflexivity|]; split; [cbn; lia|]; split.
  { assert (N : NoDup [30; 31]) by (repeat constructor; cbn; intuition discriminate); cbn; repeat split; auto. }
  split; [repeat constructor; cbn; discriminate|]; split; [|split; vm_compute; reflexivity].
  intros l1 o l2 r1 e1 El R; destruct o; try exact I.
  assert (Hpos : l1 = firstn 3 ix_hist \/ l1 = firstn 8 ix_hist).
  { assert (Hn : nth_error ix_hist (length l1) = Some (RRrtr id ts)) by (rewrite El, nth_error_app2, Nat.sub_diag by lia; reflexivity).
    assert (Hf : l1 = firstn (length l1) ix_hist) by (rewrite El, firstn_app, Nat.sub_diag, firstn_all, firstn_O, app_nil_r; reflexivity).
    assert (Hl : (length l1 < length ix_hist)%nat) by (rewrite El, app_length; cbn; lia); change (length ix_hist) with 20%nat in Hl.
    rewrite Hf; revert Hn Hl; clear; generalize (length l1); intros k Hn Hl; do 20 (destruct k as [|k]; [cbn in Hn; try discriminate Hn; auto|]); lia. }
  destruct Hpos as [-> | ->]; vm_compute in R; injection R as <- <-; cbn [prompt]; intros; reflexivity.
Qed.

(** Without the clock condition the claim is false. Packets of one batch are processed with the same time [t], the reporter then uses report times t, t+1, t, ..., and the index, which uses
    the report time to tell a fresh entry from an old one, appends to old entries: here receiver 10 gets its block twice. The clock of the caller never goes back. *)
Definition ix_p := mkPart true [].
Definition ix_pk id now := [RBeginP 1 now ix_p; RCname true id (id + 100); RReception true id 5; RRrtr id 3; REndP].
Definition ix_rb now := [RBeginP 1 now ix_p; RMetrics 10 5; REndP].
Theorem C49_duplicate_refuted : exists r ev, r_run 20 ix_cfg (r_new 5) (ix_pk 10 50 ++ ix_rb 60 ++ ix_pk 11 60 ++ ix_rb 60 ++ [RBeginG 100 ix_p]) = Ok (Some (r, ev)) /\ r_st r = RGen /\
  map s_id (known r) = [10; 11] /\ gen_all r = Ok [Dlrr 1 10; Dlrr 1 10; Dlrr 1 11].
Proof.
  destruct (r_run 20 ix_cfg (r_new 5) (ix_pk 10 50 ++ ix_rb 60 ++ ix_pk 11 60 ++ ix_rb 60 ++ [RBeginG 100 ix_p])) as [[[r ev]|]| |] eqn:E; vm_compute in E; try discriminate E; injection E as <- <-.
  eexists _, _; repeat split; vm_compute; reflexivity.
Qed.
(** Worse, an old entry may hold a pointer to a stream that said goodbye: the next generation reads freed memory. *)
Theorem C49_dangling_refuted : exists r ev,
  r_run 20 ix_cfg (r_new 5) (ix_pk 10 50 ++ ix_pk 11 55 ++ ix_rb 60 ++ [RBeginP 1 60 ix_p; RBye 11; REndP] ++ ix_rb 60 ++ [RBeginG 100 ix_p]) = Ok (Some (r, ev)) /\ r_st r = RGen /\
  map s_id (known r) = [10] /\ gen_all r = UB.
Proof.
  destruct (r_run 20 ix_cfg (r_new 5) (ix_pk 10 50 ++ ix_pk 11 55 ++ ix_rb 60 ++ [RBeginP 1 60 ix_p; RBye 11; REndP] ++ ix_rb 60 ++ [RBeginG 100 ix_p])) as [[[r ev]|]| |] eqn:E;
    vm_compute in E; try discriminate E; injection E as <- <-.
  eexists _, _; repeat split; vm_compute; reflexivity.
Qed.
(** The participant replaces one receiving stream by another, both known: the change is not noticed (the comparison at reporter.cpp:1031-1036 is between a list and itself), and the block
    for sender 20 carries the numbers of sender 21. *)
Definition ix_q id := mkPart false [id].
Definition ix_s id now := [RBeginP 1 now (ix_q 20); RSr true id 3; REndP].
Theorem C49_switch_refuted : exists r ev, r_run 20 ix_cfg (r_new 5) (ix_s 20 50 ++ ix_s 21 60 ++ [RBeginP 1 70 (ix_q 20); REndP; RBeginG 80 (ix_q 21)]) = Ok (Some (r, ev)) /\ r_st r = RGen /\
  r_recv r = [21] /\ gen_all r = Ok [Reception 1 20 21] /\ on_time 0 (ix_s 20 50 ++ ix_s 21 60 ++ [RBeginP 1 70 (ix_q 20); REndP; RBeginG 80 (ix_q 21)]).
Proof.
  destruct (r_run 20 ix_cfg (r_new 5) (ix_s 20 50 ++ ix_s 21 60 ++ [RBeginP 1 70 (ix_q 20); REndP; RBeginG 80 (ix_q 21)])) as [[[r ev]|]| |] eqn:E; vm_compute in E; try discriminate E; injection E as <- <-.
  eexists _, _; split; [reflexivity|]; split; [reflexivity|]; split; [reflexivity|]; split; [vm_compute; reflexivity | cbn; lia].
Qed.
(** The participant starts sending: the index is not rebuilt, and a receiver that is due a block gets none. *)
Theorem C49_start_refuted : exists r ev,
  r_run 20 ix_cfg (r_new 5) [RBeginP 1 50 ix_p; RReception true 10 5; RRrtr 10 3; REndP; RBeginP 1 60 (mkPart false []); REndP; RBeginG 100 ix_p] = Ok (Some (r, ev)) /\ r_st r = RGen /\
  r_send r = true /\ dlrrs_due ix_cfg true (known r) = [Dlrr 1 10] /\ gen_all r = Ok [].
Proof.
  destruct (r_run 20 ix_cfg (r_new 5) [RBeginP 1 50 ix_p; RReception true 10 5; RRrtr 10 3; REndP; RBeginP 1 60 (mkPart false []); REndP; RBeginG 100 ix_p]) as [[[r ev]|]| |] eqn:E;
    vm_compute in E; try discriminate E; injection E as <- <-.
  eexists _, _; repeat split; vm_compute; reflexivity.
Qed.
(** The first RRTR block of a receiver arrives in a later packet than its first reception block: the receiver gets no DLRR block. *)
Theorem C49_late_rrtr_refuted : exists r ev,
  r_run 20 ix_cfg (r_new 5) [RBeginP 1 50 ix_p; RReception true 10 5; REndP; RBeginP 1 60 ix_p; REndP; RBeginP 1 70 ix_p; RRrtr 10 3; REndP; RBeginG 100 ix_p] = Ok (Some (r, ev)) /\ r_st r = RGen /\
  dlrrs_due ix_cfg true (known r) = [Dlrr 1 10] /\ gen_all r = Ok [].
Proof.
  destruct (r_run 20 ix_cfg (r_new 5) [RBeginP 1 50 ix_p; RReception true 10 5; REndP; RBeginP 1 60 ix_p; REndP; RBeginP 1 70 ix_p; RRrtr 10 3; REndP; RBeginG 100 ix_p]) as [[[r ev]|]| |] eqn:E;
    vm_compute in E; try discriminate E; injection E as <- <-.
  eexists _, _; repeat split; vm_compute; reflexivity.
Qed.
