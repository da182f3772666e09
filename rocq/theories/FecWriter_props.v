(** C13: the FEC writer. *)
From Coq Require Import Lia.
From Verif Require Import Base Base_lemmas FecWriter_model FecWriter_spec FecWriter_proof.
Open Scope res_scope.
Local Open Scope Z_scope.

(** What the encoder and the next writer are given is a sequence of whole blocks with consecutive
    numbers, possibly followed by the beginning of one more. The blocks take the packets written, in
    order; each uses the sizes in effect when its first packet was written, however they change
    meanwhile; its source packets have positions 0, 1, ..., its repair packets the positions that
    follow. Nothing is left out unless the writer has stopped, and a writer that has stopped sends
    nothing more. *)
Theorem C13_stream mx s r scheme sbn rsn cs w es :
  mx <= 2 ^ 16 -> 0 <= sbn < 2 ^ 16 -> 0 < s < 2 ^ 63 -> 0 <= r < 2 ^ 63 -> s + r <= mx -> Forall in_range cs ->
  f_run (f_new s r scheme mx sbn rsn) cs = Ok (w, es) ->
  exists bs tl rest, es = blocks sbn bs ++ tl /\ parts bs (written mx s r cs) rest /\ Forall (whole_ok mx) bs /\
    tail_ok mx (number sbn (length bs)) (f_alive w) tl rest /\ (Forall calm (envs cs) -> Forall (fun b => k_made b = seq 0 (k_r b)) bs).
Proof.
  intros Mx Sb S0 R0 Ac Rg H. destruct (run_inv mx s r sbn rsn scheme cs w es Mx Sb S0 R0 Rg Ac H) as [_ _ _ _ _ (bs & Wh & Cm & St)]. exists bs.
  destruct St as [(Al & _ & _ & _ & Pt & ->)|[(Al & _ & b & l & (Bo & Po & _) & Pt & ->)|(Al & rest & tl & Pt & -> & Tl)]]; rewrite Al.
  - exists [], []. rewrite app_nil_r. split; [reflexivity|]. split; [exact Pt|]. split; [exact Wh|]. split; [constructor; reflexivity|exact Cm].
  - exists (opening b (number sbn (length bs))), l. split; [reflexivity|]. split; [exact Pt|]. split; [exact Wh|]. split; [|exact Cm]. rewrite <- (app_nil_r l). constructor; [exact Bo|exact Po|reflexivity].
  - exists tl, rest. split; [reflexivity|]. split; [exact Pt|]. split; [exact Wh|]. split; [exact Tl|exact Cm].
Qed.
Print Assumptions C13_stream.

(** In particular the source packets sent are those written, each once and in order, up to where the
    writer stopped. *)
Lemma sent_app a b : sent (a ++ b) = sent a ++ sent b. Proof. unfold sent. apply flat_map_app. Qed.
Lemma sent_sources b sbn ids : forall i, sent (sources b sbn i ids) = ids.
Proof. induction ids as [|x ids IH]; intros i; cbn [sources]; [reflexivity|]. rewrite sent_app, IH. reflexivity. Qed.
Lemma sent_opening b sbn : sent (opening b sbn) = k_src b. Proof. unfold opening. rewrite sent_app, sent_sources. reflexivity. Qed.
Lemma sent_map_set l f : sent (map (fun i : nat => ESet (f i) (Rep i)) l) = []. Proof. induction l; [reflexivity|assumption]. Qed.
Lemma sent_map_out l f : sent (map (fun i : nat => EOut (Rep i) (f i)) l) = []. Proof. induction l; [reflexivity|assumption]. Qed.
Lemma sent_whole b sbn : sent (whole b sbn) = k_src b.
Proof. unfold whole, closing. rewrite !sent_app, sent_opening, sent_map_set, sent_map_out. cbn. rewrite app_nil_r. reflexivity. Qed.
Lemma block_ids b l : block_of b l -> k_src b = map (fun x => q_id (fst x)) l.
Proof. destruct l as [|[p [s r]] l]; [contradiction|]. intros H. apply H. Qed.
Theorem C13_forward mx s r scheme sbn rsn cs w es :
  mx <= 2 ^ 16 -> 0 <= sbn < 2 ^ 16 -> 0 < s < 2 ^ 63 -> 0 <= r < 2 ^ 63 -> s + r <= mx -> Forall in_range cs ->
  f_run (f_new s r scheme mx sbn rsn) cs = Ok (w, es) ->
  exists rest, map (fun x => q_id (fst x)) (written mx s r cs) = sent es ++ rest /\ (f_alive w = true -> rest = []).
Proof.
  intros Mx Sb S0 R0 Ac Rg H. destruct (C13_stream mx s r scheme sbn rsn cs w es Mx Sb S0 R0 Ac Rg H) as (bs & tl & rest & -> & Pt & _ & Tl & _).
  assert (X : map (fun x => q_id (fst x)) (written mx s r cs) = sent (blocks sbn bs) ++ map (fun x => q_id (fst x)) rest).
  { clear - Pt. revert sbn. induction Pt as [l|b l1 l2 rest bs B P IH]; intros sbn; [reflexivity|]. cbn [blocks]. rewrite map_app, sent_app, sent_whole, (block_ids b l1 B), <- app_assoc. f_equal. apply IH. }
  rewrite X, sent_app. inversion Tl; subst.
  - exists (map (fun x => q_id (fst x)) rest). cbn [sent flat_map]. rewrite app_nil_r. split; [reflexivity|]. intros A. rewrite H0 by exact A. reflexivity.
  - exists (map (fun x => q_id (fst x)) rest). cbn [sent flat_map]. rewrite app_nil_r. split; [reflexivity|]. congruence.
  - exists (map (fun x => q_id (fst x)) l2). rewrite sent_opening, (block_ids b l1) by assumption. rewrite map_app, app_assoc. split; [reflexivity|]. intros A. rewrite H2 by exact A. reflexivity.
Qed.
Print Assumptions C13_forward.

(** If nothing the writer uses fails, packets are as they should be and not empty, then no call panics,
    and the writer stops only if a packet differs in size from those before it in its block. *)
Theorem C13_live mx s r scheme sbn rsn cs :
  mx <= 2 ^ 16 -> 0 <= sbn < 2 ^ 16 -> 0 < s < 2 ^ 63 -> 0 <= r < 2 ^ 63 -> s + r <= mx -> Forall in_range cs -> Forall (good_call scheme) cs ->
  exists w es, f_run (f_new s r scheme mx sbn rsn) cs = Ok (w, es) /\ (f_alive w = false -> misfit mx (written mx s r cs)).
Proof.
  intros Mx Sb S0 R0 Ac Rg G. destruct (live_run mx s r sbn rsn scheme cs Mx Sb S0 R0 Rg Ac G) as (w & es & E & _ & L). exists w, es. split; [exact E|]. intros A. destruct L; [congruence|assumption].
Qed.
Print Assumptions C13_live.
Theorem C13_uniform mx s r scheme sbn rsn cs z :
  mx <= 2 ^ 16 -> 0 <= sbn < 2 ^ 16 -> 0 < s < 2 ^ 63 -> 0 <= r < 2 ^ 63 -> s + r <= mx -> Forall in_range cs -> Forall (good_call scheme) cs ->
  Forall (fun x => q_size (fst x) = z) (written mx s r cs) ->
  exists w es, f_run (f_new s r scheme mx sbn rsn) cs = Ok (w, es) /\ f_alive w = true.
Proof.
  intros Mx Sb S0 R0 Ac Rg G U. destruct (C13_live mx s r scheme sbn rsn cs Mx Sb S0 R0 Ac Rg G) as (w & es & E & L). exists w, es. split; [exact E|]. destruct (f_alive w); [reflexivity|]. exfalso. exact (misfit_uniform _ _ z (L eq_refl) U).
Qed.

(** A change of sizes is accepted exactly if there is a source packet and the block fits. *)
Theorem C13_resize w s r : 0 <= s < 2 ^ 63 -> 0 <= r < 2 ^ 63 -> accepted (f_max w) (f_ns w) (f_nr w) = true ->
  snd (f_resize w s r) = accepted (f_max w) s r.
Proof.
  intros S0 R0 A. unfold f_resize. destruct (Z.eqb_spec (f_ns w) s) as [E1|E1], (Z.eqb_spec (f_nr w) r) as [E2|E2]; cbn [andb]; [subst; rewrite A; reflexivity| | |].
  all: unfold accepted in *; destruct (Z.eqb_spec s 0); cbn [snd]; [lia|]; unfold u64, wrapu; rewrite Z.mod_small by lia; destruct (Z.ltb_spec (f_max w) (s + r)); cbn [snd]; lia.
Qed.
Print Assumptions C13_resize.

(** Two gaps in the validation of sizes: a writer configured without source and repair packets is
    valid, and never completes a block; and the sum of the sizes may overflow. *)
Definition calm_env : wenv := mkEnv true true true true (fun _ => true) (fun _ => true) (fun _ => true) (fun _ => true).
Definition pkt (i : Z) : wpk := mkWpk i 100 true false true 1.
Theorem C13_zero_refuted : f_valid (f_new 0 0 1 255 0 0) = true /\
  forall ids, Z.of_nat (length ids) < 2 ^ 64 -> exists w es, f_run (f_new 0 0 1 255 0 0) (map (fun i => CWrite (pkt i) calm_env) ids) = Ok (w, es) /\ ~ In EEnd es.
Proof.
  split; [reflexivity|]. intros ids Lim.
  assert (X : forall ids w n, f_valid w = true -> f_alive w = true -> f_scheme w = 1 -> 0 < n -> f_cur w = n -> n + Z.of_nat (length ids) < 2 ^ 64 -> f_pay w = 100 -> f_cs w = 0 ->
    exists w' es, f_run w (map (fun i => CWrite (pkt i) calm_env) ids) = Ok (w', es) /\ ~ In EEnd es).
  { clear. induction ids as [|i ids IH]; intros w n V A Sc N Cu B Py Cs; cbn [map f_run]; [exists w, []; split; [reflexivity|intros []]|].
    cbn [f_call]. unfold f_write. rewrite V, A. unfold check_packet. rewrite Sc. cbn [negb q_prepared q_composed q_fec q_scheme pkt Z.eqb andb Pos.eqb]. change (f_cur (first_upd w)) with (f_cur w). rewrite Cu. destruct (Z.eqb_spec n 0); [lia|]. cbn [negb]. change (f_pay (first_upd w)) with (f_pay w). rewrite Py.
    change (q_size (pkt i) =? 100) with true. cbn [negb]. unfold write_source. cbn [v_compose v_write calm_env negb bind]. change (f_cur (first_upd w)) with (f_cur w). rewrite Cu. cbn [length] in B. replace (u64 (n + 1)) with (n + 1) by (unfold u64, wrapu; rewrite Z.mod_small; lia).
    cbn [f_cur f_cs cur_upd first_upd]. rewrite Cs. destruct (Z.eqb_spec (n + 1) 0); [lia|]. cbn [bind fst snd].
    destruct (IH (cur_upd (first_upd w) (n + 1)) (n + 1)) as (w' & es & -> & Ne); cbn; try assumption; try lia; try reflexivity. cbn [bind fst snd]. eexists _, _. split; [reflexivity|]. intros I. cbn in I. destruct I as [I|[I|I]]; [discriminate|discriminate|contradiction]. }
  destruct ids as [|i ids]; [exists (f_new 0 0 1 255 0 0), []; split; [reflexivity|intros []]|]. cbn [map f_run].
  replace (f_call (f_new 0 0 1 255 0 0) (CWrite (pkt i) calm_env)) with
    (Ok (mkFwr 0 0 0 0 100 [] false 0 0 1 1 255 true true, [EBegin 0 0 100; ESet 0 (Src i); EOut (Src i) (mkTag 0 0 0 0)])) by reflexivity.
  cbn [bind fst snd]. cbn [length] in Lim. destruct (X ids (mkFwr 0 0 0 0 100 [] false 0 0 1 1 255 true true) 1) as (w' & es & -> & Ne); try reflexivity; try lia. cbn [bind fst snd].
  eexists _, _. split; [reflexivity|]. intros I. cbn in I. destruct I as [I|[I|[I|I]]]; [discriminate..|contradiction].
Qed.
Print Assumptions C13_zero_refuted.
Theorem C13_overflow_refuted : snd (f_resize (f_new 18 10 1 255 0 0) 2 (2 ^ 64 - 1)) = true /\ ~ 2 + (2 ^ 64 - 1) <= 255.
Proof. split; [vm_compute; reflexivity|lia]. Qed.
Print Assumptions C13_overflow_refuted.

(** The hypotheses are met, with changes of sizes in the middle of blocks and a block left open. *)
Definition calls1 : list wcall :=
  map (fun i => CWrite (pkt i) calm_env) [1; 2] ++ [CResize 2 2] ++ map (fun i => CWrite (pkt i) calm_env) [3; 4] ++ [CResize 0 5; CResize 300 1] ++ map (fun i => CWrite (pkt i) calm_env) [5; 6].
Example C13_witness : Forall in_range calls1 /\ Forall (good_call 1) calls1 /\ Forall (fun x => q_size (fst x) = 100) (written 255 3 1 calls1).
Proof. unfold calls1. split; [|split]; cbn [app map written accepted Z.ltb Z.leb Z.compare Pos.compare Pos.compare_cont andb Z.add Pos.add]; repeat constructor; cbn; lia. Qed.
Example C13_run : exists w, f_run (f_new 3 1 1 255 65535 7) calls1 = Ok (w,
  blocks 65535 [mkBlock 3 1 100 [1; 2; 3] [0%nat]; mkBlock 2 2 100 [4; 5] [0%nat; 1%nat]] ++ opening (mkBlock 2 2 100 [6] []) 1).
Proof. eexists. vm_compute. reflexivity. Qed.
