(** C05: interleaver. *)
From Coq Require Import Permutation.
From Verif Require Import Base Base_lemmas Interleaver_model Interleaver_spec Interleaver_proof.
Open Scope nat_scope.

(** The send order computed by the constructor is a permutation of the block
    positions, whatever in-range random numbers are drawn. *)
Theorem C05_order_is_permutation : forall (rnd : nat -> nat) (n : nat),
  (forall i, 0 < i <= n -> rnd i < i) ->
  exists sq, reinit_seq rnd n = Ok sq /\ Permutation (List.seq 0 n) sq.
Proof. exact reinit_perm. Qed.
Print Assumptions C05_order_is_permutation.

Example C05_order_ex : reinit_seq (fun i => Nat.div2 i) 4 = Ok [0; 3; 1; 2].
Proof. reflexivity. Qed.

(** For every history of writes and flushes (downstream writer accepting):
    no crash; the output is one permutation per closed block, in block order,
    followed by packets of the open block; what was not emitted yet is stored,
    and fewer than [n] packets are pending. *)
Theorem C05_blockwise_permutation :
  forall (A : Type) (n : nat) (sq : list nat) (ops : list (il_op A)),
  0 < n -> Permutation sq (List.seq 0 n) ->
  exists s outb part,
    il_run (fun _ => true) (il_new sq n) ops = Ok s /\
    Forall2 (@Permutation A) (fst (blocks n ops)) outb /\
    il_out s = concat outb ++ part /\
    Permutation (part ++ in_slots s) (snd (blocks n ops)) /\
    length (snd (blocks n ops)) < n.
Proof. intros A n sq ops. exact (run_final n sq ops). Qed.
Print Assumptions C05_blockwise_permutation.

(** The blocks of the specification are the written stream, cut. *)
Theorem C05_blocks_partition_stream : forall (A : Type) (n : nat) (ops : list (il_op A)),
  il_written ops = concat (fst (blocks n ops)) ++ snd (blocks n ops).
Proof. intros A n ops. exact (blocks_written n ops []). Qed.
Print Assumptions C05_blocks_partition_stream.

(** Corollary: after a flush, exactly the written packets were emitted. *)
Theorem C05_flush_emits_everything :
  forall (A : Type) (n : nat) (sq : list nat) (ops : list (il_op A)),
  0 < n -> Permutation sq (List.seq 0 n) ->
  exists s, il_run (fun _ => true) (il_new sq n) (ops ++ [IlFlush]) = Ok s /\
            Permutation (il_written ops) (il_out s) /\ in_slots s = [].
Proof. intros A n sq ops. exact (flush_all n sq ops). Qed.
Print Assumptions C05_flush_emits_everything.

Example C05_run_ex :
  match il_run (fun _ => true) (il_new [0; 3; 1; 2] 4)
          [IlWrite 10; IlWrite 11; IlWrite 12; IlWrite 13; IlWrite 14; IlWrite 15; IlFlush] with
  | Ok s => il_out s = [10; 13; 11; 12; 14; 15]
  | _ => False
  end /\ Permutation [0; 3; 1; 2] (List.seq 0 4).
Proof.
  split; [vm_compute; reflexivity|]. cbn [List.seq]. apply perm_skip.
  apply (perm_trans (l' := [1; 3; 2])); [apply perm_swap|apply perm_skip, perm_swap].
Qed.

(** Without the accepting-writer hypothesis the property is false: after the
    downstream writer refused a packet, the next write overwrites it. *)
Theorem C05_failing_writer_refuted :
  exists (wok : nat -> bool) (s : il nat),
    il_run wok (il_new [0] 1) [IlWrite 1; IlWrite 2; IlFlush] = Ok s /\
    ~ In 1 (il_out s) /\ ~ In 1 (in_slots s).
Proof.
  exists (fun k => 0 <? k). eexists. split; [vm_compute; reflexivity|]. cbn. split; [|tauto]. intros [H|[]]; discriminate.
Qed.
Print Assumptions C05_failing_writer_refuted.

(** Whatever the downstream writer answers: a flush sends pending packets in the
    order of the block, and reports success exactly if all of them were sent. *)
Lemma flush_loop_status (A : Type) (wok : nat -> bool) : forall k i (s s' : il A) ok,
  i + k = length (il_pkts s) -> flush_loop wok k i s = Ok (s', ok) ->
  exists sent rest, flat_map (fun o => match o with Some p => [p] | None => [] end) (skipn i (il_pkts s)) = sent ++ rest /\
    il_out s' = il_out s ++ sent /\ (ok = true <-> rest = []).
Proof.
  induction k as [|k IH]; intros i s s' ok L E; cbn [flush_loop] in E.
  - assert (s' = s) as -> by congruence. assert (ok = true) as -> by congruence. exists [], []. rewrite skipn_all2 by lia.
    cbn [flat_map app]. rewrite app_nil_r. split; [reflexivity|]. split; [reflexivity|]. split; reflexivity.
  - assert (SK : exists x, nth_error (il_pkts s) i = Some x /\ skipn i (il_pkts s) = x :: skipn (S i) (il_pkts s)).
    { assert (Hi : i < length (il_pkts s)) by lia. clear - Hi. revert i Hi. induction (il_pkts s) as [|y l IHl]; intros i Hi; cbn [length] in Hi; [lia|].
      destruct i as [|i]; [eexists; split; reflexivity|]. destruct (IHl i ltac:(lia)) as (x & X1 & X2). exists x. split; [exact X1|exact X2]. }
    destruct SK as (x & N & SK). unfold aget in E. rewrite N in E. cbn [bind] in E. rewrite SK. cbn [flat_map].
    destruct x as [p|].
    + destruct (wok (il_calls s)).
      * unfold aset in E. destruct (Nat.ltb_spec i (length (il_pkts s))); [|lia]. cbn [bind] in E.
        apply IH in E; [|cbn [il_pkts]; rewrite length_upd; lia].
        destruct E as (sent & rest & E1 & E2 & E3). cbn [il_pkts il_out] in E1, E2.
        assert (SE : skipn (S i) (upd (il_pkts s) i None) = skipn (S i) (il_pkts s)) by (rewrite (upd_split _ _ _ _ N), skipn_app, firstn_length_le by lia;
          rewrite skipn_all2 by (rewrite firstn_length; lia); replace (S i - i) with 1 by lia; reflexivity).
        rewrite SE in E1. exists (p :: sent), rest. rewrite E1, E2, <- app_assoc. split; [reflexivity|]. split; [reflexivity|exact E3].
      * assert (ok = false) as -> by congruence.
        match type of E with Ok (?a, _) = _ => assert (s' = a) as -> by congruence end.
        eexists [], _. split; [reflexivity|]. cbn [il_out]. rewrite app_nil_r. split; [reflexivity|]. split; discriminate.
    + apply IH in E; [|lia]. exact E.
Qed.
Theorem C05_flush_status : forall (A : Type) (wok : nat -> bool) (s s' : il A) (ok : bool),
  il_n s = length (il_pkts s) -> il_flush wok s = Ok (s', ok) ->
  exists sent rest, in_slots s = sent ++ rest /\ il_out s' = il_out s ++ sent /\ (ok = true <-> rest = []).
Proof.
  intros A wok s s' ok L E. unfold il_flush in E. destruct (flush_loop wok (il_n s) 0 s) as [[s1 b]| |] eqn:F; cbn [bind] in E; try discriminate E.
  destruct (flush_loop_status A wok (il_n s) 0 s s1 b L F) as (sent & rest & E1 & E2 & E3). exists sent, rest.
  split; [exact E1|]. destruct b.
  - match type of E with Ok (?a, _) = _ => assert (s' = a) as -> by congruence end. assert (ok = true) as -> by congruence. auto.
  - assert (s' = s1) as -> by congruence. assert (ok = false) as -> by congruence. auto.
Qed.
Print Assumptions C05_flush_status.
Example C05_flush_status_ex : exists s s', il_run (fun k => k <? 2) (il_new [0; 3; 1; 2] 4) [IlWrite 10; IlWrite 11; IlWrite 12] = Ok s /\
  il_n s = length (il_pkts s) /\ il_flush (fun k => k <? 2) s = Ok (s', false) /\ il_out s' = [10; 11].
Proof. do 2 eexists. split; [vm_compute; reflexivity|]. repeat split. Qed.
