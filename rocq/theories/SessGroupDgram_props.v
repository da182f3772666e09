(** C51: from the packets that a peer describes to what the receiver is told. *)
From Verif Require Import Base RtcpTrav_model RtcpBuild_model RtcpBuild_spec RtcpBuild_props SessGroup_model SessGroupDgram_spec SessGroupDgram_proof.
From Verif Require Reporter_model.
Local Open Scope Z_scope.

(** Whatever packets a peer describes to its builder, a receiver of the datagram is told exactly
    these names, reports, reference times and goodbyes, in this order, in one batch. *)
Theorem C51_datagram : forall cfg cap ps pad b ts from now part, valid cfg ps pad ->
  (pad = None \/ is_report (last ps (PRr 0 [])) = false \/ length ps = 1%nat) ->
  w_run (w_new cfg cap) (calls ps pad) = Ok b -> w_ok b = true ->
  packet_ops ts [] from now part (w_result b) = Ok ([Reporter_model.RBeginP from now part] ++ told name_code ts ps ++ [Reporter_model.REndP]).
Proof.
  intros cfg cap ps pad b ts from now part V H R O. destruct (C16_roundtrip cfg cap ps pad V H) as (b' & R' & _ & W). assert (b' = b) by congruence. subst b'.
  destruct (W O) as [_ E]. unfold packet_ops. rewrite E. cbn [bind fst]. destruct V as (_ & F & _). rewrite see_all by exact F. rewrite told_mem. reflexivity.
Qed.
Print Assumptions C51_datagram.

(** Different names have different codes; a name ends at the first NUL byte. *)
Theorem C51_names_differ : forall t t' u, Forall (fun c => 1 <= c < 256) t -> Forall (fun c => 1 <= c < 256) t' ->
  (name_code t = name_code t' <-> t = t') /\ name_code (t ++ 0 :: u) = name_code t /\ (name_code t = 0 <-> t = []).
Proof.
  intros t t' u H H'. split; [split; [apply name_inj; assumption|intros ->; reflexivity]|]. split.
  - unfold name_code. rewrite cstr_text, cstr_id by exact H. reflexivity.
  - rewrite name_num by exact H. destruct t as [|c t]; [tauto|]. pose proof (num_pos (c :: t) 1 ltac:(lia) H). split; [lia|discriminate].
Qed.
Print Assumptions C51_names_differ.

(** A report, a name, extended reports and a goodbye in one datagram. *)
Example datagram_case : exists b, w_run (w_new (mkCfg true true true) 500) (calls all_kinds None) = Ok b /\ w_ok b = true /\
  exists l, packet_ops (fun x => x) [] 3 4 (Reporter_model.mkPart false []) (w_result b) = Ok l /\ In (Reporter_model.RCname true 7 (name_code [97; 98])) l /\ In (Reporter_model.RReception true 7 1) l.
Proof. eexists. split; [vm_compute; reflexivity|]. split; [reflexivity|]. eexists. split; [vm_compute; reflexivity|]. cbn; auto 10. Qed.
