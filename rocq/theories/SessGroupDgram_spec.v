(** C51: what a receiver is to be told by an RTCP datagram that its author describes as a list of
    packets. *)
From Verif Require Import Base RtcpTrav_model RtcpBuild_model RtcpBuild_spec.
From Verif Require Reporter_model SessGroup_model.
Local Open Scope Z_scope.

(** The names announced: one for each chunk. *)
Definition names (code : list Z -> Z) (p : pk) : list Reporter_model.rop :=
  match p with
  | PSdes cs => flat_map (fun c => map (fun i => Reporter_model.RCname true (fst c) (code (snd i))) (filter (fun i => fst i =? 1) (snd c))) cs
  | _ => []
  end.
(** Who reports on whom; reference times of senders and receivers. *)
Definition facts (ts : Z -> Z) (p : pk) : list Reporter_model.rop :=
  match p with
  | PSr s rs => Reporter_model.RSr true (si_ssrc s) (ts (si_ntp s)) :: map (fun r => Reporter_model.RReception true (si_ssrc s) (ri_ssrc r)) rs
  | PRr s rs => map (fun r => Reporter_model.RReception true s (ri_ssrc r)) rs
  | PXr s bs => flat_map (fun b => match b with
                                   | IRrtr n => [Reporter_model.RRrtr s (ts n)]
                                   | IDlrr l => map (fun d => Reporter_model.RDlrr s (di_ssrc d)) l
                                   | IMeas m => [Reporter_model.RMetrics s (mi_ssrc m)]
                                   | IDelay y => [Reporter_model.RMetrics s (yi_ssrc y)]
                                   | IQueue q => [Reporter_model.RMetrics s (qi_ssrc q)]
                                   end) bs
  | _ => []
  end.
(** Who leaves. *)
Definition goodbyes (p : pk) : list Reporter_model.rop :=
  match p with PBye ss _ => map Reporter_model.RBye ss | _ => [] end.
(** Names first, so that reports are about known streams; goodbyes last. *)
Definition told (code : list Z -> Z) (ts : Z -> Z) (ps : list pk) : list Reporter_model.rop :=
  flat_map (names code) ps ++ flat_map (facts ts) ps ++ flat_map goodbyes ps.
