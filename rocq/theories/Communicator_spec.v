(** C19: what a destination learns from the packets sent to it, and how large packets are. *)
From Verif Require Import Base RtcpTrav_model RtcpBuild_model RtcpBuild_spec Communicator_model.
Local Open Scope nat_scope.

(** *** Blocks of a packet, as the traverser shows them *)
Definition reports_in (v : view) : list rblock := match v with VSR _ _ _ _ _ l | VRR _ l => l | _ => [] end.
Definition blocks_in (v : view) : list xview := match v with VXR (Some (_, l, _)) => l | _ => [] end.
Definition dlrrs_in (v : view) : list dblock := concat (map (fun x => match x with XDlrr l => l | _ => [] end) (blocks_in v)).
Definition metrics_in (v : view) : list xview := filter (fun x => match x with XMeas _ _ _ _ _ _ | XDelay _ _ _ _ _ _ | XQueue _ _ _ _ => true | _ => false end) (blocks_in v).
(** What destination [d] finds in the packets sent to it, in order *)
Definition found {A} (f : view -> list A) (d : nat) (out : list pkt_out) : list A :=
  concat (map (fun p => match walk (snd p) with Ok (Some (vs, _)) => concat (map f vs) | _ => [] end) (filter (fun p => fst p =? d) out)).
(** a well-formed packet *)
Definition readable (p : pkt_out) : Prop := exists vs, walk (snd p) = Ok (Some (vs, false)).

(** Every destination gets a packet, and is told about all its streams, once each. *)
Definition told_all (cfg : wcfg) (e : env) (out : list pkt_out) : Prop :=
  Forall (fun p => fst p < e_dests e /\ readable p) out /\
  forall d, d < e_dests e ->
    In d (map fst out) /\
    (e_sending e = true -> found dlrrs_in d out = map (fun i => see_din (e_dlrr e d i)) (seq 0 (e_nsend e d))) /\
    (e_receiving e = true -> c_srrr cfg = true -> found reports_in d out = map (fun i => see_rin (e_rep e d i)) (seq 0 (e_nrecv e d))) /\
    (e_receiving e = true -> c_xr cfg = true -> found metrics_in d out =
      concat (map (fun i => map see_xin [IMeas (e_meas e d i); IDelay (e_delay e d i); IQueue (e_queue e d i)]) (seq 0 (e_nrecv e d)))).

(** *** Sizes: a packet about [s] sending and [r] receiving streams, RFC 3550 and RFC 3611 *)
Definition need (cfg : wcfg) (e : env) (s r : nat) : nat :=
  (if c_srrr cfg then (if e_sending e then 28 else 8) + 24 * r else 0) +
  (if c_xr cfg then 8 + (if e_sending e then 4 + 12 * s else 0) + (if e_receiving e then 12 + 76 * r else 0) else 0) +
  (if c_sdes cfg then 4 + up4 (4 + (2 + length (e_cname e)) + 1) else 0) +
  (if e_bye e then 8 else 0).
(** Any two streams fit one packet. *)
Definition two_fit (cfg : wcfg) (cap : nat) (e : env) : Prop :=
  forall s r, s + r <= 2 -> (0 < s -> e_sending e = true) -> (0 < r -> e_receiving e = true) -> need cfg e s r <= cap.

(** *** Well-formed answers of the reporter *)
Definition env_ok (e : env) : Prop :=
  is_u 32 (e_ssrc e) /\ text_ok (e_cname e) /\ e_cname e <> [] /\ is_u 64 (e_ntp e) /\
  (is_u 32 (si_ssrc (e_sr e)) /\ is_u 64 (si_ntp (e_sr e)) /\ is_u 32 (si_rtp (e_sr e)) /\ is_u 32 (si_packets (e_sr e)) /\ is_u 32 (si_octets (e_sr e))) /\
  forall d i, rin_ok (e_rep e d i) /\ din_ok (e_dlrr e d i) /\ xin_ok (IMeas (e_meas e d i)) /\ xin_ok (IDelay (e_delay e d i)) /\ xin_ok (IQueue (e_queue e d i)).
(** The configuration has a place to describe the streams in, and packets are never empty. *)
Definition cfg_ok (cfg : wcfg) (e : env) : Prop :=
  (c_srrr cfg = true \/ c_sdes cfg = true) /\ (e_sending e = true -> c_xr cfg = true) /\ (e_receiving e = true -> c_srrr cfg = true \/ c_xr cfg = true).

(** *** Any number of calls of generate_reports, one after another *)
Record call := mkCall { cl_env : env; cl_cap : nat; cl_io : nat -> io }.
Fixpoint generations (fuel : nat) (cfg : wcfg) (c : comm) (h : list call) : res (option (list (status * list pkt_out))) :=
  match h with
  | [] => Ok (Some [])
  | x :: r => bind (gen_packets fuel PtReports cfg (cl_cap x) (cl_env x) (cl_io x) c) (fun o =>
      match o with
      | None => Ok None
      | Some (c, s, l) => bind (generations fuel cfg c r) (fun o => Ok (match o with None => None | Some q => Some ((s, l) :: q) end))
      end)
  end.
