(** Specification of the RTP stream filter, link meter and sequencer. *)
From Verif Require Import Base RtpFilter_model.

(** [h] lists the packets accepted so far with their unwrapped positions.
    [(q, zq)] is the newest of them: the first one to reach the highest
    position. *)
Definition newest (h : list (rtp * Z)) (q : rtp) (zq : Z) : Prop :=
  exists a b, h = a ++ (q, zq) :: b /\
    (forall x, In x a -> snd x < zq) /\ (forall x, In x b -> snd x <= zq).

(** Packet [p] continues the stream accepted so far at position [z]. *)
Definition admissible (c : fcfg) (h : list (rtp * Z)) (p : fpkt) (z : Z) : Prop :=
  fp_rtp p = true /\ fp_audio p = true /\
  z mod 65536 = r_sn (fp_hdr p) /\
  (h = [] \/
   exists q zq, newest h q zq /\
     r_src (fp_hdr p) = r_src q /\ r_pt (fp_hdr p) = r_pt q /\
     Z.abs (z - zq) <= max_sn_jump c /\
     (exists d, Z.abs d < 2147483648 /\ (r_ts (fp_hdr p) - r_ts q - d) mod 4294967296 = 0 /\
                to_ns c (Z.abs d) <= max_ts_jump c) /\
     0 <= r_cts (fp_hdr p) /\
     (r_cts (fp_hdr p) = 0 -> r_cts q = 0)).

(** What the filter must answer to the upstream results [is], one by one: pass
    on failures, pass on admissible packets (with the duration filled in),
    refuse all others without forgetting anything. *)
Fixpoint filter_spec (c : fcfg) (h : list (rtp * Z)) (is : list rd_in) (os : list rd_out) : Prop :=
  match is, os with
  | [], [] => True
  | InStatus s :: is', o :: os' => o = OutStatus s /\ filter_spec c h is' os'
  | InPkt p :: is', o :: os' =>
      (exists z, admissible c h p z /\ (exists p', o = OutPkt p' /\
          fp_rtp p' = fp_rtp p /\ fp_audio p' = fp_audio p /\
          r_src (fp_hdr p') = r_src (fp_hdr p) /\ r_sn (fp_hdr p') = r_sn (fp_hdr p) /\
          r_ts (fp_hdr p') = r_ts (fp_hdr p) /\ r_cts (fp_hdr p') = r_cts (fp_hdr p) /\
          r_pt (fp_hdr p') = r_pt (fp_hdr p) /\ r_len (fp_hdr p') = r_len (fp_hdr p) /\
          r_dur (fp_hdr p') =
            (if r_dur (fp_hdr p) =? 0 then count c (r_len (fp_hdr p)) mod 4294967296
             else r_dur (fp_hdr p))) /\
          filter_spec c (h ++ [(fp_hdr p, z)]) is' os')
      \/ ((forall z, ~ admissible c h p z) /\ o = OutStatus st_nodata /\ filter_spec c h is' os')
  | _, _ => False
  end.

(** Packets handed over by the filter. *)
Fixpoint out_pkts (os : list rd_out) : list fpkt :=
  match os with
  | [] => []
  | OutPkt p :: os' => p :: out_pkts os'
  | OutStatus _ :: os' => out_pkts os'
  end.

(** Fields have the widths of the wire format. *)
Definition rtp_wf (r : rtp) : Prop := 0 <= r_sn r < 65536 /\ 0 <= r_ts r < 4294967296.
Definition in_wf (i : rd_in) : Prop :=
  match i with InPkt p => rtp_wf (fp_hdr p) | InStatus _ => True end.

(** Packets received by the link meter, as unwrapped positions: each is less
    than half the sequence space away from the highest one so far. *)
Fixpoint near (hi : Z) (zs : list Z) : Prop :=
  match zs with
  | [] => True
  | z :: zs' => Z.abs (z - hi) < 32768 /\ near (Z.max hi z) zs'
  end.

Definition maxl (z : Z) (zs : list Z) : Z := fold_left Z.max zs z.
Definition minl (z : Z) (zs : list Z) : Z := fold_left Z.min zs z.
