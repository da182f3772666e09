(** C16: what the RTCP builder produces, and what the traverser reads from it. *)
From Coq Require Import Lia.
From Verif Require Import Base Base_lemmas RtcpTrav_model RtcpTrav_spec RtcpBuild_model RtcpBuild_spec RtcpBuild_proof RtcpRead_proof RtcpBack_proof RtcpProto_proof RtcpFit_proof RtcpWire_spec RtcpWire_proof.
Open Scope res_scope.
Local Open Scope nat_scope.

(** For any packets the client may describe, every call is accepted; the builder succeeds exactly if
    the packets fit the slice, the result then has the size the formats prescribe, and the traverser
    reads exactly the packets described, in order, with all their blocks, items, sources and fields,
    and finds no error. Excluded is padding after a report that is not the only packet, which the
    traverser misreads (below). *)
Theorem C16_roundtrip cfg cap ps pad : valid cfg ps pad ->
  (pad = None \/ is_report (last ps (PRr 0 [])) = false \/ length ps = 1) ->
  exists b, w_run (w_new cfg cap) (calls ps pad) = Ok b /\ (w_ok b = true <-> size_all ps pad <= cap) /\
    (w_ok b = true -> length (w_result b) = size_all ps pad /\ walk (w_result b) = Ok (Some (map see ps, false))).
Proof.
  intros V H. pose proof V as (N & F & Sz & A & P). fold (padn pad) in Sz. destruct (build_run cfg cap ps pad V) as (b & st & R & _ & _ & D). exists b. split; [exact R|].
  rewrite cenc_size in D by assumption. unfold w_ok, w_result. destruct D as [[-> L]|(-> & -> & -> & L)]; cbn [negb].
  - split; [split; [discriminate|lia]|discriminate].
  - split; [split; [intros _; exact L|reflexivity]|]. intros _. pose proof (cenc_size ps pad) as Es. specialize (Es ltac:(assumption)). try specialize (Es ltac:(assumption)). rewrite <- Es, firstn_all. split; [reflexivity|]. apply compound_read; assumption.
Qed.
Print Assumptions C16_roundtrip.

(** With or without padding, the result divides into as many packets as described, each as long as its
    header says, of the prescribed size (the padding belongs to the last); each of them, read alone,
    shows the packet described. *)
Definition sizes (ps : list pk) (pad : option nat) : list nat :=
  map size (removelast ps) ++ [size (last ps (PRr 0 [])) + match pad with Some n => n | None => 0 end].
Theorem C16_layout cfg cap ps pad b : valid cfg ps pad -> w_run (w_new cfg cap) (calls ps pad) = Ok b -> w_ok b = true ->
  exists qs, layout (w_result b) qs false /\ map (@length Z) qs = sizes ps pad /\ Forall2 (fun q p => walk q = Ok (Some ([see p], false))) qs ps /\
    length (w_result b) mod 4 = 0.
Proof.
  intros V R O. pose proof V as (N & F & Sz & A & P). fold (padn pad) in Sz. destruct (build_run cfg cap ps pad V) as (b' & st & R' & _ & _ & D). rewrite R in R'. assert (b' = b) by congruence. subst b'.
  unfold w_ok, w_result in *. destruct D as [[E L]|(_ & -> & -> & L)]; [rewrite E in O; discriminate|]. rewrite firstn_all. exists (cenc ps pad).
  destruct (compound_walk ps pad N F P Sz) as (B & Ly & W). split; [exact Ly|]. split; [|split].
  - clear - N P. induction ps as [|p ps IH]; [contradiction|]. destruct ps as [|p' ps].
    + cbn [cenc map]. unfold sizes. cbn [removelast map last app]. rewrite len_penc by exact P. reflexivity.
    + change (cenc (p :: p' :: ps) pad) with (penc p None :: cenc (p' :: ps) pad). change (sizes (p :: p' :: ps) pad) with (size p :: sizes (p' :: ps) pad). cbn [map]. rewrite IH by discriminate. rewrite penc_none, len_pk. reflexivity.
  - clear - W. revert W. generalize (cenc ps pad). induction ps as [|p ps IH]; intros l W; inversion W; subst; constructor; [assumption|apply IH; assumption].
  - rewrite cenc_size by assumption. unfold size_all. apply mod4_add; [|destruct pad; [apply P|reflexivity]]. clear. induction ps as [|p ps IH]; [reflexivity|]. cbn [map]. rewrite total_cons. apply mod4_add; [apply size_mod|exact IH].
Qed.
Print Assumptions C16_layout.

(** The bytes are those the formats prescribe, field by field: packet and block types, counts, lengths,
    big-endian fields, terminating null bytes and padding. *)
Theorem C16_wire cfg cap ps pad b : valid cfg ps pad -> w_run (w_new cfg cap) (calls ps pad) = Ok b -> w_ok b = true ->
  w_result b = wire_all ps pad.
Proof.
  intros V R O. pose proof V as (N & F & Sz & A & P). destruct (build_run cfg cap ps pad V) as (b' & st & R' & _ & _ & D). rewrite R in R'. assert (b' = b) by congruence. subst b'.
  unfold w_ok, w_result in *. destruct D as [[E L]|(_ & -> & -> & L)]; [rewrite E in O; discriminate|]. rewrite firstn_all. apply cenc_be; assumption.
Qed.
Print Assumptions C16_wire.

(** A client that also names itself when SDES is enabled can destroy the builder. *)
Theorem C16_destroy cfg cap ps pad b : valid cfg ps pad -> named cfg ps -> w_run (w_new cfg cap) (calls ps pad) = Ok b -> w_destroy b = Ok tt.
Proof.
  intros V Nm R. pose proof V as (N & F & Sz & (A1 & _) & P). destruct (build_run cfg cap ps pad V) as (b' & st & R' & St & (C1 & C2 & C3 & C4 & C5) & D). rewrite R in R'. assert (b' = b) by congruence. subst b'.
  unfold w_destroy. rewrite (is_st_ok b st) by (first [exact C1|destruct St as [-> | ->]; cbn; tauto]). cbn [negb].
  assert (X : negb (w_trunc b) && (w_rsz b =? 0) = false).
  { destruct D as [[-> _]|(-> & _ & -> & _)]; [reflexivity|]. cbn [negb andb]. rewrite cenc_size by assumption. apply Nat.eqb_neq. destruct ps as [|p ps]; [contradiction|]. unfold size_all. cbn [map]. rewrite total_cons, len_body. lia. }
  rewrite X. rewrite C2. replace (c_srrr cfg && negb (w_sr b) && negb (w_rr b)) with (c_srrr cfg && negb (w_sr b || w_rr b)) by (destruct (c_srrr cfg), (w_sr b), (w_rr b); reflexivity).
  assert (Y : c_srrr cfg && negb (w_sr b || w_rr b) = false).
  { destruct (c_srrr cfg) eqn:E; [|reflexivity]. cbn [andb]. specialize (A1 eq_refl). destruct ps as [|p ps]; [contradiction|]. assert (Z0 : reported (p :: ps) false = true) by (apply reported_true; right; cbn [existsb]; rewrite A1; reflexivity). first [rewrite C4, Z0 | rewrite C3, Z0 | rewrite C5, Z0]; reflexivity. }
  rewrite Y. assert (Z0 : c_sdes cfg && negb (w_cname b) = false).
  { destruct (c_sdes cfg) eqn:E; [|reflexivity]. cbn [andb]. assert (Q : named_b ps false = true) by (apply named_true; right; apply Nm; exact E). first [rewrite C5, Q | rewrite C4, Q | rewrite C3, Q]; reflexivity. }
  rewrite Z0. reflexivity.
Qed.
Print Assumptions C16_destroy.

(** Only such sequences of calls are accepted: if no call panics and the builder can be destroyed, the
    calls describe some packets, in an order the configuration allows (reports first if enabled), where
    each SDES chunk has exactly one canonical name, not empty, texts are at most 255 long and each BYE
    has a source. *)
Theorem C16_protocol cfg cap ops b : w_run (w_new cfg cap) ops = Ok b -> w_destroy b = Ok tt ->
  exists ps pad, ops = calls ps pad /\ ps <> [] /\ allowed cfg ps /\ pad_ok pad /\ Forall shape_ok ps.
Proof.
  intros R D. destruct (prot_run cfg cap ops b R) as (ps & Sh & Cf & H). unfold w_destroy in D. destruct (is_st b [WTop; WLast]) eqn:G; [|discriminate]. cbn [negb] in D. ins G.
  destruct H as [(St & -> & A & Fl & Ne)|[(St & (n & -> & P) & A & Ne)|(p & o & On & _)]].
  - exists ps, None. split; [reflexivity|]. split; [|split; [exact A|split; [exact I|exact Sh]]]. intros ->. cbn in R. assert (b = w_new cfg cap) by congruence. subst b. cbn in D. discriminate.
  - exists ps, (Some n). split; [reflexivity|]. split; [exact Ne|]. split; [exact A|]. split; [exact P|exact Sh].
  - destruct G as [G|[G|[]]]; rewrite <- G in On; inversion On; match goal with E : _ \/ _ |- _ => destruct E; discriminate end.
Qed.
Print Assumptions C16_protocol.

(** Whatever is asked in whatever order, the builder writes only within its slice. *)
Theorem C16_bounds cfg cap ops b : w_run (w_new cfg cap) ops = Ok b -> length (w_buf b) <= cap /\ length (w_result b) <= cap.
Proof. intros R. destruct (fit_run _ _ _ _ R) as ((A & B & _) & C). unfold w_result. rewrite firstn_length. lia. Qed.
Print Assumptions C16_bounds.

(** Two receiver reports with padding at the end: accepted, well formed, but not read as described
    (traverser.cpp:145). *)
Definition two : list pk := [PRr 1 []; PRr 2 []].
Definition c1 : wcfg := mkCfg true false false.
Theorem C16_padding_refuted : exists b, valid c1 two (Some 4) /\ w_run (w_new c1 100) (calls two (Some 4)) = Ok b /\ w_ok b = true /\
  walk (w_result b) <> Ok (Some (map see two, false)).
Proof.
  eexists. split; [|split; [vm_compute; reflexivity|split; [reflexivity|vm_compute; discriminate]]]. split; [discriminate|]. split; [|split; [|split]].
  - unfold two, is_u. repeat constructor; cbn; unfold is_u; lia.
  - cbn. unfold limit. lia.
  - unfold allowed. cbn. repeat split; try discriminate; intros; repeat constructor.
  - cbn. lia.
Qed.
Print Assumptions C16_padding_refuted.

(** A compound packet with all kinds of packets meets the hypotheses. *)
Definition all_kinds : list pk :=
  [PSr (mkSr 7 (2 ^ 40) 8 9 10) [mkRin 1 128 (-5) 77 3 (2 ^ 50) (2 ^ 33)]; PRr 7 [];
   PSdes [(7, [(1, [97; 98]); (2, [])])%Z]; PXr 7 [IRrtr 5; IDlrr [mkDin 1 2 3; mkDin 4 5 6]; IMeas (mkMin 1 2 3 4 5 6); IDelay (mkYin 1 2 None (Some 4%Z) None None); IQueue (mkQin 2 9 None (Some 1%Z))];
   PBye [7; 8]%Z (Some [98; 121; 101])%Z].
Example C16_witness : valid (mkCfg true true true) all_kinds (Some 8) /\ named (mkCfg true true true) all_kinds /\ is_report (last all_kinds (PRr 0 [])) = false /\ size_all all_kinds (Some 8) = 224.
Proof.
  split; [|split; [|split; vm_compute; reflexivity]].
  - split; [discriminate|]. split; [|split; [|split]].
    + unfold all_kinds. repeat apply Forall_cons; try apply Forall_nil; cbn -[Z.pow]; unfold is_u, is_dur, rin_ok, is_odur, text_ok.
      all: repeat (first [apply Forall_cons|apply Forall_nil|split]); cbn -[Z.pow]; unfold is_u, is_dur, item_ok, text_ok, din_ok; cbn -[Z.pow]; try lia; try exact I; repeat (first [apply Forall_cons|apply Forall_nil|split]); cbn -[Z.pow]; unfold is_u, is_dur; try lia.
      exists [97; 98]%Z. split; [reflexivity|discriminate].
    + cbn. unfold limit. lia.
    + unfold allowed. cbn. repeat split; try discriminate.
    + cbn. lia.
  - intros _. do 2 apply Exists_cons_tl. apply Exists_cons_hd. exact I.
Qed.
Example C16_run : exists b, w_run (w_new (mkCfg true true true) 224) (calls all_kinds (Some 8)) = Ok b /\ w_ok b = true /\ walk (w_result b) = Ok (Some (map see all_kinds, false)).
Proof. eexists. split; [vm_compute; reflexivity|]. split; vm_compute; reflexivity. Qed.
Example C16_bytes : wire_all [PRr 7 []; PBye [258]%Z (Some [98; 121])%Z] (Some 4) =
  [128; 201; 0; 1; 0; 0; 0; 7;  161; 203; 0; 3; 0; 0; 1; 2; 2; 98; 121; 0; 0; 0; 0; 4]%Z.
Proof. reflexivity. Qed.
Example C16_wrong_order : w_run (w_new (mkCfg true true true) 500) [OBeginSdes] = Panic. Proof. reflexivity. Qed.
