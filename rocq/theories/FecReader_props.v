(** C14: reading a stream protected by FEC. *)
From Verif Require Import Base Seqnum_model SortedQueue_model FecReader_model FecReader_spec FecReader_proof FecReaderRun_proof FecReaderSafe_proof FecReaderStart_proof FecRecover_spec FecRecover_proof FecRecoverFill_proof FecRecoverRun_proof.
Open Scope res_scope.
Local Open Scope Z_scope.

Ltac each := repeat match goal with H : _ \/ _ |- _ => destruct H | H : False |- _ => destruct H end; subst.

(** Once decoding has started, whatever arrives in whatever order: the packets read have increasing
    positions, starting with the first packet of a block; every one of them is the source packet received
    for its position, or was restored for it from packets of its own block; and a block is left behind
    only when it is finished or a source packet of one of the next blocks has arrived. *)
Theorem C14_order : forall e is r outs,
  fr_run e fr_new is = Ok (r, outs) -> plain e -> (forall p, In p (sources is) \/ In p (repairs is) -> typed p) ->
  let S := fun p => In p (sources is) in
  let R := fun p => In p (repairs is) in
  exists ps, Forall2 (right_packet e S R) ps (decoded outs) /\ (ps = [] \/ in_order e S R ps).
Proof.
  intros e is r outs E HP HT S R. destruct (run_order e S R HT HP is r outs E) as (ps & H1 & H2 & _); unfold S, R; auto. exists ps. auto.
Qed.
Print Assumptions C14_order.

(** Reading never crashes and always ends, whatever the FEC fields of the packets say, if the repair
    packets agree on a block length the decoder supports and the decoder restores all missing packets of
    a block or none (both hold for Reed-Solomon, where every packet says 255). *)
Theorem C14_safe : forall e is B, plain e -> all_or_none e -> (0 < B <= o_max e)%nat ->
  (forall p, In p (sources is) \/ In p (repairs is) -> typed p /\ k_fec p <> None) ->
  (forall p f, In p (repairs is) -> k_fec p = Some f -> c_blen f = B) ->
  exists r outs, fr_run e fr_new is = Ok (r, outs).
Proof.
  intros e is B HP HC HB HT HR. destruct (run_ok e (fun p => In p (sources is)) (fun p => In p (repairs is)) B) with (is := is) as (r & outs & E & _); eauto.
  - intros p Hp. apply HT. exact Hp.
  - apply Forall_forall. intros i Hi p Hp. apply HT. unfold sources, repairs. rewrite !in_flat_map. destruct Hp; [left|right]; eauto.
Qed.
Print Assumptions C14_safe.

(** With packets lost, duplicated and reordered, as long as every read is in time ([in_time]: if a later
    packet is there, the next packet is there too or can be restored): the packets read are the source
    packets of the sender's stream, all of them, in order, from the first on, lost ones restored; and a
    read returns no packet only if nothing is left to return. *)
Theorem C14_recovery : forall s e s0 q0 h r outs, sends s e s0 q0 -> decodes s e -> playable s e h ->
  fr_run e fr_new (calls s h) = Ok (r, outs) -> r_alive r = true ->
  forwarded outs = [] /\
  (forall k p, nth_error (decoded outs) k = Some p -> forall b i, (i < len s b)%nat -> index s (b, i) = k -> k_id p = k_id (src s b i)) /\
  (forall outs' o, outs = outs' ++ [o] -> snd o = None -> forall y, In y (came_s h) -> (index s y < length (decoded outs))%nat).
Proof.
  intros s e s0 q0 h r outs SD DC Pl E Ha. destruct (run_hist s e s0 q0 SD DC h r outs Pl E Ha) as [(H1 & H2 & _) H3]. splits; auto.
Qed.
Print Assumptions C14_recovery.
(** When nothing is lost or late (whenever a packet is there at a read, all packets before it are), no
    decoder is needed: the output is the source stream. *)
Theorem C14_lossless : forall s e s0 q0 h r outs, sends s e s0 q0 -> decodes s e ->
  (forall h1 x h2 r outs, h = h1 ++ x :: h2 -> fr_run e fr_new (calls s h1) = Ok (r, outs) ->
     (forall y, In y (fst x) -> source_place s y /\ - 16384 < Z.of_nat (index s y) - Z.of_nat (length (decoded outs)) < 16384) /\
     (forall y, In y (snd x) -> repair_place s y /\ forall b i, (i < len s b)%nat -> index s (b, i) = length (decoded outs) -> - 16384 < Z.of_nat (fst y) - Z.of_nat b < 16384) /\
     (forall y z, In y (came_s (h1 ++ [x])) -> source_place s z -> (index s z < index s y)%nat -> In z (came_s (h1 ++ [x])))) ->
  fr_run e fr_new (calls s h) = Ok (r, outs) -> r_alive r = true ->
  forwarded outs = [] /\
  (forall k p, nth_error (decoded outs) k = Some p -> forall b i, (i < len s b)%nat -> index s (b, i) = k -> k_id p = k_id (src s b i)) /\
  (forall outs' o, outs = outs' ++ [o] -> snd o = None -> forall y, In y (came_s h) -> (index s y < length (decoded outs))%nat).
Proof.
  intros s e s0 q0 h r outs SD DC H E Ha. eapply C14_recovery; eauto. intros h1 x h2 r1 outs1 Eh E1. destruct (H h1 x h2 r1 outs1 Eh E1) as (H1 & H2 & H3).
  splits.
  - split; auto. intros b i Hi Hx. split; [intros y Hy; destruct (H2 y Hy) as [X Y]; split; eauto|]. intros (y & Hy & Hlt). left. apply (H3 y); auto. lia.
  - intros Hc Hne. destruct (fst x) as [|y l] eqn:Ex; [congruence|]. destruct (came_snoc h1 x) as [Cs _]. rewrite Cs, Hc, Ex in H3. cbn [app] in H3.
    destruct (sd_len _ _ _ _ SD O) as ((L0 & _) & _). destruct (Nat.eq_dec (index s y) 0) as [E0|N].
    + left. apply (index_inj s e s0 q0 SD); auto. apply H1. left. reflexivity.
    + apply (H3 y); auto; [left; reflexivity|]. cbn. lia.
Qed.
Print Assumptions C14_lossless.
(** A stream of blocks of 3 + 2 packets, a decoder for it, and a history with a lost, a late and a
    duplicate packet. *)
Definition ex_sender : sender := mkSender (fun _ => 3%nat) (fun _ => 5%nat) (fun _ => 40%nat)
  (fun j i => mkRpk (10 * Z.of_nat j + Z.of_nat i) (Some ((65530 + Z.of_nat (3 * j + i)) mod 65536)) (Some (mkFec 1 i ((65535 + Z.of_nat j) mod 65536) 3 5 40)))
  (fun j i => mkRpk (10 * Z.of_nat j + 9) None (Some (mkFec 1 i ((65535 + Z.of_nat j) mod 65536) 3 5 40))).
Fixpoint any (l : list (option rpk)) : option rpk := match l with [] => None | Some p :: _ => Some p | None :: l => any l end.
Definition ex_dec : renv := mkRenv 1 100 5 (fun _ => true) (fun _ => true)
  (fun _ sa ra i => if (cnt sa + cnt ra <? length sa)%nat then None else option_map (fun p => mkRpk (k_id p / 10 * 10 + Z.of_nat i) None None) (any (sa ++ ra))).
Definition ex_hist : arrivals :=
  [([(0, 0); (0, 2)], [(0, 3)]); ([(1, 1)], []); ([(1, 0); (1, 1)], []); ([], []); ([], [(1, 4)]); ([(2, 0)], [(1, 3)]); ([], [])]%nat.
Lemma ex_first j : first ex_sender j = (3 * j)%nat.
Proof. induction j; cbn [first]; [reflexivity|]. rewrite IHj. cbn. lia. Qed.
Lemma ex_sends : sends ex_sender ex_dec 65535 65530.
Proof.
  constructor.
  - intros j. cbn. splits; lia.
  - intros [j i] H. unfold source_place in H. cbn in H. unfold sp, index. cbn [fst snd]. rewrite ex_first. split; [reflexivity|].
    exists 5%nat. split; [reflexivity|right; cbn; lia].
  - intros [j i] H. split; reflexivity.
Qed.
Lemma any_in l p : any l = Some p -> exists i, nth_error l i = Some (Some p).
Proof. induction l as [|[q|] l IH]; cbn; [discriminate|intros [= ->]; exists O; reflexivity|]. intros H. destruct (IH H) as (i & Hi). exists (S i). exact Hi. Qed.
Lemma any_none l : any l = None -> cnt l = O.
Proof. induction l as [|[q|] l IH]; cbn; [reflexivity|discriminate|exact IH]. Qed.
Lemma cnt_app a b : cnt (a ++ b) = (cnt a + cnt b)%nat.
Proof. unfold cnt. rewrite filter_app, app_length. reflexivity. Qed.
Lemma ex_decodes : decodes ex_sender ex_dec.
Proof.
  constructor.
  - intros t sa ra i H Hi. cbn [ex_dec o_repair]. rewrite (proj2 (Nat.ltb_ge _ _) H). destruct (any (sa ++ ra)) eqn:E; [discriminate|]. apply any_none in E. rewrite cnt_app in E. lia.
  - intros t sa ra i H. cbn [ex_dec o_repair]. rewrite (proj2 (Nat.ltb_lt _ _) H). reflexivity.
  - intros t b sa ra i p Hl Hs Hr E. cbn [ex_dec o_repair] in E. destruct (_ <? _)%nat; [discriminate|]. destruct (any (sa ++ ra)) as [q|] eqn:Ea; [|discriminate]. injection E as <-.
    apply any_in in Ea as (j & Hj). cbn [k_id]. assert (k_id q / 10 = Z.of_nat b) as ->; [|unfold sp; cbn [ex_sender src fst snd k_id]; lia].
    destruct (Nat.lt_ge_cases j (length sa)) as [L|L].
    + rewrite nth_error_app1 in Hj by auto. rewrite (Hs _ _ Hj). unfold sp. cbn [ex_sender src fst snd k_id]. cbn [ex_sender len] in Hl. lia.
    + rewrite nth_error_app2 in Hj by auto. rewrite (Hr _ _ Hj). unfold rp. cbn [ex_sender rep fst snd k_id]. lia.
Qed.
Definition ex_ids2 : option (list (option Z)) :=
  match fr_run ex_dec fr_new (calls ex_sender ex_hist) with Ok x => Some (map (fun o => option_map k_id (snd o)) (snd x)) | _ => None end.
Example ex_out : ex_ids2 = Some [Some 0; Some 1; Some 2; Some 10; Some 11; Some 12; Some 20].
Proof. vm_compute. reflexivity. Qed.
Example ex_playable : playable ex_sender ex_dec ex_hist.
Proof.
  intros h1 x h2 r outs Eh E.
  assert (Hm : forall m b i, (i < len ex_sender b)%nat -> index ex_sender (b, i) = m -> b = (m / 3)%nat /\ i = (m mod 3)%nat).
  { intros m b i Hi Hx. unfold index in Hx. cbn [fst snd] in Hx. rewrite ex_first in Hx. cbn in Hi. lia. }
  Ltac prefix Eh E Hm := match type of E with _ = Ok (?r, ?outs) => injection Eh as <- <-; vm_compute in E; injection E as <- <- end;
    cbn [decoded length]; split; [|cbn; intros; try discriminate; auto]; split;
    [cbn [fst In]; intros y Hy; each; unfold source_place, index; cbn [fst snd]; rewrite ?ex_first; cbn; lia|];
    intros b i Hi Hx; destruct (Hm _ _ _ Hi Hx) as [-> ->];
    split; [cbn [snd In]; intros y Hy; each; unfold repair_place; cbn; lia|]; intros (y & Hy & Hlt);
    cbn [came_s flat_map app fst snd In] in Hy |- *; first [right; vm_compute; lia | left; vm_compute; tauto].
  do 7 (destruct h1 as [|? h1]; [prefix Eh E Hm|injection Eh as <- Eh]). destruct h1; discriminate Eh.
Qed.

(** * A stream with a loss: two blocks of three source and two repair packets, the second packet of the
    first block lost and restored *)
Definition pk (id seq : Z) (sbn : Z) (esi sblen blen pay : nat) : rpk := mkRpk id (Some seq) (Some (mkFec 1 esi sbn sblen blen pay)).
Definition rk (id : Z) (sbn : Z) (esi sblen blen pay : nat) : rpk := mkRpk id None (Some (mkFec 1 esi sbn sblen blen pay)).
Definition some_count (l : list (option rpk)) : nat := length (filter (fun o => match o with Some _ => true | None => false end) l).
(** Restores packets with content [1000 + index] when there are enough. *)
Definition ex_env (mx : nat) : renv := mkRenv 1 100 mx (fun _ => true) (fun _ => true)
  (fun _ sa ra i => if (length sa <=? some_count sa + some_count ra)%nat then Some (mkRpk (1000 + Z.of_nat i) None None) else None).
Definition ex_in : list rin :=
  [more [pk 10 7 65535 0 3 5 40; pk 12 9 65535 2 3 5 40] [rk 13 65535 3 3 5 40]; more [pk 20 10 0 0 3 5 40] []; more [] [];
   more [] []; more [pk 21 11 0 1 3 5 40; pk 22 12 0 2 3 5 40] []; more [] []; more [] []].
Definition ids (r : res (fr * list (bool * rstat * option rpk))) : option (list (option Z)) :=
  match r with Ok x => Some (map (fun o => option_map k_id (snd o)) (snd x)) | _ => None end.
Example ex_ids : ids (fr_run (ex_env 5) fr_new ex_in) = Some [Some 10; Some 1001; Some 12; Some 20; Some 21; Some 22; None].
Proof. vm_compute. reflexivity. Qed.
Example ex_hyp : plain (ex_env 5) /\ all_or_none (ex_env 5) /\ (forall p, In p (sources ex_in) \/ In p (repairs ex_in) -> typed p /\ k_fec p <> None)
  /\ (forall p f, In p (repairs ex_in) -> k_fec p = Some f -> c_blen f = 5%nat).
Proof.
  splits.
  - intros t sa ra i p H. cbn in H. destruct (_ <=? _)%nat; [injection H as <-; reflexivity|discriminate].
  - intros t sa ra. cbn. destruct (_ <=? _)%nat; [right; discriminate|left; auto].
  - cbn. intros p Hp. each; (split; [unfold typed; intros ? [= <-]; cbn; lia|discriminate]).
  - cbn. intros p f [<- |[]] [= <-]. reflexivity.
Qed.

(** * Refuted *)
(** A repair packet that says its block has length 0 (LDPC carries the length in the packet) aborts the
    receiver (reader.cpp:591, 737). *)
Theorem C14_length_refuted : exists e is, plain e /\ all_or_none e /\
  (forall p, In p (sources is) \/ In p (repairs is) -> typed p /\ k_fec p <> None) /\ fr_run e fr_new is = Panic.
Proof.
  exists (ex_env 5), [more [pk 10 7 1 0 3 5 40] [rk 13 1 3 3 0 40]]. splits; try apply ex_hyp; [|vm_compute; reflexivity].
  cbn. intros p Hp. each; (split; [unfold typed; intros ? [= <-]; cbn; lia|discriminate]).
Qed.
Print Assumptions C14_length_refuted.
(** Two blocks, each within the decoder's limit, make the reader start the decoder with a block above
    it: 2 source packets, then 4, with 3 repair packets left over from the first block
    (reader.cpp:698-702 compares with the sizes of the previous block). *)
Theorem C14_limit_refuted : exists e is, plain e /\ all_or_none e /\ o_max e = 5%nat /\
  (forall p f, In p (sources is) -> k_fec p = Some f -> (c_sblen f <= 5)%nat) /\ fr_run e fr_new is = Panic.
Proof.
  exists (ex_env 5), [more [pk 10 7 1 0 2 5 40; pk 11 8 1 1 2 5 40] [rk 13 1 2 2 5 40]; more [] [];
    more [pk 20 9 2 0 4 5 40; pk 23 12 2 3 4 5 40] [rk 24 2 4 4 7 40]; more [] []]. splits; try apply ex_hyp; try (vm_compute; reflexivity).
  cbn. intros p f Hp. intros Ef. each; injection Ef as <-; cbn; lia.
Qed.
Print Assumptions C14_limit_refuted.
(** A decoder that restores some of the missing packets (LDPC does), and a late packet of the same
    block: the reader dereferences the FEC fields a restored packet does not have (reader.cpp:227). *)
Definition partial_env : renv := mkRenv 1 100 9 (fun _ => true) (fun _ => true)
  (fun _ sa ra i => if (i =? 1)%nat then Some (mkRpk 1001 None None) else None).
Theorem C14_partial_refuted : exists e is B, plain e /\ (0 < B <= o_max e)%nat /\
  (forall p, In p (sources is) \/ In p (repairs is) -> typed p /\ k_fec p <> None) /\
  (forall p f, In p (repairs is) -> k_fec p = Some f -> c_blen f = B) /\ fr_run e fr_new is = UB.
Proof.
  exists partial_env, [more [pk 10 7 1 0 5 9 40] [rk 15 1 5 5 9 40]; more [] []; more [pk 14 11 1 4 5 9 40] []], 9%nat.
  splits; try (vm_compute; reflexivity); try (cbn; lia).
  - intros t sa ra i p H. cbn in H. destruct (_ =? _)%nat; [injection H as <-; reflexivity|discriminate].
  - cbn. intros p Hp. each; (split; [unfold typed; intros ? [= <-]; cbn; lia|discriminate]).
  - cbn. intros p f [<- |[]] [= <-]. reflexivity.
Qed.
Print Assumptions C14_partial_refuted.
(** Before decoding starts packets are forwarded as they come: late packets are returned out of order,
    and a duplicate is returned twice. *)
Theorem C14_forward_refuted : exists e is r outs a b, plain e /\ all_or_none e /\ fr_run e fr_new is = Ok (r, outs) /\
  forwarded outs = [a; b; a] /\ decoded outs = [] /\ exists fa fb, k_fec a = Some fa /\ k_fec b = Some fb /\ c_sbn fa = c_sbn fb /\ (c_esi fb < c_esi fa)%nat.
Proof.
  exists (ex_env 5), [more [pk 12 9 1 2 3 5 40] []; more [pk 11 8 1 1 3 5 40] []; more [pk 12 9 1 2 3 5 40] []].
  do 2 eexists. exists (pk 12 9 1 2 3 5 40), (pk 11 8 1 1 3 5 40). splits; try apply ex_hyp.
  - vm_compute. reflexivity.
  - reflexivity.
  - reflexivity.
  - do 2 eexists. splits; try reflexivity. cbn. lia.
Qed.
Print Assumptions C14_forward_refuted.
(** If the first packet received comes from the middle of a block and the sender then changes the block
    size, decoding never starts, however many complete blocks follow: losses are not repaired although
    the repair packets are there (reader.cpp:110, 645-656: the size stays fixed until a block ends, and no
    block ends before decoding starts). *)
Theorem C14_start_refuted : forall e is first f, o_alloc e 0 = true -> k_fec first = Some f -> c_scheme f = o_scheme e ->
  source_ok f = true -> (0 < c_esi f)%nat -> (c_sblen f <= o_max e)%nat ->
  (forall p, In p (sources is) \/ In p (repairs is) -> exists g, k_fec p = Some g /\ c_scheme g = o_scheme e) ->
  (forall p g, In p (sources is) -> k_fec p = Some g -> c_sblen g <> c_sblen f) ->
  exists r outs, fr_run e fr_new (more [first] [] :: is) = Ok (r, outs) /\ r_started r = false /\ r_alive r = true /\ decoded outs = [].
Proof. exact never_starts. Qed.
Print Assumptions C14_start_refuted.
(** A first packet and a stream of blocks of four packets after it, the third of each lost. *)
Example ex_start : let f := mkFec 1 2 1 3 5 40 in
  let is := [more [pk 20 10 2 0 4 6 40; pk 21 11 2 1 4 6 40; pk 23 13 2 3 4 6 40] [rk 24 2 4 4 6 40; rk 25 2 5 4 6 40]; more [] []; more [] []; more [] []] in
  source_ok f = true /\ (forall p, In p (sources is) \/ In p (repairs is) -> exists g, k_fec p = Some g /\ c_scheme g = 1)
  /\ ids (fr_run (ex_env 9) fr_new (more [pk 12 9 1 2 3 5 40] [] :: is)) = Some [Some 12; Some 20; Some 21; Some 23; None]
  /\ ids (fr_run (ex_env 9) fr_new is) = Some [Some 20; Some 21; Some 1002; Some 23].
Proof.
  cbv zeta. splits; try (vm_compute; reflexivity). cbn. intros p Hp. each; eexists; split; reflexivity.
Qed.
