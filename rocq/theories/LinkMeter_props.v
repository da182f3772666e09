(* C10, through write() and with packets of all payload types: sequence number metrics of a received stream. *)
From Coq Require Import ZArith List Bool Lia.
From Verif Require Import Base LinkMeter_model LinkMeter_spec LinkMeter_proof.
Import ListNotations.
Local Open Scope Z_scope.

(* Packets that are not RTP or whose payload type is not known are not counted:
   the metrics are those of the other packets. *)
Theorem C10_counted : forall find ps ps', counted find ps = counted find ps' ->
  let a := lm_run find lm_new (map on_wire ps) in let b := lm_run find lm_new (map on_wire ps') in
  lm_has a = lm_has b /\ lm_ext_first a = lm_ext_first b /\ lm_ext_last a = lm_ext_last b.
Proof.
  intros find ps ps' E a b.
  assert (S : same lm_new lm_new) by (repeat split).
  destruct (run_counted find ps lm_new lm_new S I) as (_ & A1 & _ & _ & _ & A2 & A3).
  destruct (run_counted find ps' lm_new lm_new S I) as (_ & B1 & _ & _ & _ & B2 & B3).
  fold a in A1, A2, A3. fold b in B1, B2, B3. rewrite E in *. rewrite A1, A2, A3, B1, B2, B3. auto.
Qed.
Print Assumptions C10_counted.

Definition known (pt : Z) : bool := (pt =? 10) || (pt =? 11).
Example ex_counted : counted known [Some (10, 5); None; Some (99, 800); Some (11, 7)] = counted known [Some (10, 5); Some (11, 7)] /\
  lm_ext_last (lm_run known lm_new (map on_wire [Some (10, 5); None; Some (99, 800); Some (11, 7)])) = 7.
Proof. split; reflexivity. Qed.

(* The extended last sequence number: the highest position, short of one for
   every time the sequence number has wrapped, for streams of any length. *)
Theorem C10_reported_last : forall find ps x xs, counted find ps = x :: xs -> 0 <= x < 65536 -> orderly x xs ->
  let st := lm_run find lm_new (map on_wire ps) in
  lm_has st = true /\ lm_ext_last st = (highest x xs - highest x xs / 65536) mod 2 ^ 32.
Proof.
  intros find ps x xs E Hx O st.
  assert (S : same lm_new lm_new) by (repeat split).
  destruct (run_counted find ps lm_new lm_new S I) as (_ & A1 & _ & _ & _ & A2 & A3). fold st in A1, A2, A3.
  rewrite E in A1, A3. cbn [seqs map fold_left] in A1, A3. fold (seqs (update_metrics lm_new (x mod 65536)) xs) in A1, A3.
  pose proof (top_first lm_new x eq_refl eq_refl eq_refl Hx) as T.
  destruct (top_run xs _ x T O) as (_ & B1 & _ & _ & B2). rewrite A1, A3. split; [exact B1|]. rewrite B2.
  f_equal. pose proof (Z.div_mod (highest x xs) 65536). lia.
Qed.
Print Assumptions C10_reported_last.

(* as long as the sequence number has not wrapped it is right *)
Theorem C10_reported_last_partial : forall find ps x xs, counted find ps = x :: xs -> 0 <= x < 65536 -> orderly x xs ->
  0 <= highest x xs < 65536 -> lm_ext_last (lm_run find lm_new (map on_wire ps)) = highest x xs.
Proof.
  intros find ps x xs E Hx O H. destruct (C10_reported_last find ps x xs E Hx O) as [_ A]. rewrite A.
  rewrite Z.div_small, Z.sub_0_r by lia. apply Z.mod_small. lia.
Qed.
Print Assumptions C10_reported_last_partial.

(* The first sequence number: the lowest position, while the stream spans less
   than 2^15 packets and has not wrapped either way. *)
Theorem C10_reported_first_partial : forall find ps x xs, counted find ps = x :: xs -> orderly x xs ->
  0 <= lowest x xs -> highest x xs < 65536 -> highest x xs - lowest x xs < 32768 ->
  lm_ext_first (lm_run find lm_new (map on_wire ps)) = lowest x xs.
Proof.
  intros find ps x xs E O L H D.
  assert (HX : forall l M, M <= highest M l).
  { induction l as [|y l IHl]; intros M; cbn [highest fold_left]; [lia|]. specialize (IHl (Z.max M y)). unfold highest in *. lia. }
  assert (LX : forall l m, lowest m l <= m).
  { induction l as [|y l IHl]; intros m; cbn [lowest fold_left]; [lia|]. specialize (IHl (Z.min m y)). unfold lowest in *. lia. }
  pose proof (HX xs x) as H1. pose proof (LX xs x) as H2. assert (Hx : 0 <= x < 65536) by lia.
  assert (S : same lm_new lm_new) by (repeat split).
  destruct (run_counted find ps lm_new lm_new S I) as (_ & _ & _ & _ & _ & A2 & _).
  rewrite E in A2. cbn [seqs map fold_left] in A2. fold (seqs (update_metrics lm_new (x mod 65536)) xs) in A2.
  rewrite A2. pose proof (top_first lm_new x eq_refl eq_refl eq_refl Hx) as T.
  assert (B : at_bottom (update_metrics lm_new (x mod 65536)) x).
  { unfold at_bottom, update_metrics. cbn [lm_new lm_first_packet lm_hi orb andb Z.eqb lm_first lm_ext_first]. rewrite Z.mod_small by lia. auto. }
  apply (bottom_run xs _ x x); auto; lia.
Qed.
Print Assumptions C10_reported_first_partial.

(* packets out of order, one lost *)
Definition arrivals := [Some (10, 101); Some (10, 100); Some (11, 104); Some (10, 102); Some (99, 7); Some (10, 105)].
Example ex_metrics : counted known arrivals = [101; 100; 104; 102; 105] /\
  (orderly 101 [100; 104; 102; 105] /\ lowest 101 [100; 104; 102; 105] = 100 /\ highest 101 [100; 104; 102; 105] = 105) /\
  lm_ext_first (lm_run known lm_new (map on_wire arrivals)) = 100 /\ lm_ext_last (lm_run known lm_new (map on_wire arrivals)) = 105.
Proof. cbn [orderly]. repeat split; try reflexivity; lia. Qed.

(* Not so after a wrap: two packets are counted as one ... *)
Theorem C10_reported_last_refuted :
  ~ (forall ps x xs, counted known ps = x :: xs -> 0 <= x < 65536 -> orderly x xs ->
       lm_ext_last (lm_run known lm_new (map on_wire ps)) = highest x xs mod 2 ^ 32).
Proof.
  intros H. specialize (H [Some (10, 65535); Some (10, 65536)] 65535 [65536] eq_refl ltac:(lia)).
  assert (O : orderly 65535 [65536]) by (cbn [orderly]; lia). specialize (H O). vm_compute in H. discriminate H.
Qed.
Print Assumptions C10_reported_last_refuted.

(* ... nor for the first sequence number of a stream that spans 2^15 packets:
   packet 40000 after packets 0 and 30000 becomes the first; ... *)
Theorem C10_reported_first_refuted :
  ~ (forall ps x xs, counted known ps = x :: xs -> 0 <= x < 65536 -> orderly x xs -> 0 <= lowest x xs ->
       lm_ext_first (lm_run known lm_new (map on_wire ps)) = lowest x xs).
Proof.
  intros H. specialize (H [Some (10, 0); Some (10, 30000); Some (10, 40000)] 0 [30000; 40000] eq_refl ltac:(lia)).
  assert (O : orderly 0 [30000; 40000]) by (cbn [orderly]; lia). specialize (H O ltac:(vm_compute; discriminate)). vm_compute in H. discriminate H.
Qed.
Print Assumptions C10_reported_first_refuted.

(* ... and a packet that was sent before number 0 and arrives after it makes the
   first greater than the last. *)
Theorem C10_reported_first_le_last_refuted :
  ~ (forall ps x xs, counted known ps = x :: xs -> 0 <= x < 65536 -> orderly x xs ->
       let st := lm_run known lm_new (map on_wire ps) in lm_ext_first st <= lm_ext_last st).
Proof.
  intros H. specialize (H [Some (10, 0); Some (10, -1)] 0 [-1] eq_refl ltac:(lia)).
  assert (O : orderly 0 [-1]) by (cbn [orderly]; lia). specialize (H O). vm_compute in H. apply H. reflexivity.
Qed.
Print Assumptions C10_reported_first_le_last_refuted.
