(** C06: router. *)
From Verif Require Import Base Router_model Router_spec Router_proof.

(** For every route table and every packet sequence, the packet at position
    [length a] is delivered to route i exactly when the specification says so;
    the result of a write names at most one route. *)
Theorem C06_delivery : forall (table : list N) (ps a : list rpkt) (p : rpkt) (b : list rpkt) (i : nat),
  ps = a ++ p :: b ->
  (nth_error (snd (router_run (router_new table) ps)) (length a) = Some (Some i)
   <-> delivered table a p i).
Proof. exact run_delivery. Qed.
Print Assumptions C06_delivery.

(** Two packets ever delivered to the same route have the same source id (or
    both none). *)
Theorem C06_one_source_per_route :
  forall (table : list N) (ps a1 : list rpkt) p1 b1 a2 p2 b2 (i : nat),
  ps = a1 ++ p1 :: b1 -> ps = a2 ++ p2 :: b2 ->
  nth_error (snd (router_run (router_new table) ps)) (length a1) = Some (Some i) ->
  nth_error (snd (router_run (router_new table) ps)) (length a2) = Some (Some i) ->
  rp_src p1 = rp_src p2.
Proof. exact same_source. Qed.
Print Assumptions C06_one_source_per_route.

(** Audio route (flag 8), repair route (flag 16): source 1 locks the audio
    route, source 2 is rejected there but accepted by the repair route. *)
Example C06_ex :
  snd (router_run (router_new [8; 16]%N)
    [mkRp 9 (Some 1%Z); mkRp 9 (Some 2%Z); mkRp 17 (Some 2%Z); mkRp 1 None; mkRp 25 (Some 1%Z)])
  = [Some 0%nat; None; Some 1%nat; None; Some 0%nat].
Proof. reflexivity. Qed.

(** The source reported for a set of flags is that of the packet that owns the
    first matching route, after every history. *)
Theorem C06_source (table : list N) (ps : list rpkt) (flags : N) (s : Z) :
  router_source (fst (router_run (router_new table) ps)) flags = Some s <->
  exists i q, first_match table (mkRp flags None) i /\ owner table ps i q /\ rp_src q = Some s.
Proof.
  destruct (proj1 (run_ok table ps [] _ (new_inv table))) as [HT HI]. cbn [app] in HI.
  set (rs := fst (router_run (router_new table) ps)) in *. unfold router_source.
  pose proof (find_route_spec rs (mkRp flags None)) as HF. cbn [rp_flags] in HF. rewrite HT in HF.
  destruct (find_route rs flags) as [i|].
  - destruct (nth_error rs i) as [r|] eqn:Er.
    2:{ exfalso. destruct HF as (need & E & _). rewrite <- HT, nth_error_map, Er in E. discriminate. }
    destruct (HI i r Er) as [HA [(S1 & S2 & S3)|(S1 & q & S2 & S3)]].
    + rewrite S2. split; [discriminate|]. intros (j & q & Hj & (a & b & -> & Hq & _) & _).
      rewrite (first_match_fun _ _ _ _ Hj HF) in Hq. exfalso. apply (S3 q); [apply in_or_app; right; left; reflexivity|exact Hq].
    + split.
      * intros E. exists i, q. split; [exact HF|]. split; [exact S2|]. rewrite S3. destruct (rt_has_source r); [exact E|discriminate].
      * intros (j & q' & Hj & Ho & Es). rewrite (first_match_fun _ _ _ _ Hj HF) in Ho.
        rewrite (owner_fun _ _ _ _ _ Ho S2), S3 in Es. destruct (rt_has_source r); [exact Es|discriminate].
  - split; [discriminate|]. intros (j & q & Hj & _). destruct (HF j Hj).
Qed.
Print Assumptions C06_source.

Example C06_source_ex :
  let rs := fst (router_run (router_new [8; 16]%N) [mkRp 9 (Some 1%Z); mkRp 17 None]) in
  router_source rs 8 = Some 1%Z /\ router_source rs 16 = None /\ router_source rs 4 = None.
Proof. repeat split; reflexivity. Qed.
