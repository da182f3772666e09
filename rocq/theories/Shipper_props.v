(** C76: what a sender does to packets right before they are sent. *)
From Coq Require Import Lia.
From Verif Require Import Base Shipper_model.
Local Open Scope res_scope.

Section Props.
Context {A D : Type}.
Implicit Types (p : pkt A D) (addr : option A) (compose : pkt A D -> option D) (ids : list nat).

(** A packet with the address of the sender, if it has none of its own. *)
Definition addressed addr p : pkt A D :=
  match addr with
  | None => p
  | Some a => {| k_udp := true; k_dst := Some (match k_dst p with Some d => d | None => a end);
                 k_prepared := k_prepared p; k_composed := k_composed p; k_data := k_data p |}
  end.
(** The packet that must be sent for [p]; none if it cannot be sent. *)
Definition sent addr compose p : option (pkt A D) :=
  let q := addressed addr p in
  if k_prepared p then
    if k_composed p then Some q
    else match compose q with
         | Some d => Some {| k_udp := k_udp q; k_dst := k_dst q; k_prepared := k_prepared q; k_composed := true; k_data := d |}
         | None => None
         end
  else None.

Lemma addressed_flags addr p : k_prepared (addressed addr p) = k_prepared p /\ k_composed (addressed addr p) = k_composed p.
Proof. destruct addr; split; reflexivity. Qed.
Lemma address_step addr p :
  match addr with None => Ok p | Some a => q <- (if negb (k_udp p) then add_udp p else Ok p) ;; set_dst a q end = Ok (addressed addr p).
Proof. destruct addr as [a|]; [|reflexivity]. destruct p as [[|] [d|] pr co da]; reflexivity. Qed.
Lemma ship_eq addr compose (w : world A D) i : ship addr compose w i =
  match sent addr compose (w_heap w i) with
  | None => Panic
  | Some q => Ok {| w_heap := put (w_heap w) i q; w_calls := w_calls w ++ (if k_composed (w_heap w i) then [] else [i]); w_out := w_out w ++ [(i, q)] |}
  end.
Proof.
  unfold ship, sent. rewrite address_step. cbn [bind]. destruct (addressed_flags addr (w_heap w i)) as [-> C].
  destruct (k_prepared (w_heap w i)) eqn:P; [cbn [negb]|reflexivity]. rewrite C. destruct (k_composed (w_heap w i)) eqn:K; cbn [negb].
  - rewrite app_nil_r. reflexivity.
  - destruct (compose (addressed addr (w_heap w i))) as [d|]; [|reflexivity]. unfold add_composed. cbn [k_composed]. reflexivity.
Qed.
Lemma addressed_twice addr p : addressed addr (addressed addr p) = addressed addr p.
Proof. destruct addr; [|reflexivity]. destruct p as [u [d|] pr co da]; reflexivity. Qed.
Lemma sent_twice addr compose p q : sent addr compose p = Some q -> sent addr compose q = Some q /\ k_composed q = true.
Proof.
  intros E. assert (G : addressed addr q = q /\ k_prepared q = true /\ k_composed q = true).
  { unfold sent in E. destruct (k_prepared p) eqn:P; [|discriminate]. destruct (k_composed p) eqn:C.
    - assert (q = addressed addr p) by congruence. subst. split; [apply addressed_twice|]. destruct (addressed_flags addr p) as [-> ->]. split; assumption.
    - destruct (compose (addressed addr p)) as [d|]; [|discriminate]. match type of E with Some ?v = _ => assert (Q : q = v) by congruence end. rewrite Q.
      split; [|split; [destruct addr; exact P|reflexivity]]. destruct addr; reflexivity. }
  destruct G as (G1 & G2 & G3). split; [|exact G3]. unfold sent. rewrite G1, G2, G3. reflexivity.
Qed.

Section Run.
Variables (addr : option A) (compose : pkt A D -> option D) (h0 : nat -> pkt A D).
Definition start : world A D := {| w_heap := h0; w_calls := []; w_out := [] |}.
(** After the writes [done]. *)
Definition inv (done : list nat) (w : world A D) : Prop :=
  (forall i, ~ In i done -> w_heap w i = h0 i) /\
  (forall i, In i done -> sent addr compose (h0 i) = Some (w_heap w i)) /\
  map (fun e => (fst e, Some (snd e))) (w_out w) = map (fun i => (i, sent addr compose (h0 i))) done /\
  NoDup (w_calls w) /\ (forall i, In i (w_calls w) <-> In i done /\ k_composed (h0 i) = false).
Lemma inv_step done w i : inv done w ->
  match sent addr compose (h0 i) with
  | None => ship addr compose w i = Panic
  | Some _ => exists w', ship addr compose w i = Ok w' /\ inv (done ++ [i]) w'
  end.
Proof.
  intros (H1 & H2 & H3 & H4 & H5). rewrite ship_eq.
  assert (S : sent addr compose (w_heap w i) = sent addr compose (h0 i)).
  { destruct (in_dec Nat.eq_dec i done) as [I|I]; [|rewrite H1 by exact I; reflexivity].
    pose proof (H2 i I) as E. rewrite E. exact (proj1 (sent_twice _ _ _ _ E)). }
  rewrite S. destruct (sent addr compose (h0 i)) as [q|] eqn:Q; [|reflexivity]. eexists. split; [reflexivity|].
  unfold inv. cbn [w_heap w_calls w_out]. split; [|split; [|split; [|split]]].
  - intros j J. unfold put. destruct (Nat.eqb_spec j i) as [->|N]; [exfalso; apply J, in_or_app; right; left; reflexivity|].
    apply H1. intros K. apply J, in_or_app. left. exact K.
  - intros j J. unfold put. destruct (Nat.eqb_spec j i) as [->|N]; [exact Q|].
    apply H2. apply in_app_or in J as [J|[J|[]]]; [exact J|congruence].
  - rewrite !map_app, H3. cbn [map fst snd]. rewrite Q. reflexivity.
  - destruct (k_composed (w_heap w i)) eqn:C; [rewrite app_nil_r; exact H4|].
    apply NoDup_rev in H4. rewrite <- (rev_involutive (w_calls w ++ [i])). apply NoDup_rev. rewrite rev_app_distr. cbn [rev app]. constructor; [|exact H4].
    rewrite <- in_rev. intros K. apply H5 in K as [K1 _]. pose proof (sent_twice _ _ _ _ (H2 i K1)) as [_ T]. congruence.
  - intros j. destruct (in_dec Nat.eq_dec i done) as [I|I].
    + pose proof (sent_twice _ _ _ _ (H2 i I)) as [_ T]. rewrite T, app_nil_r, H5. split; intros [a b]; (split; [|exact b]).
      * apply in_or_app; left; exact a.
      * apply in_app_or in a as [a|[<-|[]]]; assumption.
    + rewrite H1 by exact I. destruct (k_composed (h0 i)) eqn:C; rewrite in_app_iff, H5, in_app_iff.
      * split; [intros [[a b]|[]]; split; [left; exact a|exact b]|]. intros [[a|[<-|[]]] b]; [left; split; assumption|congruence].
      * split; [intros [[a b]|[<-|[]]]; [split; [left; exact a|exact b]|split; [right; left; reflexivity|exact C]]|].
        intros [[a|[<-|[]]] b]; [left; split; assumption|right; left; reflexivity].
Qed.
Lemma run_inv ids done w : inv done w ->
  (exists w', ship_all addr compose w ids = Ok w' /\ inv (done ++ ids) w' /\ forall i, In i ids -> sent addr compose (h0 i) <> None) \/
  (ship_all addr compose w ids = Panic /\ exists i, In i ids /\ sent addr compose (h0 i) = None).
Proof.
  revert done w. induction ids as [|i t IH]; intros done w I; cbn [ship_all].
  - left. exists w. rewrite app_nil_r. split; [reflexivity|]. split; [exact I|intros i []].
  - pose proof (inv_step done w i I) as S. destruct (sent addr compose (h0 i)) as [q|] eqn:Q.
    + destruct S as (w' & E & I'). rewrite E. cbn [bind]. destruct (IH _ _ I') as [(w2 & E2 & I2 & N)|(E2 & j & J & Nj)].
      * left. exists w2. split; [exact E2|]. rewrite <- app_assoc in I2. split; [exact I2|]. intros j [<-|J]; [congruence|apply N, J].
      * right. split; [exact E2|]. exists j. split; [right; exact J|exact Nj].
    + rewrite S. right. split; [reflexivity|]. exists i. split; [left; reflexivity|exact Q].
Qed.
Lemma inv_start : inv [] start.
Proof. split; [reflexivity|]. split; [intros i []|]. split; [reflexivity|]. split; [constructor|]. intros i. cbn. split; [intros []|intros [[] _]]. Qed.
End Run.

(** Every write passes its packet on, once and in order, as it must be sent; also when the
    same packet is written again. Each packet is composed at most once, and only if it was
    not composed before. The run aborts exactly if a packet cannot be sent. *)
Theorem C76_sent : forall addr compose (h0 : nat -> pkt A D) ids w,
  ship_all addr compose (start h0) ids = Ok w ->
  map (fun e => (fst e, Some (snd e))) (w_out w) = map (fun i => (i, sent addr compose (h0 i))) ids /\
  NoDup (w_calls w) /\ (forall i, In i (w_calls w) <-> In i ids /\ k_composed (h0 i) = false).
Proof.
  intros addr compose h0 ids w E. destruct (run_inv addr compose h0 ids [] (start h0) (inv_start addr compose h0)) as [(w' & E' & I & _)|(E' & _)]; [|congruence].
  assert (w' = w) by congruence. subst. destruct I as (_ & _ & I3 & I4 & I5). split; [exact I3|]. split; assumption.
Qed.
Theorem C76_aborts : forall addr compose (h0 : nat -> pkt A D) ids,
  ship_all addr compose (start h0) ids <> UB /\
  (ship_all addr compose (start h0) ids = Panic <-> exists i, In i ids /\ sent addr compose (h0 i) = None).
Proof.
  intros addr compose h0 ids. destruct (run_inv addr compose h0 ids [] (start h0) (inv_start addr compose h0)) as [(w' & E' & _ & N)|(E' & X)]; rewrite E'.
  - split; [congruence|]. split; [congruence|]. intros (i & I & S). exfalso. exact (N i I S).
  - split; [congruence|]. split; [intros _; exact X|reflexivity].
Qed.
(** What is sent: composed, to its own destination if it has one and else to that of the
    sender, with its content if it was composed before. *)
Theorem C76_packet : forall addr compose p q, sent addr compose p = Some q ->
  k_composed q = true /\ k_prepared p = true /\
  k_dst q = match k_dst p, addr with Some d, _ => Some d | None, Some a => Some a | None, None => None end /\
  (addr <> None -> k_udp q = true) /\
  (k_composed p = true -> k_data q = k_data p) /\
  (k_composed p = false -> exists r, compose r = Some (k_data q) /\ k_dst r = k_dst q /\ k_data r = k_data p).
Proof.
  intros addr compose p q E. destruct (sent_twice _ _ _ _ E) as [_ C]. split; [exact C|]. unfold sent in E.
  destruct (k_prepared p); [|discriminate]. split; [reflexivity|]. destruct (k_composed p) eqn:K.
  - assert (q = addressed addr p) by congruence. subst q. destruct addr as [a|]; cbn [addressed k_dst k_udp k_data].
    + split; [destruct (k_dst p); reflexivity|]. split; [reflexivity|]. split; [reflexivity|congruence].
    + split; [destruct (k_dst p); reflexivity|]. split; [congruence|]. split; [reflexivity|congruence].
  - destruct (compose (addressed addr p)) as [d|] eqn:X; [|discriminate]. match type of E with Some ?v = _ => assert (Q : q = v) by congruence end. rewrite Q. cbn [k_dst k_udp k_data].
    split; [destruct addr; cbn [addressed k_dst]; destruct (k_dst p); reflexivity|]. split; [destruct addr; [reflexivity|congruence]|].
    split; [congruence|]. intros _. exists (addressed addr p). split; [exact X|]. split; [reflexivity|]. destruct addr; reflexivity.
Qed.
End Props.

Example shipper_ok :
  let p := {| k_udp := false; k_dst := None; k_prepared := true; k_composed := false; k_data := 5 |} in
  match ship_all (Some 9%nat) (fun q => Some (k_data q + 1)) (start (fun _ => p)) [3; 4; 3]%nat with
  | Ok w => map (fun e => (fst e, k_dst (snd e), k_data (snd e))) (w_out w) = [(3, Some 9, 6%Z); (4, Some 9, 6%Z); (3, Some 9, 6%Z)]%nat /\ w_calls w = [3; 4]%nat
  | _ => False
  end.
Proof. vm_compute. split; reflexivity. Qed.

Print Assumptions C76_sent.
Print Assumptions C76_aborts.
Print Assumptions C76_packet.
