(** C24: bounded ring queue. *)
From Verif Require Import Base RingQueue_model RingQueue_spec RingQueue_proof.
Open Scope res_scope.

(** For every storage length n and every history that keeps at most n - 1
    elements in the queue: it behaves as a double-ended queue, size, emptiness,
    front and back agree with it, and popping from an empty queue panics.
    (For element types with a destructor: histories without pop_back.) *)
Theorem C24_deque (A : Type) (triv : bool) (n : nat) (ops : list (rq_op A)) :
  (0 < n)%nat -> within (n - 1) [] ops -> (triv = true \/ ~ In RPopBack ops) ->
  exists q0, rq_new n = Ok q0 /\
  match dq_run [] ops with
  | Some l =>
      exists q, rq_run triv q0 ops = Ok q /\
        rq_size q = length l /\ rq_empty q = (length l =? 0)%nat /\ rq_cap q = n /\
        rq_front q = match l with x :: _ => Ok x | [] => Panic end /\
        rq_back q = match rev l with x :: _ => Ok x | [] => Panic end
  | None => rq_run triv q0 ops = Panic
  end.
Proof.
  intros Hn W T. destruct (rinv_new (A := A) n Hn) as (q0 & E0 & I0). exists q0. split; [exact E0|].
  pose proof (rq_run_sound triv n ops q0 [] I0 W T) as R. destruct (dq_run [] ops) as [l|]; [|exact R].
  destruct R as (q & Er & I). exists q. split; [exact Er|]. split; [apply (rinv_size n), I|]. split; [apply (rinv_empty n), I|].
  split; [apply (ri_cap n q l I)|]. split.
  - destruct l as [|x l]; [|apply (rinv_front n q x l I)]. unfold rq_front. rewrite (rinv_empty n q [] I). reflexivity.
  - destruct l as [|x l]; [unfold rq_back; rewrite (rinv_empty n q [] I); reflexivity|].
    destruct (exists_last (l := x :: l)) as (l0 & y & El); [discriminate|]. rewrite El in *. rewrite rev_app_distr. cbn [rev app].
    apply (rinv_back n q y l0 I).
Qed.
Print Assumptions C24_deque.

(** The full capacity is not usable: the size is computed modulo the length,
    so a queue of any length n is never reported full, and the push of its n-th
    element makes it look empty: all elements are lost. *)
Theorem C24_full_never_detected (A : Type) (q : rq A) : (0 < rq_cap q)%nat -> rq_full q = false.
Proof.
  intros H. unfold rq_full. apply Nat.eqb_neq. pose proof (Nat.mod_upper_bound (rq_end q + rq_cap q - rq_begin q) (rq_cap q)).
  unfold rq_size. lia.
Qed.
Print Assumptions C24_full_never_detected.

Theorem C24_capacity_refuted (A : Type) (n : nat) (xs : list A) :
  (0 < n)%nat -> length xs = n ->
  exists q0 q, rq_new n = Ok q0 /\ rq_run true q0 (map RPushBack xs) = Ok q /\
    dq_run [] (map RPushBack xs) = Some xs /\ rq_size q = 0%nat /\ rq_empty q = true.
Proof.
  intros Hn Hl. destruct (rinv_new (A := A) n Hn) as (q0 & E0 & I0). exists q0.
  destruct (exists_last (l := xs)) as (l & x & ->); [intros ->; cbn in Hl; lia|].
  rewrite app_length in Hl. cbn [length] in Hl. rewrite map_app. cbn [map].
  assert (D : forall (m l0 : list A), dq_run l0 (map RPushBack m) = Some (l0 ++ m)).
  { induction m as [|y m IH]; intros l0; cbn; [rewrite app_nil_r; reflexivity|]. rewrite IH, <- app_assoc. reflexivity. }
  assert (W : forall (m l0 : list A), (length l0 + length m <= n - 1)%nat -> within (n - 1) l0 (map RPushBack m)).
  { induction m as [|y m IH]; intros l0 H; cbn [map within dq_step length] in *; split; try lia; auto.
    apply IH. rewrite app_length. cbn [length]. lia. }
  pose proof (rq_run_sound true n (map RPushBack l) q0 [] I0 (W l [] ltac:(cbn; lia)) (or_introl eq_refl)) as R.
  rewrite D in R. cbn [app] in R. destruct R as (q1 & E1 & I1).
  assert (Eapp : forall (a b : list (rq_op A)) q2, rq_run true q2 (a ++ b) = (q3 <- rq_run true q2 a ;; rq_run true q3 b)).
  { induction a as [|o a IH]; intros b q2; cbn [app rq_run bind]; [reflexivity|]. destruct (rq_step true q2 o) as [q3| |]; cbn [bind]; auto. }
  rewrite Eapp, E1. cbn [bind rq_run rq_step]. unfold rq_push_back. rewrite (rinv_full n q1 l I1).
  destruct I1 as [C L B E N].
  assert (El : (rq_end q1 < n)%nat) by (rewrite E; apply Nat.mod_upper_bound; lia).
  unfold wr. rewrite C. replace (rq_end q1 <? n)%nat with true by (symmetry; apply Nat.ltb_lt; exact El). cbn [bind].
  eexists. split; [exact E0|]. split; [reflexivity|].
  assert (Ee : ((rq_end q1 + 1) mod rq_cap q1)%nat = rq_begin q1).
  { unfold rq_cap. rewrite C, E. rewrite (mod_wrap (rq_begin q1 + length l)) by lia.
    destruct (Nat.ltb_spec (rq_begin q1 + length l) n); modw; lia. }
  split; [|split].
  - specialize (D (l ++ [x]) []). rewrite map_app in D. cbn [map] in D. exact D.
  - unfold rq_size, rq_cap in *. cbn [rq_end rq_begin rq_buf]. rewrite Ee. rewrite Base_lemmas.length_upd, C.
    replace (rq_begin q1 + n - rq_begin q1)%nat with (0 + 1 * n)%nat by lia. rewrite Nat.mod_add by lia. apply Nat.mod_0_l. lia.
  - unfold rq_empty. cbn [rq_end rq_begin]. rewrite Ee. apply Nat.eqb_refl.
Qed.
Print Assumptions C24_capacity_refuted.

(** pop_back destroys the slot after the last element instead of the last
    element: with a non-trivial destructor this is undefined behaviour. *)
Theorem C24_pop_back_destructor_refuted (A : Type) (x : A) :
  exists q0, rq_new 2 = Ok q0 /\ dq_run [] [RPushBack x; RPopBack] = Some [] /\
    rq_run false q0 [RPushBack x; RPopBack] = UB.
Proof. eexists. split; [reflexivity|]. split; reflexivity. Qed.
Print Assumptions C24_pop_back_destructor_refuted.

Example C24_ex :
  let ops := [RPushBack 1; RPushBack 2; RPopFront; RPushBack 3; RPushFront 4; RPopBack] in
  within 3 [] ops /\ dq_run [] ops = Some [4; 2].
Proof. cbn. repeat split; lia. Qed.
