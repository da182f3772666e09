(** C45: bounded random numbers. *)
From Verif Require Import Base Random_model Random_proof.

(** Whatever the generator returns first, the function ends at once, does not
    abort and returns a value in the range. *)
Theorem C45_in_range from to z zs :
  0 <= from <= to -> to < 4294967296 -> 0 <= z < 4294967296 ->
  exists r, fast_random_range from to (z :: zs) = Ok (Some r) /\ from <= r <= to.
Proof.
  intros Hf Ht Hz. rewrite frr_spec by lia. eexists; split; [reflexivity|].
  pose proof (Z.mod_pos_bound z (to - from + 1) ltac:(lia)). lia.
Qed.
Print Assumptions C45_in_range.

(** Every value of the range is returned for some generator output. *)
Theorem C45_onto from to r :
  0 <= from <= to -> to < 4294967296 -> from <= r <= to ->
  exists z, 0 <= z < 4294967296 /\ forall zs, fast_random_range from to (z :: zs) = Ok (Some r).
Proof.
  intros Hf Ht Hr. exists (r - from). split; [lia|]. intros zs. rewrite frr_spec by lia.
  rewrite Z.mod_small by lia. replace (from + (r - from)) with r by lia. reflexivity.
Qed.
Print Assumptions C45_onto.

(** The generator returns 32-bit values, and the values of successive calls are
    pairwise different over the whole period of 2^32 calls, as long as the
    state does not pass through zero (where it is seeded again). *)
Theorem C45_generator_range st seed :
  0 <= st < 4294967296 -> 0 <= snd (fast_random st seed) < 4294967296.
Proof.
  intros H. apply mix_range. destruct (st =? 0); [apply u32_range|exact H].
Qed.
Print Assumptions C45_generator_range.

Theorem C45_generator_distinct n st i j x :
  0 <= st < 4294967296 -> Z.of_nat n <= 4294967296 ->
  (forall k, (k < n)%nat -> (st + Z.of_nat k * 0x9E3779B9) mod 4294967296 <> 0) ->
  (i < n)%nat -> (j < n)%nat -> i <> j ->
  nth_error (draws n st) i = Some x -> nth_error (draws n st) j <> Some x.
Proof. exact (draws_distinct n st i j x). Qed.
Print Assumptions C45_generator_distinct.

(** The rejection step announced in the comment at fast_random.cpp:45 never
    rejects (the comparison is done in 64 bits), so the result is biased: with
    a range of 3 * 2^30 values, the first third has two preimages each, the
    rest one. *)
Theorem C45_unbiased_refuted :
  exists to, 0 <= to < 4294967296 /\
    (forall zs, fast_random_range 0 to (5 :: zs) = Ok (Some 5)) /\
    (forall zs, fast_random_range 0 to (5 + 3221225472 :: zs) = Ok (Some 5)) /\
    (forall z zs, 0 <= z < 4294967296 ->
       fast_random_range 0 to (z :: zs) = Ok (Some 3000000000) -> z = 3000000000).
Proof.
  exists 3221225471. split; [lia|].
  split. { intros. rewrite frr_spec by lia. reflexivity. }
  split. { intros. rewrite frr_spec by lia. reflexivity. }
  intros z zs Hz. rewrite frr_spec by lia.
  change (3221225471 - 0 + 1) with 3221225472. intros E.
  assert (E2 : 0 + z mod 3221225472 = 3000000000) by congruence. lia.
Qed.
Print Assumptions C45_unbiased_refuted.

Example C45_example :
  fast_random_range 1 4294967295 [4294967295; 7] = Ok (Some 1) /\
  fast_random_range 0 4294967295 [4294967295; 7] = Ok (Some 4294967295) /\
  draws 3 42 = [mix 42; mix 2654435811; mix (2654435811 + 2654435769 - 4294967296)].
Proof. vm_compute. auto. Qed.
