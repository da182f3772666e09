(** C18: the RTCP packet counter. *)
From Verif Require Import Base RtpFilter_spec RtpFilter_proof Counter_model Counter_proof.

(** Reports carry the extended number of the last packet modulo 2^32;
    [e :: zs] are the true numbers, each closer than 2^31 to the highest one
    before it, and [b] is the first number of the stream. The counter falls
    behind the number of packets since [b] by one for every wrap. *)
Theorem C18_value b e zs :
  0 <= b <= e -> e < 4294967296 -> near32 e zs ->
  let last := maxl e zs in
  last < 9223372036854775808 -> b <= last - last / 4294967296 ->
  pc_run b (map (fun z => z mod 4294967296) (e :: zs)) = last - last / 4294967296 - b.
Proof. exact (pc_spec b e zs). Qed.
Print Assumptions C18_value.

(** Before the first wrap it is exact. *)
Theorem C18_before_wrap b e zs :
  0 <= b <= e -> e < 4294967296 -> near32 e zs -> maxl e zs < 4294967296 ->
  pc_run b (map (fun z => z mod 4294967296) (e :: zs)) = maxl e zs - b.
Proof.
  intros Hb He Hn HM. pose proof (maxl_ge zs e).
  rewrite pc_spec; auto; rewrite ?(Z.div_small (maxl e zs)) by lia; lia.
Qed.
Print Assumptions C18_before_wrap.

(** After a wrap it is not: numbers 2^32-1 and 2^32 give the same count. *)
Theorem C18_wrap_refuted :
  exists b e zs, 0 <= b <= e /\ e < 4294967296 /\ near32 e zs /\ maxl e zs = 4294967296 /\
    pc_run b (map (fun z => z mod 4294967296) (e :: zs)) = 4294967295 - b.
Proof. exists 4294967000, 4294967295, [4294967296]. vm_compute. intuition congruence. Qed.
Print Assumptions C18_wrap_refuted.

(** And if the very first report is already past the wrap, nothing is counted. *)
Theorem C18_first_after_wrap_refuted :
  exists b e, b = 4294967000 /\ e = 4294967296 + 100 /\ pc_run b [e mod 4294967296] = 0.
Proof. exists 4294967000, 4294967396. vm_compute. auto. Qed.
Print Assumptions C18_first_after_wrap_refuted.

Example C18_example :
  near32 120 [130; 125; 2147483700] /\
  pc_run 100 (map (fun z => z mod 4294967296) [120; 130; 125; 2147483700]) = 2147483600.
Proof. vm_compute. intuition congruence. Qed.
