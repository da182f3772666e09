(** C02: the sorted packet queue (jitter buffer).  [A] is the type of packets,
    [seq p] the 16-bit sequence number carried by p, [pos p] its ideal
    (unwrapped) position in the stream. *)
From Coq Require Import Permutation.
From Verif Require Import Base Seqnum_model Seqnum_proof
  SortedQueue_model SortedQueue_spec SortedQueue_proof.

(** Results and stored packets of a history on a fresh queue. *)
Notation results cmp max ops := (snd (sq_run cmp (sq_new max) ops)).
Notation stored cmp max ops := (sq_list (fst (sq_run cmp (sq_new max) ops))).

(** Every history in which live packets span less than half the sequence range
    behaves as the bag specification [jb_run]: reads return the oldest stored
    packet, writes are dropped only for duplicates or when full. *)
Theorem C02_jitter_buffer_rtp :
  forall (A : Type) (seq pos : A -> Z) (max : nat) (ops : list (sq_op A)),
  let cmp p q := rtp_compare (seq p) (seq q) in
  (forall p, seq p = pos p mod 65536) ->
  (forall pre p post, ops = pre ++ SqWrite p :: post ->
     forall q, In q (stored cmp max pre) -> - 32768 < pos p - pos q < 32768) ->
  jb_run pos max [] ops (results cmp max ops) (stored cmp max ops).
Proof.
  intros A seq pos max ops cmp Hseq Hw.
  apply (run_spec cmp pos ops (sq_new max) I).
  intros pre p post E q Hq. unfold agree, cmp. rewrite !Hseq.
  apply rtp_compare_pos. exact (Hw pre p post E q Hq).
Qed.
Print Assumptions C02_jitter_buffer_rtp.

(** Concrete history across the wrap: packets 65535, 65537 (=1), 65536 (=0), a
    duplicate of 65536, then three reads. Packets are their own positions. *)
Example C02_wrap_history :
  let ops := [SqWrite 65535; SqWrite 65537; SqWrite 65536; SqWrite 65536;
              SqRead; SqRead; SqRead; SqRead] in
  let cmp p q := rtp_compare (p mod 65536) (q mod 65536) in
  results cmp 0 ops = [Some 65535; Some 65536; Some 65537; None] /\
  (forall pre p post, ops = pre ++ SqWrite p :: post ->
     forall q, In q (stored cmp 0 pre) -> - 32768 < p - q < 32768).
Proof.
  cbv zeta. split; [reflexivity|].
  intros pre p post E q Hq.
  do 5 (destruct pre as [|? pre]; cbn [app] in E;
    [inversion E; subst; cbn in Hq; intuition lia | injection E as <- E]).
  repeat (destruct pre as [|? pre]; cbn [app] in E; [inversion E | injection E as <- E]).
  destruct pre; discriminate.
Qed.

(** The same for repair packets, ordered by block number (circular) and symbol
    index. *)
Theorem C02_jitter_buffer_fec :
  forall (A : Type) (sbn esi pos : A -> Z) (max : nat) (ops : list (sq_op A)),
  let cmp p q := fec_compare (sbn p, esi p) (sbn q, esi q) in
  (forall p, sbn p = pos p mod 65536) ->
  (forall p, 0 <= esi p < 2 ^ 64) ->
  (forall pre p post, ops = pre ++ SqWrite p :: post ->
     forall q, In q (stored cmp max pre) -> - 32768 < pos p - pos q < 32768) ->
  jb_run (fun p => pos p * 2 ^ 64 + esi p) max [] ops
         (results cmp max ops) (stored cmp max ops).
Proof.
  intros A sbn esi pos max ops cmp Hs He Hw.
  apply (run_spec cmp (fun p => pos p * 2 ^ 64 + esi p) ops (sq_new max) I).
  intros pre p post E q Hq. unfold agree, cmp. rewrite !Hs.
  apply fec_compare_pos; auto. exact (Hw pre p post E q Hq).
Qed.
Print Assumptions C02_jitter_buffer_fec.

(** Nothing is lost or invented: every packet written was returned by exactly
    one read, is still stored, or was dropped (for one of the two reasons in
    the specification). *)
Theorem C02_conservation :
  forall (A : Type) (key : A -> Z) (max : nat) ops rs s,
  jb_run key max [] ops rs s ->
  exists dropped, Permutation (jb_written ops) (jb_returned rs ++ s ++ dropped).
Proof. intros A key max ops rs s H. exact (jb_run_conserve key max [] ops rs s H). Qed.
Print Assumptions C02_conservation.

(** Reads not separated by writes come out in strictly increasing order. *)
Theorem C02_reads_increasing :
  forall (A : Type) (seq pos : A -> Z) (max : nat) (ops : list (sq_op A)) (n : nat),
  let cmp p q := rtp_compare (seq p) (seq q) in
  (forall p, seq p = pos p mod 65536) ->
  (forall pre p post, ops = pre ++ SqWrite p :: post ->
     forall q, In q (stored cmp max pre) -> - 32768 < pos p - pos q < 32768) ->
  increasing pos (jb_returned
    (snd (sq_run cmp (fst (sq_run cmp (sq_new max) ops)) (repeat SqRead n)))).
Proof.
  intros A seq pos max ops n cmp Hseq Hw.
  apply (run_reads_only cmp pos n).
  apply (run_spec cmp pos ops (sq_new max) I).
  intros pre p post E q Hq. unfold agree, cmp. rewrite !Hseq.
  apply rtp_compare_pos. exact (Hw pre p post E q Hq).
Qed.
Print Assumptions C02_reads_increasing.

(** The size limit holds for every history whatsoever. *)
Theorem C02_capacity :
  forall (A : Type) (cmp : A -> A -> Z) (max : nat) (ops : list (sq_op A)),
  (0 < max)%nat -> (length (stored cmp max ops) <= max)%nat.
Proof.
  intros A cmp max ops H. apply (run_cap cmp (fun _ => 0) ops (sq_new max)); cbn; lia.
Qed.
Print Assumptions C02_capacity.

(** latest(): the newest packet ever written to an unlimited queue. *)
Theorem C02_latest :
  forall (A : Type) (seq pos : A -> Z) (ops : list (sq_op A)),
  let cmp p q := rtp_compare (seq p) (seq q) in
  (forall p, seq p = pos p mod 65536) ->
  (forall pre p post, ops = pre ++ SqWrite p :: post ->
     forall m, sq_latest (fst (sq_run cmp (sq_new 0) pre)) = Some m ->
     - 32768 < pos m - pos p < 32768) ->
  match sq_latest (fst (sq_run cmp (sq_new 0) ops)) with
  | None => jb_written ops = []
  | Some m => In m (jb_written ops) /\
              forall q, In q (jb_written ops) -> pos q <= pos m
  end.
Proof.
  intros A seq pos ops cmp Hseq Hw.
  apply (latest_run cmp pos ops (sq_new 0) [] eq_refl eq_refl).
  intros pre p post E m Hm. unfold agree, cmp. rewrite !Hseq.
  apply rtp_compare_pos. exact (Hw pre p post E m Hm).
Qed.
Print Assumptions C02_latest.
