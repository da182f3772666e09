(** Model of roc_packet/interleaver.cpp.  [wok k] says whether the k-th call of
    the downstream writer returns StatusOK (external oracle); the packets passed
    to a successful downstream write are logged in [il_out].  core::Array's
    operator[] panics when out of bounds (array.h), hence [aget]. *)
From Verif Require Import Base.

Definition aget {A} (l : list A) (i : nat) : res A :=
  match nth_error l i with Some a => Ok a | None => Panic end.
Definition aset {A} (l : list A) (i : nat) (x : A) : res (list A) :=
  if (i <? length l)%nat then Ok (upd l i x) else Panic.

Open Scope res_scope.

(** interleaver.cpp:94-104, reinit_seq_: [rnd i] is the value drawn by
    fast_random_range(0, i - 1) (C45 shows it is in that range). *)
Fixpoint shuffle_from (rnd : nat -> nat) (i : nat) (s : list nat) : res (list nat) :=
  match i with
  | O => Ok s
  | S k =>                       (* loop body with i = S k: swap s[i-1], s[j] *)
      let j := rnd i in
      b <- aget s k ;;
      sj <- aget s j ;;
      s1 <- aset s k sj ;;
      s2 <- aset s1 j b ;;
      shuffle_from rnd k s2
  end.
Definition reinit_seq (rnd : nat -> nat) (n : nat) : res (list nat) :=
  shuffle_from rnd n (List.seq 0 n).

Section IL.
Context {A : Type}.
Variable wok : nat -> bool.

Record il := mkIl {
  il_seq : list nat;            (* send_seq_ *)
  il_pkts : list (option A);    (* packets_ *)
  il_put : nat;                 (* next_2_put_ *)
  il_send : nat;                (* next_2_send_ *)
  il_n : nat;                   (* block_size_ *)
  il_out : list A;              (* log of successful downstream writes *)
  il_calls : nat }.             (* number of downstream write calls so far *)

(** interleaver.cpp:17-44 (allocation succeeded) *)
Definition il_new (sq : list nat) (n : nat) : il :=
  mkIl sq (repeat None n) 0 0 n [] 0.

(** interleaver.cpp:56-64.  Fuel runs out only if the C++ loop would not
    terminate; that is reported as UB and excluded by the theorems.  The bool is
    "returned StatusOK". *)
Fixpoint send_loop (fuel : nat) (s : il) : res (il * bool) :=
  match fuel with
  | O => UB
  | S f =>
      i <- aget (il_seq s) (il_send s) ;;
      slot <- aget (il_pkts s) i ;;
      match slot with
      | None => Ok (s, true)
      | Some p =>
          if wok (il_calls s) then
            pk <- aset (il_pkts s) i None ;;
            send_loop f (mkIl (il_seq s) pk (il_put s)
                           ((il_send s + 1) mod il_n s) (il_n s)
                           (il_out s ++ [p]) (S (il_calls s)))
          else Ok (mkIl (il_seq s) (il_pkts s) (il_put s) (il_send s) (il_n s)
                        (il_out s) (S (il_calls s)), false)
      end
  end.

(** interleaver.cpp:50-67 *)
Definition il_write (s : il) (p : A) : res (il * bool) :=
  pk <- aset (il_pkts s) (il_put s) (Some p) ;;
  send_loop (S (il_n s))
    (mkIl (il_seq s) pk ((il_put s + 1) mod il_n s) (il_send s) (il_n s)
          (il_out s) (il_calls s)).

(** interleaver.cpp:72-83: loop over slots i .. block_size_-1. *)
Fixpoint flush_loop (k : nat) (i : nat) (s : il) : res (il * bool) :=
  match k with
  | O => Ok (s, true)
  | S k' =>
      slot <- aget (il_pkts s) i ;;
      match slot with
      | None => flush_loop k' (S i) s
      | Some p =>
          if wok (il_calls s) then
            pk <- aset (il_pkts s) i None ;;
            flush_loop k' (S i) (mkIl (il_seq s) pk (il_put s) (il_send s) (il_n s)
                                    (il_out s ++ [p]) (S (il_calls s)))
          else Ok (mkIl (il_seq s) (il_pkts s) (il_put s) (il_send s) (il_n s)
                        (il_out s) (S (il_calls s)), false)
      end
  end.

(** interleaver.cpp:69-88 *)
Definition il_flush (s : il) : res (il * bool) :=
  r <- flush_loop (il_n s) 0 s ;;
  let (s', ok) := r in
  if ok then Ok (mkIl (il_seq s') (il_pkts s') 0 0 (il_n s') (il_out s') (il_calls s'), true)
  else Ok (s', false).

Inductive il_op := IlWrite (p : A) | IlFlush.

Definition il_step (s : il) (o : il_op) : res (il * bool) :=
  match o with IlWrite p => il_write s p | IlFlush => il_flush s end.

Fixpoint il_run (s : il) (ops : list il_op) : res il :=
  match ops with
  | [] => Ok s
  | o :: t => r <- il_step s o ;; il_run (fst r) t
  end.
End IL.
Arguments il A : clear implicits.
Arguments il_op A : clear implicits.
