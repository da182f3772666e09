(** Model of roc_core/mov_stats.h for integer T (values as unbounded integers:
    overflow of T is not modelled; sqrt is the integer square root).
    The two monotone queues are the ring queues of RingQueue_model. *)
From Verif Require Import Base RingQueue_model.
Open Scope res_scope.

(** mov_stats.h:208-227 *)
Record mst := mkMst {
  ms_buf : list Z; ms_buf2 : list Z; ms_win : nat; ms_i : nat;
  ms_sum : Z; ms_sum2 : Z; ms_full : bool;
  ms_qmax : rq Z; ms_cmax : Z; ms_qmin : rq Z; ms_cmin : Z }.

(** mov_stats.h:32-64 (allocations succeeded; Array::resize value-initialises) *)
Definition ms_new (win_len : nat) : res mst :=
  qmax <- rq_new (win_len + 1) ;; qmin <- rq_new (win_len + 1) ;;
  if (win_len =? 0)%nat then Panic
  else Ok (mkMst (repeat 0 win_len) (repeat 0 win_len) win_len 0 0 0 false qmax 0 qmin 0).

(** The loops mov_stats.h:174-176 and 198-200; at most capacity iterations. *)
Fixpoint ms_pop_while (worse : Z -> Z -> bool) (fuel : nat) (q : rq Z) (x : Z) : res (rq Z) :=
  match fuel with
  | O => Ok q
  | S fuel' =>
      if rq_empty q then Ok q
      else b <- rq_back q ;;
           if worse b x then q' <- rq_pop_back true q ;; ms_pop_while worse fuel' q' x else Ok q
  end.

(** mov_stats.h:165-182 and 189-206; [worse b x] is [b < x] resp. [b > x]. *)
Definition ms_slide (worse : Z -> Z -> bool) (q : rq Z) (curr x x_old : Z) : res (rq Z * Z) :=
  if rq_empty q then q' <- rq_push_back q x ;; Ok (q', x)
  else
    f <- rq_front q ;;
    qc <- (if f =? x_old then
             q1 <- rq_pop_front true q ;;
             if rq_empty q1 then Ok (q1, x) else f1 <- rq_front q1 ;; Ok (q1, f1)
           else Ok (q, curr)) ;;
    q2 <- ms_pop_while worse (rq_cap (fst qc)) (fst qc) x ;;
    let curr' := if rq_empty q2 then x else snd qc in
    q3 <- rq_push_back q2 x ;; Ok (q3, curr').

(** mov_stats.h:72-90 *)
Definition ms_add (s : mst) (x : Z) : res mst :=
  let x2 := x * x in
  x_old <- rd (ms_buf s) (ms_i s) ;;
  buf <- wr (ms_buf s) (ms_i s) x ;;
  x2_old <- rd (ms_buf2 s) (ms_i s) ;;
  buf2 <- wr (ms_buf2 s) (ms_i s) x2 ;;
  let wrapped := (ms_i s + 1 =? ms_win s)%nat in
  mx <- ms_slide (fun b x => b <? x) (ms_qmax s) (ms_cmax s) x x_old ;;
  mn <- ms_slide (fun b x => x <? b) (ms_qmin s) (ms_cmin s) x x_old ;;
  Ok (mkMst buf buf2 (ms_win s) (if wrapped then 0 else ms_i s + 1)%nat
        (ms_sum s + (x - x_old)) (ms_sum2 s + (x2 - x2_old)) (if wrapped then true else ms_full s)
        (fst mx) (snd mx) (fst mn) (snd mn)).

(** mov_stats.h:93-103 *)
Definition ms_avg (s : mst) : Z :=
  if ms_full s then Z.quot (ms_sum s) (Z.of_nat (ms_win s))
  else if (ms_i s =? 0)%nat then 0
  else Z.quot (ms_sum s) (Z.of_nat (ms_i s)).
(** mov_stats.h:106-116 *)
Definition ms_var (s : mst) : Z :=
  let var n := Z.sqrt (Z.quot (n * ms_sum2 s - ms_sum s * ms_sum s) (n * n)) in
  if ms_full s then var (Z.of_nat (ms_win s))
  else if (ms_i s =? 0)%nat then 0
  else var (Z.of_nat (ms_i s)).
(** mov_stats.h:119-126 *)
Definition ms_max (s : mst) : Z := ms_cmax s.
Definition ms_min (s : mst) : Z := ms_cmin s.

(** mov_stats.h:138-157 (resize succeeded; it keeps the old elements and
    value-initialises the new ones) *)
Definition ms_extend (s : mst) (new_win : nat) : res mst :=
  if (new_win <=? ms_win s)%nat then Panic
  else
    let buf := ms_buf s ++ repeat 0 (new_win - length (ms_buf s)) in
    let buf2 := ms_buf2 s ++ repeat 0 (new_win - length (ms_buf2 s)) in
    Ok (mkMst buf buf2 (ms_win s) (ms_i s)
          (fold_left Z.add (firstn (ms_i s) buf) 0) (fold_left Z.add (firstn (ms_i s) buf2) 0) false
          (ms_qmax s) (ms_cmax s) (ms_qmin s) (ms_cmin s)).

Fixpoint ms_adds (s : mst) (xs : list Z) : res mst :=
  match xs with [] => Ok s | x :: xs' => s' <- ms_add s x ;; ms_adds s' xs' end.
