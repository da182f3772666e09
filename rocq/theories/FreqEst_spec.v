(* What the frequency estimator computes. *)
From Coq Require Import ZArith List Bool Arith.
From Verif Require Import Base FreqEst_model.
Import ListNotations.

(* Lists of values are newest first: the number of the head is the length. *)

(* The values whose number is not a multiple of [k] *)
Fixpoint kept {X} (k : nat) (xs : list X) : list X :=
  match xs with
  | [] => []
  | x :: older => if (length xs mod k =? 0)%nat then kept k older else x :: kept k older
  end.
(* What the filter looks at: the newest value, and of the older ones those that were kept *)
Definition line {X} (k : nat) (xs : list X) : list X :=
  match xs with [] => [] | x :: older => x :: kept k older end.

(* The weighted mean of the first 256 values of a list, continued with [target],
   summed from the newest to the oldest *)
Definition mean (A : arith) (target : D A) (l : list (D A)) : D A :=
  ddiv A (fold_left (fun acc j => dadd A acc (dmul A (nth j (table A) (dZ A 0)) (nth j l target))) (seq 0 256) (dZ A 0)) (gain A).

(* One value out of ten: what [f] makes of the values up to each number that is a multiple of ten *)
Fixpoint decimate {X Y} (f : list X -> Y) (xs : list X) : list Y :=
  match xs with
  | [] => []
  | x :: older => if (length xs mod 10 =? 0)%nat then f xs :: decimate f older else decimate f older
  end.

(* The filtered latencies, newest first *)
Definition filtered (A : arith) (p : fe_profile) (target : Z) (xs : list Z) : list (D A) :=
  match p with
  | FeResponsive => decimate (fun ys => mean A (dZ A target) (line 10 ys)) (map (dZ A) xs)
  | FeGradual => decimate (fun zs => mean A (dZ A target) (line 10 zs))
                   (decimate (fun ys => mean A (dZ A target) (line 100 ys)) (map (dZ A) xs))
  end.

(* The sum of all errors so far *)
Fixpoint errors (A : arith) (target : D A) (zs : list (D A)) : D A :=
  match zs with [] => dZ A 0 | z :: older => dadd A (errors A target older) (dsub A z target) end.

(* 1 + P * error + I * sum of errors *)
Definition control (A : arith) (P I target : D A) (zs : list (D A)) : D A :=
  match zs with
  | [] => dZ A 1
  | z :: _ => dadd A (dadd A (dZ A 1) (dmul A P (dsub A z target))) (dmul A I (errors A target zs))
  end.
