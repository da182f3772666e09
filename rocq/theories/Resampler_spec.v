(* What a resampler computes: time runs along the input stream, in units of 2^-20
   of an input sample; each output sample is a weighted sum of the input samples
   in a window around its time. *)
From Coq Require Import ZArith List Bool.
From Verif Require Import Base TimeConv_model Resampler_model.
Import ListNotations.
Local Open Scope Z_scope.

Definition unit : Z := 1048576.

(* the integers from [lo] to [hi] *)
Definition range (lo hi : Z) : list Z := map (fun k => lo + Z.of_nat k) (seq 0 (Z.to_nat (hi - lo + 1))).

(* input samples not farther than [half] from time [t] *)
Definition first_in (t half : Z) : Z := - ((half - t) / unit).
Definition last_in (t half : Z) : Z := (t + half) / unit.

(* the argument of the windowed sinc for the input sample at [pos]: its distance
   from [t] in steps of the table, rounded towards the left *)
Definition arg_of (t step pos : Z) : Z := Z.abs ((t - pos * unit) * step / unit).

(* the term of input sample [pos] in the output sample at time [t] *)
Definition term_of (c : cfg) (t : Z) (p : params) (pos : Z) : term :=
  mkTerm pos (arg_of t (p_step p) pos)
    (fractional c (arg_of t (p_step p) (if pos <=? t / unit then first_in t (p_half p) else t / unit + 1))).

Definition output_at (c : cfg) (t : Z) (p : params) : list term :=
  map (term_of c t p) (range (first_in t (p_half p)) (last_in t (p_half p))).

(* Output samples are due from time [t] on, [dt] apart, up to [limit] and at most
   [n] of them: the times, and the time of the next one. *)
Fixpoint due (n : nat) (limit t dt : Z) : list Z * Z :=
  match n with
  | O => ([], t)
  | S n => if limit <=? t then ([], t)
           else let r := due n limit (t + dt) dt in (t :: fst r, snd r)
  end.

(* Times and parameters of the output samples of a history: [t] is the time of the
   next one, [pushed] the number of frames pushed so far. Output is possible once
   three frames are there, up to the end of the last but one. Pushing a frame
   before the last but one is used up skips a frame. *)
Fixpoint times (c : cfg) (t : Z) (pushed : Z) (p : params) (os : list op) : list (Z * params) :=
  match os with
  | [] => []
  | Scale i o m :: os =>
      times c t pushed (match set_scaling c i o m with Ok (Some q) => q | _ => p end) os
  | Push :: os =>
      times c (if (3 <=? pushed) && (t <? (pushed - 1) * c_frame c * unit) then t + c_frame c * unit else t) (pushed + 1) p os
  | Pop n :: os =>
      let r := if pushed <? 3 then ([], t) else due n ((pushed - 1) * c_frame c * unit) t (p_dt p) in
      map (fun t => (t, p)) (fst r) ++ times c (snd r) pushed p os
  end.

Definition outputs (c : cfg) (l : list (Z * params)) : list (list term) := map (fun x => output_at c (fst x) (snd x)) l.

(* the window ends exactly at the end of a frame *)
Definition at_edge (c : cfg) (x : Z * params) : Prop := (fst x + p_half (snd x)) mod (c_frame c * unit) = 0.
