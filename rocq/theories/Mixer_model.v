(** Model of audio::Mixer, src/internal_modules/roc_audio/mixer.cpp.

    Written over any sample arithmetic, so that it can be used both with the
    single precision floats of the code (sample.h 22) and with exact integers.
    An input yields its samples one after the other (silence when it has no
    more), or refuses to read. Not modelled: capture timestamps. *)
From Verif Require Import Base Float32.
Open Scope res_scope.

Record arith (A : Type) := mkArith { a_zero : A; a_add : A -> A -> A; a_lt : A -> A -> bool; a_min : A; a_max : A }.
Arguments a_zero {A}. Arguments a_add {A}. Arguments a_lt {A}. Arguments a_min {A}. Arguments a_max {A}.

(** IFrameReader inputs. *)
Record input (A : Type) := mkInput { in_id : Z; in_ok : bool; in_flags : Z; in_smp : list A }.
Arguments mkInput {A}. Arguments in_id {A}. Arguments in_ok {A}. Arguments in_flags {A}. Arguments in_smp {A}.

Section Mixer.
Context {A : Type} (ar : arith A).

Definition in_next (i : input A) (n : nat) : list A := map (fun k => nth k (in_smp i) (a_zero ar)) (seq 0 n).
Definition in_skip (i : input A) (n : nat) : input A := if in_ok i then mkInput (in_id i) (in_ok i) (in_flags i) (skipn n (in_smp i)) else i.

(** std::min and std::max. *)
Definition std_min (a b : A) : A := if a_lt ar b a then b else a.
Definition std_max (a b : A) : A := if a_lt ar a b then b else a.

(** Lines 127-133, one sample. *)
Definition mix1 (acc x : A) : A := std_max (std_min (a_add ar acc x) (a_max ar)) (a_min ar).

Fixpoint map2 (f : A -> A -> A) (a b : list A) : list A :=
  match a, b with x :: a', y :: b' => f x y :: map2 f a' b' | _, _ => [] end.

(** The loop over readers in read_, 119-151. *)
Fixpoint mix_loop (n : nat) (ins : list (input A)) (out : list A) (flags : Z) : list A * Z :=
  match ins with
  | [] => (out, flags)
  | i :: r =>
      if in_ok i then mix_loop n r (map2 mix1 out (in_next i n)) (Z.lor flags (in_flags i))
      else mix_loop n r out flags
  end.
(** read_, 103-159. *)
Definition mx_chunk (n : nat) (ins : list (input A)) (flags : Z) : res (list A * Z * list (input A)) :=
  if (n =? 0)%nat then Panic
  else let '(out, f) := mix_loop n ins (repeat (a_zero ar) n) flags in Ok (out, f, map (fun i => in_skip i n) ins).

(** The loop in read, 81-94. *)
Fixpoint mx_loop (fuel max n : nat) (ins : list (input A)) (out : list A) (flags : Z) : res (list A * Z * list (input A)) :=
  if (n =? 0)%nat then Ok (out, flags, ins)
  else match fuel with
  | O => UB
  | S f =>
      let k := Nat.min n max in
      r <- mx_chunk k ins flags ;;
      let '(o, fl, ins') := r in mx_loop f max (n - k) ins' (out ++ o) fl
  end.

(** Mixer::read, 55-101, of a frame holding [buf]; [max] is the size of temp_buf_.
    Frame::set_duration panics for a zero duration, frame.cpp 87-93. *)
Definition mx_read (max nch : nat) (ins : list (input A)) (buf : list A) : res (list A * Z * list (input A)) :=
  let n := length buf in
  match ins with
  | [i] =>
      if in_ok i then Ok (in_next i n, in_flags i, [in_skip i n])
      else if (n / nch =? 0)%nat then Panic else Ok (buf, 0, [i])
  | _ =>
      r <- mx_loop n max n ins [] 0 ;;
      if (n / nch =? 0)%nat then Panic else Ok r
  end.

(** add_input and remove_input, 43-53 (the list itself is C23). *)
Definition mx_add (ins : list (input A)) (i : input A) : list (input A) := ins ++ [i].
Definition mx_remove (ins : list (input A)) (id : Z) : list (input A) := filter (fun i => negb (in_id i =? id)) ins.
End Mixer.

(** The arithmetic of the code: sample.h 22, sample.cpp 13-14. *)
Definition f32_arith : arith f32 := mkArith f32 f32_zero f32_add f32_lt (f32_of_Z (-1)) (f32_of_Z 1).
(** Exact arithmetic on integers in [-lim, lim]. *)
Definition z_arith (lim : Z) : arith Z := mkArith Z 0 Z.add Z.ltb (- lim) lim.
