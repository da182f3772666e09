(* Model of roc_audio/resampler_reader.cpp and resampler_writer.cpp over the
   built-in resampler. Sizes are in samples per channel except for the size of the
   output buffer of the writer, which is in raw samples. Capture timestamps are
   left out. *)
From Coq Require Import ZArith List Bool.
From Verif Require Import Base Float32 TimeConv_model Resampler_model.
Import ListNotations.
Local Open Scope Z_scope.
Local Open Scope res_scope.

(* resampler_reader.cpp:67-95 (read), 97-117 (push_input_). [up] tells for each call
   of reader_.read() if it succeeds; after the end of the list it fails.
   None: read returned false. Recursion over [up]: the loop goes on only after a
   successful read. *)
Fixpoint read_loop (c : cfg) (st : rs) (up : list bool) (n : nat) {struct up} : res (option (list (list term)) * rs * list bool) :=
  match n with
  | O => Ok (Some [], st, up)
  | _ =>
      r <- pop c n st ;;
      if (length (fst r) <? n)%nat then
        match up with
        | true :: up =>
            q <- read_loop c (push c (snd r)) up (n - length (fst r)) ;;
            Ok (match fst (fst q) with Some l => Some (fst r ++ l) | None => None end, snd (fst q), snd q)
        | _ => Ok (None, begin_push (snd r), tl up)
        end
      else Ok (Some (fst r), snd r, up)
  end.

(* 58-65: set_scaling; the rates are fixed on construction *)
Inductive rop := RScale (mult : f32) | RRead (n : nat).
Fixpoint reads (c : cfg) (ir or : Z) (st : rs) (up : list bool) (os : list rop) : res (list (option (list (list term))) * rs * list bool) :=
  match os with
  | [] => Ok ([], st, up)
  | RScale m :: os =>
      r <- set_scaling c ir or m ;;
      reads c ir or (match r with Some p => with_par st p | None => st end) up os
  | RRead n :: os =>
      r <- read_loop c st up n ;;
      q <- reads c ir or (snd (fst r)) (snd r) os ;;
      Ok (fst (fst r) :: fst (fst q), snd (fst q), snd q)
  end.

(* ResamplerWriter: the resampler and input_buf_pos_. output_buf_pos_ is 0 between
   the calls of write. *)
Record wr := mkWr { w_rs : rs; w_fill : Z }.

(* resampler_writer.cpp:123-142 (push_input_), [m] samples left in the input frame *)
Definition push_input (c : cfg) (w : wr) (m : Z) : wr * Z :=
  let st := if w_fill w =? 0 then begin_push (w_rs w) else w_rs w in
  let num_copy := Z.min m (c_frame c - w_fill w) in
  let fill := w_fill w + num_copy in
  if fill =? c_frame c then (mkWr (end_push c st) 0, num_copy) else (mkWr st fill, num_copy).

(* 85-120: the loop and what follows it; [size] is output_buf_.size(), [ch] the
   number of channels, [out] what is in the output buffer. pop_output (builtin_
   resampler.cpp:275) goes on while there is room for one raw sample: it writes
   behind the end of the buffer if the room is not a multiple of [ch]. *)
Fixpoint write_loop (fuel : nat) (c : cfg) (ch size : Z) (w : wr) (out : list (list term)) (m : Z) : res (option (list (list (list term)) * wr)) :=
  if m <=? 0 then Ok (Some (match out with [] => [] | _ => [out] end, w))
  else match fuel with
  | O => Ok None
  | S fuel =>
      let remain := size - ch * Z.of_nat (length out) in
      r <- pop c (Z.to_nat ((remain + ch - 1) / ch)) (w_rs w) ;;
      let popped := ch * Z.of_nat (length (fst r)) in
      if remain <? popped then UB
      else
        let w := mkWr (snd r) (w_fill w) in
        let p := if popped <? remain then push_input c w m else (w, 0) in
        let out := out ++ fst r in
        if ch * Z.of_nat (length out) =? size then
          q <- write_loop fuel c ch size (fst p) [] (m - snd p) ;;
          Ok (match q with Some q => Some (out :: fst q, snd q) | None => None end)
        else write_loop fuel c ch size (fst p) out (m - snd p)
  end.

(* 67-74, 76-121 *)
Inductive wop := WScale (mult : f32) | WWrite (m : Z).
Fixpoint writes (fuel : nat) (c : cfg) (ch size ir or : Z) (w : wr) (os : list wop) : res (option (list (list (list (list term))) * wr)) :=
  match os with
  | [] => Ok (Some ([], w))
  | WScale m :: os =>
      r <- set_scaling c ir or m ;;
      writes fuel c ch size ir or (match r with Some p => mkWr (with_par (w_rs w) p) (w_fill w) | None => w end) os
  | WWrite m :: os =>
      r <- write_loop fuel c ch size w [] m ;;
      match r with
      | None => Ok None
      | Some (l, w) =>
          q <- writes fuel c ch size ir or w os ;;
          Ok (match q with Some q => Some (l :: fst q, snd q) | None => None end)
      end
  end.
