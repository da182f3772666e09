(** Model of the channel mapper: audio::ChannelMapper
    (src/internal_modules/roc_audio/channel_mapper.cpp) and the matrix it uses,
    audio::ChannelMapperMatrix (channel_mapper_matrix.cpp, channel_mapper_matrix.h).

    Simplifications. Samples and coefficients are exact rationals, not 32-bit
    floats: no rounding. A set of channels below 17 is represented by its mask while
    the matrix is built (C37 proves that the operations of ChannelSet used here are
    those on sets). Loops without an evident bound take a number of steps [fuel] and
    give [None] when it does not suffice. Logging is left out, and so is
    IndexMap::index_2_chan, which only logging uses. *)
From Coq Require Import QArith.
From Verif Require Import Base ChannelSet_model ChanMap_tables.
Open Scope Z_scope.
Open Scope res_scope.

(** ChannelSet::is_subset, channel_set.cpp 161-167, and has_channel, 128-135. *)
Definition subset (m mask : Z) : bool := Z.land m mask =? m.
Definition has (m c : Z) : bool := Z.testbit m c.

(** A 17 by 17 matrix: rows are output channels. channel_mapper_matrix.h 75-83. *)
Definition mat := list (list Q).
Definition chans : list Z := [0; 1; 2; 3; 4; 5; 6; 7; 8; 9; 10; 11; 12; 13; 14; 15; 16].
Definition get (m : mat) (o i : Z) : Q := nth (Z.to_nat i) (nth (Z.to_nat o) m []) 0%Q.
Definition tab (f : Z -> Z -> Q) : mat := map (fun o => map (f o) chans) chans.
Definition zero_mat : mat := tab (fun _ _ => 0%Q).
Definition put (m : mat) (o i : Z) (q : Q) : mat := upd m (Z.to_nat o) (upd (nth (Z.to_nat o) m []) (Z.to_nat i) q).

(** can_downmix_, channel_mapper_matrix.cpp 160-189: inner and outer loop. *)
Fixpoint cluster (ts : list table) (in_mask out : Z) : bool :=
  match ts with
  | [] => false
  | t :: r => if negb (t_in t =? in_mask) then false
              else if subset out (t_out t) then true
              else cluster r in_mask out
  end.
Fixpoint can_downmix (ts : list table) (inp out : Z) : bool :=
  match ts with
  | [] => false
  | t :: r => if negb (subset inp (t_in t)) then can_downmix r inp out
              else cluster ts (t_in t) out
  end.

(** next_downmix_table_, 191-205. *)
Fixpoint next_downmix (ts : list table) (inp out : Z) : option table :=
  match ts with
  | [] => None
  | t :: r => if subset inp (t_in t) && subset out (t_out t) && negb (subset inp (t_out t)) then Some t
              else next_downmix r inp out
  end.

(** next_upmix_table_, 207-257: the inner loop runs backwards over all tables and keeps
    the last match. *)
Definition upmix_pass (inp nxt : Z) : option table :=
  fold_left (fun best t =>
      if subset inp (t_out t) && subset nxt (t_in t) && negb (subset nxt (t_out t)) then Some t else best)
    (rev tables) None.
Fixpoint next_upmix (fuel : nat) (inp nxt : Z) (found : option table) : option (option table) :=
  match fuel with
  | O => None
  | S f => match upmix_pass inp nxt with
           | None => Some found
           | Some t => next_upmix f inp (t_out t) (Some t)
           end
  end.

(** normalize_mapping_, 338-354. [Qred] reduces a fraction and keeps its value. *)
Definition row_sum (r : list Q) : Q := fold_left (fun s x => Qred (s + x)) r 0%Q.
Definition norm_row (r : list Q) : list Q :=
  let s := row_sum r in
  if Qeq_bool s 0 then r else map (fun x => Qred (x / s)) r.
Definition normalize (m : mat) : mat := map norm_row m.

(** fill_mapping_from_table_, 259-294. *)
Fixpoint fill_rules (rs : list (Z * Z * Q)) (m : mat) : mat :=
  match rs with
  | [] => m
  | (o, i, q) :: r => if Qeq_bool q 0 then m else fill_rules r (put m o i q)
  end.
Definition fill (t : table) (down : bool) (inp out : Z) : mat :=
  let tm := normalize (fill_rules (t_rules t) zero_mat) in
  normalize (tab (fun o i =>
    if negb (has out o) || negb (has inp i) then 0%Q
    else if down then get tm o i else get tm i o)).

(** fill_fallback_mapping_, 296-309. *)
Definition fallback : mat := tab (fun o i => if o =? i then 1%Q else 0%Q).

(** combine_mappings_, 311-336. *)
Definition combine_maps (prev next : mat) : mat :=
  normalize (tab (fun o p =>
    fold_left (fun s n => if Qeq_bool (get next o n) 0 then s
                          else if Qeq_bool (get prev n p) 0 then s
                          else Qred (s + get next o n * get prev n p)) chans 0%Q)).

(** build_channel_mapping_, 98-155: [acc] is result_map, absent while is_first. *)
Fixpoint build_loop (fuel : nat) (cur out : Z) (acc : option mat) : option (option mat) :=
  match fuel with
  | O => None
  | S f =>
    let down := can_downmix tables cur out in
    match (if down then Some (next_downmix tables cur out) else next_upmix fuel cur out None) with
    | None => None
    | Some None => Some acc
    | Some (Some t) =>
      let actual := if down then t_out t else t_in t in
      let next := fill t down cur actual in
      build_loop f actual out (Some (match acc with None => next | Some prev => combine_maps prev next end))
    end
  end.
(** build_channel_mapping_, 85-158, and the fallback of build(), 39-44. *)
Definition chan_map (fuel : nat) (inp out : Z) : option mat :=
  if inp =? out then Some fallback
  else match build_loop fuel inp out None with
       | None => None
       | Some None => Some fallback
       | Some (Some m) => Some m
       end.

(** IndexMap, channel_mapper_matrix.h 60-73: enabled channels and chan_2_index. *)
Record imap := mkI { im_set : Z; im_idx : list Z }.
Definition order_table (o : order) : list Z :=
  match o with ONone => order_none | OSmpte => order_smpte | OAlsa => order_alsa end.
(** build_index_mapping_, channel_mapper_matrix.cpp 54-83. *)
Fixpoint index_loop (ord : list Z) (s : chset) (ix : Z) (im : imap) : res imap :=
  match ord with
  | [] => Ok im
  | ch :: r =>
    b <- has_channel s ch ;;
    if b then index_loop r s (ix + 1) (mkI (Z.lor (im_set im) (bit ch)) (upd (im_idx im) (Z.to_nat ch) ix))
    else index_loop r s ix im
  end.
Definition index_map (s : chset) : res imap :=
  index_loop (order_table (ch_order s)) s 0 (mkI 0 (repeat 0 17)).

(** populate_index_matrix_, 356-381. *)
Definition populate (im om : imap) (cm : mat) : res mat :=
  fold_left (fun acc o =>
    if negb (has (im_set om) o) then acc else
    fold_left (fun acc i =>
      if negb (has (im_set im) i) then acc else
      m <- acc ;;
      let oi := nth (Z.to_nat o) (im_idx om) 0 in
      let ii := nth (Z.to_nat i) (im_idx im) 0 in
      if negb (oi <? CHMAX) then Panic else if negb (ii <? CHMAX) then Panic
      else Ok (put m oi ii (get cm o i))) chans acc) chans (Ok zero_mat).

(** build, 21-52. *)
Definition build (fuel : nat) (inp out : chset) : option (res mat) :=
  match index_map inp, index_map out with
  | Ok im, Ok om => match chan_map fuel (im_set im) (im_set om) with
                    | None => None
                    | Some cm => Some (populate im om cm)
                    end
  | _, _ => Some Panic
  end.

(** ChannelMapper, channel_mapper.h 58-65; map_func_ is determined by the layouts. *)
Record mapper := mkM { mp_in : chset; mp_out : chset; mp_inout : chset; mp_mat : mat }.

(** ChannelMapper::ChannelMapper, channel_mapper.cpp 16-39, and setup_map_func_, 153-192
    (both sets are valid there, so a function is always found). *)
Definition mapper_new (fuel : nat) (inp out : chset) : option (res mapper) :=
  if negb (ch_is_valid inp) then Some Panic
  else if negb (ch_is_valid out) then Some Panic
  else
    let inout := ch_or inp out in
    match ch_layout inp, ch_layout out with
    | LSurround, LSurround =>
      match build fuel inp out with
      | None => None
      | Some r => Some (m <- r ;; Ok (mkM inp out inout m))
      end
    | _, _ => Some (Ok (mkM inp out inout zero_mat))
    end.

(** coeff, channel_mapper_matrix.h 55-57. *)
Definition coeff (m : mat) (o i : Z) : res Q :=
  if (o <? CHMAX) && (i <? CHMAX) then Ok (get m o i) else UB.

(** sample.cpp 14-15: Sample_Min and Sample_Max are -1 and 1. channel_mapper.cpp 91-92. *)
Definition clampQ (x : Q) : Q :=
  let y := if negb (Qle_bool x 1) then 1%Q else x in
  if negb (Qle_bool (-(1))%Q y) then (-(1))%Q else y.

(** A frame is a list; the functions below take what is left of the input and return the
    output frame and what is left after it. Reading past the end of the input is UB. *)
Definition rest := (list Q * list Q)%type.

(** map_surround_surround_, 83-98, for one frame: inner loop and loop over the output. *)
Fixpoint ss_sum (m : mat) (o : Z) (inp : list Q) (i : Z) (k : nat) (acc : Q) : res Q :=
  match k with
  | O => Ok acc
  | S k' => x <- rd inp (Z.to_nat i) ;; c <- coeff m o i ;; ss_sum m o inp (i + 1) k' (acc + x * c)%Q
  end.
Fixpoint ss_out (m : mat) (nin : nat) (inp : list Q) (o : Z) (k : nat) : res (list Q) :=
  match k with
  | O => Ok []
  | S k' => s <- ss_sum m o inp 0 nin 0%Q ;;
            r <- ss_out m nin inp (o + 1) k' ;;
            Ok (clampQ s :: r)
  end.
Definition ss_frame (m : mat) (nin nout : nat) (inp : list Q) : res rest :=
  o <- ss_out m nin inp 0 nout ;;
  if Nat.ltb (length inp) nin then UB else Ok (o, skipn nin inp).

(** map_multitrack_surround_, 107-127, for one frame. *)
Fixpoint ms_out (nin nout : nat) (inp : list Q) : res (list Q * nat * list Q) :=
  match nout with
  | O => Ok ([], nin, inp)
  | S k =>
    match nin with
    | S n => match inp with
             | [] => UB
             | x :: r => p <- ms_out n k r ;; Ok (x :: fst (fst p), snd (fst p), snd p)
             end
    | O => p <- ms_out O k inp ;; Ok (0%Q :: fst (fst p), snd (fst p), snd p)
    end
  end.
Definition ms_frame (nin nout : nat) (inp : list Q) : res rest :=
  p <- ms_out nin nout inp ;;
  let '(o, n, r) := p in
  if Nat.ltb (length r) n then UB else Ok (o, skipn n r).

(** map_multitrack_multitrack_, 136-150, for one frame: channels [ch], [ch + 1], ... *)
Fixpoint mm_out (si so : chset) (ch : Z) (k : nat) (inp : list Q) : res rest :=
  match k with
  | O => Ok ([], inp)
  | S k' =>
    i <- has_channel si ch ;;
    o <- has_channel so ch ;;
    if i : bool then
      match inp with
      | [] => UB
      | x :: r => p <- mm_out si so (ch + 1) k' r ;;
                  Ok (if o : bool then x :: fst p else fst p, snd p)
      end
    else p <- mm_out si so (ch + 1) k' inp ;;
         Ok (if o : bool then 0%Q :: fst p else fst p, snd p)
  end.
Definition mm_frame (mp : mapper) (inp : list Q) : res rest :=
  f <- first_channel (mp_inout mp) ;;
  l <- last_channel (mp_inout mp) ;;
  mm_out (mp_in mp) (mp_out mp) f (Z.to_nat (l - f + 1)) inp.

(** The outer loop of the three functions. *)
Fixpoint frames (step : list Q -> res rest) (n : nat) (inp : list Q) : res (list Q) :=
  match n with
  | O => Ok []
  | S k => p <- step inp ;; r <- frames step k (snd p) ;; Ok (fst p ++ r)
  end.

(** setup_map_func_, 153-192. *)
Definition map_frame (mp : mapper) : list Q -> res rest :=
  let nin := Z.to_nat (num_channels (mp_in mp)) in
  let nout := Z.to_nat (num_channels (mp_out mp)) in
  match ch_layout (mp_in mp), ch_layout (mp_out mp) with
  | LSurround, LSurround => ss_frame (mp_mat mp) nin nout
  | LMultitrack, LMultitrack => mm_frame mp
  | _, _ => ms_frame nin nout
  end.

(** ChannelMapper::map, 41-75: [n_out] is the size of the output buffer, the result is what
    is written to it, from its beginning. *)
Definition map_samples (mp : mapper) (inp : list Q) (n_out : Z) : res (list Q) :=
  let n_in := Z.of_nat (length inp) in
  let ci := num_channels (mp_in mp) in
  let co := num_channels (mp_out mp) in
  if negb (n_in mod ci =? 0) then Panic
  else if negb (n_out mod co =? 0) then Panic
  else if negb (n_in / ci =? n_out / co) then Panic
  else frames (map_frame mp) (Z.to_nat (n_in / ci)) inp.
