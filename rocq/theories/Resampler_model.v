(* Model of roc_audio/builtin_resampler.cpp. An output sample is represented by
   the list of its terms in the order in which they are accumulated: position of
   the input sample in the whole input stream (in samples per channel), argument
   of sinc_() and the fraction passed with it. Multiplications, the contents of
   the sinc table and the division by the scaling in sinc_() are left out.
   Indices are those of one channel: channelize_index() multiplies all of them
   by the number of channels and adds the same offset, which changes neither
   comparisons nor bounds. Floats as in TimeConv_model. *)
From Coq Require Import Reals ZArith List Bool Lia.
From Flocq Require Import Core.Core IEEE754.BinarySingleNaN.
From Verif Require Import Base Float32 TimeConv_model.
Import ListNotations.
Local Open Scope Z_scope.
Local Open Scope res_scope.

(* builtin_resampler.cpp:28-33 *)
Definition int_mask : Z := 0xFFF00000.
Definition fract_mask : Z := 0x000FFFFF.
Definition fract_bits : Z := 20.
Definition qt_one : Z := Z.shiftl 1 fract_bits.

(* 36-38: conversion of a float that does not fit is undefined *)
Definition to_fixed (t : f32) : res Z := to_int ts_ty (f32_mul t (f32_of_Z qt_one)).
(* 45-47 *)
Definition fixed_size (x : Z) : Z := Z.shiftr x fract_bits.
(* 50-56 *)
Definition qceil (x : Z) : Z :=
  if Z.land x fract_mask =? 0 then Z.land x int_mask else Base.u32 (Z.land x int_mask + qt_one).
(* 59-62 *)
Definition qfloor (x : Z) : Z := Z.land x int_mask.

(* resampler_profile: 79-92, 94-107 *)
Inductive profile := Low | Medium | High.
Definition window_interp_bits (p : profile) : Z := match p with Low => 6 | Medium => 7 | High => 9 end.
Definition window_size (p : profile) : Z := match p with Low => 16 | Medium => 32 | High => 64 end.

(* 109-118: get_frame_size; std::ceil *)
Definition f32_ceil (x : f32) : f32 := Bnearbyint mode_UP x.
Definition frame_size (p : profile) (in_rate out_rate : Z) : res Z :=
  let scaling := f32_mul (f32_div (f32_of_Z in_rate) (f32_of_Z out_rate)) (f32_make 3 (-1)) in
  to_int size_ty (f32_ceil (f32_mul (f32_of_Z (window_size p)) scaling)).

(* what is fixed on construction *)
Record cfg := mkCfg { c_prof : profile; c_frame : Z }.
Definition c_window (c : cfg) : Z := window_size (c_prof c).
(* 143: qt_frame_size_ *)
Definition qt_frame (c : cfg) : Z := Base.u32 (Z.shiftl (c_frame c) fract_bits).
(* 367-371: sinc_table_.size() *)
Definition table_size (c : cfg) : Z := c_window c * Z.shiftl 1 (window_interp_bits (c_prof c)) + 2.
(* 146: cutoff_freq_ = 0.9f *)
Definition cutoff : f32 := f32_make 15099494 (-24).

(* scaling_, qt_half_window_size_, qt_sinc_step_, qt_dt_ *)
Record params := mkPar { p_half : Z; p_step : Z; p_dt : Z }.

(* 178-239: set_scaling; None: rejected *)
Definition set_scaling (c : cfg) (in_rate out_rate : Z) (mult : f32) : res (option params) :=
  if (in_rate =? 0) || (out_rate =? 0) then Ok None
  else
    let ns := f32_mul (f32_div (f32_of_Z in_rate) (f32_of_Z out_rate)) mult in
    if f32_le ns f32_zero then Ok None
    else if f32_lt (f32_of_Z (c_frame c - 1)) (f32_mul (f32_of_Z (c_window c)) ns) then Ok None
    else if f32_lt (f32_of_Z 1) ns then
      half <- to_fixed (f32_mul (f32_div (f32_of_Z (c_window c)) cutoff) ns) ;;
      if (c_frame c <? fixed_size (qceil (Base.u32 (qt_frame c - half))))
         || (c_frame c <? fixed_size (qfloor half) + 1)
      then Ok None
      else
        step <- to_fixed (f32_div cutoff ns) ;;
        dt <- to_fixed ns ;;
        Ok (Some (mkPar half step dt))
    else
      step <- to_fixed cutoff ;;
      half <- to_fixed (f32_div (f32_of_Z (c_window c)) cutoff) ;;
      dt <- to_fixed ns ;;
      Ok (Some (mkPar half step dt)).

(* A term of an output sample *)
Record term := mkTerm { t_pos : Z; t_arg : Z; t_fract : Z }.

(* frames_ and the pointers into them: number of the input frame in each buffer *)
Record rs := mkRs {
  r_b0 : Z; r_b1 : Z; r_b2 : Z;                 (* frames_[0..2] *)
  r_prev : Z; r_cur : Z; r_next : Z;            (* prev_frame_, curr_frame_, next_frame_ *)
  r_ready : Z; r_pushed : Z; r_sample : Z; r_par : params
}.
(* 120-170; qt_sinc_step_ is not initialized: represented by 0 *)
Definition rs_new : rs := mkRs (-1) (-1) (-1) (-1) (-1) (-1) 0 0 0 (mkPar 0 0 0).

(* 399-408 (sinc_) and an access to element [i] of the buffer that holds input
   frame [b]: undefined outside of the buffer or the table (the memory behind a
   buffer, from the pool of frames, may be larger: what is there is not input) *)
Definition access (c : cfg) (b i arg fract : Z) : res term :=
  if negb ((0 <=? i) && (i <? c_frame c)) then UB
  else
    let index := Z.shiftr arg (fract_bits - window_interp_bits (c_prof c)) in
    if negb ((0 <=? index) && (index + 1 <? table_size c)) then UB
    else Ok (mkTerm (b * c_frame c + i) arg fract).

(* 473-476: previous frame; 501-504, 507-510 with [inc] positive *)
Fixpoint run_frame (c : cfg) (n : nat) (b i arg inc fract : Z) : res (list term * Z) :=
  match n with
  | O => Ok ([], arg)
  | S n => t <- access c b i arg fract ;; r <- run_frame c n b (i + 1) (Base.u32 (arg + inc)) inc fract ;; Ok (t :: fst r, snd r)
  end.

(* 482-486: while (qt_sinc_cur >= qt_sinc_step_); the loop ends after arg / step rounds *)
Fixpoint run_left (c : cfg) (fuel : nat) (b i arg step fract : Z) : res (list term * Z * Z) :=
  if arg <? step then Ok ([], i, arg)
  else match fuel with
  | O => UB
  | S fuel =>
      let i := i + 1 in let arg := Base.u32 (arg - step) in
      t <- access c b i arg fract ;; r <- run_left c fuel b i arg step fract ;;
      Ok (t :: fst (fst r), snd (fst r), snd r)
  end.

(* 65-68, 467, 498: fractional(x << window_interp_bits_), as the integer before
   the exact conversion to float *)
Definition fractional (c : cfg) (x : Z) : Z :=
  Z.land (Base.u32 (Z.shiftl x (window_interp_bits (c_prof c)))) fract_mask.

(* 410-513: resample_ *)
Definition resample (c : cfg) (st : rs) : res (list term) :=
  let F := c_frame c in let QF := qt_frame c in let Q := r_sample st in
  let H := p_half (r_par st) in let step := p_step (r_par st) in
  if step =? 0 then Panic
  else
    let begin_prev := if H <=? Q then F else fixed_size (qceil (Base.u32 (Q + Base.u32 (QF - H)))) in
    if F <? begin_prev then Panic
    else
    let begin_cur := if H <=? Q then fixed_size (qceil (Base.u32 (Q - H))) else 0 in
    if F <? begin_cur then Panic
    else
    let end_cur := if QF <? Base.u32 (Q + H) then F - 1 else fixed_size (qfloor (Base.u32 (Q + H))) in
    if F <? end_cur then Panic
    else
    let end_next := if QF <? Base.u32 (Q + H) then fixed_size (qfloor (Base.u32 (Base.u32 (Q + H) - QF))) + 1 else 0 in
    if F <? end_next then Panic
    else
    let cur := Base.u32 (Base.u32 (QF + Q) - qceil (Base.u32 (Base.u32 (QF + Q) - H))) in
    let arg := Base.u32 (Z.shiftr (u64 (cur * step)) fract_bits) in
    let fr := fractional c arg in
    p <- run_frame c (Z.to_nat (F - begin_prev)) (r_prev st) begin_prev arg (- step) fr ;;
    t <- access c (r_cur st) begin_cur (snd p) fr ;;
    l <- run_left c (Z.to_nat (snd p / step)) (r_cur st) begin_cur (snd p) step fr ;;
    let i := snd (fst l) + 1 in
    if F <? i then Panic
    else
    let arg := Base.u32 (step - snd l) in
    let fr := fractional c arg in
    r <- run_frame c (Z.to_nat (end_cur - i + 1)) (r_cur st) i arg step fr ;;
    n <- run_frame c (Z.to_nat end_next) (r_next st) 0 (snd r) step fr ;;
    Ok (fst p ++ (t :: fst (fst l)) ++ fst r ++ fst n).

(* 241-252: begin_push_input. The buffer that is returned is the one prev_frame_
   points to, if three frames are there: its content is lost from now on. *)
Definition begin_push (st : rs) : rs :=
  if r_ready st <? 3 then st
  else mkRs (r_b1 st) (r_b2 st) (r_b0 st) (-1) (r_cur st) (r_next st) (r_ready st) (r_pushed st) (r_sample st) (r_par st).
(* 254-266: the buffer has been filled with the next input frame; end_push_input *)
Definition end_push (c : cfg) (st : rs) : rs :=
  let k := r_pushed st in
  let '(b0, b1, b2) :=
    if r_ready st =? 0 then (k, r_b1 st, r_b2 st)
    else if r_ready st =? 1 then (r_b0 st, k, r_b2 st)
    else (r_b0 st, r_b1 st, k) in
  mkRs b0 b1 b2 b0 b1 b2 (if r_ready st <? 3 then r_ready st + 1 else r_ready st) (k + 1)
    (if qt_frame c <=? r_sample st then Base.u32 (r_sample st - qt_frame c) else r_sample st) (r_par st).
Definition push (c : cfg) (st : rs) : rs := end_push c (begin_push st).

(* 142: qt_epsilon_ = float_to_fixedpoint(5e-8f), which is 0 *)
Definition epsilon : Z := 0.
(* 280-285: snap to the grid *)
Definition snap (q : Z) : Z :=
  if Z.land q fract_mask <? epsilon then Z.land q int_mask
  else if qt_one - Z.land q fract_mask <? epsilon then Base.u32 (Z.land q int_mask + qt_one)
  else q.

Definition with_sample (st : rs) (q : Z) : rs :=
  mkRs (r_b0 st) (r_b1 st) (r_b2 st) (r_prev st) (r_cur st) (r_next st) (r_ready st) (r_pushed st) q (r_par st).
Definition with_par (st : rs) (p : params) : rs :=
  mkRs (r_b0 st) (r_b1 st) (r_b2 st) (r_prev st) (r_cur st) (r_next st) (r_ready st) (r_pushed st) (r_sample st) p.

(* 268-294: pop_output with room for [n] samples per channel *)
Fixpoint pop_loop (c : cfg) (n : nat) (st : rs) : res (list (list term) * rs) :=
  match n with
  | O => Ok ([], st)
  | S n =>
      if qt_frame c <=? r_sample st then Ok ([], st)
      else
        let st := with_sample st (snap (r_sample st)) in
        o <- resample c st ;;
        r <- pop_loop c n (with_sample st (Base.u32 (r_sample st + p_dt (r_par st)))) ;;
        Ok (o :: fst r, snd r)
  end.
Definition pop (c : cfg) (n : nat) (st : rs) : res (list (list term) * rs) :=
  if r_ready st <? 3 then Ok ([], st) else pop_loop c n st.

Inductive op := Scale (in_rate out_rate : Z) (mult : f32) | Push | Pop (n : nat).
Definition step (c : cfg) (st : rs) (o : op) : res (list (list term) * rs) :=
  match o with
  | Scale i o m => r <- set_scaling c i o m ;; Ok ([], match r with Some p => with_par st p | None => st end)
  | Push => Ok ([], push c st)
  | Pop n => pop c n st
  end.
Fixpoint run (c : cfg) (st : rs) (os : list op) : res (list (list term) * rs) :=
  match os with
  | [] => Ok ([], st)
  | o :: os => r <- step c st o ;; q <- run c (snd r) os ;; Ok (fst r ++ fst q, snd q)
  end.
