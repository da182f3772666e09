(* Model of roc_rtcp/loss_estimator.cpp and of the fraction lost in a reception
   report block, roc_rtcp/headers.h:387-416. Floats as in TimeConv_model. *)
From Coq Require Import Reals ZArith List Bool Lia.
From Verif Require Import Base Float32 TimeConv_model.
Local Open Scope Z_scope.
Local Open Scope res_scope.

(* loss_estimator.h:37-38: prev_total_, prev_lost_ *)
Definition loss := (Z * Z)%type.
(* loss_estimator.cpp:14-17 *)
Definition loss_new : loss := (0, 0).

(* loss_estimator.cpp:19-35; the difference of signed 64-bit integers is
   undefined if it overflows *)
Definition loss_update (st : loss) (total lost : Z) : res (f32 * loss) :=
  let '(ptotal, plost) := st in
  fl <- (if ptotal <? total then
           if (- 2 ^ 63 <=? lost - plost) && (lost - plost <? 2 ^ 63)
           then Ok (f32_div (f32_of_Z (lost - plost)) (f32_of_Z (total - ptotal)))
           else UB
         else Ok f32_zero) ;;
  let fl := if f32_lt fl f32_zero then f32_zero else fl in
  Ok (fl, (total, lost)).

(* headers.h:397-413: the code stored by set_fract_loss *)
Definition fract_code (fl : f32) : res Z :=
  let fl := if f32_lt (f32_of_Z 1) fl then f32_of_Z 1 else fl in
  let fl := if f32_lt fl f32_zero then f32_zero else fl in
  k <- to_int ts_ty (f32_mul fl (f32_of_Z 256)) ;;
  Ok (if 255 <? k then 255 else k).

(* headers.h:387-394: fract_loss() of a code *)
Definition fract_loss (k : Z) : f32 := f32_div (f32_of_Z k) (f32_of_Z 256).

(* reporter.cpp:715-718: one report block *)
Definition report_loss (st : loss) (total lost : Z) : res (Z * loss) :=
  r <- loss_update st total lost ;; k <- fract_code (fst r) ;; Ok (k, snd r).
