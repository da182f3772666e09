(** Model of roc_core/parse_units.cpp: durations and sizes from text.

    Text is a list of character codes. [strtod] is modelled as C99 and glibc define it in
    the "C" locale: decimal and hexadecimal numbers, infinity and NaN, the value rounded
    to nearest; its white space is left out, since the code does not call it on text that
    starts with white space. Characters are not negative: isdigit() is not defined on a
    negative one. *)
From Coq Require Import Reals.
From Flocq Require Import Core.Core IEEE754.BinarySingleNaN.
From Verif Require Import Base Float32.
Local Open Scope Z_scope.
Local Open Scope res_scope.

Definition is_digit (c : Z) : bool := (48 <=? c) && (c <=? 57).
Definition lower (c : Z) : Z := if (65 <=? c) && (c <=? 90) then c + 32 else c.
Definition is_hex (c : Z) : bool := is_digit c || ((97 <=? lower c) && (lower c <=? 102)).
Definition digit_val (c : Z) : Z := if is_digit c then c - 48 else lower c - 87.

(** The longest beginning of characters with a property, and the rest. *)
Fixpoint span (f : Z -> bool) (s : list Z) : list Z * list Z :=
  match s with
  | c :: t => if f c then let '(a, b) := span f t in (c :: a, b) else ([], s)
  | [] => ([], [])
  end.

Definition number_of (base : Z) (ds : list Z) : Z := fold_left (fun acc c => acc * base + digit_val c) ds 0.

(** Text that begins with some letters, in any case: what follows. *)
Fixpoint after (word s : list Z) : option (list Z) :=
  match word, s with
  | [], _ => Some s
  | w :: ws, c :: t => if lower c =? w then after ws t else None
  | _ :: _, [] => None
  end.

(** A sign, if there is one: whether it is a minus, and what follows. *)
Definition unsign (s : list Z) : bool * list Z :=
  match s with
  | c :: t => if c =? 43 then (false, t) else if c =? 45 then (true, t) else (false, s)
  | [] => (false, s)
  end.

(** An exponent, if there is one that is complete: its value and what follows. *)
Definition exponent (letter : Z) (s : list Z) : Z * list Z :=
  match s with
  | c :: t =>
      if lower c =? letter then
        let '(neg, u) := unsign t in
        let '(ds, v) := span is_digit u in
        match ds with
        | [] => (0, s)
        | _ => (if neg : bool then - number_of 10 ds else number_of 10 ds, v)
        end
      else (0, s)
  | [] => (0, s)
  end.

(** Digits, with or without a point: all of them as a number, how many are after the
    point, and what follows; nothing if there is no digit. *)
Definition mantissa (f : Z -> bool) (base : Z) (s : list Z) : option (Z * Z * list Z) :=
  let '(d1, s1) := span f s in
  let '(d2, s2) := match s1 with c :: t => if c =? 46 then span f t else ([], s1) | [] => ([], s1) end in
  match d1 ++ d2 with
  | [] => None
  | ds => Some (number_of base ds, Z.of_nat (length d2), s2)
  end.

(** A fraction of positive numbers, rounded to nearest. *)
Definition ratio (neg : bool) (p q : positive) : f64 :=
  SF2B _ (proj1 (Bdiv_correct_aux 53 1024 _ _ mode_NE neg p 0 false q 0)).

(** [m * base ^ e], rounded to nearest. *)
Definition power_value (neg : bool) (m base e : Z) : f64 :=
  match m with
  | Zpos p => ratio neg (Z.to_pos (Zpos p * base ^ Z.max e 0)) (Z.to_pos (base ^ Z.max (- e) 0))
  | _ => B754_zero neg
  end.

(** strtod(): the value and what follows; nothing if there is no number. *)
Definition strtod (s : list Z) : option (f64 * list Z) :=
  let '(neg, u) := unsign s in
  match after [105; 110; 102] u with (* inf *)
  | Some v =>
      Some (B754_infinity neg, match after [105; 110; 105; 116; 121] v with Some w => w | None => v end)
  | None =>
  match after [110; 97; 110] u with (* nan *)
  | Some v =>
      Some (B754_nan,
        match v with
        | c :: w =>
            if c =? 40 then
              match span (fun c => is_digit c || ((97 <=? lower c) && (lower c <=? 122)) || (c =? 95)) w with
              | (_, d :: x) => if d =? 41 then x else v
              | _ => v
              end
            else v
        | [] => v
        end)
  | None =>
  match match after [48; 120] u with Some v => mantissa is_hex 16 v | None => None end with (* 0x *)
  | Some (m, k, v) => let '(e, w) := exponent 112 v in Some (power_value neg m 2 (e - 4 * k), w)
  | None =>
  match mantissa is_digit 10 u with
  | Some (m, k, v) => let '(e, w) := exponent 101 v in Some (power_value neg m 10 (e - k), w)
  | None => None
  end end end end.

(** parse_units.cpp:18-27: [find_suffix]. *)
Definition ends_with (s suffix : list Z) : bool :=
  if list_eq_dec Z.eq_dec (skipn (length s - length suffix) s) suffix then true else false.

(** round() *)
Definition f64_round (x : f64) : f64 := Bnearbyint mode_NA x.
(** (T)x for a type with values from [lo] up to [hi], not included. *)
Definition f64_to (lo hi : Z) (x : f64) : res Z :=
  if is_finite x && (lo <=? Btrunc x) && (Btrunc x <? hi) then Ok (Btrunc x) else UB.

(** The suffix and the multiplier: parse_units.cpp:42-60, time.h. *)
Definition duration_unit (s : list Z) : option (list Z * Z) :=
  if ends_with s [110; 115] then Some ([110; 115], 1)
  else if ends_with s [117; 115] then Some ([117; 115], 1000)
  else if ends_with s [109; 115] then Some ([109; 115], 1000000)
  else if ends_with s [115] then Some ([115], 1000000000)
  else if ends_with s [109] then Some ([109], 60000000000)
  else if ends_with s [104] then Some ([104], 3600000000000)
  else None.

(** parse_units.cpp:31-98: [parse_duration]; (double)INT64_MAX is 2^63. *)
Definition parse_duration (s : list Z) : res (option Z) :=
  match duration_unit s with
  | None => Ok None
  | Some (suffix, mult) =>
      if Nat.eqb (length s) (length suffix) then Ok None
      else
        match s with
        | [] => Ok None
        | c :: _ =>
            if negb (is_digit c) && negb (c =? 43) && negb (c =? 45) then Ok None
            else
              match strtod s with
              | None => Ok None
              | Some (x, rest) =>
                  if negb (Nat.eqb (length rest) (length suffix)) then Ok None
                  else
                    let y := f64_round (f64_mul x (f64_of_Z mult)) in
                    if f64_lt (f64_of_Z (2 ^ 63)) y || f64_lt y (f64_of_Z (- 2 ^ 63)) then Ok None
                    else r <- f64_to (- 2 ^ 63) (2 ^ 63) y ;; Ok (Some r)
              end
        end
  end.

(** parse_units.cpp:115-122. *)
Definition size_unit (s : list Z) : list Z * Z :=
  if ends_with s [71] then ([71], 1024 * 1024 * 1024)
  else if ends_with s [77] then ([77], 1024 * 1024)
  else if ends_with s [75] then ([75], 1024)
  else ([], 1).

(** parse_units.cpp:100-153: [parse_size]; (double)SIZE_MAX is 2^64. *)
Definition parse_size (s : list Z) : res (option Z) :=
  let '(suffix, mult) := size_unit s in
  match s with
  | [] => Ok None
  | c :: _ =>
      if negb (is_digit c) then Ok None
      else
        match strtod s with
        | None => Ok None
        | Some (x, rest) =>
            if negb (Nat.eqb (length rest) (length suffix)) then Ok None
            else
              let y := f64_round (f64_mul x (f64_of_Z mult)) in
              if f64_lt (f64_of_Z (2 ^ 64)) y then Ok None
              else r <- f64_to 0 (2 ^ 64) y ;; Ok (Some r)
        end
  end.
