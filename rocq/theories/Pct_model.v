(** Model of roc_address/pct.cpp. Characters are byte values 0..255; the ctype
    predicates are those of the C locale (the library never calls setlocale;
    for bytes >= 128, where char is negative, glibc's tables answer "no").
    The output builder is modelled by the list of characters appended to it;
    what a bounded builder keeps of them is C33. [None] is a false return. *)
From Verif Require Import Base.

Definition isdigit (c : Z) : bool := (48 <=? c) && (c <=? 57).
Definition isalpha (c : Z) : bool := ((65 <=? c) && (c <=? 90)) || ((97 <=? c) && (c <=? 122)).
Definition isalnum (c : Z) : bool := isdigit c || isalpha c.
Definition isxdigit (c : Z) : bool :=
  isdigit c || ((65 <=? c) && (c <=? 70)) || ((97 <=? c) && (c <=? 102)).
Definition tolower (c : Z) : Z := if (65 <=? c) && (c <=? 90) then c + 32 else c.

Definition mem (c : Z) (l : list Z) : bool := existsb (Z.eqb c) l.

(** pct.cpp:19-33: - . _ ~ *)
Definition is_unreserved (c : Z) : bool := isalnum c || mem c [45; 46; 95; 126].
(** pct.cpp:35-53: ! $ & ' ( ) * + , ; = *)
Definition is_subdelim (c : Z) : bool := mem c [33; 36; 38; 39; 40; 41; 42; 43; 44; 59; 61].
(** pct.cpp:55-70: : @ *)
Definition is_pchar (c : Z) : bool := is_unreserved c || is_subdelim c || mem c [58; 64].
(** pct.cpp:72-74 *)
Definition is_segment_char (c : Z) : bool := is_pchar c || (c =? 47).
(** pct.cpp:76-90: . : [ ] *)
Definition is_ip_literal_char (c : Z) : bool := isxdigit c || mem c [46; 58; 91; 93].
(** pct.cpp:92-100 *)
Definition is_regname_char (c : Z) : bool := is_unreserved c || is_subdelim c.
(** pct.cpp:102-104 *)
Definition is_host_char (c : Z) : bool := is_ip_literal_char c || is_regname_char c.

(** pct.cpp:106-108 *)
Definition to_hex (c : Z) : Z :=
  nth (Z.to_nat (Z.land c 15)) [48;49;50;51;52;53;54;55;56;57;65;66;67;68;69;70] 0.
(** pct.cpp:110-114 *)
Definition from_hex1 (h : Z) : Z := if isdigit h then h - 48 else tolower h - 97 + 10.
Definition from_hex (hi lo : Z) : Z := u8 (Z.lor (Z.shiftl (from_hex1 hi) 4) (from_hex1 lo)).

(** pct.h *)
Inductive pct_mode := PctNonUnreserved | PctNonHost | PctNonPath.
(** pct.cpp:119-130 *)
Definition skip_encoding (m : pct_mode) : Z -> bool :=
  match m with PctNonUnreserved => is_unreserved | PctNonHost => is_host_char | PctNonPath => is_segment_char end.

(** pct.cpp:135-152 *)
Fixpoint pct_encode (m : pct_mode) (src : list Z) : option (list Z) :=
  match src with
  | [] => Some []
  | c :: src' =>
      if c =? 0 then None
      else if skip_encoding m c then option_map (cons c) (pct_encode m src')
      else option_map (fun r => 37 :: to_hex (Z.shiftr c 4) :: to_hex (Z.land c 15) :: r) (pct_encode m src')
  end.

(** pct.cpp:159-187; the loop advances by one or three characters. *)
Fixpoint pct_decode (src : list Z) : option (list Z) :=
  match src with
  | [] => Some []
  | c :: src1 =>
      if c =? 0 then None
      else if c =? 37 then
        match src1 with
        | h :: l :: src3 =>
            if negb (isxdigit h) || negb (isxdigit l) then None
            else
              let d := from_hex h l in
              if d =? 0 then None else option_map (cons d) (pct_decode src3)
        | _ => None
        end
      else option_map (cons c) (pct_decode src1)
  end.
