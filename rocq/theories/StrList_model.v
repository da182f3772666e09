(** Model of roc_core/string_list.{h,cpp}. The list keeps one byte array: each
    string is a block  [len:u32][characters, NUL, padding to 4][len:u32].
    A string pointer is represented by the offset of its block header (the C++
    pointer is 4 bytes further). All reads are checked. *)
From Verif Require Import Base.
Open Scope res_scope.

(** A uint32 in host order (little endian here) *)
Definition le32 (x : Z) : list Z := [byte_of x 0; byte_of x 1; byte_of x 2; byte_of x 3].
Definition rd32 (d : list Z) (o : nat) : res nat :=
  a <- rd d o ;; b <- rd d (o + 1) ;; c <- rd d (o + 2) ;; e <- rd d (o + 3) ;;
  Ok (Z.to_nat (be32 e c b a)).

(** string_list.cpp:106-107 and 148-149: sizeof(Header) (4: a uint32 and a
    flexible array, string_list.h:77-80), the aligned string with its NUL
    (align_ops.h:26-32, no overflow at these sizes), sizeof(Footer). *)
Definition align4 (n : nat) : nat := (if n mod 4 =? 0 then n else n + 4 - n mod 4)%nat.
Definition blk_sz (n : nat) : nat := (4 + align4 (n + 1) + 4)%nat.

(** string_list.h:89-93; [sl_back] is meaningful when [sl_size > 0]; front_ is
    the start of the data. *)
Record slist := mkSl { sl_data : list Z; sl_back : nat; sl_size : nat }.
Definition sl_empty : slist := mkSl [] 0 0.

(** string_list.cpp:100-131; [alloc] tells whether the array could grow
    (grow_, 180-186; the following resize then cannot fail). New bytes are
    zeroed by resize (array.h:195) before the block is filled. *)
Definition sl_push (l : slist) (s : list Z) (alloc : bool) : slist * bool :=
  if negb alloc then (l, false)
  else
    let b := blk_sz (length s) in
    let hdr := le32 (u32 (Z.of_nat b)) in
    let pad := repeat 0 (align4 (length s + 1) - (length s + 1)) in
    (mkSl (sl_data l ++ hdr ++ (s ++ 0 :: pad) ++ hdr) (length (sl_data l)) (S (sl_size l)), true).

(** string_list.cpp:31-45 *)
Definition sl_front (l : slist) : option nat := if (sl_size l =? 0)%nat then None else Some 0%nat.
Definition sl_last (l : slist) : option nat := if (sl_size l =? 0)%nat then None else Some (sl_back l).

(** string_list.cpp:167-178; the pointer is header offset + 4. *)
Definition sl_check (l : slist) (o : nat) : res unit :=
  if (sl_size l =? 0)%nat then Panic
  else if (o + 4 <? length (sl_data l))%nat then Ok tt else Panic.

(** string_list.cpp:47-63 *)
Definition sl_nextof (l : slist) (o : nat) : res (option nat) :=
  _ <- sl_check l o ;;
  if (o =? sl_back l)%nat then Ok None
  else n <- rd32 (sl_data l) o ;; Ok (Some (o + n)%nat).

(** string_list.cpp:65-83 *)
Definition sl_prevof (l : slist) (o : nat) : res (option nat) :=
  _ <- sl_check l o ;;
  if (o =? 0)%nat then Ok None
  else if (o <? 4)%nat then UB
  else n <- rd32 (sl_data l) (o - 4) ;; if (o <? n)%nat then UB else Ok (Some (o - n)%nat).

(** memcmp(d + o, s, |s|) == 0 *)
Fixpoint memeq (d : list Z) (o : nat) (s : list Z) : res bool :=
  match s with
  | [] => Ok true
  | c :: s' => x <- rd d o ;; if x =? c then memeq d (S o) s' else Ok false
  end.

(** string_list.cpp:152-161; one unit of fuel per visited block. *)
Fixpoint sl_find_from (fuel : nat) (l : slist) (o : nat) (s : list Z) : res (option nat) :=
  match fuel with
  | O => UB
  | S f =>
      n <- rd32 (sl_data l) o ;;
      eq <- (if (n =? blk_sz (length s))%nat then memeq (sl_data l) (o + 4) s else Ok false) ;;
      if eq then Ok (Some o)
      else if (o =? sl_back l)%nat then Ok None
      else sl_find_from f l (o + n) s
  end.

(** string_list.cpp:141-165 *)
Definition sl_find (l : slist) (s : list Z) : res (option nat) :=
  if (sl_size l =? 0)%nat then Ok None else sl_find_from (sl_size l) l 0 s.

(** The C string a pointer designates: bytes up to the first NUL. *)
Fixpoint until_nul (d : list Z) : option (list Z) :=
  match d with
  | [] => None
  | c :: d' => if c =? 0 then Some [] else option_map (cons c) (until_nul d')
  end.
Definition sl_str (l : slist) (o : nat) : option (list Z) := until_nul (skipn (o + 4) (sl_data l)).

(** A history of push_back calls. *)
Fixpoint sl_run (l : slist) (ops : list (list Z * bool)) : slist :=
  match ops with [] => l | (s, a) :: ops' => sl_run (fst (sl_push l s a)) ops' end.

(** Walking with front/nextof and with back/prevof; what a caller collects. *)
Fixpoint walk (next : nat -> res (option nat)) (l : slist) (fuel : nat) (cur : option nat) : option (list (list Z)) :=
  match cur with
  | None => Some []
  | Some o =>
      match fuel with
      | O => None
      | S f =>
          match sl_str l o, next o with
          | Some s, Ok nx => option_map (cons s) (walk next l f nx)
          | _, _ => None
          end
      end
  end.
