(** Model of roc_core/string_builder.cpp (StringBuilder over a static buffer and
    over a StringBuffer) and roc_core/string_buffer.cpp. Characters are byte
    values; memory stores are checked ([wr] gives UB outside the buffer). *)
From Verif Require Import Base.
Open Scope res_scope.

(** Store [s] at offset [i] (memcpy), byte by byte. *)
Fixpoint put_at (buf : list Z) (i : nat) (s : list Z) : res (list Z) :=
  match s with
  | [] => Ok buf
  | c :: s' => b <- wr buf i c ;; put_at b (S i) s'
  end.

(** string_builder.h:128-131 and 157-161. [buf = None] is a NULL buffer;
    [ptr = None] a NULL write pointer. *)
Record sb := mkSb {
  sb_buf : option (list Z); sb_max : nat; sb_cur : nat; sb_ptr : option nat;
  sb_proc : nat; sb_written : nat; sb_trunc : bool; sb_werr : bool }.

(** string_builder.cpp:25-39 StaticBufferWriter::reset, :196-208 reset_. *)
Definition sb_reset (s : sb) : res sb :=
  if sb_werr s then Ok (mkSb (sb_buf s) (sb_max s) (sb_cur s) (sb_ptr s) 0 0 (sb_trunc s) true)
  else
    match sb_buf s with
    | Some b =>
        if (sb_max s =? 0)%nat
        then Ok (mkSb (sb_buf s) (sb_max s) (sb_cur s) (sb_ptr s) 0 0 (sb_trunc s) true)
        else b' <- wr b 0 0 ;; Ok (mkSb (Some b') (sb_max s) 1 None 0 0 false false)
    | None => Ok (mkSb None (sb_max s) 1 None 0 0 false false)
    end.

(** string_builder.cpp:18-23, 111-114, 186-194: the constructor. *)
Definition sb_new (buf : option (list Z)) (max : nat) : res sb :=
  sb_reset (mkSb buf max 1 None 0 0 false false).

(** string_builder.cpp:133-135 *)
Definition sb_ok (s : sb) : bool := negb (sb_trunc s) && negb (sb_werr s).
(** string_builder.cpp:121-123 *)
Definition sb_needed (s : sb) : nat := sb_proc s + 1.
(** string_builder.cpp:125-131 *)
Definition sb_actual (s : sb) : nat :=
  match sb_buf s with
  | None => 0
  | Some _ => if sb_werr s then 0 else sb_written s + 1
  end.

(** string_builder.cpp:50-77 StaticBufferWriter::extend_by; [None] is -1. *)
Definition sb_extend (s : sb) (n : nat) : res (sb * option nat) :=
  match sb_buf s with
  | Some b =>
      if (sb_max s =? 0)%nat then Ok (s, None)
      else
        let maxc := (sb_max s - sb_cur s)%nat in
        let n := if (maxc <? n)%nat then maxc else n in
        let ptr := (sb_cur s - 1)%nat in
        let cur := (sb_cur s + n)%nat in
        b' <- wr b (cur - 1) 0 ;;
        Ok (mkSb (Some b') (sb_max s) cur (Some ptr) (sb_proc s) (sb_written s) (sb_trunc s) (sb_werr s), Some n)
  | None =>
      if (sb_max s =? 0)%nat then Ok (s, Some n)
      else
        let maxc := (sb_max s - sb_cur s)%nat in
        let n := if (maxc <? n)%nat then maxc else n in
        Ok (mkSb None (sb_max s) (sb_cur s + n) (sb_ptr s) (sb_proc s) (sb_written s) (sb_trunc s) (sb_werr s), Some n)
  end.

(** string_builder.cpp:210-245 with the static writer (grow_by, lines 45-48,
    always succeeds). *)
Definition sb_append (s : sb) (str : list Z) : res (sb * bool) :=
  let s := mkSb (sb_buf s) (sb_max s) (sb_cur s) (sb_ptr s) (sb_proc s + length str) (sb_written s) (sb_trunc s) (sb_werr s) in
  if sb_werr s then Ok (s, sb_ok s)
  else if (length str =? 0)%nat then Ok (s, sb_ok s)
  else
    r <- sb_extend s (length str) ;;
    let '(s, w) := r in
    match w with
    | None =>
        let s := mkSb (sb_buf s) (sb_max s) (sb_cur s) (sb_ptr s) (sb_proc s) (sb_written s) (sb_trunc s) true in
        Ok (s, sb_ok s)
    | Some w =>
        s <- (if (0 <? w)%nat then
                match sb_ptr s, sb_buf s with
                | Some p, Some b =>
                    b' <- put_at b p (firstn w str) ;;
                    Ok (mkSb (Some b') (sb_max s) (sb_cur s) (sb_ptr s) (sb_proc s) (sb_written s + w) (sb_trunc s) (sb_werr s))
                | _, _ => Ok s
                end
              else Ok s) ;;
        let s := if (w <? length str)%nat
                 then mkSb (sb_buf s) (sb_max s) (sb_cur s) (sb_ptr s) (sb_proc s) (sb_written s) true (sb_werr s)
                 else s in
        Ok (s, sb_ok s)
    end.

(** string_builder.cpp:137-150 *)
Definition sb_assign (s : sb) (str : list Z) : res (sb * bool) :=
  s <- sb_reset s ;; sb_append s str.

(** Operations: assign_str / append_str (append_char is a one-character append,
    append_uint appends [uint_digits] below). *)
Inductive sb_op := SbAssign (s : list Z) | SbAppend (s : list Z).

Fixpoint sb_run (s : sb) (ops : list sb_op) : res sb :=
  match ops with
  | [] => Ok s
  | SbAssign x :: ops' => r <- sb_assign s x ;; sb_run (fst r) ops'
  | SbAppend x :: ops' => r <- sb_append s x ;; sb_run (fst r) ops'
  end.

(** string_builder.cpp:169-184: the loop of append_uint writes digits backwards
    into tmp[128] starting at index 127. [pos] is tmp_pos; the result is the
    text passed to append_. Positions are Z so that leaving the array is
    visible (UB). *)
Definition digit_char (d : Z) : Z := if d <? 10 then 48 + d else 55 + d.

Fixpoint uint_loop (fuel : nat) (base n pos : Z) (acc : list Z) : res (list Z) :=
  match fuel with
  | O => UB
  | S f =>
      if pos <? 0 then UB
      else
        let acc := digit_char (n mod base) :: acc in
        let n := n / base in
        if 0 <? n then uint_loop f base n (pos - 1) acc else Ok acc
  end.

(** Fuel 129 exceeds the number of positions, so [UB] is only "array left". *)
Definition uint_digits (n base : Z) : res (list Z) :=
  if negb ((2 <=? base) && (base <=? 16)) then Panic
  else uint_loop 129 base n 127 [].

(** roc_core/string_buffer.cpp and the dynamic writer (string_builder.cpp:83-109).
    The buffer content excludes the trailing NUL, which [resize] (array.h:183-202,
    new chars are value-initialised to 0) and [clear] always maintain. Each
    operation that may allocate consumes one boolean: whether the arena can
    provide memory, if it is needed. *)
Record db := mkDb { db_data : list Z; db_proc : nat; db_written : nat; db_werr : bool }.

(** string_builder.cpp:186-208; [StringBuffer::clear] cannot fail: one char
    always fits the embedded storage (string_buffer.h:80, array.h:272). *)
Definition db_new (old : list Z) : db := mkDb [] 0 0 false.
Definition db_reset (s : db) : db :=
  if db_werr s then mkDb (db_data s) 0 0 true else mkDb [] 0 0 false.

(** string_builder.cpp:210-245 with the dynamic writer; [a1] is the outcome of
    grow_exp (line 99), [a2] of resize (string_buffer.cpp:73). *)
Definition db_append (s : db) (str : list Z) (grow a1 a2 : bool) : db * bool :=
  let s := mkDb (db_data s) (db_proc s + length str) (db_written s) (db_werr s) in
  if db_werr s then (s, false)
  else if grow && negb a1 then (mkDb (db_data s) (db_proc s) (db_written s) true, false)
  else if (length str =? 0)%nat then (s, true)
  else if negb a2 then (mkDb [] (db_proc s) (db_written s) true, false)
  else (mkDb (db_data s ++ str) (db_proc s) (db_written s + length str) false, true).

Definition db_ok (s : db) : bool := negb (db_werr s).
Definition db_actual (s : db) : nat := if db_werr s then 0%nat else (db_written s + 1)%nat.

Inductive db_op := DbAssign (s : list Z) (a : bool) | DbAppend (s : list Z) (a1 a2 : bool).
Fixpoint db_run (s : db) (ops : list db_op) : db :=
  match ops with
  | [] => s
  | DbAssign x a :: ops' => db_run (fst (db_append (db_reset s) x false true a)) ops'
  | DbAppend x a1 a2 :: ops' => db_run (fst (db_append s x true a1 a2)) ops'
  end.
