(** What memory of an arena should be, told from the history of calls and what they
    returned. *)
From Verif Require Import Base HeapArena_model.

(** Who asked for the memory at [p], for how much, and whether it is still in use: it was
    not given back to the arena it came from. *)
Definition status (h : list (op * resp)) (p : nat) : option (Z * Z * bool) :=
  fold_left (fun st e => match e with
    | (Alloc a n _, RPtr (Some q)) => if Nat.eqb q p then Some (a, n, true) else st
    | (Dealloc b (Some q), _) =>
        match st with
        | Some (a, n, _) => if Nat.eqb q p && (a =? b) then Some (a, n, false) else st
        | None => None
        end
    | _ => st end) h None.

Definition in_use (h : list (op * resp)) (p : nat) (a n : Z) : Prop := status h p = Some (a, n, true).

(** The byte at offset [i] from [p]: the last one stored, or what it was at first: 0x7a
    inside of the memory asked for, 0x7b around it. *)
Definition byte_at (h : list (op * resp)) (p : nat) (i : Z) : option Z :=
  fold_left (fun st e => match e with
    | (Alloc a n _, RPtr (Some q)) =>
        if Nat.eqb q p then Some (if (0 <=? i) && (i <? n) then 0x7a else 0x7b) else st
    | (Store q j v, _) => if Nat.eqb q p && (j =? i) then Some v else st
    | _ => st end) h None.

(** Some byte within 16 bytes before or after the memory is not what it was. *)
Definition overrun (h : list (op * resp)) (p : nat) (n : Z) : Prop :=
  exists i, (-16 <= i < 0 \/ n <= i < n + 16) /\ byte_at h p i <> Some 0x7b.

(** How many pointers the calls returned, and which of them an arena has in use. *)
Definition returned (h : list (op * resp)) : nat :=
  length (filter (fun e => match e with (Alloc _ _ _, RPtr (Some _)) => true | _ => false end) h).
Definition in_use_of (h : list (op * resp)) (a : Z) : list nat :=
  filter (fun p => match status h p with Some (b, _, l) => (b =? a) && l | None => false end)
         (seq 0 (returned h)).

(** The guards that are on: for leaks, overruns and foreign memory. *)
Definition guards_on (h : list (op * resp)) : bool * bool * bool :=
  fold_left (fun st e => match e with (Guards l o w, _) => (l, o, w) | _ => st end) h (false, true, true).

(** Sizes are machine words. *)
Definition sized (o : op) : Prop :=
  match o with Alloc _ n _ => 0 <= n < 2 ^ 64 | _ => True end.

(** A call of a program that uses memory it has, within 16 bytes around it, and asks for
    no more than there can be. *)
Definition fair (h : list (op * resp)) (o : op) : Prop :=
  match o with
  | Alloc _ n _ => 0 <= n < 2 ^ 64 - 48
  | Dealloc _ (Some p) | SizeOf _ (Some p) => exists a n, in_use h p a n
  | Store p i _ | Load p i => exists a n, in_use h p a n /\ -16 <= i < n + 16
  | _ => True
  end.
