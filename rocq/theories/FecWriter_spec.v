(** C13: blocks of source and repair packets. *)
From Verif Require Import Base FecWriter_model.
Local Open Scope Z_scope.

(** A block: its numbers of source and repair packets, the size of its packets, the source packets, and
    which repair packets could be made. *)
Record block := mkBlock { k_s : nat; k_r : nat; k_pay : Z; k_src : list Z; k_made : list nat }.
Definition tagk (b : block) (sbn : Z) (i : nat) : ftag := mkTag (Z.of_nat i) sbn (Z.of_nat (k_s b)) (Z.of_nat (k_s b + k_r b)).
(** source packets [ids], the first at position [i] *)
Fixpoint sources (b : block) (sbn : Z) (i : nat) (ids : list Z) : list wev :=
  match ids with [] => [] | x :: r => [ESet (Z.of_nat i) (Src x); EOut (Src x) (tagk b sbn i)] ++ sources b sbn (S i) r end.
Definition opening (b : block) (sbn : Z) : list wev :=
  [EBegin (Z.of_nat (k_s b)) (Z.of_nat (k_r b)) (k_pay b)] ++ sources b sbn 0 (k_src b).
(** repair packets have positions following those of the source packets; all are given to the encoder
    before it computes them, all are sent after that *)
Definition closing (b : block) (sbn : Z) : list wev :=
  map (fun i => ESet (Z.of_nat (k_s b + i)) (Rep i)) (k_made b) ++ [EFill] ++
  map (fun i => EOut (Rep i) (tagk b sbn (k_s b + i))) (k_made b) ++ [EEnd].
Definition whole (b : block) (sbn : Z) : list wev := opening b sbn ++ closing b sbn.
(** consecutive blocks are numbered modulo 2^16 *)
Fixpoint blocks (sbn : Z) (l : list block) : list wev :=
  match l with [] => [] | b :: r => whole b sbn ++ blocks ((sbn + 1) mod 2 ^ 16) r end.
Definition number (sbn : Z) (n : nat) : Z := (sbn + Z.of_nat n) mod 2 ^ 16.
Definition whole_ok (mx : Z) (b : block) : Prop :=
  (1 <= k_s b)%nat /\ Z.of_nat (k_s b + k_r b) <= mx /\ length (k_src b) = k_s b /\ exists f, k_made b = filter f (seq 0 (k_r b)).
(** the last block has at least one source packet and is not complete *)
Definition part_ok (mx : Z) (b : block) : Prop := (1 <= length (k_src b) < k_s b)%nat /\ Z.of_nat (k_s b + k_r b) <= mx.

(** The packets written, each with the block sizes in effect when it was written: those of the last
    accepted change. *)
Definition accepted (mx s r : Z) : bool := (0 <? s) && (s + r <=? mx).
Fixpoint written (mx s r : Z) (cs : list wcall) : list (wpk * (Z * Z)) :=
  match cs with
  | [] => []
  | CWrite p _ :: cs => (p, (s, r)) :: written mx s r cs
  | CResize s' r' :: cs => if accepted mx s' r' then written mx s' r' cs else written mx s r cs
  end.
(** the block consists of the first of these packets, and has the sizes in effect when its first packet
    was written *)
Definition block_of (b : block) (l : list (wpk * (Z * Z))) : Prop :=
  match l with
  | [] => False
  | (p, (s, r)) :: _ => Z.of_nat (k_s b) = s /\ Z.of_nat (k_r b) = r /\ k_pay b = q_size p /\ k_pay b <> 0 /\ k_src b = map (fun x => q_id (fst x)) l /\ Forall (fun x => q_size (fst x) = k_pay b) l
  end.
(** consecutive parts of the packets written *)
Inductive parts : list block -> list (wpk * (Z * Z)) -> list (wpk * (Z * Z)) -> Prop :=
| P_nil l : parts [] l l
| P_cons b l1 l2 rest bs : block_of b l1 -> parts bs l2 rest -> parts (b :: bs) (l1 ++ l2) rest.
(** no call fails *)
Definition calm (v : wenv) : Prop :=
  v_alloc v = true /\ v_begin v = true /\ v_compose v = true /\ v_write v = true /\
  (forall i, v_make v i = true) /\ (forall i, v_valid v i = true) /\ (forall i, v_rcompose v i = true) /\ (forall i, v_rwrite v i = true).
Definition in_range (c : wcall) : Prop := match c with CResize s r => 0 <= s < 2 ^ 63 /\ 0 <= r < 2 ^ 63 | CWrite p _ => 0 <= q_size p end.
(** what follows the whole blocks: nothing, a block the encoder refused, or the beginning of a block;
    while the writer is alive nothing is left out *)
Inductive tail_ok (mx sbn : Z) (alive : bool) : list wev -> list (wpk * (Z * Z)) -> Prop :=
| T_none rest : (alive = true -> rest = []) -> tail_ok mx sbn alive [] rest
| T_refused s r pay rest : alive = false -> tail_ok mx sbn alive [EBegin s r pay] rest
| T_open b l1 l2 : block_of b l1 -> part_ok mx b -> (alive = true -> l2 = []) -> tail_ok mx sbn alive (opening b sbn) (l1 ++ l2).
Definition envs (cs : list wcall) : list wenv := flat_map (fun c => match c with CWrite _ v => [v] | _ => [] end) cs.
Definition good_call (scheme : Z) (c : wcall) : Prop :=
  match c with CWrite p v => calm v /\ q_prepared p = true /\ q_composed p = false /\ q_fec p = true /\ q_scheme p = scheme /\ 0 < q_size p | CResize _ _ => True end.
(** a packet differs in size from those before it in the same block *)
Definition misfit (mx : Z) (l : list (wpk * (Z * Z))) : Prop :=
  exists bs b l1 x l2, parts bs l (l1 ++ x :: l2) /\ block_of b l1 /\ part_ok mx b /\ q_size (fst x) <> k_pay b.
(** the source packets sent *)
Definition sent (es : list wev) : list Z := flat_map (fun e => match e with EOut (Src x) _ => [x] | _ => [] end) es.
