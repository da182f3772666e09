(** What a receiver expects from the FEC reader, without reference to the reader's state.

    A position is a block, counted without wrapping, and the place of the packet inside the block.
    [S] and [R] are the source and repair packets handed to the reader. *)
From Verif Require Import Base FecReader_model.
Local Open Scope Z_scope.

Definition pos := (Z * nat)%type.
Definition before (x y : pos) : Prop := fst x < fst y \/ (fst x = fst y /\ (snd x < snd y)%nat).

Section Spec.
Variable e : renv.
Variables S R : rpk -> Prop.

(** The packet is one of the source packets handed over, and carries this position. *)
Definition received (x : pos) (p : rpk) : Prop :=
  S p /\ exists f, k_fec p = Some f /\ c_sbn f = u16 (fst x) /\ c_esi f = snd x.
(** The same for repair packets of a block of [k] source packets. *)
Definition received_repair (b : Z) (k i : nat) (p : rpk) : Prop :=
  R p /\ exists f, k_fec p = Some f /\ c_sbn f = u16 b /\ c_esi f = (k + i)%nat /\ c_sblen f = k.
(** The packet is what the decoder made for this position, which nothing was received for, out of
    packets received for the same block. *)
Definition restored (x : pos) (p : rpk) : Prop :=
  exists t sa ra, o_repair e t sa ra (snd x) = Some p /\ nth_error sa (snd x) = Some None
    /\ (forall j q, nth_error sa j = Some (Some q) -> received (fst x, j) q)
    /\ (forall j q, nth_error ra j = Some (Some q) -> received_repair (fst x) (length sa) j q).
Definition right_packet (x : pos) (p : rpk) : Prop := received x p \/ restored x p.

(** A packet handed over says that block [b] has [k] source packets. *)
Definition block_length (b : Z) (k : nat) : Prop :=
  exists q f, (S q \/ R q) /\ k_fec q = Some f /\ c_sbn f = u16 b /\ c_sblen f = k.
(** A source packet of one of the [o_jump] blocks after block [b] was handed over. *)
Definition later_source (b : Z) : Prop :=
  exists q f, S q /\ k_fec q = Some f /\ 1 <= s16 (c_sbn f - u16 b) <= o_jump e.
(** Going from position [x] to position [y]: every block left behind is finished, or a source packet
    of a later block was there. *)
Definition may_skip (x y : pos) : Prop :=
  forall c, fst x <= c < fst y -> (c = fst x /\ block_length c (Datatypes.S (snd x))) \/ later_source c.

(** The positions of the packets read, oldest first. *)
Inductive in_order : list pos -> Prop :=
| io_first b : in_order [(b, O)]
| io_next l x y : in_order (l ++ [x]) -> before x y -> may_skip x y -> in_order (l ++ [x; y]).
End Spec.

(** The packets read since decoding started. *)
Fixpoint decoded (outs : list (bool * rstat * option rpk)) : list rpk :=
  match outs with
  | [] => []
  | (true, SOk, Some p) :: outs => p :: decoded outs
  | _ :: outs => decoded outs
  end.
(** The packets read before. *)
Fixpoint forwarded (outs : list (bool * rstat * option rpk)) : list rpk :=
  match outs with
  | [] => []
  | (false, SOk, Some p) :: outs => p :: forwarded outs
  | _ :: outs => forwarded outs
  end.
(** source_block_number is a 16-bit number *)
Definition typed (p : rpk) : Prop := forall f, k_fec p = Some f -> 0 <= c_sbn f < 65536.
(** receiver_session.cpp:112: the parser of restored packets does not look for FEC fields *)
Definition plain (e : renv) : Prop := forall t sa ra i p, o_repair e t sa ra i = Some p -> k_fec p = None.
Definition sources (is : list rin) : list rpk := flat_map i_src is.
Definition repairs (is : list rin) : list rpk := flat_map i_rep is.
