(** A sender's stream and when a receiver can play all of it, without reference to the reader's state. *)
From Verif Require Import Base FecReader_model FecReader_spec.
Local Open Scope Z_scope.

(** The stream: block [j] has [len j] source packets [src j 0], [src j 1], ... and repair packets numbered
    [len j] to [total j - 1], all with payloads of [pay j] bytes. *)
Record sender := mkSender { len : nat -> nat; total : nat -> nat; pay : nat -> nat; src : nat -> nat -> rpk; rep : nat -> nat -> rpk }.
(** A place in the stream: block and number inside it. *)
Definition place := (nat * nat)%type.
Section Stream.
Variable s : sender.
(** The number of source packets before block [j], and before a place. *)
Fixpoint first (j : nat) : nat := match j with O => O | S j => (first j + len s j)%nat end.
Definition index (x : place) : nat := (first (fst x) + snd x)%nat.
Definition source_place (x : place) : Prop := (snd x < len s (fst x))%nat.
Definition repair_place (x : place) : Prop := (len s (fst x) <= snd x < total s (fst x))%nat.
Definition sp (x : place) : rpk := src s (fst x) (snd x).
Definition rp (x : place) : rpk := rep s (fst x) (snd x).
(** What the sender writes into the packets: block numbers and sequence numbers count modulo 2^16 from
    any start; every block fits the decoder. *)
Record sends (e : renv) (s0 q0 : Z) : Prop := {
  sd_len : forall j, (0 < len s j < total s j)%nat /\ (total s j <= o_max e)%nat /\ Z.of_nat (total s j) < 65536 /\ pay s j <> O;
  sd_src : forall x, source_place x -> k_seq (sp x) = Some ((q0 + Z.of_nat (index x)) mod 65536)
    /\ exists bl, k_fec (sp x) = Some (mkFec (o_scheme e) (snd x) ((s0 + Z.of_nat (fst x)) mod 65536) (len s (fst x)) bl (pay s (fst x)))
                  /\ (bl = O \/ (len s (fst x) <= bl)%nat);
  sd_rep : forall x, repair_place x -> k_seq (rp x) = None
    /\ k_fec (rp x) = Some (mkFec (o_scheme e) (snd x) ((s0 + Z.of_nat (fst x)) mod 65536) (len s (fst x)) (total s (fst x)) (pay s (fst x))) }.

(** The number of packets present. *)
Definition cnt (l : list (option rpk)) : nat := length (filter (fun o => match o with Some _ => true | None => false end) l).
(** A decoder that needs as many packets of a block, of any kind, as the block has source packets, and
    then restores what was sent. *)
Record decodes (e : renv) : Prop := {
  dc_all : forall t sa ra i, (length sa <= cnt sa + cnt ra)%nat -> (i < length sa)%nat -> o_repair e t sa ra i <> None;
  dc_none : forall t sa ra i, (cnt sa + cnt ra < length sa)%nat -> o_repair e t sa ra i = None;
  dc_right : forall t b sa ra i p, length sa = len s b ->
    (forall j q, nth_error sa j = Some (Some q) -> q = sp (b, j)) ->
    (forall j q, nth_error ra j = Some (Some q) -> q = rp (b, len s b + j)%nat) ->
    o_repair e t sa ra i = Some p -> k_id p = k_id (sp (b, i)) }.

(** A history of reads: what arrived before each, source and repair packets. *)
Definition arrivals := list (list place * list place).
Definition calls (h : arrivals) : list rin := map (fun x => mkRin (map sp (fst x)) false (map rp (snd x)) false) h.
Definition came_s (h : arrivals) : list place := flat_map fst h.
Definition came_r (h : arrivals) : list place := flat_map snd h.
Definition place_eqb (x y : place) : bool := Nat.eqb (fst x) (fst y) && Nat.eqb (snd x) (snd y).
(** How many of the [n] places from [(b, i)] on are in the list. *)
Definition among (l : list place) (b i n : nat) : nat := length (filter (fun k => existsb (place_eqb (b, k)) l) (seq i n)).
(** One read, the [m] packets before having been returned: packets that have just arrived are not too far
    from the next packet to return; and if some packet after that one has arrived, then it has arrived
    itself or enough packets of its block have. *)
Definition in_time (h : arrivals) (x : list place * list place) (m : nat) : Prop :=
  (forall y, In y (fst x) -> source_place y /\ - 16384 < Z.of_nat (index y) - Z.of_nat m < 16384) /\
  forall b i, (i < len s b)%nat -> index (b, i) = m ->
    (forall y, In y (snd x) -> repair_place y /\ - 16384 < Z.of_nat (fst y) - Z.of_nat b < 16384) /\
    ((exists y, In y (came_s (h ++ [x])) /\ (m < index y)%nat) -> In (b, i) (came_s (h ++ [x])) \/
       (len s b <= among (came_s (h ++ [x])) b 0 (len s b) + among (came_r (h ++ [x])) b (len s b) (total s b - len s b))%nat).
(** Every read is in time, and the first source packets to arrive include the first packet of the
    stream. *)
Definition playable (e : renv) (h : arrivals) : Prop := forall h1 x h2 r outs, h = h1 ++ x :: h2 -> fr_run e fr_new (calls h1) = Ok (r, outs) ->
  in_time h1 x (length (decoded outs)) /\ (came_s h1 = [] -> fst x <> [] -> In (O, O) (fst x)).
End Stream.
