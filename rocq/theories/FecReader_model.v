(** Model of roc_fec/reader.cpp.

    What the reader calls is not modelled but chosen freely ([renv]): whether memory can be allocated,
    whether the decoder accepts a block, what it restores and whether the restored buffer can be parsed.
    Those answers are indexed by a counter that every such call advances ([r_tick], not in the code).
    The two packet readers are lists of packets, one pair per call to [read]. Logging and the packet
    counter n_packets_ are left out. *)
From Verif Require Import Base Seqnum_model SortedQueue_model.
Open Scope res_scope.
Local Open Scope Z_scope.

(** roc_packet/fec.h:35-81. [c_psize] is payload.size(). *)
Record fec := mkFec { c_scheme : Z; c_esi : nat; c_sbn : Z; c_sblen : nat; c_blen : nat; c_psize : nat }.
(** roc_packet/packet.h: the parts read by reader.cpp; [k_id] is the packet's content, [k_seq] its RTP
    sequence number. *)
Record rpk := mkRpk { k_id : Z; k_seq : option Z; k_fec : option fec }.
(** packet.cpp:173-187, rtp.cpp:24-32, fec.cpp:23-36 *)
Definition pk_cmp (a b : rpk) : Z :=
  match k_seq a, k_seq b with
  | Some x, Some y => rtp_compare x y
  | _, _ =>
    match k_fec a, k_fec b with
    | Some x, Some y => fec_compare (c_sbn x, Z.of_nat (c_esi x)) (c_sbn y, Z.of_nat (c_esi y))
    | _, _ => 0
    end
  end.

(** Everything outside the reader: its configuration (reader.h:29-40, scheme), decoder_.max_block_length(),
    arena (Array::resize), decoder_.begin, and decoder_.repair followed by parse_repaired_packet_
    (259-275) for each index of the given blocks. *)
Record renv := mkRenv { o_scheme : Z; o_jump : Z; o_max : nat; o_alloc : nat -> bool; o_begin : nat -> bool;
                        o_repair : nat -> list (option rpk) -> list (option rpk) -> nat -> option rpk }.
(** reader.h:117-151 *)
Record fr := mkFr { r_src : sq rpk; r_rep : sq rpk; r_sb : list (option rpk); r_rb : list (option rpk);
                    r_alive : bool; r_started : bool; r_can : bool; r_next : nat; r_sbn : Z; r_psize : nat;
                    r_sres : bool; r_rres : bool; r_pres : bool; r_tick : nat }.
(** reader.cpp:18-48 *)
Definition fr_new : fr := mkFr (sq_new 0) (sq_new 0) [] [] true false false 0 0 0 false false false 0.
(** Assignments to single members. *)
Definition set_src (r : fr) x := mkFr x (r_rep r) (r_sb r) (r_rb r) (r_alive r) (r_started r) (r_can r) (r_next r) (r_sbn r) (r_psize r) (r_sres r) (r_rres r) (r_pres r) (r_tick r).
Definition set_rep (r : fr) x := mkFr (r_src r) x (r_sb r) (r_rb r) (r_alive r) (r_started r) (r_can r) (r_next r) (r_sbn r) (r_psize r) (r_sres r) (r_rres r) (r_pres r) (r_tick r).
Definition set_sb (r : fr) x := mkFr (r_src r) (r_rep r) x (r_rb r) (r_alive r) (r_started r) (r_can r) (r_next r) (r_sbn r) (r_psize r) (r_sres r) (r_rres r) (r_pres r) (r_tick r).
Definition set_rb (r : fr) x := mkFr (r_src r) (r_rep r) (r_sb r) x (r_alive r) (r_started r) (r_can r) (r_next r) (r_sbn r) (r_psize r) (r_sres r) (r_rres r) (r_pres r) (r_tick r).
Definition set_dead (r : fr) := mkFr (r_src r) (r_rep r) (r_sb r) (r_rb r) false (r_started r) (r_can r) (r_next r) (r_sbn r) (r_psize r) (r_sres r) (r_rres r) (r_pres r) (r_tick r).
Definition set_started (r : fr) := mkFr (r_src r) (r_rep r) (r_sb r) (r_rb r) (r_alive r) true (r_can r) (r_next r) (r_sbn r) (r_psize r) (r_sres r) (r_rres r) (r_pres r) (r_tick r).
Definition set_can (r : fr) x := mkFr (r_src r) (r_rep r) (r_sb r) (r_rb r) (r_alive r) (r_started r) x (r_next r) (r_sbn r) (r_psize r) (r_sres r) (r_rres r) (r_pres r) (r_tick r).
Definition set_next (r : fr) x := mkFr (r_src r) (r_rep r) (r_sb r) (r_rb r) (r_alive r) (r_started r) (r_can r) x (r_sbn r) (r_psize r) (r_sres r) (r_rres r) (r_pres r) (r_tick r).
Definition set_sbn (r : fr) x := mkFr (r_src r) (r_rep r) (r_sb r) (r_rb r) (r_alive r) (r_started r) (r_can r) (r_next r) x (r_psize r) (r_sres r) (r_rres r) (r_pres r) (r_tick r).
Definition set_pay (r : fr) x := mkFr (r_src r) (r_rep r) (r_sb r) (r_rb r) (r_alive r) (r_started r) (r_can r) (r_next r) (r_sbn r) x (r_sres r) (r_rres r) true (r_tick r).
Definition set_sres (r : fr) := mkFr (r_src r) (r_rep r) (r_sb r) (r_rb r) (r_alive r) (r_started r) (r_can r) (r_next r) (r_sbn r) (r_psize r) true (r_rres r) (r_pres r) (r_tick r).
Definition set_rres (r : fr) := mkFr (r_src r) (r_rep r) (r_sb r) (r_rb r) (r_alive r) (r_started r) (r_can r) (r_next r) (r_sbn r) (r_psize r) (r_sres r) true (r_pres r) (r_tick r).
Definition tick (r : fr) := mkFr (r_src r) (r_rep r) (r_sb r) (r_rb r) (r_alive r) (r_started r) (r_can r) (r_next r) (r_sbn r) (r_psize r) (r_sres r) (r_rres r) (r_pres r) (S (r_tick r)).

(** Packet::fec() followed by a dereference (packet.cpp: NULL without the FEC flag) *)
Definition fec_of (p : rpk) : res fec := match k_fec p with Some f => Ok f | None => UB end.
(** core::Array::operator[] (array.h) panics outside the array *)
Definition arr {A} (l : list A) (i : nat) : res A := match nth_error l i with Some x => Ok x | None => Panic end.
(** core::Array::resize (array.h): keeps a prefix, new elements are NULL *)
Definition resize_to (l : list (option rpk)) (n : nat) : list (option rpk) := firstn n l ++ repeat None (n - length l).

(** reader.cpp:515-532: Panic for a packet without FEC fields, otherwise whether the scheme is right *)
Definition scheme_ok (e : renv) (p : rpk) : res bool :=
  match k_fec p with None => Panic | Some f => Ok (c_scheme f =? o_scheme e) end.
(** reader.cpp:286-309; [err]: the packet reader ends with an error instead of StatusNoData. The first
    two components: the queue and whether the reader is still alive; third: whether the result is OK. *)
Fixpoint fetch (e : renv) (q : sq rpk) (l : list rpk) (err : bool) : res (sq rpk * bool * bool) :=
  match l with
  | [] => Ok (q, true, negb err)
  | p :: l =>
    ok <- scheme_ok e p ;;
    if ok then fetch e (sq_write pk_cmp q p) l err else Ok (q, false, true)
  end.

(** reader.cpp:534-554; the distance is converted to size_t *)
Definition sbn_near (e : renv) (r : fr) (f : fec) : bool :=
  let d := blknum_diff (c_sbn f) (r_sbn r) in
  let d := if d <? 0 then s16 (- d) else d in
  u64 d <=? o_jump e.
(** reader.cpp:556-578 *)
Definition source_ok (f : fec) : bool :=
  (c_esi f <? c_sblen f)%nat && negb (c_sblen f =? 0)%nat
  && (if (c_blen f =? 0)%nat then true else (c_sblen f <=? c_blen f)%nat) && negb (c_psize f =? 0)%nat.
(** reader.cpp:580-606 *)
Definition repair_ok (f : fec) : bool :=
  (c_sblen f <=? c_esi f)%nat && negb (c_sblen f =? 0)%nat
  && (if (c_blen f =? 0)%nat then true else (c_esi f <? c_blen f)%nat && (c_sblen f <=? c_blen f)%nat)
  && negb (c_psize f =? 0)%nat.
(** reader.cpp:608-623 *)
Definition can_payload (r : fr) (n : nat) : bool := (r_psize r =? n)%nat || negb (r_pres r).
(** reader.cpp:642-668 *)
Definition can_source (e : renv) (r : fr) (n : nat) : fr * bool :=
  if (length (r_sb r) =? n)%nat then (r, true)
  else if r_sres r then (r, false)
  else if (o_max e <? n)%nat then (set_dead r, false) else (r, true).
(** reader.cpp:697-723 *)
Definition can_repair_size (e : renv) (r : fr) (n : nat) : fr * bool :=
  if (n =? length (r_sb r) + length (r_rb r))%nat then (r, true)
  else if r_rres r then (r, false)
  else if (o_max e <? n)%nat then (set_dead r, false) else (r, true).
(** reader.cpp:670-695 *)
Definition update_source (e : renv) (r : fr) (n : nat) : fr * bool :=
  if (length (r_sb r) =? n)%nat then (set_sres r, true)
  else if o_alloc e (r_tick r) then (set_sres (set_sb (tick r) (resize_to (r_sb r) n)), true)
  else (set_dead (tick r), false).
(** reader.cpp:725-757 *)
Definition update_repair (e : renv) (r : fr) (n : nat) : res (fr * bool) :=
  if (n =? length (r_sb r) + length (r_rb r))%nat then Ok (set_rres r, true)
  else if (n <=? length (r_sb r))%nat then Panic (* 737 *)
  else if o_alloc e (r_tick r) then Ok (set_rres (set_rb (tick r) (resize_to (r_rb r) (n - length (r_sb r)))), true)
  else Ok (set_dead (tick r), false).
(** reader.cpp:455-479 *)
Definition process_source (e : renv) (r : fr) (f : fec) : fr * bool :=
  if negb (source_ok f) then (r, false)
  else if negb (can_payload r (c_psize f)) then (r, false)
  else let c := can_source e r (c_sblen f) in
       if negb (snd c) then c
       else update_source e (set_pay (fst c) (c_psize f)) (c_sblen f).
(** reader.cpp:481-513 *)
Definition process_repair (e : renv) (r : fr) (f : fec) : res (fr * bool) :=
  if negb (repair_ok f) then Ok (r, false)
  else if negb (can_payload r (c_psize f)) then Ok (r, false)
  else let c := can_source e r (c_sblen f) in
       if negb (snd c) then Ok c
       else let c := can_repair_size e (fst c) (c_blen f) in
            if negb (snd c) then Ok c
            else let u := update_source e (set_pay (fst c) (c_psize f)) (c_sblen f) in
                 if negb (snd u) then Ok u else update_repair e (fst u) (c_blen f).

(** reader.cpp:316-383; [n] bounds the number of iterations, running out of it is reported as [UB] *)
Fixpoint fill_source (n : nat) (e : renv) (r : fr) : res fr :=
  match n with
  | O => UB
  | S n =>
    match sq_head (r_src r) with
    | None => Ok r
    | Some p =>
      f <- fec_of p ;;
      if negb (sbn_near e r f) then Ok (set_dead r)
      else if negb (blknum_le (c_sbn f) (r_sbn r)) then Ok r
      else let r := set_src r (fst (sq_read (r_src r))) in
           if blknum_lt (c_sbn f) (r_sbn r) then fill_source n e r
           else if negb (c_sbn f =? r_sbn r) then Panic
           else let u := process_source e r f in
                let r := fst u in
                if negb (snd u) then fill_source n e r
                else if negb (c_sblen f =? length (r_sb r))%nat then Panic
                else if negb (c_esi f <? length (r_sb r))%nat then Panic
                else o <- arr (r_sb r) (c_esi f) ;;
                     match o with
                     | Some _ => fill_source n e r
                     | None => fill_source n e (set_can (set_sb r (upd (r_sb r) (c_esi f) (Some p))) true)
                     end
    end
  end.
(** reader.cpp:385-453 *)
Fixpoint fill_repair (n : nat) (e : renv) (r : fr) : res fr :=
  match n with
  | O => UB
  | S n =>
    match sq_head (r_rep r) with
    | None => Ok r
    | Some p =>
      f <- fec_of p ;;
      if negb (sbn_near e r f) then Ok (set_dead r)
      else if negb (blknum_le (c_sbn f) (r_sbn r)) then Ok r
      else let r := set_rep r (fst (sq_read (r_rep r))) in
           if blknum_lt (c_sbn f) (r_sbn r) then fill_repair n e r
           else if negb (c_sbn f =? r_sbn r) then Panic
           else u <- process_repair e r f ;;
                let r := fst u in
                if negb (snd u) then fill_repair n e r
                else if negb (c_sblen f =? length (r_sb r))%nat then Panic
                else if negb (length (r_sb r) <=? c_esi f)%nat then Panic
                else if negb (c_esi f <? length (r_sb r) + length (r_rb r))%nat then Panic
                else o <- arr (r_rb r) (c_esi f - c_sblen f) ;;
                     match o with
                     | Some _ => fill_repair n e r
                     | None => fill_repair n e (set_can (set_rb r (upd (r_rb r) (c_esi f - c_sblen f) (Some p))) true)
                     end
    end
  end.
(** reader.cpp:311-314 *)
Definition fill_block (e : renv) (r : fr) : res fr :=
  r <- fill_source (S (length (sq_list (r_src r)))) e r ;;
  fill_repair (S (length (sq_list (r_rep r)))) e r.
(** reader.cpp:759-790 *)
Fixpoint drop_repair (n : nat) (r : fr) : res fr :=
  match n with
  | O => UB
  | S n =>
    match sq_head (r_rep r) with
    | None => Ok r
    | Some p =>
      f <- fec_of p ;;
      if negb (blknum_lt (c_sbn f) (r_sbn r)) then Ok r
      else drop_repair n (set_rep r (fst (sq_read (r_rep r))))
    end
  end.
(** reader.cpp:102-136 *)
Definition try_start (e : renv) (r : fr) : res (fr * bool) :=
  match sq_head (r_src r) with
  | None => Ok (r, false)
  | Some p =>
    f <- fec_of p ;;
    let u := process_source e r f in
    if negb (snd u) then Ok (fst u, false)
    else let r := set_sbn (fst u) (c_sbn f) in
         r <- drop_repair (S (length (sq_list (r_rep r)))) r ;;
         if (0 <? c_esi f)%nat then Ok (r, false) else Ok (set_started r, true)
  end.
(** reader.cpp:181-202 *)
Definition next_block (e : renv) (r : fr) : res fr :=
  fill_block e (mkFr (r_src r) (r_rep r) (repeat None (length (r_sb r))) (repeat None (length (r_rb r))) (r_alive r) (r_started r)
                     false 0 (u16 (r_sbn r + 1)) (r_psize r) false false false (r_tick r)).
(** openfec_decoder.cpp:85-102, 253-284: the codec refuses more symbols than max_block_length(), which
    makes begin panic; otherwise it may fail to allocate *)
Definition dec_begin (e : renv) (r : fr) : res bool :=
  if (o_max e <? length (r_sb r) + length (r_rb r))%nat then Panic else Ok (o_begin e (r_tick r)).
(** reader.cpp:227 and 234, openfec_decoder.cpp:104-123: every stored packet must have FEC fields and a
    payload of the size given to begin *)
Fixpoint dec_set (pay : nat) (l : list (option rpk)) : res unit :=
  match l with
  | [] => Ok tt
  | None :: l => dec_set pay l
  | Some p :: l =>
    f <- fec_of p ;;
    if (c_psize f =? 0)%nat || negb (c_psize f =? pay)%nat then Panic else dec_set pay l
  end.
(** reader.cpp:237-253 *)
Definition restore (e : renv) (r : fr) : list (option rpk) :=
  map (fun i => match nth_error (r_sb r) i with
                | Some (Some p) => Some p
                | _ => o_repair e (r_tick r) (r_sb r) (r_rb r) i
                end) (seq 0 (length (r_sb r))).
(** reader.cpp:204-257 *)
Definition try_repair (e : renv) (r : fr) : res fr :=
  if negb (r_can r) then Ok r
  else if negb (r_sres r && r_rres r && r_pres r) then Ok r
  else ok <- dec_begin e r ;;
       if negb ok then Ok (set_dead (tick r))
       else _ <- dec_set (r_psize r) (r_sb r) ;;
            _ <- dec_set (r_psize r) (r_rb r) ;;
            Ok (set_can (tick (set_sb r (restore e r))) false).
(** reader.cpp:152-156: the first stored packet at or after [pos] *)
Fixpoint first_from (l : list (option rpk)) (n pos : nat) : nat :=
  match n with
  | O => pos
  | S n => match nth_error l pos with Some None => first_from l n (S pos) | _ => pos end
  end.

Inductive rstat := SOk | SNoData | SErr.
(** reader.cpp:143-178; [n] bounds the number of iterations *)
Fixpoint next_loop (n : nat) (e : renv) (r : fr) (pp : option rpk) : res (fr * rstat * option rpk) :=
  match n with
  | O => UB
  | S n =>
    if negb (r_alive r) then Ok (r, SOk, pp)
    else match pp with
         | Some _ =>
           let r := set_next r (S (r_next r)) in
           r <- (if (r_next r =? length (r_sb r))%nat then next_block e r else Ok r) ;;
           Ok (r, SOk, pp)
         | None =>
           r <- try_repair e r ;;
           let pos := first_from (r_sb r) (length (r_sb r) - r_next r) (r_next r) in
           if (pos =? length (r_sb r))%nat then
             if (length (sq_list (r_src r)) =? 0)%nat then Ok (r, SNoData, None)
             else let r := set_next r pos in
                  r <- (if (r_next r =? length (r_sb r))%nat then next_block e r else Ok r) ;;
                  next_loop n e r None
           else
             pp <- arr (r_sb r) pos ;;
             let r := set_next r (S pos) in
             r <- (if (r_next r =? length (r_sb r))%nat then next_block e r else Ok r) ;;
             match pp with
             | Some _ => Ok (r, SOk, pp)
             | None => next_loop n e r None
             end
         end
  end.
(** Enough iterations: one for every block between the reader and the furthest packet it accepts, for
    every queued source packet. *)
Definition loop_bound (e : renv) (r : fr) : nat :=
  (S (length (sq_list (r_src r))) * (Z.to_nat (Z.min (o_jump e) 32768) + 2))%nat.
(** reader.cpp:138-179 *)
Definition get_next (e : renv) (r : fr) : res (fr * rstat * option rpk) :=
  r <- fill_block e r ;;
  pp <- arr (r_sb r) (r_next r) ;;
  next_loop (loop_bound e r) e r pp.

(** One call's worth of input: what the source and repair readers return until they say StatusNoData, or
    an error. *)
Record rin := mkRin { i_src : list rpk; i_srcerr : bool; i_rep : list rpk; i_reperr : bool }.
(** reader.cpp:277-284 *)
Definition fetch_all (e : renv) (r : fr) (i : rin) : res (fr * bool) :=
  x <- fetch e (r_src r) (i_src i) (i_srcerr i) ;;
  let r := set_src r (fst (fst x)) in
  let r := if snd (fst x) then r else set_dead r in
  if negb (snd x) then Ok (r, false)
  else y <- fetch e (r_rep r) (i_rep i) (i_reperr i) ;;
       let r := set_rep r (fst (fst y)) in
       let r := if snd (fst y) then r else set_dead r in
       Ok (r, snd y).
(** reader.cpp:84-100 *)
Definition fr_read_ (e : renv) (r : fr) (i : rin) : res (fr * rstat * option rpk) :=
  x <- fetch_all e r i ;;
  let r := fst x in
  if negb (snd x) then Ok (r, SErr, None)
  else
    y <- (if r_started r then Ok (r, true) else try_start e r) ;;
    let r := fst y in
    if negb (snd y) then
      let q := sq_read (r_src r) in
      Ok (set_src r (fst q), match snd q with Some _ => SOk | None => SNoData end, snd q)
    else get_next e r.
(** reader.cpp:63-82 *)
Definition fr_read (e : renv) (r : fr) (i : rin) : res (fr * rstat * option rpk) :=
  if negb (r_alive r) then Ok (r, SNoData, None)
  else x <- fr_read_ e r i ;;
       let r := fst (fst x) in
       if negb (r_alive r) then Ok (r, SNoData, None) else Ok x.

(** A history of calls to read: the final state and, for every call, is_started() after it, the status
    and the packet. *)
Fixpoint fr_run (e : renv) (r : fr) (is : list rin) : res (fr * list (bool * rstat * option rpk)) :=
  match is with
  | [] => Ok (r, [])
  | i :: is =>
    x <- fr_read e r i ;;
    y <- fr_run e (fst (fst x)) is ;;
    Ok (fst y, (r_started (fst (fst x)), snd (fst x), snd x) :: snd y)
  end.
