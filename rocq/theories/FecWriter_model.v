(** Model of roc_fec/writer.cpp.

    Sizes are Z (size_t). What the writer calls is not modelled but chosen freely for each call to
    [write]: whether memory can be allocated, whether the encoder accepts a block, whether packets can
    be prepared and composed, whether the next writer succeeds ([wenv]). The calls to the encoder and
    to the next writer are recorded in order ([wev]). *)
From Verif Require Import Base.
Open Scope res_scope.
Local Open Scope Z_scope.

(** A packet passed to the writer: roc_packet/packet.h, fields used by writer.cpp:305-341. [q_id] is
    its identity, [q_size] the size of its FEC payload. *)
Record wpk := mkWpk { q_id : Z; q_size : Z; q_prepared : bool; q_composed : bool; q_fec : bool; q_scheme : Z }.
(** A payload or packet: a source packet, or the repair packet made for a slot of the current block. *)
Inductive sym := Src (id : Z) | Rep (slot : nat).
(** roc_packet/fec.h:35-81, filled by writer.cpp:295-303 *)
Record ftag := mkTag { g_esi : Z; g_sbn : Z; g_sblen : Z; g_blen : Z }.
Inductive wev :=
| EBegin (sblen rblen payload : Z)   (* encoder_.begin *)
| ESet (index : Z) (x : sym)         (* encoder_.set *)
| EFill | EEnd                       (* encoder_.fill, encoder_.end *)
| EOut (x : sym) (t : ftag).         (* writer_.write *)
Record wenv := mkEnv { v_alloc : bool; v_begin : bool; v_compose : bool; v_write : bool;
                       v_make : nat -> bool;     (* 219-242: packet, buffer, align, prepare *)
                       v_valid : nat -> bool;    (* 247: the packet prepared has the right scheme *)
                       v_rcompose : nat -> bool; v_rwrite : nat -> bool }.
(** writer.h:98-126 *)
Record fwr := mkFwr { f_cs : Z; f_ns : Z; f_cr : Z; f_nr : Z; f_pay : Z; f_block : list (option (sym * ftag)); f_first : bool;
                      f_sbn : Z; f_rsn : Z; f_cur : Z; f_scheme : Z; f_max : Z; f_valid : bool; f_alive : bool }.
Definition kill (w : fwr) : fwr := mkFwr (f_cs w) (f_ns w) (f_cr w) (f_nr w) (f_pay w) (f_block w) (f_first w) (f_sbn w) (f_rsn w) (f_cur w) (f_scheme w) (f_max w) (f_valid w) false.
Definition blk_upd (w : fwr) (l : list (option (sym * ftag))) : fwr := mkFwr (f_cs w) (f_ns w) (f_cr w) (f_nr w) (f_pay w) l (f_first w) (f_sbn w) (f_rsn w) (f_cur w) (f_scheme w) (f_max w) (f_valid w) (f_alive w).
Definition cur_upd (w : fwr) (n : Z) : fwr := mkFwr (f_cs w) (f_ns w) (f_cr w) (f_nr w) (f_pay w) (f_block w) (f_first w) (f_sbn w) (f_rsn w) n (f_scheme w) (f_max w) (f_valid w) (f_alive w).
Definition first_upd (w : fwr) : fwr := mkFwr (f_cs w) (f_ns w) (f_cr w) (f_nr w) (f_pay w) (f_block w) false (f_sbn w) (f_rsn w) (f_cur w) (f_scheme w) (f_max w) (f_valid w) (f_alive w).

(** writer.cpp:60-92 *)
Definition f_resize (w : fwr) (s r : Z) : fwr * bool :=
  if (f_ns w =? s) && (f_nr w =? r) then (w, true)
  else if s =? 0 then (w, false)
  else if f_max w <? u64 (s + r) then (w, false)
  else (mkFwr (f_cs w) s (f_cr w) r (f_pay w) (f_block w) (f_first w) (f_sbn w) (f_rsn w) (f_cur w) (f_scheme w) (f_max w) (f_valid w) (f_alive w), true).
(** writer.cpp:19-50; [sbn], [rsn] are the random numbers, [mx] is the encoder's maximum block length *)
Definition f_new (s r scheme mx sbn rsn : Z) : fwr :=
  let '(w, ok) := f_resize (mkFwr 0 0 0 0 0 [] true sbn rsn 0 scheme mx false true) s r in
  if ok then mkFwr (f_cs w) (f_ns w) (f_cr w) (f_nr w) (f_pay w) (f_block w) (f_first w) (f_sbn w) (f_rsn w) (f_cur w) (f_scheme w) (f_max w) true (f_alive w) else w.
(** writer.cpp:305-325 *)
Definition check_packet (w : fwr) (p : wpk) : bool := q_prepared p && negb (q_composed p) && q_fec p && (q_scheme p =? f_scheme w).
(** writer.cpp:295-303; the number of the packet is a seqnum_t *)
Definition tag (w : fwr) (n : Z) : ftag := mkTag n (f_sbn w) (f_cs w) (u64 (f_cs w + f_cr w)).
(** writer.cpp:171-192, core::Array::resize (array.h) *)
Definition resize_block (l : list (option (sym * ftag))) (n : nat) : list (option (sym * ftag)) := firstn n l ++ repeat None (n - length l).
Definition apply_sizes (w : fwr) (s r pay : Z) (alloc : bool) : fwr * bool :=
  if pay =? 0 then (kill w, false)
  else if negb (Z.of_nat (length (f_block w)) =? r) && negb alloc then (kill w, false)
  else let l := if Z.of_nat (length (f_block w)) =? r then f_block w else resize_block (f_block w) (Z.to_nat r) in
       (mkFwr s (f_ns w) r (f_nr w) pay l (f_first w) (f_sbn w) (f_rsn w) (f_cur w) (f_scheme w) (f_max w) (f_valid w) (f_alive w), true).
(** writer.cpp:135-154 *)
Definition begin_block (w : fwr) (p : wpk) (v : wenv) : fwr * bool * list wev :=
  let '(w, ok) := apply_sizes w (f_ns w) (f_nr w) (q_size p) (v_alloc v) in
  if negb ok then (w, false, [])
  else if v_begin v then (w, true, [EBegin (f_cs w) (f_cr w) (f_pay w)]) else (kill w, false, [EBegin (f_cs w) (f_cr w) (f_pay w)]).
(** writer.cpp:194-206 *)
Definition write_source (w : fwr) (p : wpk) (v : wenv) : res (list wev) :=
  if negb (v_compose v) then Panic
  else if negb (v_write v) then Panic (* 123 *)
  else Ok [ESet (f_cur w) (Src (q_id p)); EOut (Src (q_id p)) (tag w (u16 (f_cur w)))].
(** writer.cpp:208-251 *)
Fixpoint make_repair (w : fwr) (v : wenv) (l : list (option (sym * ftag))) (is : list nat) : res (list (option (sym * ftag))) :=
  match is with
  | [] => Ok l
  | i :: is =>
    if v_make v i then
      if v_valid v i then l <- wr l i (Some (Rep i, tag w (u16 (u16 (f_cs w) + u16 (Z.of_nat i))))) ;; make_repair w v l is else Panic
    else make_repair w v l is
  end.
(** writer.cpp:253-261 *)
Fixpoint encode_repair (w : fwr) (l : list (option (sym * ftag))) (is : list nat) : res (list wev) :=
  match is with
  | [] => Ok [EFill]
  | i :: is => o <- rd l i ;; es <- encode_repair w l is ;; Ok (match o with Some (x, _) => [ESet (u64 (f_cs w + Z.of_nat i)) x] | None => [] end ++ es)
  end.
(** writer.cpp:263-276 *)
Fixpoint compose_repair (v : wenv) (l : list (option (sym * ftag))) (is : list nat) : res unit :=
  match is with
  | [] => Ok tt
  | i :: is => o <- rd l i ;; match o with Some _ => if v_rcompose v i then compose_repair v l is else Panic | None => compose_repair v l is end
  end.
(** writer.cpp:278-293 *)
Fixpoint write_repair (v : wenv) (l : list (option (sym * ftag))) (is : list nat) : res (list (option (sym * ftag)) * list wev) :=
  match is with
  | [] => Ok (l, [])
  | i :: is =>
    o <- rd l i ;;
    match o with
    | Some (x, t) => if v_rwrite v i then l <- wr l i None ;; p <- write_repair v l is ;; Ok (fst p, EOut x t :: snd p) else Panic
    | None => write_repair v l is
    end
  end.
(** writer.cpp:156-163 *)
Definition end_block (w : fwr) (v : wenv) : res (fwr * list wev) :=
  let is := seq 0 (Z.to_nat (f_cr w)) in
  l <- make_repair w v (f_block w) is ;;
  es <- encode_repair w l is ;;
  _ <- compose_repair v l is ;;
  p <- write_repair v l is ;;
  Ok (blk_upd w (fst p), es ++ snd p ++ [EEnd]).
(** writer.cpp:165-169 *)
Definition next_block (w : fwr) : fwr :=
  mkFwr (f_cs w) (f_ns w) (f_cr w) (f_nr w) (f_pay w) (f_block w) (f_first w) (u16 (f_sbn w + 1)) (u16 (f_rsn w + u16 (f_cr w))) 0 (f_scheme w) (f_max w) (f_valid w) (f_alive w).
(** writer.cpp:94-133 *)
Definition f_write (w : fwr) (p : wpk) (v : wenv) : res (fwr * list wev) :=
  if negb (f_valid w) then Panic
  else if negb (f_alive w) then Ok (w, [])
  else if negb (check_packet w p) then Panic
  else
    let w := first_upd w in
    let '(w, ok, es) := if f_cur w =? 0 then begin_block w p v else (w, true, []) in
    if negb ok then Ok (w, es)
    else if negb (q_size p =? f_pay w) then Ok (kill w, es) (* 327-341 *)
    else
      es2 <- write_source w p v ;;
      let w := cur_upd w (u64 (f_cur w + 1)) in
      if f_cur w =? f_cs w then
        r <- end_block w v ;; Ok (next_block (fst r), es ++ es2 ++ snd r)
      else Ok (w, es ++ es2).
(** *** Sequences of calls *)
Inductive wcall := CWrite (p : wpk) (v : wenv) | CResize (s r : Z).
Definition f_call (w : fwr) (c : wcall) : res (fwr * list wev) :=
  match c with CWrite p v => f_write w p v | CResize s r => Ok (fst (f_resize w s r), []) end.
Fixpoint f_run (w : fwr) (cs : list wcall) : res (fwr * list wev) :=
  match cs with [] => Ok (w, []) | c :: cs => a <- f_call w c ;; b <- f_run (fst a) cs ;; Ok (fst b, snd a ++ snd b) end.
