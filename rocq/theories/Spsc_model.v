(** Model of roc_core/spsc_byte_buffer.cpp and spsc_ring_buffer.h: one producer
    and one consumer thread interleaving at their accesses to shared memory
    (sequentially consistent; each side's relaxed load of its own position
    always returns what it stored last). A cell is the memory of one element:
    constructing an element over a live one, or reading or destroying a cell
    that does not hold a complete element, is [UB]. Elements are integers. *)
From Verif Require Import Base.

Inductive cell := Empty | Torn | Full (v : Z).
(** Where the producer is: after begin_write, constructing, constructed *)
Inductive prod := PIdle | PBegun (v k : Z) | PConstructing (v k : Z) | PConstructed (v k : Z).
(** Where the consumer is: after begin_read, copied, destroyed *)
Inductive cons := CIdle | CBegun (k : Z) | CCopied (v k : Z) | CDestroyed (v k : Z).
Record spsc := mkSpsc { sr_rd : Z; sr_wr : Z; sr_cells : Z -> cell; sr_prod : prod; sr_cons : cons }.

(** spsc_byte_buffer.cpp:16-23: positions of a buffer for [n] elements *)
Definition chunk_count (n : Z) : Z := n + 1.
Definition sr_new : spsc := mkSpsc 0 1 (fun _ => Empty) PIdle CIdle.

Definition set_cell (f : Z -> cell) (k : Z) (c : cell) : Z -> cell := fun j => if j =? k then c else f j.

(** spsc_byte_buffer.cpp:54-65 and 73-84: chunk index or NULL *)
Definition begin_write (n : Z) (s : spsc) : option Z :=
  if u32 (sr_wr s - sr_rd s) >=? chunk_count n then None else Some (sr_wr s mod chunk_count n).
Definition begin_read (n : Z) (s : spsc) : option Z :=
  if u32 (sr_rd s + 1) =? sr_wr s then None else Some (u32 (sr_rd s + 1) mod chunk_count n).

Inductive slabel := LPush (v : Z) | LConstruct | LConstructed | LEndWrite | LPop | LCopy | LDestroy | LEndRead.
Inductive srout := RNone | RPush (v : Z) (ok : bool) | RPop (r : option Z).

(** spsc_ring_buffer.h:62-73 (push_back) and 79-92 (pop_front), step by step;
    [None]: the thread is not at this step. *)
Definition sr_step (n : Z) (s : spsc) (l : slabel) : option (res (srout * spsc)) :=
  let 'mkSpsc rd wr cells p c := s in
  match l, p, c with
  | LPush v, PIdle, _ =>
      Some (Ok match begin_write n s with
               | None => (RPush v false, s)
               | Some k => (RNone, mkSpsc rd wr cells (PBegun v k) c)
               end)
  | LConstruct, PBegun v k, _ =>
      Some match cells k with
           | Empty => Ok (RNone, mkSpsc rd wr (set_cell cells k Torn) (PConstructing v k) c)
           | _ => UB
           end
  | LConstructed, PConstructing v k, _ => Some (Ok (RNone, mkSpsc rd wr (set_cell cells k (Full v)) (PConstructed v k) c))
  | LEndWrite, PConstructed v k, _ => Some (Ok (RPush v true, mkSpsc rd (u32 (wr + 1)) cells PIdle c))
  | LPop, _, CIdle =>
      Some (Ok match begin_read n s with
               | None => (RPop None, s)
               | Some k => (RNone, mkSpsc rd wr cells p (CBegun k))
               end)
  | LCopy, _, CBegun k =>
      Some match cells k with
           | Full v => Ok (RNone, mkSpsc rd wr cells p (CCopied v k))
           | _ => UB
           end
  | LDestroy, _, CCopied v k =>
      Some match cells k with
           | Full _ => Ok (RNone, mkSpsc rd wr (set_cell cells k Empty) p (CDestroyed v k))
           | _ => UB
           end
  | LEndRead, _, CDestroyed v k => Some (Ok (RPop (Some v), mkSpsc (u32 (rd + 1)) wr cells p CIdle))
  | _, _, _ => None
  end.

Open Scope res_scope.
Fixpoint sr_run (n : Z) (s : spsc) (ls : list slabel) : res (list srout * spsc) :=
  match ls with
  | [] => Ok ([], s)
  | l :: ls' =>
      match sr_step n s l with
      | None => sr_run n s ls'
      | Some r => x <- r ;; y <- sr_run n (snd x) ls' ;; Ok (fst x :: fst y, snd y)
      end
  end.
