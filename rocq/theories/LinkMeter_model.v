(* Model of roc_rtp/link_meter.cpp: LinkMeter. A packet is [None] if it is not
   RTP, else its payload type and sequence number; forwarding to the writer and
   the RTT copied from reports are left out. *)
From Coq Require Import ZArith List Bool.
From Verif Require Import Base Seqnum_model.
Import ListNotations.
Local Open Scope Z_scope.

(* link_meter.h:93-106; the encoding is represented by its payload type *)
Record lm := mkLm {
  lm_enc : option Z; lm_first_packet : bool; lm_has : bool;
  lm_first : Z; lm_hi : Z; lm_lo : Z;
  lm_ext_first : Z; lm_ext_last : Z   (* metrics_ *)
}.

(* link_meter.cpp:16-26 *)
Definition lm_new : lm := mkLm None true false 0 0 0 0 0.

(* link_meter.cpp:100-129: update_metrics_ *)
Definition update_metrics (st : lm) (seq : Z) : lm :=
  let first := if (lm_first_packet st || (seqnum_diff seq (lm_first st) <? 0)) && (lm_hi st =? 0)
               then seq else lm_first st in
  let later := lm_first_packet st || (0 <? seqnum_diff seq (lm_lo st)) in
  let hi := if later && (seq <? lm_lo st) then u32 (lm_hi st + 65535) else lm_hi st in
  let lo := if later then seq else lm_lo st in
  mkLm (lm_enc st) false true first hi lo first (u32 (hi + lo)).

(* link_meter.cpp:54-77: write; [find] says whether a payload type is in the encoding map *)
Definition lm_write (find : Z -> bool) (st : lm) (p : option (Z * Z)) : lm :=
  match p with
  | None => st
  | Some (pt, seq) =>
      let enc := match lm_enc st with
                 | Some e => if e =? pt then Some e else if find pt then Some pt else None
                 | None => if find pt then Some pt else None
                 end in
      let st := mkLm enc (lm_first_packet st) (lm_has st) (lm_first st) (lm_hi st) (lm_lo st) (lm_ext_first st) (lm_ext_last st) in
      match enc with Some _ => update_metrics st seq | None => st end
  end.

Definition lm_run (find : Z -> bool) (st : lm) (ps : list (option (Z * Z))) : lm := fold_left (lm_write find) ps st.
