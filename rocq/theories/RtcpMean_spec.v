(** C15: what any bytes in an RTCP packet mean (RFC 3550 6.4-6.6, RFC 3611). Lists of bytes are taken
    apart from the left; nothing here refers to positions or to the state of an iterator. The flag says
    that the bytes do not follow the format. *)
From Verif Require Import Base RtcpTrav_model.
Local Open Scope Z_scope.

(** big-endian number; field of [n] bytes from the [i]-th on *)
Definition num (l : list Z) : Z := fold_left (fun a b => a * 256 + b) l 0.
Definition fld (l : list Z) (i n : nat) : Z := num (firstn n (skipn i l)).

(** *** Source descriptions *)
(** [n] chunks are announced; [k] bytes of the current chunk have been read *)
Inductive chunks : nat -> list Z -> list sview -> bool -> Prop :=
| C_done bs : chunks 0 bs [] false
| C_short n bs : (length bs < 4)%nat -> chunks (S n) bs [] true
| C_chunk n a b c d bs vs e : items n 4 bs vs e -> chunks (S n) (a :: b :: c :: d :: bs) (SChunkV (num [a; b; c; d]) :: vs) e
with items : nat -> nat -> list Z -> list sview -> bool -> Prop :=
| I_last n k vs e : chunks n [] vs e -> items n k [] vs e                  (* no bytes left: also the end of the items *)
| I_null n k bs vs e : chunks n (skipn (3 - k mod 4) bs) vs e -> items n k (0 :: bs) vs e   (* up to the end of the word *)
| I_cut n k t : t <> 0 -> items n k [t] [] true
| I_long n k t x bs : t <> 0 -> (length bs < Z.to_nat x)%nat -> items n k (t :: x :: bs) [] true
| I_item n k t text bs vs e : t <> 0 -> items n (k + 2 + length text) bs vs e ->
    items n k (t :: Z.of_nat (length text) :: text ++ bs) (SItemV t text :: vs) e.

(** *** Goodbyes: [n] sources and an optional reason *)
Inductive leaving : nat -> list Z -> list bview -> bool -> Prop :=
| B_done : leaving 0 [] [] false
| B_long x bs : (length bs < Z.to_nat x)%nat -> leaving 0 (x :: bs) [] true
| B_reason text bs : leaving 0 (Z.of_nat (length text) :: text ++ bs) [BReasonV text] false
| B_short n bs : (length bs < 4)%nat -> leaving (S n) bs [] true
| B_source n a b c d bs vs e : leaving n bs vs e -> leaving (S n) (a :: b :: c :: d :: bs) (BSsrcV (num [a; b; c; d]) :: vs) e.

(** *** Extended reports *)
Definition sub_report (l : list Z) : dblock := mkDb (fld l 0 4) (fld l 4 4 * 2 ^ 16) (fld l 8 4 * 2 ^ 16).
Fixpoint sub_reports (n : nat) (l : list Z) : list dblock := match n with O => [] | S m => sub_report l :: sub_reports m (skipn 12 l) end.
(** contents of a block of the given type, flags and body: None if the type is unknown, Some None if the size is wrong *)
Definition block_view (ty fl : Z) (b : list Z) : option (option xview) :=
  let n := length b in
  let if_ (c : bool) (v : xview) := Some (if c then Some v else None) in
  if ty =? 4 then if_ (8 <=? n)%nat (XRrtr (fld b 0 8))
  else if ty =? 5 then if_ true (XDlrr (sub_reports (n / 12) b))
  else if ty =? 14 then if_ (28 <=? n)%nat (XMeas (fld b 0 4) (fld b 6 2) (fld b 8 4) (fld b 12 4) (fld b 16 4 * 2 ^ 16) (fld b 20 8))
  else if ty =? 16 then if_ (24 <=? n)%nat (XDelay (fl / 64) (fld b 0 4) (fld b 4 4 * 2 ^ 16) (fld b 8 4 * 2 ^ 16) (fld b 12 4 * 2 ^ 16) (fld b 16 8))
  else if ty =? 220 then if_ (n =? 12)%nat (XQueue (fl / 64) (fld b 0 4) (fld b 4 4 * 2 ^ 16) (fld b 8 4 * 2 ^ 16))
  else None.
Inductive blocks : list Z -> list xview -> bool -> Prop :=
| X_done : blocks [] [] false
| X_short bs : bs <> [] -> (length bs < 4)%nat -> blocks bs [] true
| X_long ty fl h w bs : Z.of_nat (length bs) < 4 * num [h; w] -> blocks (ty :: fl :: h :: w :: bs) [] true
| X_unknown ty fl h w b bs vs e : Z.of_nat (length b) = 4 * num [h; w] -> block_view ty fl b = None ->
    blocks bs vs e -> blocks (ty :: fl :: h :: w :: b ++ bs) vs e                        (* skipped *)
| X_size ty fl h w b bs vs e : Z.of_nat (length b) = 4 * num [h; w] -> block_view ty fl b = Some None ->
    blocks bs vs e -> blocks (ty :: fl :: h :: w :: b ++ bs) vs true                     (* skipped *)
| X_block ty fl h w b bs v vs e : Z.of_nat (length b) = 4 * num [h; w] -> block_view ty fl b = Some (Some v) ->
    blocks bs vs e -> blocks (ty :: fl :: h :: w :: b ++ bs) (v :: vs) e.

(** *** Reports *)
Definition report (l : list Z) : rblock :=
  let c := fld l 5 3 in
  mkRb (fld l 0 4) (fld l 4 1) (if c <? 2 ^ 23 then c else c - 2 ^ 24) (fld l 8 4) (fld l 12 4) (fld l 16 4 * 2 ^ 16) (fld l 20 4 * 2 ^ 16).
Fixpoint reports (n : nat) (l : list Z) : list rblock := match n with O => [] | S m => report l :: reports m (skipn 24 l) end.

(** *** One packet *)
(** the body without padding, if the padding is valid and leaves at least [least] bytes *)
Definition payload (b0 : Z) (body : list Z) (least : nat) : option (list Z) :=
  if (b0 / 32) mod 2 =? 0 then Some body
  else let n := Z.to_nat (last body 0) in
       if (1 <=? n)%nat && (n <=? length body - least)%nat then Some (firstn (length body - n) body) else None.
Definition count (b0 : Z) : nat := Z.to_nat (b0 mod 32).
Inductive means (b0 ty : Z) (body : list Z) : list view -> bool -> Prop :=
| M_badpad : ty = 200 \/ ty = 201 -> payload b0 body 0 = None -> means b0 ty body [] true
| M_sr_short pl : ty = 200 -> payload b0 body 0 = Some pl -> (length pl < 24 + 24 * count b0)%nat -> means b0 ty body [] true
| M_sr pl : ty = 200 -> payload b0 body 0 = Some pl -> (24 + 24 * count b0 <= length pl)%nat ->
    means b0 ty body [VSR (fld pl 0 4) (fld pl 4 8) (fld pl 12 4) (fld pl 16 4) (fld pl 20 4) (reports (count b0) (skipn 24 pl))] false
| M_rr_short pl : ty = 201 -> payload b0 body 0 = Some pl -> (length pl < 4 + 24 * count b0)%nat -> means b0 ty body [] true
| M_rr pl : ty = 201 -> payload b0 body 0 = Some pl -> (4 + 24 * count b0 <= length pl)%nat ->
    means b0 ty body [VRR (fld pl 0 4) (reports (count b0) (skipn 4 pl))] false
| M_sdes_bad : ty = 202 -> payload b0 body 0 = None -> means b0 ty body [VSDES None] false
| M_sdes pl vs e : ty = 202 -> payload b0 body 0 = Some pl -> chunks (count b0) pl vs e -> means b0 ty body [VSDES (Some (count b0, vs, e))] false
| M_bye_bad : ty = 203 -> payload b0 body 0 = None -> means b0 ty body [VBYE None] false
| M_bye pl vs e : ty = 203 -> payload b0 body 0 = Some pl -> leaving (count b0) pl vs e -> means b0 ty body [VBYE (Some (count b0, vs, e))] false
| M_xr_bad : ty = 207 -> (length body < 4)%nat \/ payload b0 body 4 = None -> means b0 ty body [VXR None] false
| M_xr pl vs e : ty = 207 -> (4 <= length body)%nat -> payload b0 body 4 = Some pl -> blocks (skipn 4 pl) vs e ->
    means b0 ty body [VXR (Some (fld pl 0 4, vs, e))] false
| M_other : ~ In ty [200; 201; 202; 203; 207] -> means b0 ty body [] false.
