(** Model of audio::ChannelSet, src/internal_modules/roc_audio/channel_set.cpp
    and channel_set.h. Channel numbers (size_t) and words (uint64_t) are Z. *)
From Verif Require Import Base.
Open Scope res_scope.

(** channel_defs.h 23-43. *)
Inductive layout := LNone | LSurround | LMultitrack.
(** channel_defs.h 49-77. *)
Inductive order := ONone | OSmpte | OAlsa.
Definition layout_eqb (a b : layout) : bool := match a, b with LNone, LNone | LSurround, LSurround | LMultitrack, LMultitrack => true | _, _ => false end.
Definition order_eqb (a b : order) : bool := match a, b with ONone, ONone | OSmpte, OSmpte | OAlsa, OAlsa => true | _, _ => false end.

(** channel_defs.h 86-142: positions used by the masks below. *)
Definition pos_FL : Z := 0.
Definition pos_FC : Z := 2.
Definition pos_FR : Z := 4.
Definition pos_SL : Z := 5.
Definition pos_SR : Z := 6.
Definition pos_BL : Z := 7.
Definition pos_BC : Z := 8.
Definition pos_BR : Z := 9.
Definition pos_max : Z := 17.
Definition bit (n : Z) : Z := Z.shiftl 1 n.
Definition masks (l : list Z) : Z := fold_right (fun n m => Z.lor (bit n) m) 0 l.
(** channel_defs.h 158-431. *)
Definition mask_mono : Z := masks [pos_FC].
Definition mask_stereo : Z := masks [pos_FL; pos_FR].
Definition mask_3_0 : Z := masks [pos_FL; pos_FC; pos_FR].
Definition mask_4_0 : Z := masks [pos_FL; pos_FR; pos_BL; pos_BR].
Definition mask_5_0 : Z := masks [pos_FL; pos_FC; pos_FR; pos_BL; pos_BR].
Definition mask_6_0 : Z := masks [pos_FL; pos_FC; pos_FR; pos_BL; pos_BC; pos_BR].
Definition mask_7_0 : Z := masks [pos_FL; pos_FC; pos_FR; pos_SL; pos_SR; pos_BL; pos_BR].

(** channel_set.h 152-157. *)
Definition max_chans : Z := 1024.
Definition word_bits : Z := 64.
Definition num_words : nat := 16.

(** channel_set.h 162-169. *)
Record chset := mkCh { ch_words : list Z; ch_num : Z; ch_first : Z; ch_last : Z; ch_layout : layout; ch_order : order }.

Definition word (ws : list Z) (n : Z) : Z := nth (Z.to_nat (n / word_bits)) ws 0.
Definition set_word (ws : list Z) (n : Z) (w : Z) : list Z := upd ws (Z.to_nat (n / word_bits)) w.
(** 248, 250: words_[n / 64] |= 1 << (n % 64);  words_[n / 64] &= ~(1 << (n % 64)). *)
Definition set_bit (ws : list Z) (n : Z) : list Z := set_word ws n (Z.lor (word ws n) (bit (n mod word_bits))).
Definition clr_bit (ws : list Z) (n : Z) : list Z := set_word ws n (Z.ldiff (word ws n) (bit (n mod word_bits))).

(** index_chans_, 320-343: state (num_chans_, has_first, first_chan_, last_chan_, nch);
    the first three counters are uint16_t. *)
Definition ixs := (Z * bool * Z * Z * Z)%type.
Definition index_bit (w : Z) (a : ixs) (b : Z) : ixs :=
  let '(num, has, first, last, nch) := a in
  if Z.land w (bit b) =? 0 then (num, has, first, last, nch + 1)
  else (u16 (num + 1), true, (if has then first else u16 nch), u16 nch, nch + 1).
Definition index_word (a : ixs) (w : Z) : ixs :=
  if w =? 0 then let '(num, has, first, last, nch) := a in (num, has, first, last, nch + word_bits)
  else fold_left (index_bit w) (map Z.of_nat (seq 0 64)) a.
Definition index (ws : list Z) (l : layout) (o : order) : chset :=
  let '(num, _, first, last, _) := fold_left index_word ws (0, false, 0, 0, 0) in mkCh ws num first last l o.

Definition no_words : list Z := repeat 0 num_words.

(** ChannelSet::ChannelSet(), 15-23, and clear(), 92-98. *)
Definition ch_empty : chset := index no_words LNone ONone.
(** ChannelSet::ChannelSet(layout, order, mask), 25-51. *)
Definition ch_make (l : layout) (o : order) (mask : Z) : res chset :=
  if layout_eqb l LNone then Panic
  else if negb (if layout_eqb l LSurround then negb (order_eqb o ONone) else order_eqb o ONone) then Panic
  else if mask =? 0 then Panic
  else Ok (index (upd no_words 0 mask) l o).

(** operator==, 53-56. *)
Definition words_eqb (a b : list Z) : bool := (Nat.eqb (length a) (length b)) && forallb (fun p => fst p =? snd p) (combine a b).
Definition ch_eqb (a b : chset) : bool := layout_eqb (ch_layout a) (ch_layout b) && order_eqb (ch_order a) (ch_order b) && words_eqb (ch_words a) (ch_words b).

(** is_valid, 62-90; [order_] is one of the enumerators below ChanOrder_Max. *)
Definition ch_is_valid (s : chset) : bool :=
  match ch_layout s with
  | LNone => false
  | LSurround => negb (order_eqb (ch_order s) ONone) && negb (ch_num s =? 0) && (ch_last s <? pos_max)
  | LMultitrack => order_eqb (ch_order s) ONone && negb (ch_num s =? 0)
  end.

(** set_layout, 104-110; set_order, 116-118. *)
Definition ch_set_layout (s : chset) (l : layout) : res chset :=
  if layout_eqb l LNone then Panic else Ok (mkCh (ch_words s) (ch_num s) (ch_first s) (ch_last s) l (ch_order s)).
Definition ch_set_order (s : chset) (o : order) : chset := mkCh (ch_words s) (ch_num s) (ch_first s) (ch_last s) (ch_layout s) o.

(** num_channels, has_channel, first_channel, last_channel, 124-151. *)
Definition num_channels (s : chset) : Z := ch_num s.
Definition has_channel (s : chset) (n : Z) : res bool :=
  if max_chans <=? n then Panic
  else Ok (negb (Z.land (word (ch_words s) n) (bit (n mod word_bits)) =? 0)).
Definition first_channel (s : chset) : res Z := if ch_num s =? 0 then Panic else Ok (ch_first s).
Definition last_channel (s : chset) : res Z := if ch_num s =? 0 then Panic else Ok (ch_last s).

(** is_equal, is_subset, is_superset, 153-175; the mask is 32 bits. *)
Definition ch_is_equal (s : chset) (mask : Z) : bool :=
  if word_bits <=? ch_last s then false else word (ch_words s) 0 =? mask.
Definition ch_is_subset (s : chset) (mask : Z) : bool :=
  if word_bits <=? ch_last s then false else Z.land (word (ch_words s) 0) mask =? word (ch_words s) 0.
Definition ch_is_superset (s : chset) (mask : Z) : bool :=
  if word_bits <=? ch_last s then true else Z.land (word (ch_words s) 0) mask =? mask.

Definition reindex (s : chset) (ws : list Z) : chset := index ws (ch_layout s) (ch_order s).

(** set_mask, 177-183. *)
Definition ch_set_mask (s : chset) (mask : Z) : chset := reindex s (upd no_words 0 mask).

Fixpoint range_loop (f : list Z -> Z -> list Z) (ws : list Z) (n : Z) (k : nat) : list Z :=
  match k with O => ws | S k' => range_loop f (f ws n) (n + 1) k' end.
(** set_range, 185-202. *)
Definition ch_set_range (s : chset) (from to : Z) : res chset :=
  if (max_chans <=? from) || (max_chans <=? to) then Panic
  else if to <? from then Panic
  else Ok (reindex s (range_loop set_bit no_words from (Z.to_nat (to - from + 1)))).
(** set_count, 204-239. *)
Definition ch_set_count (s : chset) (count : Z) : res chset :=
  if max_chans <=? count then Panic
  else if count =? 0 then Ok (ch_set_mask s 0)
  else if count =? 1 then Ok (ch_set_mask s mask_mono)
  else if count =? 2 then Ok (ch_set_mask s mask_stereo)
  else if count =? 3 then Ok (ch_set_mask s mask_3_0)
  else if count =? 4 then Ok (ch_set_mask s mask_4_0)
  else if count =? 5 then Ok (ch_set_mask s mask_5_0)
  else if count =? 6 then Ok (ch_set_mask s mask_6_0)
  else if count =? 7 then Ok (ch_set_mask s mask_7_0)
  else ch_set_range s 0 (count - 1).

(** toggle_channel, 241-254. *)
Definition ch_toggle (s : chset) (n : Z) (enabled : bool) : res chset :=
  if max_chans <=? n then Panic
  else Ok (reindex s (if enabled then set_bit (ch_words s) n else clr_bit (ch_words s) n)).
(** toggle_channel_range, 256-277. *)
Definition ch_toggle_range (s : chset) (from to : Z) (enabled : bool) : res chset :=
  if (max_chans <=? from) || (max_chans <=? to) then Panic
  else if to <? from then Panic
  else Ok (reindex s (range_loop (if enabled then set_bit else clr_bit) (ch_words s) from (Z.to_nat (to - from + 1)))).

(** bitwise_and, bitwise_or, bitwise_xor, 279-301. *)
Definition map2 (f : Z -> Z -> Z) (a b : list Z) : list Z := map (fun p => f (fst p) (snd p)) (combine a b).
Definition ch_and (s o : chset) : chset := reindex s (map2 Z.land (ch_words s) (ch_words o)).
Definition ch_or (s o : chset) : chset := reindex s (map2 Z.lor (ch_words s) (ch_words o)).
Definition ch_xor (s o : chset) : chset := reindex s (map2 Z.lxor (ch_words s) (ch_words o)).

(** num_bytes, byte_at, 303-314. *)
Definition num_bytes : Z := 128.
Definition byte_at (s : chset) (n : Z) : res Z :=
  if num_bytes <=? n then Panic
  else Ok (Z.land (Z.shiftr (nth (Z.to_nat (n / 8)) (ch_words s) 0) ((n mod 8) * 8)) 255).
