(** Specification vocabulary for the channel mapper (C61). *)
From Coq Require Import QArith.
From Verif Require Import Base ChannelSet_model ChannelSet_spec ChanMap_tables ChanMap_model.
Open Scope Z_scope.

(** The channels of a frame in the order in which their samples are in it: for a surround
    set the channels that the channel order of the set knows, in that order; for tracks,
    ascending. *)
Definition frame_chans (s : chset) : list Z :=
  match ch_layout s with
  | LSurround => filter (mem s) (order_table (ch_order s))
  | _ => members s
  end.
(** Position of an element in a list, and the sample of a channel in a frame. *)
Fixpoint pos_in (l : list Z) (c : Z) : nat :=
  match l with [] => O | x :: r => if x =? c then O else S (pos_in r c) end.
Definition chan_sample (s : chset) (frame : list Q) (c : Z) : Q := nth (pos_in (frame_chans s) c) frame 0%Q.

(** A frame of set [s]. *)
Definition is_frame (s : chset) (frame : list Q) : Prop := Z.of_nat (length frame) = num_channels s.
(** A frame that is silent but for a sample of 1 in channel [c]. *)
Definition impulse (s : chset) (c : Z) : list Q :=
  upd (repeat 0%Q (Z.to_nat (num_channels s))) (pos_in (frame_chans s) c) 1%Q.
(** How much of input channel [i] there is in output channel [o]: the response to an impulse. *)
Definition weight (mp : mapper) (o i : Z) : Q :=
  match map_samples mp (impulse (mp_in mp) i) (num_channels (mp_out mp)) with
  | Ok f => chan_sample (mp_out mp) f o
  | _ => 0%Q
  end.
(** Sum over a list. *)
Definition total {A} (f : A -> Q) (l : list A) : Q := fold_right (fun a s => f a + s)%Q 0%Q l.
(** Samples are between -1 and 1; a sample is cut to that range. *)
Definition in_range (x : Q) : Prop := (-(1) <= x /\ x <= 1)%Q.
Definition cut_of (y x : Q) : Prop :=
  in_range y /\ ((in_range x /\ y == x) \/ (1 < x /\ y == 1) \/ (x < -(1) /\ y == -(1)))%Q.

(** A mapper that the constructor makes; the constructor returns for these sets. *)
Definition made (inp out : chset) (mp : mapper) : Prop := exists fuel, mapper_new fuel inp out = Some (Ok mp).
Definition never_returns (inp out : chset) : Prop := forall fuel, mapper_new fuel inp out = None.

(** A valid surround set that a program can build. *)
Definition surround (s : chset) : Prop := built s /\ ch_is_valid s = true /\ ch_layout s = LSurround.
Definition tracks (s : chset) : Prop := built s /\ ch_is_valid s = true /\ ch_layout s = LMultitrack.

(** Left and right exchanged. *)
Definition mirror (c : Z) : Z :=
  if c =? FL then FR else if c =? FR then FL
  else if c =? FLC then FRC else if c =? FRC then FLC
  else if c =? SL then SR else if c =? SR then SL
  else if c =? BL then BR else if c =? BR then BL
  else if c =? TFL then TFR else if c =? TFR then TFL
  else if c =? TML then TMR else if c =? TMR then TML
  else if c =? TBL then TBR else if c =? TBR then TBL
  else c.
Definition mirrored (s s' : chset) : Prop :=
  ch_order s = ch_order s' /\ forall c, 0 <= c < 17 -> mem s' (mirror c) = mem s c.

(** Sets that a mapper accepts. *)
Definition usable (s : chset) : Prop := built s /\ ch_is_valid s = true.
(** The known channels of [s] are those of a mask. *)
Definition of_layout (s : chset) (M : Z) : Prop := forall c, In c (frame_chans s) <-> 0 <= c < 17 /\ Z.testbit M c = true.
(** The layouts that channel_defs.h names, 158-522. *)
Definition layouts : list Z :=
  [M_Mono; M_1_1; M_1_1_3c; M_Stereo; M_2_1; M_3_0; M_3_1; M_3_1_3c; M_4_0; M_4_1; M_5_0; M_5_1; M_5_1_3c; M_5_1_2; M_5_1_2_3c;
   M_5_1_4; M_5_1_4_3c; M_6_0; M_6_1; M_6_1_3c; M_7_0; M_7_1; M_7_1_3c; M_7_1_2; M_7_1_2_3c; M_7_1_4; M_7_1_4_3c].
(** Pairs of these for which no sequence of tables is found. *)
Definition unmapped : list (Z * Z) :=
  [(M_7_0, M_6_1_3c); (M_7_1, M_6_1_3c); (M_7_1_2, M_6_1_3c); (M_7_1_4, M_6_1_3c); (M_7_1_4, M_5_1_2_3c); (M_7_1_4, M_7_1_2_3c)].
(** Nothing is lost and nothing is silent, LFE apart. *)
Definition all_used (mp : mapper) (inp out : chset) : Prop :=
  (forall i, In i (frame_chans inp) -> i <> LFE -> exists o, In o (frame_chans out) /\ (0 < weight mp o i)%Q) /\
  (forall o, In o (frame_chans out) -> o <> LFE -> exists i, In i (frame_chans inp) /\ (0 < weight mp o i)%Q).
(** Some channel is lost and some channel is silent. *)
Definition loses (mp : mapper) (inp out : chset) : Prop :=
  (exists i, In i (frame_chans inp) /\ i <> LFE /\ forall o, In o (frame_chans out) -> (weight mp o i == 0)%Q) /\
  (exists o, In o (frame_chans out) /\ o <> LFE /\ forall i, In i (frame_chans inp) -> (weight mp o i == 0)%Q).
(** The known channels of [s] are within the input side of some table. *)
Definition covered (s : chset) : Prop := exists t, In t tables /\ forall c, In c (frame_chans s) -> Z.testbit (t_in t) c = true.
