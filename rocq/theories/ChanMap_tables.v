(** The channel tables, src/internal_modules/roc_audio/channel_tables.cpp 53-101
    (channel orders) and 104-2004 (downmixing tables), and the channel masks they
    use, channel_defs.h 158-524. Written out by a script from those files.

    Simplification: a coefficient, a decimal float literal there, is the rational
    number that the literal denotes, in units of 1/10000000. *)
From Coq Require Import QArith.
From Verif Require Import Base.

(** channel_defs.h 86-142. *)
Definition FL : Z := 0.
Definition FLC : Z := 1.
Definition FC : Z := 2.
Definition FRC : Z := 3.
Definition FR : Z := 4.
Definition SL : Z := 5.
Definition SR : Z := 6.
Definition BL : Z := 7.
Definition BC : Z := 8.
Definition BR : Z := 9.
Definition TFL : Z := 10.
Definition TFR : Z := 11.
Definition TML : Z := 12.
Definition TMR : Z := 13.
Definition TBL : Z := 14.
Definition TBR : Z := 15.
Definition LFE : Z := 16.
Definition CHMAX : Z := 17.

(** channel_defs.h 158-524: a mask is the set of its bits. *)
Definition mk_mask (l : list Z) : Z := fold_right (fun n m => Z.lor (Z.shiftl 1 n) m) 0 l.
Definition M_Mono : Z := mk_mask [FC]. (* 158 *)
Definition M_1_1 : Z := mk_mask [FC; LFE]. (* 170 *)
Definition M_1_1_3c : Z := mk_mask [FLC; FC; FRC; LFE]. (* 183 *)
Definition M_Stereo : Z := mk_mask [FL; FR]. (* 195 *)
Definition M_2_1 : Z := mk_mask [FL; FR; LFE]. (* 206 *)
Definition M_3_0 : Z := mk_mask [FL; FC; FR]. (* 218 *)
Definition M_3_1 : Z := mk_mask [FL; FC; FR; LFE]. (* 230 *)
Definition M_3_1_3c : Z := mk_mask [FL; FLC; FC; FRC; FR; LFE]. (* 243 *)
Definition M_4_0 : Z := mk_mask [FL; FR; BL; BR]. (* 256 *)
Definition M_4_1 : Z := mk_mask [FL; FR; BL; BR; LFE]. (* 270 *)
Definition M_5_0 : Z := mk_mask [FL; FC; FR; BL; BR]. (* 283 *)
Definition M_5_1 : Z := mk_mask [FL; FC; FR; BL; BR; LFE]. (* 297 *)
Definition M_5_1_3c : Z := mk_mask [FL; FLC; FC; FRC; FR; BL; BR; LFE]. (* 311 *)
Definition M_5_1_2 : Z := mk_mask [FL; FC; FR; BL; BR; TML; TMR; LFE]. (* 326 *)
Definition M_5_1_2_3c : Z := mk_mask [FL; FLC; FC; FRC; FR; BL; BR; TML; TMR; LFE]. (* 341 *)
Definition M_5_1_4 : Z := mk_mask [FL; FC; FR; BL; BR; TFL; TFR; TBL; TBR; LFE]. (* 357 *)
Definition M_5_1_4_3c : Z := mk_mask [FL; FLC; FC; FRC; FR; BL; BR; TFL; TFR; TBL; TBR; LFE]. (* 374 *)
Definition M_6_0 : Z := mk_mask [FL; FC; FR; BL; BC; BR]. (* 387 *)
Definition M_6_1 : Z := mk_mask [FL; FC; FR; BL; BC; BR; LFE]. (* 401 *)
Definition M_6_1_3c : Z := mk_mask [FL; FLC; FC; FRC; FR; BL; BC; BR; LFE]. (* 415 *)
Definition M_7_0 : Z := mk_mask [FL; FC; FR; SL; SR; BL; BR]. (* 428 *)
Definition M_7_1 : Z := mk_mask [FL; FC; FR; SL; SR; BL; BR; LFE]. (* 443 *)
Definition M_7_1_3c : Z := mk_mask [FL; FLC; FC; FRC; FR; SL; SR; BL; BR; LFE]. (* 457 *)
Definition M_7_1_2 : Z := mk_mask [FL; FC; FR; SL; SR; BL; BR; TML; TMR; LFE]. (* 473 *)
Definition M_7_1_2_3c : Z := mk_mask [FL; FLC; FC; FRC; FR; SL; SR; BL; BR; TML; TMR; LFE]. (* 489 *)
Definition M_7_1_4 : Z := mk_mask [FL; FC; FR; SL; SR; BL; BR; TFL; TFR; TBL; TBR; LFE]. (* 505 *)
Definition M_7_1_4_3c : Z := mk_mask [FL; FLC; FC; FRC; FR; SL; SR; BL; BR; TFL; TFR; TBL; TBR; LFE]. (* 522 *)

(** ChanOrderTables, channel_tables.cpp 54-101, without the terminating ChanPos_Max. *)
Definition order_none : list Z := [].
Definition order_smpte : list Z := [FL; FR; FC; LFE; BL; BR; FLC; FRC; BC; SL; SR; TFL; TFR; TML; TMR; TBL; TBR].
Definition order_alsa : list Z := [FL; FR; BL; BR; FC; LFE; SL; SR; BC].

(** ChannelMapRule and ChannelMapTable, channel_tables.h 39-77: output channel, input
    channel, coefficient; unused rules at the end of a table, whose coefficient is zero,
    are left out. *)
Record table := mkT { t_in : Z; t_out : Z; t_rules : list (Z * Z * Q) }.
Definition co (n : Z) : Q := n # 10000000.

(** ChanMapTables, channel_tables.cpp 104-2004; the line of each entry is given. *)
Definition tables : list table := [
  (* 107: 1.1-3c to 1.1 *)
  mkT M_1_1_3c M_1_1 [
    (FC, FLC, co 7071068); (FC, FC, co 10000000); (FC, FRC, co 7071068); (LFE, LFE, co 10000000)];
  (* 121: 2.1 to 1.1 *)
  mkT M_2_1 M_1_1 [
    (FC, FL, co 7071068); (FC, FR, co 7071068); (LFE, LFE, co 10000000)];
  (* 134: 3.1 to 1.1 *)
  mkT M_3_1 M_1_1 [
    (FC, FL, co 7071068); (FC, FC, co 10000000); (FC, FR, co 7071068); (LFE, LFE, co 10000000)];
  (* 147: 3.1 to 2.1 *)
  mkT M_3_1 M_2_1 [
    (FL, FL, co 10000000); (FL, FC, co 7071068); (FR, FR, co 10000000); (FR, FC, co 7071068);
    (LFE, LFE, co 10000000)];
  (* 163: 3.1-3c to 1.1-3c *)
  mkT M_3_1_3c M_1_1_3c [
    (FLC, FLC, co 10000000); (FC, FL, co 7071068); (FC, FC, co 10000000); (FC, FR, co 7071068);
    (FRC, FRC, co 10000000); (LFE, LFE, co 10000000)];
  (* 180: 3.1-3c to 3.1 *)
  mkT M_3_1_3c M_3_1 [
    (FL, FL, co 10000000); (FL, FLC, co 7071068); (FC, FLC, co 7071068); (FC, FC, co 10000000);
    (FC, FRC, co 7071068); (FR, FR, co 10000000); (FR, FRC, co 7071068); (LFE, LFE, co 10000000)];
  (* 200: 4.1 to 2.1 *)
  mkT M_4_1 M_2_1 [
    (FL, FL, co 10000000); (FL, BL, co 7071068); (FR, FR, co 10000000); (FR, BR, co 7071068);
    (LFE, LFE, co 10000000)];
  (* 215: 4.1 to 3.1 *)
  mkT M_4_1 M_3_1 [
    (FL, FL, co 10000000); (FL, BL, co 7071068); (FC, FL, co 7071068); (FC, FR, co 7071068);
    (FC, BL, co 5000000); (FC, BR, co 5000000); (FR, FR, co 10000000); (FR, BR, co 7071068);
    (LFE, LFE, co 10000000)];
  (* 236: 5.1 to 3.1 *)
  mkT M_5_1 M_3_1 [
    (FL, FL, co 10000000); (FL, BL, co 7071068); (FC, FC, co 10000000); (FR, FR, co 10000000);
    (FR, BR, co 7071068); (LFE, LFE, co 10000000)];
  (* 253: 5.1 to 4.1 *)
  mkT M_5_1 M_4_1 [
    (FL, FL, co 10000000); (FL, FC, co 7071068); (FR, FR, co 10000000); (FR, FC, co 7071068);
    (BL, BL, co 10000000); (BR, BR, co 10000000); (LFE, LFE, co 10000000)];
  (* 273: 5.1-3c to 3.1-3c *)
  mkT M_5_1_3c M_3_1_3c [
    (FL, FL, co 10000000); (FL, BL, co 7071068); (FLC, FLC, co 10000000); (FLC, BL, co 7071068);
    (FC, FC, co 10000000); (FRC, FRC, co 10000000); (FRC, BR, co 7071068); (FR, FR, co 10000000);
    (FR, BR, co 7071068); (LFE, LFE, co 10000000)];
  (* 296: 5.1-3c to 5.1 *)
  mkT M_5_1_3c M_5_1 [
    (FL, FL, co 10000000); (FL, FLC, co 7071068); (FC, FLC, co 7071068); (FC, FC, co 10000000);
    (FC, FRC, co 7071068); (FR, FR, co 10000000); (FR, FRC, co 7071068); (BL, BL, co 10000000);
    (BR, BR, co 10000000); (LFE, LFE, co 10000000)];
  (* 320: 5.1.2 to 3.1 *)
  mkT M_5_1_2 M_3_1 [
    (FL, FL, co 10000000); (FL, BL, co 7071068); (FL, TML, co 7071068); (FC, FC, co 10000000);
    (FR, FR, co 10000000); (FR, BR, co 7071068); (FR, TMR, co 7071068); (LFE, LFE, co 10000000)];
  (* 339: 5.1.2 to 4.1 *)
  mkT M_5_1_2 M_4_1 [
    (FL, FL, co 10000000); (FL, FC, co 7071068); (FL, TML, co 5000000); (FR, FR, co 10000000);
    (FR, FC, co 7071068); (FR, TMR, co 5000000); (BL, BL, co 10000000); (BL, TML, co 5000000);
    (BR, BR, co 10000000); (BR, TMR, co 5000000); (LFE, LFE, co 10000000)];
  (* 362: 5.1.2 to 5.1 *)
  mkT M_5_1_2 M_5_1 [
    (FL, FL, co 10000000); (FL, TML, co 5000000); (FC, FC, co 10000000); (FR, FR, co 10000000);
    (FR, TMR, co 5000000); (BL, BL, co 10000000); (BL, TML, co 5000000); (BR, BR, co 10000000);
    (BR, TMR, co 5000000); (LFE, LFE, co 10000000)];
  (* 386: 5.1.2-3c to 3.1-3c *)
  mkT M_5_1_2_3c M_3_1_3c [
    (FL, FL, co 10000000); (FL, BL, co 7071068); (FL, TML, co 7071068); (FLC, FLC, co 10000000);
    (FLC, BL, co 7071068); (FLC, TML, co 7071068); (FC, FC, co 10000000); (FRC, FRC, co 10000000);
    (FRC, BR, co 7071068); (FRC, TMR, co 7071068); (FR, FR, co 10000000); (FR, BR, co 7071068);
    (FR, TMR, co 7071068); (LFE, LFE, co 10000000)];
  (* 413: 5.1.2-3c to 5.1 *)
  mkT M_5_1_2_3c M_5_1 [
    (FL, FL, co 10000000); (FL, FLC, co 7071068); (FL, TML, co 5000000); (FC, FLC, co 7071068);
    (FC, FC, co 10000000); (FC, FRC, co 7071068); (FR, FR, co 10000000); (FR, FRC, co 7071068);
    (FR, TMR, co 5000000); (BL, BL, co 10000000); (BL, TML, co 5000000); (BR, BR, co 10000000);
    (BR, TMR, co 5000000); (LFE, LFE, co 10000000)];
  (* 440: 5.1.2-3c to 5.1-3c *)
  mkT M_5_1_2_3c M_5_1_3c [
    (FL, FL, co 10000000); (FL, TML, co 5000000); (FLC, FLC, co 10000000); (FLC, TML, co 5000000);
    (FC, FC, co 10000000); (FRC, FRC, co 10000000); (FRC, TMR, co 5000000); (FR, FR, co 10000000);
    (FR, TMR, co 5000000); (BL, BL, co 10000000); (BL, TML, co 5000000); (BR, BR, co 10000000);
    (BR, TMR, co 5000000); (LFE, LFE, co 10000000)];
  (* 469: 5.1.2-3c to 5.1.2 *)
  mkT M_5_1_2_3c M_5_1_2 [
    (FL, FL, co 10000000); (FL, FLC, co 7071068); (FC, FLC, co 7071068); (FC, FC, co 10000000);
    (FC, FRC, co 7071068); (FR, FR, co 10000000); (FR, FRC, co 7071068); (BL, BL, co 10000000);
    (BR, BR, co 10000000); (TML, TML, co 10000000); (TMR, TMR, co 10000000); (LFE, LFE, co 10000000)];
  (* 497: 5.1.4 to 3.1 *)
  mkT M_5_1_4 M_3_1 [
    (FL, FL, co 10000000); (FL, BL, co 7071068); (FL, TFL, co 7071068); (FL, TBL, co 5000000);
    (FC, FC, co 10000000); (FR, FR, co 10000000); (FR, BR, co 7071068); (FR, TFR, co 7071068);
    (FR, TBR, co 5000000); (LFE, LFE, co 10000000)];
  (* 518: 5.1.4 to 4.1 *)
  mkT M_5_1_4 M_4_1 [
    (FL, FL, co 10000000); (FL, FC, co 7071068); (FL, TFL, co 7071068); (FR, FR, co 10000000);
    (FR, FC, co 7071068); (FR, TFR, co 7071068); (BL, BL, co 10000000); (BL, TBL, co 7071068);
    (BR, BR, co 10000000); (BR, TBR, co 7071068); (LFE, LFE, co 10000000)];
  (* 541: 5.1.4 to 5.1 *)
  mkT M_5_1_4 M_5_1 [
    (FL, FL, co 10000000); (FL, TFL, co 7071068); (FC, FC, co 10000000); (FR, FR, co 10000000);
    (FR, TFR, co 7071068); (BL, BL, co 10000000); (BL, TBL, co 7071068); (BR, BR, co 10000000);
    (BR, TBR, co 7071068); (LFE, LFE, co 10000000)];
  (* 564: 5.1.4 to 5.1.2 *)
  mkT M_5_1_4 M_5_1_2 [
    (FL, FL, co 10000000); (FC, FC, co 10000000); (FR, FR, co 10000000); (BL, BL, co 10000000);
    (BR, BR, co 10000000); (TML, TFL, co 7071068); (TML, TBL, co 7071068); (TMR, TFR, co 7071068);
    (TMR, TBR, co 7071068); (LFE, LFE, co 10000000)];
  (* 590: 5.1.4-3c to 3.1-3c *)
  mkT M_5_1_4_3c M_3_1_3c [
    (FL, FL, co 10000000); (FL, BL, co 7071068); (FL, TFL, co 7071068); (FL, TBL, co 5000000);
    (FLC, FLC, co 10000000); (FLC, BL, co 7071068); (FLC, TFL, co 7071068); (FLC, TBL, co 5000000);
    (FC, FC, co 10000000); (FRC, FRC, co 10000000); (FRC, BR, co 7071068); (FRC, TFR, co 7071068);
    (FRC, TBR, co 5000000); (FR, FR, co 10000000); (FR, BR, co 7071068); (FR, TFR, co 7071068);
    (FR, TBR, co 5000000); (LFE, LFE, co 10000000)];
  (* 621: 5.1.4-3c to 5.1 *)
  mkT M_5_1_4_3c M_5_1 [
    (FL, FL, co 10000000); (FL, FLC, co 7071068); (FL, TFL, co 7071068); (FC, FLC, co 7071068);
    (FC, FC, co 10000000); (FC, FRC, co 7071068); (FR, FR, co 10000000); (FR, FRC, co 7071068);
    (FR, TFR, co 7071068); (BL, BL, co 10000000); (BL, TBL, co 7071068); (BR, BR, co 10000000);
    (BR, TBR, co 7071068); (LFE, LFE, co 10000000)];
  (* 648: 5.1.4-3c to 5.1-3c *)
  mkT M_5_1_4_3c M_5_1_3c [
    (FL, FL, co 10000000); (FL, TFL, co 7071068); (FLC, FLC, co 10000000); (FLC, TFL, co 7071068);
    (FC, FC, co 10000000); (FRC, FRC, co 10000000); (FRC, TFR, co 7071068); (FR, FR, co 10000000);
    (FR, TFR, co 7071068); (BL, BL, co 10000000); (BL, TBL, co 7071068); (BR, BR, co 10000000);
    (BR, TBR, co 7071068); (LFE, LFE, co 10000000)];
  (* 677: 5.1.4-3c to 5.1.2-3c *)
  mkT M_5_1_4_3c M_5_1_2_3c [
    (FL, FL, co 10000000); (FLC, FLC, co 10000000); (FC, FC, co 10000000); (FRC, FRC, co 10000000);
    (FR, FR, co 10000000); (BL, BL, co 10000000); (BR, BR, co 10000000); (TML, TFL, co 7071068);
    (TML, TBL, co 7071068); (TMR, TFR, co 7071068); (TMR, TBR, co 7071068); (LFE, LFE, co 10000000)];
  (* 706: 5.1.4-3c to 5.1.4 *)
  mkT M_5_1_4_3c M_5_1_4 [
    (FL, FL, co 10000000); (FL, FLC, co 7071068); (FC, FLC, co 7071068); (FC, FC, co 10000000);
    (FC, FRC, co 7071068); (FR, FR, co 10000000); (FR, FRC, co 7071068); (BL, BL, co 10000000);
    (BR, BR, co 10000000); (TFL, TFL, co 10000000); (TFR, TFR, co 10000000); (TBL, TBL, co 10000000);
    (TBR, TBR, co 10000000); (LFE, LFE, co 10000000)];
  (* 738: 6.1 to 4.1 *)
  mkT M_6_1 M_4_1 [
    (FL, FL, co 10000000); (FL, FC, co 7071068); (FR, FR, co 10000000); (FR, FC, co 7071068);
    (BL, BL, co 10000000); (BL, BC, co 7071068); (BR, BR, co 10000000); (BR, BC, co 7071068);
    (LFE, LFE, co 10000000)];
  (* 759: 6.1 to 5.1 *)
  mkT M_6_1 M_5_1 [
    (FL, FL, co 10000000); (FC, FC, co 10000000); (FR, FR, co 10000000); (BL, BL, co 10000000);
    (BL, BC, co 7071068); (BR, BR, co 10000000); (BR, BC, co 7071068); (LFE, LFE, co 10000000)];
  (* 780: 6.1 to 5.1.2 *)
  mkT M_6_1 M_5_1_2 [
    (FL, FL, co 10000000); (FC, FC, co 10000000); (FR, FR, co 10000000); (BL, BL, co 10000000);
    (BL, BC, co 7071068); (BR, BR, co 10000000); (BR, BC, co 7071068); (TML, FL, co 10000000);
    (TML, BL, co 10000000); (TML, BC, co 7071068); (TMR, FR, co 10000000); (TMR, BR, co 10000000);
    (TMR, BC, co 7071068); (LFE, LFE, co 10000000)];
  (* 809: 6.1 to 5.1.4 *)
  mkT M_6_1 M_5_1_4 [
    (FL, FL, co 10000000); (FC, FC, co 10000000); (FR, FR, co 10000000); (BL, BL, co 10000000);
    (BL, BC, co 7071068); (BR, BR, co 10000000); (BR, BC, co 7071068); (TFL, FL, co 10000000);
    (TFR, FR, co 10000000); (TBL, BL, co 10000000); (TBL, BC, co 7071068); (TBR, BR, co 10000000);
    (TBR, BC, co 7071068); (LFE, LFE, co 10000000)];
  (* 841: 6.1-3c to 5.1-3c *)
  mkT M_6_1_3c M_5_1_3c [
    (FL, FL, co 10000000); (FLC, FLC, co 10000000); (FC, FC, co 10000000); (FRC, FRC, co 10000000);
    (FR, FR, co 10000000); (BL, BL, co 10000000); (BL, BC, co 7071068); (BR, BR, co 10000000);
    (BR, BC, co 7071068); (LFE, LFE, co 10000000)];
  (* 866: 6.1-3c to 5.1.2-3c *)
  mkT M_6_1_3c M_5_1_2_3c [
    (FL, FL, co 10000000); (FLC, FLC, co 10000000); (FC, FC, co 10000000); (FRC, FRC, co 10000000);
    (FR, FR, co 10000000); (BL, BL, co 10000000); (BL, BC, co 7071068); (BR, BR, co 10000000);
    (BR, BC, co 7071068); (TML, FL, co 10000000); (TML, BL, co 10000000); (TML, BC, co 7071068);
    (TMR, FR, co 10000000); (TMR, BR, co 10000000); (TMR, BC, co 7071068); (LFE, LFE, co 10000000)];
  (* 899: 6.1-3c to 5.1.4-3c *)
  mkT M_6_1_3c M_5_1_4_3c [
    (FL, FL, co 10000000); (FLC, FLC, co 10000000); (FC, FC, co 10000000); (FRC, FRC, co 10000000);
    (FR, FR, co 10000000); (BL, BL, co 10000000); (BL, BC, co 7071068); (BR, BR, co 10000000);
    (BR, BC, co 7071068); (TFL, FL, co 10000000); (TFR, FR, co 10000000); (TBL, BL, co 10000000);
    (TBL, BC, co 7071068); (TBR, BR, co 10000000); (TBR, BC, co 7071068); (LFE, LFE, co 10000000)];
  (* 934: 6.1-3c to 6.1 *)
  mkT M_6_1_3c M_6_1 [
    (FL, FL, co 10000000); (FL, FLC, co 7071068); (FC, FLC, co 7071068); (FC, FC, co 10000000);
    (FC, FRC, co 7071068); (FR, FR, co 10000000); (FR, FRC, co 7071068); (BL, BL, co 10000000);
    (BC, BC, co 10000000); (BR, BR, co 10000000); (LFE, LFE, co 10000000)];
  (* 960: 7.1 to 5.1 *)
  mkT M_7_1 M_5_1 [
    (FL, FL, co 10000000); (FC, FC, co 10000000); (FR, FR, co 10000000); (BL, SL, co 10000000);
    (BL, BL, co 10000000); (BR, SR, co 10000000); (BR, BR, co 10000000); (LFE, LFE, co 10000000)];
  (* 981: 7.1 to 5.1.2 *)
  mkT M_7_1 M_5_1_2 [
    (FL, FL, co 10000000); (FC, FC, co 10000000); (FR, FR, co 10000000); (BL, SL, co 10000000);
    (BL, BL, co 10000000); (BR, SR, co 10000000); (BR, BR, co 10000000); (TML, FL, co 10000000);
    (TML, BL, co 10000000); (TMR, FR, co 10000000); (TMR, BR, co 10000000); (LFE, LFE, co 10000000)];
  (* 1008: 7.1 to 5.1.4 *)
  mkT M_7_1 M_5_1_4 [
    (FL, FL, co 10000000); (FC, FC, co 10000000); (FR, FR, co 10000000); (BL, SL, co 10000000);
    (BL, BL, co 10000000); (BR, SR, co 10000000); (BR, BR, co 10000000); (TFL, FL, co 10000000);
    (TFR, FR, co 10000000); (TBL, BL, co 10000000); (TBR, BR, co 10000000); (LFE, LFE, co 10000000)];
  (* 1037: 7.1 to 6.1 *)
  mkT M_7_1 M_6_1 [
    (FL, FL, co 10000000); (FC, FC, co 10000000); (FR, FR, co 10000000); (BL, SL, co 10000000);
    (BL, BL, co 10000000); (BC, BL, co 10000000); (BC, BR, co 10000000); (BC, SL, co 10000000);
    (BC, SR, co 10000000); (BR, SR, co 10000000); (BR, BR, co 10000000); (LFE, LFE, co 10000000)];
  (* 1064: 7.1-3c to 5.1-3c *)
  mkT M_7_1_3c M_5_1_3c [
    (FL, FL, co 10000000); (FLC, FLC, co 10000000); (FC, FC, co 10000000); (FRC, FRC, co 10000000);
    (FR, FR, co 10000000); (BL, SL, co 10000000); (BL, BL, co 10000000); (BR, SR, co 10000000);
    (BR, BR, co 10000000); (LFE, LFE, co 10000000)];
  (* 1089: 7.1-3c to 5.1.2-3c *)
  mkT M_7_1_3c M_5_1_2_3c [
    (FL, FL, co 10000000); (FLC, FLC, co 10000000); (FC, FC, co 10000000); (FRC, FRC, co 10000000);
    (FR, FR, co 10000000); (BL, SL, co 10000000); (BL, BL, co 10000000); (BR, SR, co 10000000);
    (BR, BR, co 10000000); (TML, FL, co 10000000); (TML, BL, co 10000000); (TMR, FR, co 10000000);
    (TMR, BR, co 10000000); (LFE, LFE, co 10000000)];
  (* 1120: 7.1-3c to 5.1.4-3c *)
  mkT M_7_1_3c M_5_1_4_3c [
    (FL, FL, co 10000000); (FLC, FLC, co 10000000); (FC, FC, co 10000000); (FRC, FRC, co 10000000);
    (FR, FR, co 10000000); (BL, SL, co 10000000); (BL, BL, co 10000000); (BR, SR, co 10000000);
    (BR, BR, co 10000000); (TFL, FL, co 10000000); (TFR, FR, co 10000000); (TBL, BL, co 10000000);
    (TBR, BR, co 10000000); (LFE, LFE, co 10000000)];
  (* 1153: 7.1-3c to 6.1-3c *)
  mkT M_7_1_3c M_6_1_3c [
    (FL, FL, co 10000000); (FLC, FLC, co 10000000); (FC, FC, co 10000000); (FRC, FRC, co 10000000);
    (FR, FR, co 10000000); (BL, SL, co 10000000); (BL, BL, co 10000000); (BC, BL, co 10000000);
    (BC, BR, co 10000000); (BC, SL, co 10000000); (BC, SR, co 10000000); (BR, SR, co 10000000);
    (BR, BR, co 10000000); (LFE, LFE, co 10000000)];
  (* 1183: 7.1-3c to 7.1 *)
  mkT M_7_1_3c M_7_1 [
    (FL, FL, co 10000000); (FL, FLC, co 7071068); (FC, FLC, co 7071068); (FC, FC, co 10000000);
    (FC, FRC, co 7071068); (FR, FR, co 10000000); (FR, FRC, co 7071068); (SL, SL, co 10000000);
    (SR, SR, co 10000000); (BL, BL, co 10000000); (BR, BR, co 10000000); (LFE, LFE, co 10000000)];
  (* 1211: 7.1.2 to 5.1 *)
  mkT M_7_1_2 M_5_1 [
    (FL, FL, co 10000000); (FL, TML, co 5000000); (FC, FC, co 10000000); (FR, FR, co 10000000);
    (FR, TMR, co 5000000); (BL, SL, co 10000000); (BL, BL, co 10000000); (BL, TML, co 5000000);
    (BR, SR, co 10000000); (BR, BR, co 10000000); (BR, TMR, co 5000000); (LFE, LFE, co 10000000)];
  (* 1236: 7.1.2 to 5.1.2 *)
  mkT M_7_1_2 M_5_1_2 [
    (FL, FL, co 10000000); (FC, FC, co 10000000); (FR, FR, co 10000000); (BL, SL, co 10000000);
    (BL, BL, co 10000000); (BR, SR, co 10000000); (BR, BR, co 10000000); (TML, TML, co 10000000);
    (TMR, TMR, co 10000000); (LFE, LFE, co 10000000)];
  (* 1261: 7.1.2 to 5.1.4 *)
  mkT M_7_1_2 M_5_1_4 [
    (FL, FL, co 10000000); (FC, FC, co 10000000); (FR, FR, co 10000000); (BL, SL, co 10000000);
    (BL, BL, co 10000000); (BR, SR, co 10000000); (BR, BR, co 10000000); (TFL, TML, co 7071068);
    (TFR, TMR, co 7071068); (TBL, TML, co 7071068); (TBR, TMR, co 7071068); (LFE, LFE, co 10000000)];
  (* 1290: 7.1.2 to 6.1 *)
  mkT M_7_1_2 M_6_1 [
    (FL, FL, co 10000000); (FL, TML, co 5000000); (FC, FC, co 10000000); (FR, FR, co 10000000);
    (FR, TMR, co 5000000); (BL, SL, co 10000000); (BL, BL, co 10000000); (BL, TML, co 5000000);
    (BC, BL, co 10000000); (BC, BR, co 10000000); (BC, SL, co 10000000); (BC, SR, co 10000000);
    (BC, TML, co 7071068); (BC, TMR, co 7071068); (BR, SR, co 10000000); (BR, BR, co 10000000);
    (BR, TMR, co 5000000); (LFE, LFE, co 10000000)];
  (* 1322: 7.1.2 to 7.1 *)
  mkT M_7_1_2 M_7_1 [
    (FL, FL, co 10000000); (FC, FC, co 10000000); (FR, FR, co 10000000); (SL, SL, co 10000000);
    (SL, TML, co 7071068); (SR, SR, co 10000000); (SR, TMR, co 7071068); (BL, BL, co 10000000);
    (BR, BR, co 10000000); (LFE, LFE, co 10000000)];
  (* 1348: 7.1.2-3c to 5.1-3c *)
  mkT M_7_1_2_3c M_5_1_3c [
    (FL, FL, co 10000000); (FL, TML, co 5000000); (FLC, FLC, co 10000000); (FLC, TML, co 5000000);
    (FC, FC, co 10000000); (FRC, FRC, co 10000000); (FRC, TMR, co 5000000); (FR, FR, co 10000000);
    (FR, TMR, co 5000000); (BL, SL, co 10000000); (BL, BL, co 10000000); (BL, TML, co 5000000);
    (BR, SR, co 10000000); (BR, BR, co 10000000); (BR, TMR, co 5000000); (LFE, LFE, co 10000000)];
  (* 1379: 7.1.2-3c to 5.1.2-3c *)
  mkT M_7_1_2_3c M_5_1_2_3c [
    (FL, FL, co 10000000); (FLC, FLC, co 10000000); (FC, FC, co 10000000); (FRC, FRC, co 10000000);
    (FR, FR, co 10000000); (BL, SL, co 10000000); (BL, BL, co 10000000); (BR, SR, co 10000000);
    (BR, BR, co 10000000); (TML, TML, co 10000000); (TMR, TMR, co 10000000); (LFE, LFE, co 10000000)];
  (* 1408: 7.1.2-3c to 5.1.4-3c *)
  mkT M_7_1_2_3c M_5_1_4_3c [
    (FL, FL, co 10000000); (FLC, FLC, co 10000000); (FC, FC, co 10000000); (FRC, FRC, co 10000000);
    (FR, FR, co 10000000); (BL, SL, co 10000000); (BL, BL, co 10000000); (BR, SR, co 10000000);
    (BR, BR, co 10000000); (TFL, TML, co 7071068); (TFR, TMR, co 7071068); (TBL, TML, co 7071068);
    (TBR, TMR, co 7071068); (LFE, LFE, co 10000000)];
  (* 1441: 7.1.2-3c to 6.1-3c *)
  mkT M_7_1_2_3c M_6_1_3c [
    (FL, FL, co 10000000); (FL, TML, co 5000000); (FLC, FLC, co 10000000); (FLC, TML, co 5000000);
    (FC, FC, co 10000000); (FRC, FRC, co 10000000); (FRC, TMR, co 5000000); (FR, FR, co 10000000);
    (FR, TMR, co 5000000); (BL, SL, co 10000000); (BL, BL, co 10000000); (BL, TML, co 5000000);
    (BC, BL, co 10000000); (BC, BR, co 10000000); (BC, SL, co 10000000); (BC, SR, co 10000000);
    (BC, TML, co 7071068); (BC, TMR, co 7071068); (BR, SR, co 10000000); (BR, BR, co 10000000);
    (BR, TMR, co 5000000); (LFE, LFE, co 10000000)];
  (* 1479: 7.1.2-3c to 7.1 *)
  mkT M_7_1_2_3c M_7_1 [
    (FL, FL, co 10000000); (FL, FLC, co 7071068); (FC, FLC, co 7071068); (FC, FC, co 10000000);
    (FC, FRC, co 7071068); (FR, FR, co 10000000); (FR, FRC, co 7071068); (SL, SL, co 10000000);
    (SL, TML, co 7071068); (SR, SR, co 10000000); (SR, TMR, co 7071068); (BL, BL, co 10000000);
    (BR, BR, co 10000000); (LFE, LFE, co 10000000)];
  (* 1508: 7.1.2-3c to 7.1-3c *)
  mkT M_7_1_2_3c M_7_1_3c [
    (FL, FL, co 10000000); (FLC, FLC, co 10000000); (FC, FC, co 10000000); (FRC, FRC, co 10000000);
    (FR, FR, co 10000000); (SL, SL, co 10000000); (SL, TML, co 7071068); (SR, SR, co 10000000);
    (SR, TMR, co 7071068); (BL, BL, co 10000000); (BR, BR, co 10000000); (LFE, LFE, co 10000000)];
  (* 1537: 7.1.2-3c to 7.1.2 *)
  mkT M_7_1_2_3c M_7_1_2 [
    (FL, FL, co 10000000); (FL, FLC, co 7071068); (FC, FLC, co 7071068); (FC, FC, co 10000000);
    (FC, FRC, co 7071068); (FR, FR, co 10000000); (FR, FRC, co 7071068); (SL, SL, co 10000000);
    (SR, SR, co 10000000); (BL, BL, co 10000000); (BR, BR, co 10000000); (TML, TML, co 10000000);
    (TMR, TMR, co 10000000); (LFE, LFE, co 10000000)];
  (* 1569: 7.1.4 to 5.1 *)
  mkT M_7_1_4 M_5_1 [
    (FL, FL, co 10000000); (FL, TFL, co 7071068); (FC, FC, co 10000000); (FR, FR, co 10000000);
    (FR, TFR, co 7071068); (BL, SL, co 10000000); (BL, BL, co 10000000); (BL, TBL, co 7071068);
    (BR, SR, co 10000000); (BR, BR, co 10000000); (BR, TBR, co 7071068); (LFE, LFE, co 10000000)];
  (* 1594: 7.1.4 to 5.1.2 *)
  mkT M_7_1_4 M_5_1_2 [
    (FL, FL, co 10000000); (FC, FC, co 10000000); (FR, FR, co 10000000); (BL, SL, co 10000000);
    (BL, BL, co 10000000); (BR, SR, co 10000000); (BR, BR, co 10000000); (TML, TFL, co 7071068);
    (TML, TBL, co 7071068); (TMR, TFR, co 7071068); (TMR, TBR, co 7071068); (LFE, LFE, co 10000000)];
  (* 1621: 7.1.4 to 5.1.4 *)
  mkT M_7_1_4 M_5_1_4 [
    (FL, FL, co 10000000); (FC, FC, co 10000000); (FR, FR, co 10000000); (BL, SL, co 10000000);
    (BL, BL, co 10000000); (BR, SR, co 10000000); (BR, BR, co 10000000); (TFL, TFL, co 10000000);
    (TFR, TFR, co 10000000); (TBL, TBL, co 10000000); (TBR, TBR, co 10000000); (LFE, LFE, co 10000000)];
  (* 1650: 7.1.4 to 6.1 *)
  mkT M_7_1_4 M_6_1 [
    (FL, FL, co 10000000); (FL, TFL, co 7071068); (FC, FC, co 10000000); (FR, FR, co 10000000);
    (FR, TFR, co 7071068); (BL, SL, co 10000000); (BL, BL, co 10000000); (BL, TBL, co 7071068);
    (BC, BL, co 10000000); (BC, BR, co 10000000); (BC, SL, co 10000000); (BC, SR, co 10000000);
    (BC, TBL, co 7071068); (BC, TBR, co 7071068); (BR, SR, co 10000000); (BR, BR, co 10000000);
    (BR, TBR, co 7071068); (LFE, LFE, co 10000000)];
  (* 1682: 7.1.4 to 7.1 *)
  mkT M_7_1_4 M_7_1 [
    (FL, FL, co 10000000); (FL, TFL, co 7071068); (FC, FC, co 10000000); (FR, FR, co 10000000);
    (FR, TFR, co 7071068); (SL, SL, co 10000000); (SR, SR, co 10000000); (BL, BL, co 10000000);
    (BL, TBL, co 7071068); (BR, BR, co 10000000); (BR, TBR, co 7071068); (LFE, LFE, co 10000000)];
  (* 1709: 7.1.4 to 7.1.2 *)
  mkT M_7_1_4 M_7_1_2 [
    (FL, FL, co 10000000); (FC, FC, co 10000000); (FR, FR, co 10000000); (SL, SL, co 10000000);
    (SR, SR, co 10000000); (BL, BL, co 10000000); (BR, BR, co 10000000); (TML, TFL, co 7071068);
    (TML, TBL, co 7071068); (TMR, TFR, co 7071068); (TMR, TBR, co 7071068); (LFE, LFE, co 10000000)];
  (* 1739: 7.1.4-3c to 5.1-3c *)
  mkT M_7_1_4_3c M_5_1_3c [
    (FL, FL, co 10000000); (FL, TFL, co 7071068); (FLC, FLC, co 10000000); (FLC, TFL, co 7071068);
    (FC, FC, co 10000000); (FRC, FRC, co 10000000); (FRC, TFR, co 7071068); (FR, FR, co 10000000);
    (FR, TFR, co 7071068); (BL, SL, co 10000000); (BL, BL, co 10000000); (BL, TBL, co 7071068);
    (BR, SR, co 10000000); (BR, BR, co 10000000); (BR, TBR, co 7071068); (LFE, LFE, co 10000000)];
  (* 1770: 7.1.4-3c to 5.1.2-3c *)
  mkT M_7_1_4_3c M_5_1_2_3c [
    (FL, FL, co 10000000); (FLC, FLC, co 10000000); (FC, FC, co 10000000); (FRC, FRC, co 10000000);
    (FR, FR, co 10000000); (BL, SL, co 10000000); (BL, BL, co 10000000); (BR, SR, co 10000000);
    (BR, BR, co 10000000); (TML, TFL, co 7071068); (TML, TBL, co 7071068); (TMR, TFR, co 7071068);
    (TMR, TBR, co 7071068); (LFE, LFE, co 10000000)];
  (* 1801: 7.1.4-3c to 5.1.4-3c *)
  mkT M_7_1_4_3c M_5_1_4_3c [
    (FL, FL, co 10000000); (FLC, FLC, co 10000000); (FC, FC, co 10000000); (FRC, FRC, co 10000000);
    (FR, FR, co 10000000); (BL, SL, co 10000000); (BL, BL, co 10000000); (BR, SR, co 10000000);
    (BR, BR, co 10000000); (TFL, TFL, co 10000000); (TFR, TFR, co 10000000); (TBL, TBL, co 10000000);
    (TBR, TBR, co 10000000); (LFE, LFE, co 10000000)];
  (* 1834: 7.1.4-3c to 6.1-3c *)
  mkT M_7_1_4_3c M_6_1_3c [
    (FL, FL, co 10000000); (FL, TFL, co 7071068); (FLC, FLC, co 10000000); (FLC, TFL, co 7071068);
    (FC, FC, co 10000000); (FRC, FRC, co 10000000); (FRC, TFR, co 7071068); (FR, FR, co 10000000);
    (FR, TFR, co 7071068); (BL, SL, co 10000000); (BL, BL, co 10000000); (BL, TBL, co 7071068);
    (BC, BL, co 10000000); (BC, BR, co 10000000); (BC, SL, co 10000000); (BC, SR, co 10000000);
    (BC, TBL, co 7071068); (BC, TBR, co 7071068); (BR, SR, co 10000000); (BR, BR, co 10000000);
    (BR, TBR, co 7071068); (LFE, LFE, co 10000000)];
  (* 1872: 7.1.4-3c to 7.1 *)
  mkT M_7_1_4_3c M_7_1 [
    (FL, FL, co 10000000); (FL, FLC, co 7071068); (FL, TFL, co 7071068); (FC, FLC, co 7071068);
    (FC, FC, co 10000000); (FC, FRC, co 7071068); (FR, FR, co 10000000); (FR, FRC, co 7071068);
    (FR, TFR, co 7071068); (SL, SL, co 10000000); (SR, SR, co 10000000); (BL, BL, co 10000000);
    (BL, TBL, co 7071068); (BR, BR, co 10000000); (BR, TBR, co 7071068); (LFE, LFE, co 10000000)];
  (* 1903: 7.1.4-3c to 7.1-3c *)
  mkT M_7_1_4_3c M_7_1_3c [
    (FL, FL, co 10000000); (FL, TFL, co 7071068); (FLC, FLC, co 10000000); (FLC, TFL, co 7071068);
    (FC, FC, co 10000000); (FRC, FRC, co 10000000); (FRC, TFR, co 7071068); (FR, FR, co 10000000);
    (FR, TFR, co 7071068); (SL, SL, co 10000000); (SR, SR, co 10000000); (BL, BL, co 10000000);
    (BL, TBL, co 7071068); (BR, BR, co 10000000); (BR, TBR, co 7071068); (LFE, LFE, co 10000000)];
  (* 1936: 7.1.4-3c to 7.1.2-3c *)
  mkT M_7_1_4_3c M_7_1_2_3c [
    (FL, FL, co 10000000); (FLC, FLC, co 10000000); (FC, FC, co 10000000); (FRC, FRC, co 10000000);
    (FR, FR, co 10000000); (SL, SL, co 10000000); (SR, SR, co 10000000); (BL, BL, co 10000000);
    (BR, BR, co 10000000); (TML, TFL, co 7071068); (TML, TBL, co 7071068); (TMR, TFR, co 7071068);
    (TMR, TBR, co 7071068); (LFE, LFE, co 10000000)];
  (* 1969: 7.1.4-3c to 7.1.4 *)
  mkT M_7_1_4_3c M_7_1_4 [
    (FL, FL, co 10000000); (FL, FLC, co 7071068); (FC, FLC, co 7071068); (FC, FC, co 10000000);
    (FC, FRC, co 7071068); (FR, FR, co 10000000); (FR, FRC, co 7071068); (SL, SL, co 10000000);
    (SR, SR, co 10000000); (BL, BL, co 10000000); (BR, BR, co 10000000); (TFL, TFL, co 10000000);
    (TFR, TFR, co 10000000); (TBL, TBL, co 10000000); (TBR, TBR, co 10000000); (LFE, LFE, co 10000000)]].
