(** Model of audio::Watchdog, src/internal_modules/roc_audio/watchdog.cpp.

    A frame is its duration and flags. Durations from the configuration are given
    in samples: the conversion from nanoseconds is not modelled here. Of the
    status line only the position in its buffer is kept. *)
From Verif Require Import Base Seqnum_model.
Open Scope res_scope.

Record wframe := mkWframe { wf_dur : Z; wf_flags : Z }.

(** Frame flags, frame.h 44-56. *)
Definition FlagNotBlank : Z := 2.
Definition FlagNotComplete : Z := 4.
Definition FlagPacketDrops : Z := 8.

(** max_blank_duration_, max_drops_duration_, drops_detection_window_,
    warmup_duration_, and the size of status_; watchdog.h 134-147. *)
Record wconf := mkWconf { wc_blank : Z; wc_drops : Z; wc_window : Z; wc_warmup : Z; wc_status : nat }.

Record wstate := mkWstate {
  ws_pos : Z; ws_last_blank : Z; ws_last_drops : Z; ws_warmup : bool; ws_win : Z; ws_spos : nat; ws_show : bool; ws_alive : bool }.

(** Constructor, 43-112; [None] when the configuration is refused. *)
Definition wd_new (c : wconf) : option wstate :=
  if negb (wc_drops c =? 0) && ((wc_window c <? 1) || (wc_drops c <? wc_window c)) then None
  else Some (mkWstate 0 (wc_warmup c) 0 (negb (wc_warmup c =? 0)) 0 0 false true).

(** update_blank_timeout_, 158-168. *)
Definition wd_update_blank (c : wconf) (s : wstate) (f : wframe) (next : Z) : wstate :=
  if wc_blank c =? 0 then s
  else if Z.land (wf_flags f) FlagNotBlank =? 0 then s
  else mkWstate (ws_pos s) next (ws_last_drops s) false (ws_win s) (ws_spos s) (ws_show s) (ws_alive s).

(** update_drops_timeout_, 191-217. *)
Definition wd_update_drops (c : wconf) (s : wstate) (f : wframe) (next : Z) : wstate :=
  if wc_drops c =? 0 then s
  else
    let w := wc_window c in
    let win := Z.lor (ws_win s) (wf_flags f) in
    let window_start := u32 (ws_pos s / w * w) in
    let window_end := u32 (window_start + w) in
    if stream_timestamp_le window_end next then
      let drop_flags := Z.lor FlagNotComplete FlagPacketDrops in
      let last := if Z.land win drop_flags =? drop_flags then ws_last_drops s else next in
      let win' := if next mod w =? 0 then 0 else wf_flags f in
      mkWstate (ws_pos s) (ws_last_blank s) last (ws_warmup s) win' (ws_spos s) (ws_show s) (ws_alive s)
    else mkWstate (ws_pos s) (ws_last_blank s) (ws_last_drops s) (ws_warmup s) win (ws_spos s) (ws_show s) (ws_alive s).

(** flush_status_, 286-300. *)
Definition wd_flush (s : wstate) : wstate :=
  if (ws_spos s =? 0)%nat then s
  else mkWstate (ws_pos s) (ws_last_blank s) (ws_last_drops s) (ws_warmup s) (ws_win s) 0 false (ws_alive s).
(** update_status_, 244-284: writing outside the array panics, array.h. *)
Definition wd_status (c : wconf) (s : wstate) (f : wframe) : res wstate :=
  if (wc_status c =? 0)%nat then Ok s
  else
    let plain := negb (Z.land (wf_flags f) FlagNotBlank =? 0) && (Z.land (wf_flags f) FlagNotComplete =? 0) && (Z.land (wf_flags f) FlagPacketDrops =? 0) in
    if (wc_status c <=? ws_spos s)%nat then Panic
    else
      let s1 := mkWstate (ws_pos s) (ws_last_blank s) (ws_last_drops s) (ws_warmup s) (ws_win s) (S (ws_spos s)) (ws_show s || negb plain) (ws_alive s) in
      Ok (if (ws_spos s1 =? wc_status c - 1)%nat then wd_flush s1 else s1).

(** check_drops_timeout_ and check_blank_timeout_, 219-238 and 170-189. *)
Definition wd_check_drops (c : wconf) (s : wstate) : bool :=
  (wc_drops c =? 0) || (u32 (ws_pos s - ws_last_drops s) <? wc_drops c).
Definition wd_check_blank (c : wconf) (s : wstate) : bool :=
  (wc_blank c =? 0) || ws_warmup s || (u32 (ws_pos s - ws_last_blank s) <? wc_blank c).

Definition wd_die (s : wstate) : wstate :=
  let t := wd_flush s in
  mkWstate (ws_pos t) (ws_last_blank t) (ws_last_drops t) (ws_warmup t) (ws_win t) (ws_spos t) (ws_show t) false.

(** Watchdog::read, 124-156, when the inner reader returns frame [f]. The result
    tells whether the frame was passed on. Frame::duration panics on zero. *)
Definition wd_read (c : wconf) (s : wstate) (f : wframe) : res (wstate * bool) :=
  if negb (ws_alive s) then Ok (s, false)
  else if wf_dur f =? 0 then Panic
  else
    let next := u32 (ws_pos s + wf_dur f) in
    let s1 := wd_update_blank c s f next in
    let s2 := wd_update_drops c s1 f next in
    s3 <- wd_status c s2 f ;;
    let s4 := mkWstate next (ws_last_blank s3) (ws_last_drops s3) (ws_warmup s3) (ws_win s3) (ws_spos s3) (ws_show s3) (ws_alive s3) in
    let s5 := if wd_check_drops c s4 then s4 else wd_die s4 in
    let s6 := if wd_check_blank c s5 then s5 else wd_die s5 in
    (* update_warmup_, 240-242 *)
    Ok (mkWstate (ws_pos s6) (ws_last_blank s6) (ws_last_drops s6) (ws_warmup s6 && (ws_pos s6 <? wc_warmup c)) (ws_win s6) (ws_spos s6) (ws_show s6) (ws_alive s6), true).

(** A sequence of frames; the flags tell which frames were passed on. *)
Fixpoint wd_run (c : wconf) (s : wstate) (fs : list wframe) : res (list bool * wstate) :=
  match fs with
  | [] => Ok ([], s)
  | f :: r =>
      x <- wd_read c s f ;;
      let '(s1, b) := x in
      y <- wd_run c s1 r ;;
      let '(bs, s2) := y in Ok (b :: bs, s2)
  end.
