(** The two stages of a pipeline that change the channel layout: a reader that pulls frames
    from another reader and a writer that pushes frames into another writer. Both work
    through one internal buffer of fixed size.
    /repo/src/internal_modules/roc_audio/channel_mapper_reader.cpp
    /repo/src/internal_modules/roc_audio/channel_mapper_writer.cpp
    The sample arithmetic is [map_samples] of ChanMap_model. The constructors (39-50 in both
    files) panic for different rates and for formats that are not raw: the model starts
    after that. *)
From Coq Require Import QArith.
From Verif Require Import Base ChannelSet_model ChanMap_model TimeConv_model.
Open Scope Z_scope.
Open Scope res_scope.

(** A frame of raw samples. frame.h:17-110 *)
Record frame := mkFr { fr_samples : list Q; fr_flags : Z; fr_dur : Z; fr_ts : Z }.

(* frame.cpp:45-47, frame.h:44: FlagNotRaw is bit 0 *)
Definition is_raw (flags : Z) : bool := negb (Z.testbit flags 0).
(* frame.cpp:85-91; the argument is cut to 32 bits, roc_packet/units.h:36 *)
Definition set_duration (n : Z) : res Z := if n mod 2 ^ 32 =? 0 then Panic else Ok (n mod 2 ^ 32).
(* frame.cpp:101-107 *)
Definition set_capture_timestamp (ts : Z) : res Z := if ts <? 0 then Panic else Ok ts.

(** The reader before this one: the samples it has still to give, cut by sampling moment,
    and how its coming calls end, either with the flags and the capture time of the frame or
    with a failure. It fails too when it has fewer samples than asked for. *)
Record source := mkSrc { sr_frames : list (list Q); sr_reads : list (option (Z * Z)) }.
Definition src_read (n : nat) (s : source) : option (list Q * Z * Z) * source :=
  match sr_reads s with
  | [] => (None, s)
  | None :: r => (None, mkSrc (sr_frames s) r)
  | Some (fl, ts) :: r =>
      if (n <=? length (sr_frames s))%nat
      then (Some (concat (firstn n (sr_frames s)), fl, ts), mkSrc (skipn n (sr_frames s)) r)
      else (None, mkSrc (sr_frames s) r)
  end.

(** ChannelMapperReader::read_, channel_mapper_reader.cpp:92-108 *)
Definition read_batch (mp : mapper) (n : nat) (s : source) : res (option (list Q * Z * Z) * source) :=
  let '(o, s) := src_read n s in
  match o with
  | None => Ok (None, s)
  | Some (inp, fl, ts) =>
      if negb (is_raw fl) then Panic
      else out <- map_samples mp inp (Z.of_nat n * num_channels (mp_out mp)) ;; Ok (Some (out, fl, ts), s)
  end.
(** The loop of ChannelMapperReader::read, 70-86. [acc] is what is written to the frame so
    far, [ts] its capture time, if already set. [Ok None]: still running after [fuel]
    rounds. *)
Fixpoint read_loop (fuel : nat) (mp : mapper) (mb n : nat) (s : source) (acc : list Q) (flags : Z) (ts : option Z) :
  res (option (option (list Q * Z * option Z) * source)) :=
  match fuel with
  | O => Ok None
  | S fuel =>
      match n with
      | O => Ok (Some (Some (acc, flags, ts), s))
      | _ =>
          let k := Nat.min n mb in
          q <- read_batch mp k s ;;
          match fst q with
          | None => Ok (Some (None, snd q))
          | Some (out, fl, t) =>
              t' <- (match ts with Some t0 => Ok t0 | None => set_capture_timestamp t end) ;;
              read_loop fuel mp mb (n - k) (snd q) (acc ++ out) (Z.lor flags fl) (Some t')
          end
      end
  end.
(** ChannelMapperReader::read, 57-90. [size] is the number of samples of the frame to be
    filled, [b] that of the internal buffer. *)
Definition chan_read (fuel : nat) (mp : mapper) (b size : Z) (s : source) : res (option (option frame * source)) :=
  let co := num_channels (mp_out mp) in
  if negb (size mod co =? 0) then Panic
  else
    let mb := Z.to_nat (b / num_channels (mp_in mp)) in
    q <- read_loop fuel mp mb (Z.to_nat (size / co)) s [] 0 None ;;
    match q with
    | None => Ok None
    | Some (None, s) => Ok (Some (None, s))
    | Some (Some (out, fl, ts), s) =>
        d <- set_duration (size / co) ;;
        Ok (Some (Some (mkFr out fl d (match ts with Some t => t | None => 0 end)), s))
    end.
(** Reading frames one after the other, as long as that works. *)
Fixpoint chan_reads (fuel : nat) (mp : mapper) (b : Z) (sizes : list Z) (s : source) : res (option (list frame * source)) :=
  match sizes with
  | [] => Ok (Some ([], s))
  | n :: sizes =>
      q <- chan_read fuel mp b n s ;;
      match q with
      | Some (Some f, s) =>
          q <- chan_reads fuel mp b sizes s ;;
          match q with Some (fs, s) => Ok (Some (f :: fs, s)) | None => Ok None end
      | _ => Ok None
      end
  end.

(** ChannelMapperWriter::write_, channel_mapper_writer.cpp:87-101 *)
Definition write_batch (mp : mapper) (inp : list Q) (n : nat) (flags ts : Z) : res frame :=
  out <- map_samples mp inp (Z.of_nat n * num_channels (mp_out mp)) ;;
  d <- set_duration (Z.of_nat n) ;;
  t <- set_capture_timestamp ts ;;
  Ok (mkFr out flags d t).
(** The loop of ChannelMapperWriter::write, 72-84: the frames handed to the next writer.
    The sum in line 82 is cut to 64 bits by the type; the model leaves an overflow
    undefined. *)
Fixpoint write_loop (fuel : nat) (mp : mapper) (sp : spec) (mb n : nat) (inp : list Q) (flags ts : Z) : res (option (list frame)) :=
  match fuel with
  | O => Ok None
  | S fuel =>
      match n with
      | O => Ok (Some [])
      | _ =>
          let k := Nat.min n mb in
          let ci := Z.to_nat (num_channels (mp_in mp)) in
          f <- write_batch mp (firstn (k * ci) inp) k flags ts ;;
          ts' <- (if ts =? 0 then Ok 0
                  else d <- samples_per_chan_2_ns sp (Z.of_nat k) ;;
                       if ts + d <? 2 ^ 63 then Ok (ts + d) else UB) ;;
          q <- write_loop fuel mp sp mb (n - k) (skipn (k * ci) inp) flags ts' ;;
          match q with Some fs => Ok (Some (f :: fs)) | None => Ok None end
      end
  end.
(** ChannelMapperWriter::write, 57-85 *)
Definition chan_write (fuel : nat) (mp : mapper) (sp : spec) (b : Z) (f : frame) : res (option (list frame)) :=
  let ci := num_channels (mp_in mp) in
  if negb (is_raw (fr_flags f)) then Panic
  else if negb (Z.of_nat (length (fr_samples f)) mod ci =? 0) then Panic
  else
    write_loop fuel mp sp (Z.to_nat (b / num_channels (mp_out mp)))
      (Z.to_nat (Z.of_nat (length (fr_samples f)) / ci)) (fr_samples f) (fr_flags f) (fr_ts f).
