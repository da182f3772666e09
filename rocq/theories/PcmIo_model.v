(** The two stages of a pipeline that change the sample format: a reader that pulls frames
    from another reader and a writer that pushes frames into another writer. Both work
    through one internal buffer of fixed size.
    /repo/src/internal_modules/roc_audio/pcm_mapper_reader.cpp
    /repo/src/internal_modules/roc_audio/pcm_mapper_writer.cpp
    The conversion of samples is [mapper_map] of Pcm_model. The constructors panic unless
    both formats are byte-aligned and the rates and channels are equal (31-52 in both
    files): the model starts after that. Sizes in bits do not wrap. *)
From Verif Require Import Base Pcm_model TimeConv_model ChanIo_model.
Open Scope Z_scope.
Open Scope res_scope.

(** A frame of bytes. frame.h:17-110 *)
Record bframe := mkB { bf_bytes : list Z; bf_flags : Z; bf_dur : Z; bf_ts : Z }.

(** The reader before this one: the bytes it has still to give, and how its coming calls end,
    either with the flags and the capture time of the frame or with a failure. It fails too
    when it has fewer bytes than asked for. *)
Record bsource := mkBSrc { bs_bytes : list Z; bs_reads : list (option (Z * Z)) }.
Definition bsrc_read (n : nat) (s : bsource) : option (list Z * Z * Z) * bsource :=
  match bs_reads s with
  | [] => (None, s)
  | None :: r => (None, mkBSrc (bs_bytes s) r)
  | Some (fl, ts) :: r =>
      if (n <=? length (bs_bytes s))%nat
      then (Some (firstn n (bs_bytes s), fl, ts), mkBSrc (skipn n (bs_bytes s)) r)
      else (None, mkBSrc (bs_bytes s) r)
  end.

(** pcm_mapper_reader.cpp:103-107, pcm_mapper_writer.cpp:82-86 *)
Definition set_raw (raw : bool) (flags : Z) : Z := if raw then Z.clearbit flags 0 else Z.setbit flags 0.

(** The two formats, their byte orders, and the number of channels. *)
Record conv := mkConv { cv_ic : pcm_code; cv_ie : pcm_endian; cv_oc : pcm_code; cv_oe : pcm_endian; cv_ch : Z }.

(** The loop of PcmMapperReader::read, 80-101. [m] is max_sample_count, [n]
    out_sample_count. [Ok None]: still running after [fuel] rounds. *)
Fixpoint pread_loop (fuel : nat) (cv : conv) (m n off ooff : Z) (out : list Z) (s : bsource) (flags ts : Z) :
  res (option (option (list Z * Z * Z) * bsource)) :=
  match fuel with
  | O => Ok None
  | S fuel =>
      if ooff <? bit_count (cv_oc cv) (n * cv_ch cv) then
        let k := Z.min (n - off) m in
        let '(o, s) := bsrc_read (Z.to_nat (byte_count (cv_ic cv) (k * cv_ch cv))) s in
        match o with
        | None => Ok (Some (None, s))
        | Some (inp, fl, t) =>
            r <- mapper_map (cv_ic cv) (cv_ie cv) (cv_oc cv) (cv_oe cv) inp 0 out ooff (k * cv_ch cv) ;;
            t' <- (if off =? 0 then set_capture_timestamp t else Ok ts) ;;
            pread_loop fuel cv m n (off + k) (snd r) (snd (fst (fst r))) s (Z.lor flags fl) t'
        end
      else Ok (Some (Some (out, flags, ts), s))
  end.
(** PcmMapperReader::read, 66-113. [out] is the memory of the frame to be filled, [b] the
    size of the internal buffer. *)
Definition pcm_read (fuel : nat) (cv : conv) (raw : bool) (b : Z) (out : list Z) (s : bsource) : res (option (option bframe * bsource)) :=
  let m := sample_count (cv_ic cv) b / cv_ch cv in
  let n := sample_count (cv_oc cv) (Z.of_nat (length out)) / cv_ch cv in
  q <- pread_loop fuel cv m n 0 0 out s 0 0 ;;
  match q with
  | None => Ok None
  | Some (None, s) => Ok (Some (None, s))
  | Some (Some (out, fl, ts), s) => d <- set_duration n ;; Ok (Some (Some (mkB out (set_raw raw fl) d ts), s))
  end.
(** Filling frames one after the other, as long as that works. *)
Fixpoint pcm_reads (fuel : nat) (cv : conv) (raw : bool) (b : Z) (outs : list (list Z)) (s : bsource) : res (option (list bframe * bsource)) :=
  match outs with
  | [] => Ok (Some ([], s))
  | out :: outs =>
      q <- pcm_read fuel cv raw b out s ;;
      match q with
      | Some (Some f, s) =>
          q <- pcm_reads fuel cv raw b outs s ;;
          match q with Some (fs, s) => Ok (Some (f :: fs, s)) | None => Ok None end
      | _ => Ok None
      end
  end.

(** The loop of PcmMapperWriter::write, 88-111: the frames handed to the next writer. [buf]
    is the internal buffer. A sum of times that does not fit is left undefined. *)
Fixpoint pwrite_loop (fuel : nat) (cv : conv) (sp : spec) (m n off ioff : Z) (inp buf : list Z) (flags ts : Z) : res (option (list bframe)) :=
  match fuel with
  | O => Ok None
  | S fuel =>
      if ioff <? bit_count (cv_ic cv) (n * cv_ch cv) then
        let k := Z.min (n - off) m in
        let nb := Z.to_nat (byte_count (cv_oc cv) (k * cv_ch cv)) in
        r <- mapper_map (cv_ic cv) (cv_ie cv) (cv_oc cv) (cv_oe cv) inp ioff (firstn nb buf) 0 (k * cv_ch cv) ;;
        let bytes := snd (fst (fst r)) in
        d <- set_duration k ;;
        t <- set_capture_timestamp ts ;;
        ts' <- (if ts =? 0 then Ok 0
                else d <- samples_per_chan_2_ns sp k ;;
                     if ts + d <? 2 ^ 63 then Ok (ts + d) else UB) ;;
        q <- pwrite_loop fuel cv sp m n (off + k) (snd (fst r)) inp (bytes ++ skipn nb buf) flags ts' ;;
        match q with Some fs => Ok (Some (mkB bytes flags d t :: fs)) | None => Ok None end
      else Ok (Some [])
  end.
(** PcmMapperWriter::write, 66-112 *)
Definition pcm_write (fuel : nat) (cv : conv) (raw : bool) (sp : spec) (buf : list Z) (f : bframe) : res (option (list bframe)) :=
  let m := sample_count (cv_oc cv) (Z.of_nat (length buf)) / cv_ch cv in
  let n := sample_count (cv_ic cv) (Z.of_nat (length (bf_bytes f))) / cv_ch cv in
  pwrite_loop fuel cv sp m n 0 0 (bf_bytes f) buf (set_raw raw (bf_flags f)) (bf_ts f).
