(** Model of roc_sndio/wav_header.cpp and wav_sink.cpp on a little-endian machine: what
    is in the file.

    Simplifications: seeks, writes and flushes succeed (the code only logs failures); the
    44 bytes of the header reach the file in one piece, the samples byte by byte. *)
From Verif Require Import Base.

(** The [k] bytes of a number in memory. *)
Fixpoint le (k : nat) (x : Z) : list Z :=
  match k with O => [] | S j => x mod 256 :: le j (x / 256) end.

(** wav_header.h:25-96. The sizes are separate: they are made from the counter. *)
Record header := mkHeader { hd_chans : Z; hd_rate : Z; hd_bits : Z; hd_count : Z }.

(** wav_header.cpp:15-31 with wav_sink.cpp:39-41: the constructor. [num_samples_] is not
    initialized: it is what the memory held, [garbage]. *)
Definition header_new (chans rate bits garbage : Z) : header :=
  mkHeader (u16 chans) (u32 rate) (u16 bits) (u32 garbage).

(** wav_header.cpp:73-80: [update_and_get_header]. *)
Definition header_update (h : header) (n : Z) : header :=
  mkHeader (hd_chans h) (hd_rate h) (hd_bits h) (u32 (hd_count h + u32 n)).
Definition data_size (h : header) : Z := u32 (hd_count h * hd_chans h * (hd_bits h / 8)).
Definition riff_size (h : header) : Z := u32 (36 + data_size h).

(** wav_header.h:28-70, wav_header.cpp:18-30: the fields in memory. *)
Definition header_bytes (h : header) : list Z :=
  [0x52; 0x49; 0x46; 0x46] ++ le 4 (riff_size h) ++ [0x57; 0x41; 0x56; 0x45] ++
  [0x66; 0x6d; 0x74; 0x20] ++ le 4 16 ++ le 2 3 ++ le 2 (hd_chans h) ++ le 4 (hd_rate h) ++
  le 4 (u32 (hd_rate h * hd_chans h * (hd_bits h / 8))) ++
  le 2 (u16 (hd_chans h * (hd_bits h / 8))) ++ le 2 (hd_bits h) ++
  [0x64; 0x61; 0x74; 0x61] ++ le 4 (data_size h).

(** A file that is open: header and content. wav_sink.cpp:152-172: [open] truncates. *)
Record sink := mkSink { sk_head : header; sk_file : list Z }.
Definition sink_open (chans rate garbage : Z) : sink := mkSink (header_new chans rate 32 garbage) [].

(** fseek to the beginning and fwrite. *)
Definition overwrite (file bytes : list Z) : list Z := bytes ++ skipn (length bytes) file.

(** Samples are the 32 bits of a float each. *)
Definition sample_bytes (frame : list Z) : list Z := flat_map (le 4) frame.

(** wav_sink.cpp:112-150: [write]. *)
Definition sink_write (s : sink) (frame : list Z) : sink :=
  let n := Z.of_nat (length frame) in
  if 0 <? n then
    let h := header_update (sk_head s) n in
    mkSink h (overwrite (sk_file s) (header_bytes h) ++ sample_bytes frame)
  else s.

(** The file if the process ends inside of [write]: before the header is written, or
    after it and [j] bytes of the samples. *)
Definition sink_crash (s : sink) (frame : list Z) (j : option nat) : list Z :=
  match j with
  | None => sk_file s
  | Some j =>
      let n := Z.of_nat (length frame) in
      if 0 <? n then
        overwrite (sk_file s) (header_bytes (header_update (sk_head s) n)) ++ firstn j (sample_bytes frame)
      else sk_file s
  end.

Definition sink_run (s : sink) (frames : list (list Z)) : sink := fold_left sink_write frames s.
