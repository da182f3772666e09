(** Model of PCM coding: roc_audio/pcm_format.cpp (generated from
    roc_audio/pcm_format_gen.py; the templates are cited), roc_audio/pcm_mapper.cpp,
    roc_audio/pcm_encoder.cpp, roc_audio/pcm_decoder.cpp.

    A sample of an integer code is the value of its C++ type; a sample of a floating
    point code is its bit pattern. Bit offsets are unbounded (the code uses size_t and
    buffers are shorter than 2^61 bytes). *)
From Coq Require Import Reals.
From Flocq Require Import Core.Core IEEE754.BinarySingleNaN.
From Flocq Require IEEE754.Binary IEEE754.Bits.
From Verif Require Import Base Float32.
Open Scope Z_scope.
Open Scope res_scope.

(** enum PcmCode, pcm_format.cpp 16-44. *)
Inductive pcm_code :=
| SInt8 | UInt8 | SInt16 | UInt16 | SInt18 | UInt18 | SInt18_3 | UInt18_3 | SInt18_4 | UInt18_4
| SInt20 | UInt20 | SInt20_3 | UInt20_3 | SInt20_4 | UInt20_4 | SInt24 | UInt24 | SInt24_4 | UInt24_4
| SInt32 | UInt32 | SInt64 | UInt64 | Float32 | Float64.

(** enum PcmEndian, pcm_format.cpp 46-52. [Native] formats select one of these two at
    compile time (12785-12800), so they are not separate here. *)
Inductive pcm_endian := Big | Little.

(** 'is_integer', pcm_format_gen.py 97-503 (table CODES). *)
Definition c_int (c : pcm_code) : bool := match c with Float32 | Float64 => false | _ => true end.
(** 'is_signed', pcm_format_gen.py 97-503. *)
Definition c_sig (c : pcm_code) : bool :=
  match c with
  | UInt8 | UInt16 | UInt18 | UInt18_3 | UInt18_4 | UInt20 | UInt20_3 | UInt20_4 | UInt24 | UInt24_4
  | UInt32 | UInt64 => false
  | _ => true
  end.
(** 'width', pcm_format_gen.py 97-503. *)
Definition c_w (c : pcm_code) : Z :=
  match c with
  | SInt8 | UInt8 => 8
  | SInt16 | UInt16 => 16
  | SInt18 | UInt18 | SInt18_3 | UInt18_3 | SInt18_4 | UInt18_4 => 18
  | SInt20 | UInt20 | SInt20_3 | UInt20_3 | SInt20_4 | UInt20_4 => 20
  | SInt24 | UInt24 | SInt24_4 | UInt24_4 => 24
  | SInt32 | UInt32 | Float32 => 32
  | SInt64 | UInt64 | Float64 => 64
  end.
(** 'packed_width', pcm_format_gen.py 97-503; also PcmTraits::bit_width. *)
Definition c_pw (c : pcm_code) : Z :=
  match c with
  | SInt8 | UInt8 => 8
  | SInt16 | UInt16 => 16
  | SInt18 | UInt18 => 18
  | SInt18_3 | UInt18_3 => 24
  | SInt18_4 | UInt18_4 => 32
  | SInt20 | UInt20 => 20
  | SInt20_3 | UInt20_3 => 24
  | SInt20_4 | UInt20_4 => 32
  | SInt24 | UInt24 => 24
  | SInt24_4 | UInt24_4 => 32
  | SInt32 | UInt32 | Float32 => 32
  | SInt64 | UInt64 | Float64 => 64
  end.
(** 'unpacked_width', pcm_format_gen.py 97-503. *)
Definition c_uw (c : pcm_code) : Z :=
  match c with
  | SInt8 | UInt8 => 8
  | SInt16 | UInt16 => 16
  | SInt64 | UInt64 | Float64 => 64
  | _ => 32
  end.
(** 'packed_octets', pcm_format_gen.py 505-570. *)
Definition c_po (c : pcm_code) : nat := Z.to_nat ((c_pw c + 7) / 8).

Definition code_eq_dec (a b : pcm_code) : {a = b} + {a <> b}.
Proof. decide equality. Defined.

(** ** Octets and bits: pcm_format.cpp 10963-11008 *)

(** pcm_aligned_write, 10963-10966. *)
Definition aligned_write (buf : list Z) (off : Z) (arg : Z) : res (list Z * Z) :=
  b <- wr buf (Z.to_nat (Z.shiftr off 3)) arg ;; Ok (b, off + 8).

(** pcm_aligned_read, 10969-10973. *)
Definition aligned_read (buf : list Z) (off : Z) : res (Z * Z) :=
  x <- rd buf (Z.to_nat (Z.shiftr off 3)) ;; Ok (x, off + 8).

(** pcm_unaligned_write, 10975-10991. The shifts are done in int. *)
Definition unaligned_write (buf : list Z) (off : Z) (len : Z) (arg : Z) : res (list Z * Z) :=
  let byte_index := Z.to_nat (Z.shiftr off 3) in
  let bit_index := Z.land off 7 in
  b0 <- (if bit_index =? 0 then wr buf byte_index 0 else Ok buf) ;;
  x <- rd b0 byte_index ;;
  b1 <- wr b0 byte_index (Z.lor x (u8 (Z.shiftr (Z.shiftl arg (8 - len)) bit_index))) ;;
  b2 <- (if 8 <? bit_index + len then wr b1 (S byte_index) (u8 (Z.shiftl arg bit_index)) else Ok b1) ;;
  Ok (b2, off + len).

(** pcm_unaligned_read, 10994-11008. *)
Definition unaligned_read (buf : list Z) (off : Z) (len : Z) : res (Z * Z) :=
  let byte_index := Z.to_nat (Z.shiftr off 3) in
  let bit_index := Z.land off 7 in
  x <- rd buf byte_index ;;
  let ret := u8 (Z.shiftr (Z.shiftl x bit_index) (8 - len)) in
  ret <- (if 8 <? bit_index + len
          then (y <- rd buf (S byte_index) ;; Ok (Z.lor ret (u8 (Z.shiftr (Z.shiftr y (8 - bit_index)) (8 - len)))))
          else Ok ret) ;;
  Ok (ret, off + len).

(** Order in which the octets of a sample are visited, pcm_format_gen.py 804-807. *)
Definition octet_order (e : pcm_endian) (n : nat) : list nat :=
  match e with Little => seq 0 n | Big => rev (seq 0 n) end.

(** Bits stored for octet n, pcm_format_gen.py 812. *)
Definition octet_bits (c : pcm_code) (n : nat) : Z :=
  if (n =? c_po c - 1)%nat then c_pw c mod 8 else 8.

(** pcm_packer<Code, Endian>::pack, pcm_format_gen.py 793-815 (octet n of the union
    pcm_sample, 711-734, is byte n of the value). *)
Fixpoint pack_octets (c : pcm_code) (ns : list nat) (buf : list Z) (off v : Z) : res (list Z * Z) :=
  match ns with
  | [] => Ok (buf, off)
  | n :: t =>
      r <- (if c_pw c mod 8 =? 0 then aligned_write buf off (byte_of v (Z.of_nat n))
            else unaligned_write buf off (octet_bits c n) (byte_of v (Z.of_nat n))) ;;
      pack_octets c t (fst r) (snd r) v
  end.
Definition pack (c : pcm_code) (e : pcm_endian) (buf : list Z) (off v : Z) : res (list Z * Z) :=
  let v := if c_w c <? c_pw c then Z.land v (2 ^ c_w c - 1) else v in
  pack_octets c (octet_order e (c_po c)) buf off v.

(** pcm_packer<Code, Endian>::unpack, pcm_format_gen.py 818-850. [acc] is the unsigned
    view of p.value; octets that are not packed are zero. *)
Fixpoint unpack_octets (c : pcm_code) (ns : list nat) (buf : list Z) (off acc : Z) : res (Z * Z) :=
  match ns with
  | [] => Ok (acc, off)
  | n :: t =>
      r <- (if c_pw c mod 8 =? 0 then aligned_read buf off
            else unaligned_read buf off (octet_bits c n)) ;;
      unpack_octets c t buf (snd r) (acc + fst r * 2 ^ (8 * Z.of_nat n))
  end.
Definition unpack (c : pcm_code) (e : pcm_endian) (buf : list Z) (off : Z) : res (Z * Z) :=
  r <- unpack_octets c (octet_order e (c_po c)) buf off 0 ;;
  let v := fst r in
  let v := if c_w c <? c_pw c then Z.land v (2 ^ c_w c - 1) else v in
  let v := if c_sig c && (c_w c <? c_uw c) && Z.testbit v (c_w c - 1)
           then Z.lor v (2 ^ c_uw c - 2 ^ c_w c) else v in
  Ok ((if c_int c && c_sig c then wraps (c_uw c) v else v), snd r).

(** ** Conversions: pcm_format_gen.py 600-702 *)

(** Value and bit pattern of a float / double. *)
Definition f32_of_bits (z : Z) : f32 := Binary.B2BSN 24 128 (Bits.b32_of_bits z).
Definition f64_of_bits (z : Z) : f64 := Binary.B2BSN 53 1024 (Bits.b64_of_bits z).
Definition bits_of_f32 (x : f32) : Z := Bits.bits_of_b32 (Binary.BSN2B 24 128 Bits.default_nan_pl32 x).
Definition bits_of_f64 (x : f64) : Z := Bits.bits_of_b64 (Binary.BSN2B 53 1024 Bits.default_nan_pl64 x).

(** C++ conversions between float and double. *)
Definition f64_of_f32 (x : f32) : f64 :=
  match x with
  | B754_zero s => B754_zero s
  | B754_infinity s => B754_infinity s
  | B754_nan => B754_nan
  | B754_finite s m e _ => binary_normalize 53 1024 _ _ mode_NE (cond_Zopp s (Zpos m)) e s
  end.
Definition f32_of_f64 (x : f64) : f32 :=
  match x with
  | B754_zero s => B754_zero s
  | B754_infinity s => B754_infinity s
  | B754_nan => B754_nan
  | B754_finite s m e _ => binary_normalize 24 128 _ _ mode_NE (cond_Zopp s (Zpos m)) e s
  end.

(** pcm_<code>_max and pcm_<code>_min of the signed code, pcm_format.cpp 54-160. *)
Definition smax (c : pcm_code) : Z := 2 ^ (c_w c - 1) - 1.
Definition smin (c : pcm_code) : Z := - 2 ^ (c_w c - 1).

(** (double)max + 1.0 *)
Definition scale (c : pcm_code) : f64 := f64_add (f64_of_Z (smax c)) (f64_of_Z 1).

(** pcm_sign_converter, pcm_format.cpp 172-607; both branches of each function compute
    the same value. *)
Definition to_signed (c : pcm_code) (v : Z) : Z := wraps (c_uw c) (v - smax c - 1).
Definition from_signed (c : pcm_code) (v : Z) : Z := wrapu (c_uw c) (v + smax c + 1).

(** float to integer, pcm_format_gen.py 660-670. The conversion of NaN to an integer type
    is undefined. *)
Definition float_to_int (c : pcm_code) (x : f64) : res Z :=
  let d := f64_mul x (scale c) in
  if f64_lt d (f64_of_Z (smin c)) then Ok (smin c)
  else if Bleb (scale c) d then Ok (smax c)
  else if is_finite d then Ok (Btrunc d) else UB.

(** integer to float, pcm_format_gen.py 656-658, before the conversion to the output type. *)
Definition int_to_float (c : pcm_code) (v : Z) : f64 :=
  f64_mul (f64_of_Z v) (f64_div (f64_of_Z 1) (scale c)).

(** integer to integer, pcm_format_gen.py 671-692. *)
Definition int_to_int (ci co : pcm_code) (v : Z) : Z :=
  let both_unsigned := negb (c_sig ci) && negb (c_sig co) in
  if c_w co =? c_w ci then v
  else if c_w co <? c_w ci then
    if both_unsigned then wrapu (c_uw co) (Z.shiftr v (c_w ci - c_w co))
    else
      let r := 2 ^ (c_w ci - c_w co - 1) in
      if smax ci - r <? v then smax co
      else wraps (c_uw co) (Z.shiftr (wrapu (c_uw ci) (v + r)) (c_w ci - c_w co))
  else
    if both_unsigned then wrapu (c_uw co) (Z.shiftl v (c_w co - c_w ci))
    else wraps (c_uw co) (Z.shiftl (wrapu (c_uw co) v) (c_w co - c_w ci)).

(** pcm_code_converter<InCode, OutCode>::convert, pcm_format_gen.py 630-702. *)
Definition convert (ci co : pcm_code) (v : Z) : res Z :=
  if code_eq_dec ci co then Ok v else
  let both_unsigned := negb (c_sig ci) && negb (c_sig co) in
  let v := if negb (c_sig ci) && negb both_unsigned then to_signed ci v else v in
  out <- match ci, co with
         | Float32, Float64 => Ok (bits_of_f64 (f64_of_f32 (f32_of_bits v)))
         | Float64, Float32 => Ok (bits_of_f32 (f32_of_f64 (f64_of_bits v)))
         | Float32, _ => float_to_int co (f64_of_f32 (f32_of_bits v))
         | Float64, _ => float_to_int co (f64_of_bits v)
         | _, Float32 => Ok (bits_of_f32 (f32_of_f64 (int_to_float ci v)))
         | _, Float64 => Ok (bits_of_f64 (int_to_float ci v))
         | _, _ => Ok (int_to_int ci co v)
         end ;;
  Ok (if negb (c_sig co) && negb both_unsigned then from_signed co out else out).

(** ** The mapper *)

(** pcm_mapper<...>::map, pcm_format.cpp 12760-12775. Result: output buffer, input and
    output bit offsets. *)
Fixpoint map_loop (ci : pcm_code) (ei : pcm_endian) (co : pcm_code) (eo : pcm_endian) (n : nat)
  (inp : list Z) (ioff : Z) (out : list Z) (ooff : Z) : res (list Z * Z * Z) :=
  match n with
  | O => Ok (out, ioff, ooff)
  | S k =>
      u <- unpack ci ei inp ioff ;;
      v <- convert ci co (fst u) ;;
      p <- pack co eo out ooff v ;;
      map_loop ci ei co eo k inp (snd u) (fst p) (snd p)
  end.

(** PcmMapper::input_sample_count / output_sample_count, pcm_mapper.cpp 41-47. *)
Definition sample_count (c : pcm_code) (bytes : Z) : Z := bytes * 8 / c_pw c.
(** input_byte_count / output_byte_count, 49-55. *)
Definition byte_count (c : pcm_code) (samples : Z) : Z := (samples * c_pw c + 7) / 8.
(** input_bit_count / output_bit_count, 57-63. *)
Definition bit_count (c : pcm_code) (samples : Z) : Z := samples * c_pw c.

(** PcmMapper::map, 65-91. Result: samples mapped, output buffer, bit offsets. *)
Definition mapper_map (ci : pcm_code) (ei : pcm_endian) (co : pcm_code) (eo : pcm_endian)
  (inp : list Z) (ioff : Z) (out : list Z) (ooff : Z) (n : Z) : res (Z * list Z * Z * Z) :=
  let ibits := Z.of_nat (length inp) * 8 in
  let obits := Z.of_nat (length out) * 8 in
  if ibits <? ioff then Panic else
  if obits <? ooff then Panic else
  let n := Z.min n ((ibits - ioff) / c_pw ci) in
  let n := Z.min n ((obits - ooff) / c_pw co) in
  r <- map_loop ci ei co eo (Z.to_nat n) inp ioff out ooff ;;
  Ok (n, fst (fst r), snd (fst r), snd r).

(** ** Encoder: pcm_encoder.cpp *)

(** [host] is the byte order of the machine: Sample_RawFormat is native-endian Float32.
    A sample array is a list of bit patterns; this is its memory image. *)
Definition sample_bytes (host : pcm_endian) (s : list Z) : list Z :=
  flat_map (fun v => map (fun n => byte_of v (Z.of_nat n)) (octet_order host 4)) s.

Record encoder := { en_code : pcm_code; en_end : pcm_endian; en_chans : Z;
                    en_frame : option (list Z); en_off : Z }.
(** PcmEncoder::PcmEncoder, 19-25. *)
Definition enc_new (c : pcm_code) (e : pcm_endian) (chans : Z) : encoder :=
  {| en_code := c; en_end := e; en_chans := chans; en_frame := None; en_off := 0 |}.
(** encoded_byte_count, 27-29. *)
Definition enc_byte_count (s : encoder) (n : Z) : Z := byte_count (en_code s) (n * en_chans s).
(** begin, 31-40. *)
Definition enc_begin (s : encoder) (frame : list Z) : res encoder :=
  match en_frame s with
  | Some _ => Panic
  | None => Ok {| en_code := en_code s; en_end := en_end s; en_chans := en_chans s;
                  en_frame := Some frame; en_off := en_off s |}
  end.
(** write, 42-59. *)
Definition enc_write (host : pcm_endian) (s : encoder) (samples : list Z) : res (Z * encoder) :=
  match en_frame s with
  | None => Panic
  | Some frame =>
      let n := Z.of_nat (length samples) / en_chans s in
      r <- mapper_map Float32 host (en_code s) (en_end s) 
             (sample_bytes host (firstn (Z.to_nat (n * en_chans s)) samples)) 0 frame (en_off s)
             (n * en_chans s) ;;
      let '(mapped, frame', ioff, ooff) := r in
      if negb (ioff mod 8 =? 0) then Panic else
      let m := mapped / en_chans s in
      if n <? m then Panic else
      Ok (m, {| en_code := en_code s; en_end := en_end s; en_chans := en_chans s;
                en_frame := Some frame'; en_off := ooff |})
  end.
(** end, 61-69. The frame belongs to the caller and is returned. *)
Definition enc_end (s : encoder) : res (list Z * encoder) :=
  match en_frame s with
  | None => Panic
  | Some frame => Ok (frame, enc_new (en_code s) (en_end s) (en_chans s))
  end.

(** ** Decoder: pcm_decoder.cpp *)
Record decoder := { de_code : pcm_code; de_end : pcm_endian; de_chans : Z;
                    de_frame : option (list Z); de_off : Z; de_pos : Z; de_avail : Z }.
(** PcmDecoder::PcmDecoder, 20-28. *)
Definition dec_new (c : pcm_code) (e : pcm_endian) (chans : Z) : decoder :=
  {| de_code := c; de_end := e; de_chans := chans; de_frame := None; de_off := 0; de_pos := 0; de_avail := 0 |}.
(** begin, 44-59; stream_timestamp_t is 32 bits wide. *)
Definition dec_begin (s : decoder) (pos : Z) (frame : list Z) : res decoder :=
  match de_frame s with
  | Some _ => Panic
  | None => Ok {| de_code := de_code s; de_end := de_end s; de_chans := de_chans s;
                  de_frame := Some frame; de_off := de_off s; de_pos := pos;
                  de_avail := u32 (sample_count (de_code s) (Z.of_nat (length frame)) / de_chans s) |}
  end.
(** read, 61-85. [buf] is the memory of the caller's sample array, of n samples for every
    channel; the samples written to it are returned. *)
Definition dec_read (host : pcm_endian) (s : decoder) (buf : list Z) (n : Z) : res (Z * list Z * decoder) :=
  match de_frame s with
  | None => Panic
  | Some frame =>
      let n := if de_avail s <? n then de_avail s else n in
      (* the mapper is given n * n_chans * sizeof(sample_t) bytes of the array *)
      let size := Z.to_nat (n * de_chans s * 4) in
      if (length buf <? size)%nat then UB else
      r <- mapper_map (de_code s) (de_end s) Float32 host frame (de_off s) (firstn size buf) 0
             (n * de_chans s) ;;
      let '(mapped, buf', ioff, ooff) := r in
      if negb (ooff mod 8 =? 0) then Panic else
      let m := mapped / de_chans s in
      if n <? m then Panic else
      Ok (m, buf' ++ skipn size buf,
          {| de_code := de_code s; de_end := de_end s; de_chans := de_chans s;
             de_frame := Some frame; de_off := ioff; de_pos := u32 (de_pos s + u32 m);
             de_avail := u32 (de_avail s - u32 m) |})
  end.
(** shift, 87-102. *)
Definition dec_shift (s : decoder) (n : Z) : res (Z * decoder) :=
  match de_frame s with
  | None => Panic
  | Some frame =>
      let n := if de_avail s <? n then de_avail s else n in
      Ok (n, {| de_code := de_code s; de_end := de_end s; de_chans := de_chans s;
                de_frame := Some frame; de_off := de_off s + bit_count (de_code s) (n * de_chans s);
                de_pos := u32 (de_pos s + u32 n); de_avail := u32 (de_avail s - u32 n) |})
  end.
(** end, 104-114. *)
Definition dec_end (s : decoder) : res decoder :=
  match de_frame s with
  | None => Panic
  | Some _ => Ok {| de_code := de_code s; de_end := de_end s; de_chans := de_chans s;
                    de_frame := None; de_off := 0; de_pos := de_pos s; de_avail := 0 |}
  end.
