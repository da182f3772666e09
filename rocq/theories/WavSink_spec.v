(** What a program that reads WAV files makes of a sequence of bytes. *)
From Verif Require Import Base.

(** The number that [k] bytes from position [i] stand for, lowest byte first. *)
Definition num (b : list Z) (i k : nat) : Z :=
  fold_right (fun x acc => x + 256 * acc) 0 (firstn k (skipn i b)).
Definition text (b : list Z) (i : nat) : list Z := firstn 4 (skipn i b).

Record wav := mkWav {
  w_riff : Z; w_format : Z; w_chans : Z; w_rate : Z; w_byte_rate : Z; w_align : Z; w_bits : Z;
  w_declared : Z; w_data : list Z }.

(** "RIFF", "WAVE", a "fmt " chunk of 16 bytes and then a "data" chunk, with all that
    follows. *)
Definition read_wav (b : list Z) : option wav :=
  if (44 <=? Z.of_nat (length b)) &&
     (if list_eq_dec Z.eq_dec (text b 0) [0x52; 0x49; 0x46; 0x46] then true else false) &&
     (if list_eq_dec Z.eq_dec (text b 8) [0x57; 0x41; 0x56; 0x45] then true else false) &&
     (if list_eq_dec Z.eq_dec (text b 12) [0x66; 0x6d; 0x74; 0x20] then true else false) &&
     (num b 16 4 =? 16) &&
     (if list_eq_dec Z.eq_dec (text b 36) [0x64; 0x61; 0x74; 0x61] then true else false)
  then Some (mkWav (num b 4 4) (num b 20 2) (num b 22 2) (num b 24 4) (num b 28 4) (num b 32 2)
                   (num b 34 2) (num b 40 4) (skipn 44 b))
  else None.

(** The sizes are those of the file. *)
Definition honest (w : wav) : Prop :=
  w_declared w = Z.of_nat (length (w_data w)) /\ w_riff w = 36 + w_declared w.

(** What a reader plays that believes the header and stops at the end of the file. *)
Definition played (w : wav) : list Z := firstn (Z.to_nat (w_declared w)) (w_data w).

(** The bytes of 32-bit floats, one after the other. *)
Definition byte_of (x : Z) (k : Z) : Z := (x / 256 ^ k) mod 256.
Definition floats (l : list Z) : list Z :=
  flat_map (fun x => [byte_of x 0; byte_of x 1; byte_of x 2; byte_of x 3]) l.

(** Usual formats: 1 to 1024 channels and a rate such that bytes per second fit. *)
Definition usual_format (chans rate : Z) : Prop := 1 <= chans <= 1024 /\ 1 <= rate /\ rate * chans * 4 < 2 ^ 32.
