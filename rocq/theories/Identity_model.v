(** Model of roc_core/uuid.cpp and roc_rtp/identity.cpp: the CNAME and the SSRC of a
    participant, made from the random numbers of [Random_model]. *)
From Verif Require Import Base Random_model.
Local Open Scope Z_scope.
Local Open Scope res_scope.

(** The generator of a process: its state, and how many numbers were drawn. [clk] gives the
    reading of the clock at each draw, which is used if the state is zero then. *)
Definition gen : Type := Z * nat.
Definition draw (clk : nat -> Z) (g : gen) : gen * Z :=
  let '(st, z) := fast_random (fst g) (clk (snd g)) in ((st, Datatypes.S (snd g)), z).

(** fast_random.cpp:49-67. The loop takes one number: C45_in_range. Simplified: if it took
    more the model would be stuck, which the theorems exclude. *)
Definition ranged (clk : nat -> Z) (from to : Z) (g : gen) : res (gen * Z) :=
  let '(g, z) := draw clk g in
  r <- fast_random_range from to [z] ;;
  match r with Some v => Ok (g, v) | None => UB end.

(** uuid.cpp:37-40 *)
Fixpoint random_bytes (clk : nat -> Z) (n : nat) (g : gen) : res (gen * list Z) :=
  match n with
  | O => Ok (g, [])
  | Datatypes.S m =>
      p <- ranged clk 0 255 g ;;
      let '(g, b) := p in
      p <- random_bytes clk m g ;;
      let '(g, t) := p in
      Ok (g, u8 b :: t)
  end.

(** uuid.cpp:42-50 *)
Definition set_version (bytes : list Z) : res (list Z) :=
  b8 <- rd bytes 8 ;;
  bytes <- wr bytes 8 (Z.lor (Z.land b8 0x3F) 0x80) ;;
  b6 <- rd bytes 6 ;;
  wr bytes 6 (Z.lor (Z.land b6 0x0F) 0x40).

(** "0123456789abcdef"[i] *)
Definition hex_char (i : Z) : res Z :=
  rd [48; 49; 50; 51; 52; 53; 54; 55; 56; 57; 97; 98; 99; 100; 101; 102] (Z.to_nat i).

(** uuid.cpp:55-63; [fuel] bounds the iterations. Returns the buffer and both positions. *)
Fixpoint print_loop (fuel : nat) (buf bytes : list Z) (cp bp : nat) : res (list Z * nat * nat) :=
  match fuel with
  | O => UB
  | Datatypes.S f =>
      if (cp <? 36)%nat then
        if (cp =? 8)%nat || (cp =? 13)%nat || (cp =? 18)%nat || (cp =? 23)%nat then
          buf <- wr buf cp 45 ;;
          print_loop f buf bytes (cp + 1) bp
        else
          b <- rd bytes bp ;;
          h <- hex_char (Z.shiftr b 4) ;;
          buf <- wr buf cp h ;;
          l <- hex_char (Z.land b 0xF) ;;
          buf <- wr buf (cp + 1) l ;;
          print_loop f buf bytes (cp + 2) (bp + 1)
      else Ok (buf, cp, bp)
  end.

(** uuid.cpp:29-71 *)
Definition uuid_generate (clk : nat -> Z) (g : gen) (buf : list Z) : res (gen * list Z) :=
  if (length buf <? 36 + 1)%nat then Panic
  else
    p <- random_bytes clk 16 g ;;
    let '(g, bytes) := p in
    bytes <- set_version bytes ;;
    p <- print_loop 37 buf bytes 0 0 ;;
    let '(buf, cp, bp) := p in
    if negb (bp =? 16)%nat then Panic
    else if negb (cp =? 36)%nat then Panic
    else
      buf <- wr buf 36 0 ;;
      Ok (g, buf).

Record identity := { id_cname : list Z; id_ssrc : Z }.

(** identity.cpp:46-53: packet::stream_source_t(-1) is 2^32-1. *)
Definition change_ssrc (clk : nat -> Z) (i : identity) (g : gen) : res (gen * identity) :=
  p <- ranged clk 1 (2 ^ 32 - 1) g ;;
  let '(g, s) := p in
  Ok (g, {| id_cname := id_cname i; id_ssrc := s |}).

(** identity.cpp:17-28; [fresh] is what the buffer holds before. *)
Definition identity_new (clk : nat -> Z) (fresh : list Z) (g : gen) : res (gen * identity) :=
  p <- uuid_generate clk g fresh ;;
  let '(g, cname) := p in
  change_ssrc clk {| id_cname := cname; id_ssrc := 0 |} g.
