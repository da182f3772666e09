(** Model of roc_fec/headers.h: FEC payload ID layouts.  A payload ID is the
    list of its bytes in memory order. *)
From Verif Require Import Base.
Local Open Scope res_scope.

Inductive pid_kind := LdpcSource | LdpcRepair | RS8M.

(** sizeof(PayloadID): headers.h:49-58, 124-136, 203-212 (packed) *)
Definition pid_size (k : pid_kind) : nat :=
  match k with LdpcSource => 6 | LdpcRepair => 8 | RS8M => 6 end.

(** endian_ops.h:14-48: store/load of a big-endian 16-bit field *)
Definition put16_at (h : list Z) (i : nat) (v : Z) : list Z :=
  upd (upd h i (byte_of v 1)) (S i) (byte_of v 0).
Definition get16_at (h : list Z) (i : nat) : Z := be16 (nth i h 0) (nth (S i) h 0).

(** headers.h:67-69, 145-147, 221-223 *)
Definition pid_clear (k : pid_kind) : list Z := repeat 0 (pid_size k).

(** headers.h:72-74, 150-152, 226-228 *)
Definition pid_sbn (k : pid_kind) (h : list Z) : Z :=
  match k with
  | RS8M => Z.lor (Z.lor (Z.shiftl (nth 0 h 0) 16) (Z.shiftl (nth 1 h 0) 8)) (nth 2 h 0)
  | _ => get16_at h 0
  end.

(** headers.h:77-79, 155-157 (argument uint16_t); 231-236 (argument uint32_t) *)
Definition pid_set_sbn (k : pid_kind) (h : list Z) (v : Z) : res (list Z) :=
  match k with
  | RS8M =>
      let v := u32 v in
      if Z.shiftr v 24 =? 0 then
        Ok (upd (upd (upd h 0 (u8 (Z.land (Z.shiftr v 16) 255)))
                     1 (u8 (Z.land (Z.shiftr v 8) 255)))
                2 (u8 (Z.land v 255)))
      else Panic
  | _ => Ok (put16_at h 0 (u16 v))
  end.

(** headers.h:82-84, 160-162, 239-241 *)
Definition pid_esi (k : pid_kind) (h : list Z) : Z :=
  match k with RS8M => nth 3 h 0 | _ => get16_at h 2 end.

(** headers.h:87-89, 165-167, 244-247 (argument uint16_t) *)
Definition pid_set_esi (k : pid_kind) (h : list Z) (v : Z) : res (list Z) :=
  let v := u16 v in
  match k with
  | RS8M => if Z.shiftr v 8 =? 0 then Ok (upd h 3 (u8 v)) else Panic
  | _ => Ok (put16_at h 2 v)
  end.

(** headers.h:92-99, 170-177, 250-257 *)
Definition pid_k (k : pid_kind) (h : list Z) : Z := get16_at h 4.
Definition pid_set_k (k : pid_kind) (h : list Z) (v : Z) : list Z := put16_at h 4 (u16 v).

(** headers.h:102-108, 180-187, 260-266 *)
Definition pid_n (k : pid_kind) (h : list Z) : Z :=
  match k with LdpcSource => 0 | LdpcRepair => get16_at h 6 | RS8M => 255 end.
Definition pid_set_n (k : pid_kind) (h : list Z) (v : Z) : list Z :=
  match k with LdpcRepair => put16_at h 6 (u16 v) | _ => h end.
