(** What a sender does with a composer: align the buffer, prepare the packet,
    write the payload, optionally cut padding off its end, fill the fields and
    compose.  (audio/packetizer.cpp:117-159 and fec/writer.cpp:208-303 do these
    steps in this order.) *)
From Verif Require Import Base Slice_model FecHeaders_model Rtp_model.
Local Open Scope res_scope.

Record fields := mkF {
  f_src : Z; f_seq : Z; f_ts : Z; f_marker : bool; f_pt : Z;
  f_esi : Z; f_sbn : Z; f_k : Z; f_n : Z }.

(** packet.cpp:105-123 *)
Definition pkt_payload (p : pkt) : slice := if has_flag p FlagRTP then p_pay p else p_fpay p.

Definition fill (p : pkt) (f : fields) : pkt :=
  set_fec_fields (set_rtp_fields p (f_src f) (f_seq f) (f_ts f) (f_marker f) (f_pt f))
                 (f_esi f) (f_sbn f) (f_k f) (f_n f).

(** Result: the slice to send, the memory, and the address of the payload. *)
Definition send (c : composer) (addr : nat) (mem : list Z) (al : nat) (data : list Z)
           (pad : option nat) (f : fields) : res (option (slice * list Z * nat)) :=
  let n := length mem in
  b <- c_align c addr n (sl_full n) 0 al ;;
  match b with
  | None => Ok None
  | Some b =>
      r <- c_prepare c n pkt_new b (length data) ;;
      match r with
      | None => Ok None
      | Some (p, b) =>
          mem <- sl_put mem (pkt_payload p) 0 data ;;
          r <- match pad with None => Ok (Some p) | Some k => c_pad c p k end ;;
          match r with
          | None => Ok None
          | Some p =>
              r <- c_compose c mem (fill p f) ;;
              match r with
              | (mem, true) => Ok (Some (b, mem, (addr + s_off (pkt_payload p))%nat))
              | (_, false) => Ok None
              end
          end
      end
  end.

(** RTP field ranges. *)
Definition rtp_fits (f : fields) : Prop :=
  0 <= f_src f < 2 ^ 32 /\ 0 <= f_seq f < 2 ^ 16 /\ 0 <= f_ts f < 2 ^ 32 /\ 0 <= f_pt f < 128.

(** FEC field ranges per wire format. *)
Definition fec_fits (k : pid_kind) (f : fields) : Prop :=
  0 <= f_sbn f < 2 ^ 16 /\ 0 <= f_k f < 2 ^ 16 /\ 0 <= f_n f < 2 ^ 16 /\
  match k with RS8M => 0 <= f_esi f < 2 ^ 8 | _ => 0 <= f_esi f < 2 ^ 16 end.

(** Bytes of the memory outside [b] are the same in both. *)
Definition same_outside (mem mem' : list Z) (b : slice) : Prop :=
  length mem = length mem' /\
  firstn (s_off b) mem = firstn (s_off b) mem' /\
  skipn (s_off b + s_size b) mem = skipn (s_off b + s_size b) mem'.

Definition pad_len (pad : option nat) : nat := match pad with None => O | Some k => k end.

Definition opt_bytes (mem : list Z) (s : option slice) : list Z :=
  match s with None => [] | Some s => sl_bytes mem s end.
