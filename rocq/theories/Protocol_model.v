(** Model of roc_address/protocol_map.cpp (ProtocolMap). Strings are lists of
    byte values without the terminating NUL; [strcmp(a, b) != 0] is list
    inequality. *)
From Coq Require Import String Ascii.
From Verif Require Import Base.
Open Scope Z_scope.

Definition str (s : string) : list Z := map (fun c => Z.of_nat (nat_of_ascii c)) (list_ascii_of_string s).

(** interface.h: Interface. *)
Inductive iface := IfInvalid | IfConsolidated | IfSource | IfRepair | IfControl.
(** packet/fec.h: FecScheme. *)
Inductive fec_scheme := FecNone | FecRs8m | FecLdpc.

(** protocol_map.h:28-55; a [None] scheme_name is the NULL default. *)
Record attrs := mkAttrs { a_proto : Z; a_iface : iface; a_scheme : option (list Z);
                          a_path : bool; a_port : Z; a_fec : fec_scheme }.

(** protocol_map.h:47-54 *)
Definition attrs0 : attrs := mkAttrs 0 IfInvalid None false (-1) FecNone.

(** protocol.h:19-43: Proto_None = 0, Proto_RTSP = 1, ..., Proto_RTCP = 7;
    protocol_map.h:80 MaxProtos. *)
Definition max_protos : nat := 8.

Open Scope res_scope.
(** protocol_map.cpp:173-179 *)
Definition add_proto (t : list attrs) (a : attrs) : res (list attrs) :=
  if a_proto a <? 0 then Panic
  else if Z.of_nat max_protos <=? a_proto a then Panic
  else
    old <- rd t (Z.to_nat (a_proto a)) ;;
    if negb (a_proto old =? 0) then Panic
    else wr t (Z.to_nat (a_proto a)) a.

(** protocol_map.cpp:15-86 *)
Definition all_attrs : list attrs := [
  mkAttrs 1 IfConsolidated (Some (str "rtsp")) true 554 FecNone;
  mkAttrs 2 IfSource (Some (str "rtp")) false (-1) FecNone;
  mkAttrs 3 IfSource (Some (str "rtp+rs8m")) false (-1) FecRs8m;
  mkAttrs 4 IfRepair (Some (str "rs8m")) false (-1) FecRs8m;
  mkAttrs 5 IfSource (Some (str "rtp+ldpc")) false (-1) FecLdpc;
  mkAttrs 6 IfRepair (Some (str "ldpc")) false (-1) FecLdpc;
  mkAttrs 7 IfControl (Some (str "rtcp")) false (-1) FecNone ].

Definition proto_table : res (list attrs) :=
  fold_left (fun r a => t <- r ;; add_proto t a) all_attrs (Ok (repeat attrs0 max_protos)).

(** The table as a value ([proto_table_ok] in Protocol_proof shows that the
    constructor does not abort and builds exactly this). *)
Definition protos : list attrs := attrs0 :: all_attrs.

(** protocol_map.cpp:88-102 *)
Definition find_by_id (p : Z) : res (option attrs) :=
  if (p <? 0) || (Z.of_nat max_protos <=? p) then Ok None
  else
    a <- rd protos (Z.to_nat p) ;;
    if a_proto a =? 0 then Ok None
    else if negb (a_proto a =? p) then Ok None
    else Ok (Some a).

Definition list_eqb (a b : list Z) : bool := if list_eq_dec Z.eq_dec a b then true else false.

(** protocol_map.cpp:104-122 *)
Fixpoint find_scheme_loop (t : list attrs) (s : list Z) : option attrs :=
  match t with
  | [] => None
  | a :: t' =>
      if a_proto a =? 0 then find_scheme_loop t' s
      else match a_scheme a with
           | None => find_scheme_loop t' s
           | Some n => if list_eqb n s then Some a else find_scheme_loop t' s
           end
  end.
Definition find_by_scheme (s : list Z) : option attrs := find_scheme_loop protos s.

(** protocol.cpp:16-23 *)
Definition proto_to_str (p : Z) : res (option (list Z)) :=
  a <- find_by_id p ;;
  Ok (match a with None => None | Some a => a_scheme a end).

Definition iface_code (i : iface) : Z :=
  match i with IfInvalid => 0 | IfConsolidated => 1 | IfSource => 2 | IfRepair => 3 | IfControl => 4 end.

(** protocol_map.cpp:124-146, the successful path (push_back not failing):
    interfaces in enum order that some protocol has. *)
Definition supported_interfaces : list iface :=
  filter (fun i => existsb (fun a => negb (a_proto a =? 0) && (iface_code (a_iface a) =? iface_code i)) protos)
         [IfConsolidated; IfSource; IfRepair; IfControl].
