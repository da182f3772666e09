(* Sender and receiver nodes: slots, their network ports and pipeline slots.
   roc_node/sender.cpp, roc_node/receiver.cpp. *)
From Coq Require Import ZArith List Bool Arith.
From Verif Require Import Base.
Import ListNotations.
Local Open Scope Z_scope.
Local Open Scope res_scope.

(* roc_address/socket_addr.h: an address; [a_host] stands for the bytes of the host *)
Inductive fam := V4 | V6.
Record addr := mkAddr { a_fam : fam; a_host : Z; a_port : Z }.
Definition fam_eq (x y : fam) : bool := match x, y with V4, V4 => true | V6, V6 => true | _, _ => false end.
Definition addr_eq (x y : addr) : bool := fam_eq (a_fam x) (a_fam y) && (a_host x =? a_host y) && (a_port x =? a_port y).

(* udp_port.h:25-67: UdpConfig. The address may be unset. [c_rest] stands for the
   multicast interface and the two flags. *)
Record config := mkCfg { c_bind : option addr; c_rest : Z }.
Definition config_eq (x y : config) : bool :=
  match c_bind x, c_bind y with
  | None, None => true
  | Some a, Some b => addr_eq a b
  | _, _ => false
  end && (c_rest x =? c_rest y).

(* endpoint_uri.h: what is used of it. [u_ok]: verify(Subset_Full) *)
Record uri := mkUri { u_ok : bool; u_proto : Z; u_port : Z }.

(* interface.h:19-37 *)
Definition iface_source : Z := 2.
Definition iface_repair : Z := 3.
Definition iface_control : Z := 4.
Definition iface_max : Z := 5.

(* --- the network thread and the pipeline: what exists at one moment --- *)

(* udp_port.h: an open port: where it is bound and, after start_recv, the pipeline
   slot and interface it delivers to (inbound_writer_) *)
Record port := mkPort { p_id : nat; p_bind : addr; p_recv : option (nat * Z) }.
(* sender_endpoint.h, receiver_endpoint.h: interface, protocol and the port it sends to
   (outbound_writer) *)
Record ep := mkEp { ep_iface : Z; ep_proto : Z; ep_out : option nat }.
(* Open ports (NetworkLoop::open_ports_) and pipeline slots (SenderSink::slots_,
   ReceiverSource::slots_). Numbers stand for pointers; a number is never used twice. *)
Record net := mkNet { n_ports : list port; n_slots : list (nat * list ep) }.
(* [w_env] decides the outcomes of the tasks that can fail: [Some] for success;
   without more entries they fail. [w_seen] are the moments so far, newest first. *)
Record world := mkWorld { w_net : net; w_nport : nat; w_nslot : nat; w_env : list (option addr); w_seen : list net }.

Definition ask (w : world) : option addr * world :=
  match w_env w with
  | [] => (None, w)
  | a :: env => (a, mkWorld (w_net w) (w_nport w) (w_nslot w) env (w_seen w))
  end.
Definition move (n : net) (w : world) : world := mkWorld n (w_nport w) (w_nslot w) (w_env w) (n :: w_seen w).

Definition is_open (n : net) (h : nat) : bool := existsb (fun p => (p_id p =? h)%nat) (n_ports n).
Definition is_live (n : net) (s : nat) : bool := existsb (fun x => (fst x =? s)%nat) (n_slots n).

(* network_loop.cpp:568-578: ResolveEndpointAddress *)
Definition t_resolve (w : world) (u : uri) : option addr * world := ask w.
(* network_loop.cpp:385-420: AddUdpPort. A requested port number of zero is replaced by
   one that is chosen by the system. *)
Definition net_add (h : nat) (b : addr) (n : net) : net := mkNet (mkPort h b None :: n_ports n) (n_slots n).
Definition t_add_port (w : world) (c : config) : option (nat * addr) * world :=
  let '(a, w) := ask w in
  match a with
  | None => (None, w)
  | Some a =>
      let b := match c_bind c with
               | Some b => if a_port b =? 0 then mkAddr (a_fam b) (a_host b) (a_port a) else b
               | None => a
               end in
      let h := w_nport w in
      (Some (h, b), move (net_add h b (w_net w)) (mkWorld (w_net w) (S h) (w_nslot w) (w_env w) (w_seen w)))
  end.
(* network_loop.cpp:422-440: StartUdpSend. A task for a port that is not there any more is
   undefined. *)
Definition t_start_send (w : world) (h : nat) : res (bool * world) :=
  if is_open (w_net w) h then
    let '(a, w) := ask w in Ok (match a with Some _ => true | None => false end, w)
  else UB.
(* network_loop.cpp:442-460: StartUdpRecv; udp_port.cpp:172-194 *)
Definition net_recv (h s : nat) (i : Z) (n : net) : net :=
  mkNet (map (fun p => if (p_id p =? h)%nat then mkPort (p_id p) (p_bind p) (Some (s, i)) else p) (n_ports n)) (n_slots n).
Definition t_start_recv (w : world) (h s : nat) (i : Z) : res (bool * world) :=
  if is_open (w_net w) h then
    let '(a, w) := ask w in
    match a with
    | None => Ok (false, w)
    | Some _ => Ok (true, move (net_recv h s i (w_net w)) w)
    end
  else UB.
(* network_loop.cpp:552-566: RemovePort *)
Definition net_remove (h : nat) (n : net) : net := mkNet (filter (fun p => negb (p_id p =? h)%nat) (n_ports n)) (n_slots n).
Definition t_remove_port (w : world) (h : nat) : res world :=
  if is_open (w_net w) h then Ok (move (net_remove h (w_net w)) w) else UB.

(* sender_loop.cpp:271-274, receiver_loop.cpp:273-276: CreateSlot *)
Definition net_slot (s : nat) (n : net) : net := mkNet (n_ports n) ((s, []) :: n_slots n).
Definition t_create_slot (w : world) : option nat * world :=
  let '(a, w) := ask w in
  match a with
  | None => (None, w)
  | Some _ => let s := w_nslot w in
              (Some s, move (net_slot s (w_net w)) (mkWorld (w_net w) (w_nport w) (S s) (w_env w) (w_seen w)))
  end.
(* sender_loop.cpp:276-281, receiver_loop.cpp:278-283: DeleteSlot *)
Definition net_delete (s : nat) (n : net) : net := mkNet (n_ports n) (filter (fun x => negb (fst x =? s)%nat) (n_slots n)).
Definition t_delete_slot (w : world) (s : nat) : res world :=
  if is_live (w_net w) s then Ok (move (net_delete s (w_net w)) w) else UB.
(* sender_slot.cpp:49-119 and 157-249, receiver_slot.cpp:49-74 and 124-218: add_endpoint.
   There is one endpoint for each of the three interfaces. The checks of protocols and
   the creation of the objects are decided by [w_env]. If the sender cannot create a
   pipeline for an endpoint, the endpoint stays; the receiver removes it. *)
Definition has_ep (n : net) (s : nat) (i : Z) : bool :=
  existsb (fun x => (fst x =? s)%nat && existsb (fun e => ep_iface e =? i) (snd x)) (n_slots n).
Definition net_ep (s : nat) (e : ep) (n : net) : net :=
  mkNet (n_ports n) (map (fun x => if (fst x =? s)%nat then (fst x, e :: snd x) else x) (n_slots n)).
Definition endpoint_iface (i : Z) : bool := (i =? iface_source) || (i =? iface_repair) || (i =? iface_control).
Definition t_add_endpoint (sender : bool) (w : world) (s : nat) (e : ep) : res (bool * world) :=
  if is_live (w_net w) s then
    if negb (endpoint_iface (ep_iface e)) || has_ep (w_net w) s (ep_iface e) then Ok (false, w)
    else
      let '(a, w) := ask w in
      match a with
      | None => Ok (false, w)
      | Some _ =>
          let w := move (net_ep s e (w_net w)) w in
          if sender then
            let '(a, w) := ask w in Ok (match a with Some _ => true | None => false end, w)
          else Ok (true, w)
      end
  else UB.

(* --- the node --- *)

(* sender.h:90-100, receiver.h:85-92: Port; a receiver has no orig_config and no writer *)
Record nport := mkNp { np_config : config; np_orig : config; np_handle : option nat; np_writer : option nat }.
Definition cfg0 : config := mkCfg None 0.
Definition np0 : nport := mkNp cfg0 cfg0 None None.
(* sender.h:102-115, receiver.h:94-107: Slot *)
Record nslot := mkNs { ns_index : Z; ns_handle : option nat; ns_ports : list nport; ns_broken : bool }.
Definition getp (i : Z) (sl : nslot) : nport := nth (Z.to_nat i) (ns_ports sl) np0.
Definition upd {X} (l : list X) (k : nat) (x : X) : list X := firstn k l ++ x :: skipn (S k) l.
Definition setp (i : Z) (p : nport) (sl : nslot) : nslot :=
  mkNs (ns_index sl) (ns_handle sl) (upd (ns_ports sl) (Z.to_nat i) p) (ns_broken sl).
(* sender.h:147-161, receiver.h:133-147. [nd_used] are used_interfaces_ and
   used_protocols_; the slot map is a list in the order of insertion. *)
Record node := mkNode { nd_slots : list nslot; nd_used : list (option Z); nd_w : world }.

(* sender.cpp:446-455, receiver.cpp:404-413: remove the ports, one after the other *)
Fixpoint remove_ports (ps : list nport) (w : world) : res (list nport * world) :=
  match ps with
  | [] => Ok ([], w)
  | p :: ps =>
      r <- match np_handle p with
           | None => Ok (p, w)
           | Some h => w <- t_remove_port w h ;; Ok (mkNp (np_config p) (np_orig p) None (np_writer p), w)
           end ;;
      q <- remove_ports ps (snd r) ;;
      Ok (fst r :: fst q, snd q)
  end.
Definition clean_ports (sl : nslot) (w : world) : res (nslot * world) :=
  q <- remove_ports (ns_ports sl) w ;;
  Ok (mkNs (ns_index sl) (ns_handle sl) (fst q) (ns_broken sl), snd q).
(* sender.cpp:436-443, receiver.cpp:416-423 *)
Definition clean_pipeline (sl : nslot) (w : world) : res (nslot * world) :=
  match ns_handle sl with
  | None => Ok (sl, w)
  | Some s => w <- t_delete_slot w s ;; Ok (mkNs (ns_index sl) None (ns_ports sl) (ns_broken sl), w)
  end.
(* sender.cpp:434-456: cleanup_slot_: first the pipeline, then the ports *)
Definition snd_cleanup (sl : nslot) (w : world) : res (nslot * world) :=
  q <- clean_pipeline sl w ;; clean_ports (fst q) (snd q).
(* receiver.cpp:402-424: cleanup_slot_: first the ports, then the pipeline *)
Definition rcv_cleanup (sl : nslot) (w : world) : res (nslot * world) :=
  q <- clean_ports sl w ;; clean_pipeline (fst q) (snd q).
(* The answer to a call: refused, accepted, accepted with the port number that is
   reported back *)
Inductive ans := No | Yes | YesPort (p : Z).
(* sender.cpp:458-464, receiver.cpp:426-433: break_slot_, and the "return false" after it *)
Definition break_slot (cleanup : nslot -> world -> res (nslot * world)) (sl : nslot) (w : world) : res (ans * nslot * world) :=
  q <- cleanup (mkNs (ns_index sl) (ns_handle sl) (ns_ports sl) true) w ;; Ok (No, fst q, snd q).

(* sender.cpp:85-106, receiver.cpp:86-107: configure, for a slot that was found *)
Definition configure_slot (cleanup : nslot -> world -> res (nslot * world)) (sl : nslot) (w : world) (i : Z) (c : config) :
  res (ans * nslot * world) :=
  if ns_broken sl then Ok (No, sl, w)
  else match np_handle (getp i sl) with
       | Some _ => break_slot cleanup sl w
       | None => let p := getp i sl in
                 Ok (Yes, setp i (mkNp c (np_orig p) (np_handle p) (np_writer p)) sl, w)
       end.

(* sender.cpp:466-503: select_outgoing_port_; the index of the port *)
Definition shareable (sl : nslot) (i : Z) (f : fam) (k : Z) : bool :=
  negb (k =? i) &&
  (match np_handle (getp k sl) with Some _ => true | None => false end) &&
  config_eq (np_orig (getp k sl)) (np_config (getp i sl)) &&
  (match c_bind (np_config (getp k sl)) with Some b => fam_eq (a_fam b) f | None => false end).
Definition select_port (sl : nslot) (i : Z) (f : fam) : Z :=
  if endpoint_iface i && (match np_handle (getp i sl) with None => true | Some _ => false end) then
    match find (shareable sl i f) [0; 1; 2; 3; 4] with Some k => k | None => i end
  else i.
(* sender.cpp:505-542: setup_outgoing_port_. "0.0.0.0" and "::" are [a_host] = 0. *)
Definition setup_port (p : nport) (f : fam) : option nport :=
  match c_bind (np_config p) with
  | Some b => if negb (fam_eq (a_fam b) f) then None
              else Some (match np_handle p with
                         | Some _ => p
                         | None => mkNp (np_config p) (np_config p) (np_handle p) (np_writer p)
                         end)
  | None => Some (match np_handle p with
                  | Some _ => p
                  | None => mkNp (mkCfg (Some (mkAddr f 0 0)) (c_rest (np_config p))) (np_config p) (np_handle p) (np_writer p)
                  end)
  end.

(* sender.cpp:185-202: open the port, unless it is already *)
Definition snd_open (sl : nslot) (w : world) (k : Z) : res (option nslot * world) :=
  let p := getp k sl in
  match np_handle p with
  | Some _ => Ok (Some sl, w)
  | None =>
      match t_add_port w (np_config p) with
      | (None, w) => Ok (None, w)
      | (Some (h, b), w) => Ok (Some (setp k (mkNp (mkCfg (Some b) (c_rest (np_config p))) (np_orig p) (Some h) (np_writer p)) sl), w)
      end
  end.
(* sender.cpp:204-217: start sending, unless that is done already. The handle is set at this point. *)
Definition snd_start (sl : nslot) (w : world) (k : Z) : res (option nslot * world) :=
  let p := getp k sl in
  match np_writer p, np_handle p with
  | Some _, _ => Ok (Some sl, w)
  | None, Some h =>
      r <- t_start_send w h ;;
      Ok (if fst r then Some (setp k (mkNp (np_config p) (np_orig p) (np_handle p) (Some h)) sl) else None, snd r)
  | None, None => Panic
  end.
(* sender.cpp:231-243: start receiving, for control. Whether the endpoint has an inbound
   writer (sender_endpoint.cpp:163-172) is decided by [w_env]. *)
Definition snd_recv (w : world) (h s : nat) (i : Z) : res (bool * world) :=
  if i =? iface_control then
    let '(a, w) := ask w in
    match a with None => Ok (true, w) | Some _ => t_start_recv w h s i end
  else Ok (true, w).
(* sender.cpp:133-248: connect, for a slot that was found. [used]: the protocol other
   slots use for the interface *)
Definition connect_slot (used : option Z) (sl : nslot) (w : world) (i : Z) (u : uri) : res (ans * nslot * world) :=
  if ns_broken sl then Ok (No, sl, w)
  else if negb (u_ok u) then break_slot snd_cleanup sl w
  else if match used with Some p => negb (p =? u_proto u) | None => false end then break_slot snd_cleanup sl w
  else
    match t_resolve w u with
    | (None, w) => break_slot snd_cleanup sl w
    | (Some a, w) =>
        let k := select_port sl i (a_fam a) in
        match setup_port (getp k sl) (a_fam a) with
        | None => break_slot snd_cleanup sl w
        | Some p =>
            let sl := setp k p sl in
            r <- snd_open sl w k ;;
            match r with
            | (None, w) => break_slot snd_cleanup sl w
            | (Some sl, w) =>
                r <- snd_start sl w k ;;
                match r with
                | (None, w) => break_slot snd_cleanup sl w
                | (Some sl, w) =>
                    match ns_handle sl, np_handle (getp k sl), np_writer (getp k sl) with
                    | Some s, Some h, Some h' =>
                        r <- t_add_endpoint true w s (mkEp i (u_proto u) (Some h')) ;;
                        let '(ok, w) := r in
                        if negb ok then break_slot snd_cleanup sl w
                        else
                          r <- snd_recv w h s i ;;
                          let '(ok, w) := r in
                          if negb ok then break_slot snd_cleanup sl w else Ok (Yes, sl, w)
                    | _, _, _ => Panic
                    end
                end
            end
        end
    end.

(* receiver.cpp:163-191: open the port; there is no check whether it is open already *)
Definition rcv_open (sl : nslot) (w : world) (i : Z) (a : addr) : option nat * nslot * world :=
  let p := getp i sl in
  let c := mkCfg (Some a) (c_rest (np_config p)) in
  match t_add_port w c with
  | (None, w) => (None, setp i (mkNp c (np_orig p) (np_handle p) (np_writer p)) sl, w)
  | (Some (h, b), w) => (Some h, setp i (mkNp (mkCfg (Some b) (c_rest c)) (np_orig p) (Some h) (np_writer p)) sl, w)
  end.
(* receiver.cpp:193-208 *)
Definition rcv_send (w : world) (h : nat) (i : Z) : res (option (option nat) * world) :=
  if i =? iface_control then
    r <- t_start_send w h ;; Ok (if fst r then Some (Some h) else None, snd r)
  else Ok (Some None, w).
(* endpoint_uri.cpp: set_port, with a panic if that fails, 234-239 *)
Definition report_port (u : uri) (c : config) : res ans :=
  if u_port u =? 0 then
    match c_bind c with
    | Some b => if (0 <=? a_port b) && (a_port b <=? 65535) then Ok (YesPort (a_port b)) else Panic
    | None => Panic
    end
  else Ok Yes.
(* receiver.cpp:134-244: bind, for a slot that was found *)
Definition bind_slot (used : option Z) (sl : nslot) (w : world) (i : Z) (u : uri) : res (ans * nslot * world) :=
  if ns_broken sl then Ok (No, sl, w)
  else if negb (u_ok u) then break_slot rcv_cleanup sl w
  else if match used with Some p => negb (p =? u_proto u) | None => false end then break_slot rcv_cleanup sl w
  else
    match t_resolve w u with
    | (None, w) => break_slot rcv_cleanup sl w
    | (Some a, w) =>
        match rcv_open sl w i a with
        | (None, sl, w) => break_slot rcv_cleanup sl w
        | (Some h, sl, w) =>
            r <- rcv_send w h i ;;
            match r with
            | (None, w) => break_slot rcv_cleanup sl w
            | (Some out, w) =>
                match ns_handle sl with
                | None => Panic
                | Some s =>
                    r <- t_add_endpoint false w s (mkEp i (u_proto u) out) ;;
                    let '(ok, w) := r in
                    if negb ok then break_slot rcv_cleanup sl w
                    else
                      r <- t_start_recv w h s i ;;
                      let '(ok, w) := r in
                      if negb ok then break_slot rcv_cleanup sl w
                      else a <- report_port u (np_config (getp i sl)) ;; Ok (a, sl, w)
                end
            end
        end
    end.

(* --- the calls --- *)
Inductive op :=
| Configure (idx i : Z) (c : config)
| Attach (idx i : Z) (u : uri)          (* connect of a sender, bind of a receiver *)
| Unlink (idx : Z)
| Query (idx : Z)                       (* get_metrics *)
| HasBroken.

Definition find_slot (idx : Z) (l : list nslot) : option nslot := find (fun s => ns_index s =? idx) l.
Definition put_slot (sl : nslot) (l : list nslot) : list nslot := map (fun s => if ns_index s =? ns_index sl then sl else s) l.
Definition drop_slot (idx : Z) (l : list nslot) : list nslot := filter (fun s => negb (ns_index s =? idx)) l.
Definition new_slot (idx : Z) (s : nat) : nslot := mkNs idx (Some s) (repeat np0 5) false.

(* sender.cpp:397-432, receiver.cpp:364-400: get_slot_. Allocating the slot object and
   inserting it into the map are assumed to succeed. *)
Definition get_slot (n : node) (idx : Z) (auto_create : bool) : option nslot * node :=
  match find_slot idx (nd_slots n) with
  | Some sl => (Some sl, n)
  | None =>
      if auto_create then
        match t_create_slot (nd_w n) with
        | (None, w) => (None, mkNode (nd_slots n) (nd_used n) w)
        | (Some s, w) => (Some (new_slot idx s), mkNode (nd_slots n ++ [new_slot idx s]) (nd_used n) w)
        end
      else (None, n)
  end.
Definition bad_iface (i : Z) : bool := (i <? 0) || (iface_max <=? i).
Definition is_yes (a : ans) : bool := match a with No => false | _ => true end.

(* A node: whether it is a sender, and its two functions that differ *)
Inductive side := Snd | Rcv.
Definition cleanup_of (d : side) : nslot -> world -> res (nslot * world) := match d with Snd => snd_cleanup | Rcv => rcv_cleanup end.
Definition attach_of (d : side) : option Z -> nslot -> world -> Z -> uri -> res (ans * nslot * world) :=
  match d with Snd => connect_slot | Rcv => bind_slot end.

(* sender.cpp:62-107, 109-248, 250-270, 272-327, 356-369 and receiver.cpp:63-108, 110-244,
   246-266, 268-323, 325-338. Of get_metrics: a slot without pipeline slot panics
   (sender_loop.cpp:57-59, receiver_loop.cpp:56-58); the query itself succeeds. *)
Definition node_step (d : side) (o : op) (n : node) : res (ans * node) :=
  match o with
  | Configure idx i c =>
      if bad_iface i then Panic
      else match get_slot n idx true with
           | (None, n) => Ok (No, n)
           | (Some sl, n) =>
               r <- configure_slot (cleanup_of d) sl (nd_w n) i c ;;
               let '(a, sl, w) := r in Ok (a, mkNode (put_slot sl (nd_slots n)) (nd_used n) w)
           end
  | Attach idx i u =>
      if bad_iface i then Panic
      else match get_slot n idx true with
           | (None, n) => Ok (No, n)
           | (Some sl, n) =>
               r <- attach_of d (nth (Z.to_nat i) (nd_used n) None) sl (nd_w n) i u ;;
               let '(a, sl, w) := r in
               Ok (a, mkNode (put_slot sl (nd_slots n))
                             (if is_yes a then upd (nd_used n) (Z.to_nat i) (Some (u_proto u)) else nd_used n) w)
           end
  | Unlink idx =>
      match get_slot n idx false with
      | (None, n) => Ok (No, n)
      | (Some sl, n) =>
          r <- cleanup_of d sl (nd_w n) ;;
          Ok (Yes, mkNode (drop_slot idx (nd_slots n)) (nd_used n) (snd r))
      end
  | Query idx =>
      match get_slot n idx false with
      | (None, n) => Ok (No, n)
      | (Some sl, n) => match ns_handle sl with None => Panic | Some s => if is_live (w_net (nd_w n)) s then Ok (Yes, n) else UB end
      end
  | HasBroken => Ok (if existsb ns_broken (nd_slots n) then Yes else No, n)
  end.

(* sender.cpp:18-42, receiver.cpp:18-43: a new node *)
Definition node_new (env : list (option addr)) : node :=
  mkNode [] (repeat None 5) (mkWorld (mkNet [] []) 0 0 env []).
(* A sequence of calls, with the answers *)
Fixpoint node_run (d : side) (ops : list op) (n : node) : res (list ans * node) :=
  match ops with
  | [] => Ok ([], n)
  | o :: ops =>
      r <- node_step d o n ;;
      q <- node_run d ops (snd r) ;;
      Ok (fst r :: fst q, snd q)
  end.
(* sender.cpp:44-56, receiver.cpp:45-57: the destructor *)
Fixpoint clean_all (d : side) (l : list nslot) (w : world) : res world :=
  match l with
  | [] => Ok w
  | sl :: l => q <- cleanup_of d sl w ;; clean_all d l (snd q)
  end.
Definition node_close (d : side) (n : node) : res world := clean_all d (nd_slots n) (nd_w n).
