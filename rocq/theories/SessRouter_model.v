(* Model of the table that routes received packets to receiver sessions:
   roc_pipeline/receiver_session_router.h and receiver_session_router.cpp.

   A route is one actual or potential remote sender.  It may carry a session, a
   source address, a CNAME and any number of source ids (SSRCs).  Four hash
   maps index the routes by these keys; their nodes are embedded in the route
   (address, CNAME, session) or owned by it (one node per SSRC).

   Simplifications:
   - a hash map is modelled by recording in the route under which key each of
     its nodes is currently stored ([r_an], [r_cn], [r_sn]; an SSRC node is in
     the list of its route and in the map at the same time, see [src_insert]).
     What the map itself does is the subject of Hashmap_model.v.  Inserting a
     node that is already stored, or a key that is already present, panics as
     in roc_core/hashmap_impl.cpp:132-140;
   - sessions are numbers, source addresses are numbers ([None] is the empty
     address), a CNAME is the list of its bytes without the final zero;
   - allocation (of a route, of an SSRC node, or of buckets when a map grows)
     is decided by an oracle [oom], one boolean per attempt. *)
From Coq Require Import ZArith List Bool Lia.
From Verif Require Import Base.
Import ListNotations.
Local Open Scope Z_scope.
Local Open Scope res_scope.

(* Receiver_session_router.h:243-279: struct Route.  [r_an], [r_cn], [r_sn]:
   key under which address_node, cname_node, session_node are stored. *)
Record route := mkRoute {
  r_id : nat;
  r_sess : option nat;
  r_addr : option Z;
  r_cname : list Z;
  r_main : option Z;
  r_srcs : list Z;
  r_an : option (option Z);
  r_cn : option (list Z);
  r_sn : option (option nat)
}.

(* receiver_session_router.h:293-303: list of routes; [st_next] gives the
   identity of the next allocated route, [st_oom] answers allocations. *)
Record rstate := mkSt {
  st_routes : list route;
  st_next : nat;
  st_oom : list bool
}.

(* The status codes these functions return (roc_status/status_code.h). *)
Inductive code := StOK | StConflict | StNoMem.

Definition keyz (x y : option Z) : bool :=
  match x, y with
  | Some a, Some b => a =? b
  | None, None => true
  | _, _ => false
  end.

Definition keyn (x y : option nat) : bool :=
  match x, y with
  | Some a, Some b => Nat.eqb a b
  | None, None => true
  | _, _ => false
  end.

Fixpoint keys (x y : list Z) : bool :=
  match x, y with
  | [], [] => true
  | a :: x', b :: y' => (a =? b) && keys x' y'
  | _, _ => false
  end.

Definition is_none {A} (x : option A) : bool :=
  match x with None => true | Some _ => false end.

(* SSRC map lookup: source_route_map_.find (receiver_session_router.cpp:38). *)
Definition by_src (rs : list route) (s : Z) : option route :=
  find (fun r => existsb (Z.eqb s) (r_srcs r)) rs.

(* address_route_map_.find (receiver_session_router.cpp:50). *)
Definition by_addr (rs : list route) (a : option Z) : option route :=
  find (fun r => match r_an r with Some k => keyz a k | None => false end) rs.

(* cname_route_map_.find (receiver_session_router.cpp:164). *)
Definition by_cname (rs : list route) (c : list Z) : option route :=
  find (fun r => match r_cn r with Some k => keys c k | None => false end) rs.

(* session_route_map_.find (receiver_session_router.cpp:61). *)
Definition by_sess (rs : list route) (x : option nat) : option route :=
  find (fun r => match r_sn r with Some k => keyn x k | None => false end) rs.

Definition by_id (rs : list route) (i : nat) : option route :=
  find (fun r => Nat.eqb i (r_id r)) rs.

Definition has {A} (x : option A) : bool := negb (is_none x).

(* Change one route in place. *)
Definition on (rs : list route) (i : nat) (f : route -> route) : list route :=
  map (fun r => if Nat.eqb i (r_id r) then f r else r) rs.

Definition set_routes (st : rstate) (rs : list route) : rstate :=
  mkSt rs (st_next st) (st_oom st).

Definition modify (st : rstate) (i : nat) (f : route -> route) : rstate :=
  set_routes st (on (st_routes st) i f).

Definition w_addr (a : option Z) (r : route) : route :=
  mkRoute (r_id r) (r_sess r) a (r_cname r) (r_main r) (r_srcs r) (r_an r) (r_cn r)
          (r_sn r).
Definition w_sess (x : option nat) (r : route) : route :=
  mkRoute (r_id r) x (r_addr r) (r_cname r) (r_main r) (r_srcs r) (r_an r) (r_cn r)
          (r_sn r).
Definition w_cname (c : list Z) (r : route) : route :=
  mkRoute (r_id r) (r_sess r) (r_addr r) c (r_main r) (r_srcs r) (r_an r) (r_cn r)
          (r_sn r).
Definition w_main (m : option Z) (r : route) : route :=
  mkRoute (r_id r) (r_sess r) (r_addr r) (r_cname r) m (r_srcs r) (r_an r) (r_cn r)
          (r_sn r).
Definition w_srcs (l : list Z) (r : route) : route :=
  mkRoute (r_id r) (r_sess r) (r_addr r) (r_cname r) (r_main r) l (r_an r) (r_cn r)
          (r_sn r).
Definition w_an (k : option (option Z)) (r : route) : route :=
  mkRoute (r_id r) (r_sess r) (r_addr r) (r_cname r) (r_main r) (r_srcs r) k (r_cn r)
          (r_sn r).
Definition w_cn (k : option (list Z)) (r : route) : route :=
  mkRoute (r_id r) (r_sess r) (r_addr r) (r_cname r) (r_main r) (r_srcs r) (r_an r) k
          (r_sn r).
Definition w_sn (k : option (option nat)) (r : route) : route :=
  mkRoute (r_id r) (r_sess r) (r_addr r) (r_cname r) (r_main r) (r_srcs r) (r_an r)
          (r_cn r) k.

(* One allocation attempt. *)
Definition alloc (st : rstate) : bool * rstate :=
  match st_oom st with
  | [] => (true, st)
  | b :: l => (b, mkSt (st_routes st) (st_next st) l)
  end.

(* A route that the caller holds a reference to; using it after it has left
   the list of routes would be a use after free. *)
Definition deref (st : rstate) (i : nat) : res route :=
  match by_id (st_routes st) i with Some r => Ok r | None => UB end.

(* Hashmap insertion (roc_core/hashmap_impl.cpp:122-140): growing the table may
   fail; a stored node or a present key panics. *)
Definition insert_check (st : rstate) (stored dup : bool) : res (bool * rstate) :=
  let p := alloc st in
  if negb (fst p) then Ok (false, snd p)
  else if stored then Panic
  else if dup then Panic
  else Ok (true, snd p).

(* source_nodes.push_back + source_route_map_.insert of a fresh SSRC node
   (receiver_session_router.cpp:251-258, 374-380).  A node whose insertion fails
   is taken out of the list again (256, or 434-439 by way of remove_route_), so
   it is only added here when the insertion succeeds. *)
Definition src_insert (st : rstate) (i : nat) (s : Z) : res (bool * rstate) :=
  p <- insert_check st false (has (by_src (st_routes st) s)) ;;
  if fst p then Ok (true, modify (snd p) i (fun r => w_srcs (r_srcs r ++ [s]) r))
  else Ok p.

(* address_route_map_.insert(route.address_node): the key is route.source_addr
   (receiver_session_router.h:206-213). *)
Definition addr_insert (st : rstate) (i : nat) : res (bool * rstate) :=
  r <- deref st i ;;
  p <- insert_check st (has (r_an r)) (has (by_addr (st_routes st) (r_addr r))) ;;
  if fst p then Ok (true, modify (snd p) i (fun q => w_an (Some (r_addr r)) q))
  else Ok p.

(* cname_route_map_.insert(route.cname_node): the key is route.cname
   (receiver_session_router.h:224-236). *)
Definition cname_insert (st : rstate) (i : nat) : res (bool * rstate) :=
  r <- deref st i ;;
  p <- insert_check st (has (r_cn r)) (has (by_cname (st_routes st) (r_cname r))) ;;
  if fst p then Ok (true, modify (snd p) i (fun q => w_cn (Some (r_cname r)) q))
  else Ok p.

(* session_route_map_.insert(route.session_node): the key is route.session
   (receiver_session_router.h:247-259). *)
Definition sess_insert (st : rstate) (i : nat) : res (bool * rstate) :=
  r <- deref st i ;;
  p <- insert_check st (has (r_sn r)) (has (by_sess (st_routes st) (r_sess r))) ;;
  if fst p then Ok (true, modify (snd p) i (fun q => w_sn (Some (r_sess r)) q))
  else Ok p.

(* remove_route_, receiver_session_router.cpp:424-458: every node of the route is
   taken out of its map, then the route leaves the list, which destroys it.  The
   destructor of a map node that is still stored panics
   (roc_core/hashmap_node.h:63-68). *)
Definition remove_route (st : rstate) (i : nat) : res rstate :=
  r0 <- deref st i ;;
  let r1 := w_srcs [] r0 in
  let r2 := w_cn None r1 in
  let r3 := w_an None r2 in
  let r4 := w_sn None r3 in
  if has (r_cn r4) || has (r_an r4) || has (r_sn r4) || negb (Nat.eqb (length (r_srcs r4)) 0)
  then Panic
  else Ok (set_routes st
             (filter (fun r => negb (Nat.eqb i (r_id r))) (st_routes st))).

(* collect_route_, receiver_session_router.cpp:507-516. *)
Definition collect_route (st : rstate) (i : nat) : res rstate :=
  r <- deref st i ;;
  if Nat.eqb (length (r_srcs r)) 0 then remove_route st i else Ok st.

(* create_route_, receiver_session_router.cpp:345-422. *)
Definition create_route (st : rstate) (s : Z) (a : option Z) (c : option (list Z))
    (x : option nat) : res (code * rstate) :=
  (* 357-362 *)
  let p0 := alloc st in
  if negb (fst p0) then Ok (StNoMem, snd p0) else
  let i := st_next st in
  let st := mkSt (st_routes (snd p0) ++ [mkRoute i None None [] None [] None None None])
                 (S i) (st_oom (snd p0)) in
  (* 366-372: the SSRC node *)
  let p1 := alloc st in
  if negb (fst p1) then st' <- remove_route (snd p1) i ;; Ok (StNoMem, st') else
  (* 374-380 *)
  p2 <- src_insert (snd p1) i s ;;
  if negb (fst p2) then st' <- remove_route (snd p2) i ;; Ok (StNoMem, st') else
  (* 383-384 *)
  let st := modify (snd p2) i (w_main (Some s)) in
  (* 388-397 *)
  p3 <- match c with
        | None => Ok (true, st)
        | Some c => cname_insert (modify st i (w_cname c)) i
        end ;;
  if negb (fst p3) then st' <- remove_route (snd p3) i ;; Ok (StNoMem, st') else
  (* 400-408 *)
  p4 <- match a with
        | None => Ok (true, snd p3)
        | Some _ => addr_insert (modify (snd p3) i (w_addr a)) i
        end ;;
  if negb (fst p4) then st' <- remove_route (snd p4) i ;; Ok (StNoMem, st') else
  (* 411-419 *)
  p5 <- match x with
        | None => Ok (true, snd p4)
        | Some _ => sess_insert (modify (snd p4) i (w_sess x)) i
        end ;;
  if negb (fst p5) then st' <- remove_route (snd p5) i ;; Ok (StNoMem, st') else
  Ok (StOK, snd p5).

(* Taking one SSRC node out of its route and out of the map
   (receiver_session_router.cpp:287-288, 311-312). *)
Definition drop_src (s : Z) (r : route) : route :=
  w_srcs (filter (fun x => negb (x =? s)) (r_srcs r)) r.

(* unlink_source, receiver_session_router.cpp:267-298. *)
Definition unlink_source (st : rstate) (s : Z) : res rstate :=
  match by_src (st_routes st) s with
  | None => Ok st
  | Some r =>
      let i := r_id r in
      let st := modify st i (drop_src s) in
      let st := if keyz (r_main r) (Some s) then modify st i (w_main None) else st in
      collect_route st i
  end.

(* move_route_session_, receiver_session_router.cpp:466-505. *)
Definition move_route_session (st : rstate) (old new : nat) : res (code * rstate) :=
  ro <- deref st old ;;
  (* 471-480 *)
  let st := modify st old (w_an None) in
  let st := modify st new (w_an None) in
  let st := modify st new (w_addr (r_addr ro)) in
  let st := modify st old (w_addr None) in
  (* 482-485 *)
  p1 <- addr_insert st new ;;
  if negb (fst p1) then Ok (StNoMem, snd p1) else
  (* 488-497 *)
  let st := modify (snd p1) old (w_sn None) in
  let st := modify st new (w_sn None) in
  let st := modify st new (w_sess (r_sess ro)) in
  let st := modify st old (w_sess None) in
  (* 499-504 *)
  p2 <- sess_insert st new ;;
  if negb (fst p2) then Ok (StNoMem, snd p2) else
  Ok (StOK, snd p2).

(* link_source, receiver_session_router.cpp:152-265, and relink_source_, 300-343,
   which call each other.  [n] bounds the depth of this recursion; running out of
   it is reported as a panic and shown never to happen. *)
Fixpoint link_source_n (n : nat) (st : rstate) (s : Z) (c : list Z)
    : res (code * rstate) :=
  match n with
  | O => Panic
  | S n =>
    (* 154 *)
    match c with
    | [] => Panic
    | _ :: _ =>
      (* 160-166 *)
      match by_src (st_routes st) s, by_cname (st_routes st) c with
      (* 169-177 *)
      | None, None => create_route st s None (Some c) None
      (* 180-201 *)
      | Some rs, Some rc =>
          if Nat.eqb (r_id rs) (r_id rc) then Ok (StOK, st)
          else relink_source_n n st s c
      | Some rs, None =>
          match r_cname rs with
          (* 204-213 *)
          | _ :: _ => relink_source_n n st s c
          (* 216-233 *)
          | [] =>
              let i := r_id rs in
              p <- cname_insert (modify st i (w_cname c)) i ;;
              if fst p then Ok (StOK, snd p)
              else Ok (StNoMem, modify (snd p) i (w_cname []))
          end
      (* 236-261 *)
      | None, Some rc =>
          let p0 := alloc st in
          if negb (fst p0) then Ok (StNoMem, snd p0) else
          p <- src_insert (snd p0) (r_id rc) s ;;
          if fst p then Ok (StOK, snd p) else Ok (StNoMem, snd p)
      end
    end
  end
with relink_source_n (n : nat) (st : rstate) (s : Z) (c : list Z)
    : res (code * rstate) :=
  match n with
  | O => Panic
  | S n =>
    (* 307-312 *)
    match by_src (st_routes st) s with
    | None => Panic
    | Some ro =>
        let old := r_id ro in
        let st := modify st old (drop_src s) in
        (* 315-318 *)
        p <- link_source_n n st s c ;;
        match fst p with
        | StOK =>
            ro <- deref (snd p) old ;;
            (* 320-337 *)
            if keyz (r_main ro) (Some s) then
              match by_src (st_routes (snd p)) s with
              | None => Panic
              | Some rn =>
                  let new := r_id rn in
                  q <- move_route_session (snd p) old new ;;
                  match fst q with
                  | StOK =>
                      let st := modify (snd q) new (w_main (Some s)) in
                      let st := modify st old (w_main None) in
                      (* 340-342 *)
                      st' <- collect_route st old ;; Ok (StOK, st')
                  | e => st' <- remove_route (snd q) new ;; Ok (e, st')
                  end
              end
            else st' <- collect_route (snd p) old ;; Ok (StOK, st')
        | e => Ok (e, snd p)
        end
    end
  end.

Definition link_source (st : rstate) (s : Z) (c : list Z) : res (code * rstate) :=
  link_source_n 3 st s c.

(* add_session, receiver_session_router.cpp:64-133. *)
Definition add_session (st : rstate) (x : nat) (s : Z) (a : option Z)
    : res (code * rstate) :=
  (* 72-83 *)
  if has a && has (by_addr (st_routes st) a) then Ok (StConflict, st) else
  if has (by_sess (st_routes st) (Some x)) then Ok (StConflict, st) else
  match by_src (st_routes st) s with
  | None => create_route st s a None (Some x)
  | Some r =>
      if is_none (r_addr r) && is_none (r_sess r) then
        (* 99-117 *)
        let i := r_id r in
        p1 <- match a with
              | None => Ok (true, st)
              | Some _ => addr_insert (modify st i (w_addr a)) i
              end ;;
        if negb (fst p1) then st' <- remove_route (snd p1) i ;; Ok (StNoMem, st') else
        p2 <- sess_insert (modify (snd p1) i (w_sess (Some x))) i ;;
        if negb (fst p2) then st' <- remove_route (snd p2) i ;; Ok (StNoMem, st') else
        Ok (StOK, snd p2)
      else
        (* 123, 132 *)
        st' <- unlink_source st s ;;
        create_route st' s a None (Some x)
  end.

(* remove_session, receiver_session_router.cpp:135-150. *)
Definition remove_session (st : rstate) (x : nat) : res rstate :=
  match by_sess (st_routes st) (Some x) with
  | None => Ok st
  | Some r => remove_route st (r_id r)
  end.

(* find_by_source, find_by_address, has_session, num_routes:
   receiver_session_router.cpp:32-62.  The address passed to find_by_address is
   not empty (48). *)
Definition find_by_source (st : rstate) (s : Z) : option nat :=
  match by_src (st_routes st) s with None => None | Some r => r_sess r end.

Definition find_by_address (st : rstate) (a : Z) : option nat :=
  match by_addr (st_routes st) (Some a) with None => None | Some r => r_sess r end.

Definition has_session (st : rstate) (x : nat) : bool :=
  has (by_sess (st_routes st) (Some x)).

Definition num_routes (st : rstate) : nat := length (st_routes st).

(* receiver_session_router.cpp:19-26; [oom] is the allocation oracle. *)
Definition router_new (oom : list bool) : rstate := mkSt [] 0 oom.

(* remove_all_routes_, receiver_session_router.cpp:460-464 (destructor). *)
Fixpoint remove_all (n : nat) (st : rstate) : res rstate :=
  match n with
  | O => Ok st
  | S n =>
      match rev (st_routes st) with
      | [] => Ok st
      | r :: _ => st' <- remove_route st (r_id r) ;; remove_all n st'
      end
  end.

(* The calls of the public interface that change the table. *)
Inductive rop :=
| RAdd (x : nat) (s : Z) (a : option Z)
| RRemove (x : nat)
| RLink (s : Z) (c : list Z)
| RUnlink (s : Z).

Definition rstep (st : rstate) (o : rop) : res (code * rstate) :=
  match o with
  | RAdd x s a => add_session st x s a
  | RRemove x => st' <- remove_session st x ;; Ok (StOK, st')
  | RLink s c => link_source st s c
  | RUnlink s => st' <- unlink_source st s ;; Ok (StOK, st')
  end.
