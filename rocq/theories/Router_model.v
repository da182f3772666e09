(** Model of roc_packet/router.cpp.  A packet is reduced to its flags and its
    optional source id (Packet::has_source_id/source_id); the downstream writer
    of a route is identified by the route index.  The queue timestamp set on
    UDP packets (router.cpp:58-60) is not modelled. *)
From Verif Require Import Base.
Open Scope N_scope.

Record rpkt := mkRp { rp_flags : N; rp_src : option Z }.

(** router.h, struct Route *)
Record route := mkRoute { rt_flags : N; rt_source : Z; rt_has_source : bool; rt_started : bool }.

(** router.cpp:22-33 (allocation succeeded) *)
Definition router_add (rs : list route) (flags : N) : list route :=
  rs ++ [mkRoute flags 0 false false].
Definition router_new (flags : list N) : list route := fold_left router_add flags [].

(** router.cpp:73-83, returning the index *)
Fixpoint find_route (rs : list route) (flags : N) : option nat :=
  match rs with
  | [] => None
  | r :: t =>
      if N.land (rt_flags r) flags =? rt_flags r then Some O
      else option_map S (find_route t flags)
  end.

(** router.cpp:85-133: new route state and verdict *)
Definition allow_route (r : route) (p : rpkt) : route * bool :=
  match rp_src p with
  | Some s =>
      if rt_has_source r then
        if Z.eqb (rt_source r) s then (r, true) else (r, false)
      else if rt_started r then (r, false)
      else (mkRoute (rt_flags r) s true true, true)
  | None =>
      if rt_has_source r then (r, false)
      else if rt_started r then (r, true)
      else (mkRoute (rt_flags r) (rt_source r) false true, true)
  end.

(** router.cpp:51-71: the result is the route that received the packet *)
Definition router_write (rs : list route) (p : rpkt) : list route * option nat :=
  match find_route rs (rp_flags p) with
  | None => (rs, None)
  | Some i =>
      match nth_error rs i with
      | None => (rs, None)      (* impossible: find_route returned i *)
      | Some r =>
          let (r', ok) := allow_route r p in
          (upd rs i r', if ok then Some i else None)
      end
  end.

Fixpoint router_run (rs : list route) (ps : list rpkt) : list route * list (option nat) :=
  match ps with
  | [] => (rs, [])
  | p :: t => let (rs1, o) := router_write rs p in
              let (rs2, os) := router_run rs1 t in (rs2, o :: os)
  end.

(** router.cpp:35-49 *)
Definition router_source (rs : list route) (flags : N) : option Z :=
  match find_route rs flags with
  | Some i => match nth_error rs i with
              | Some r => if rt_has_source r then Some (rt_source r) else None
              | None => None
              end
  | None => None
  end.
