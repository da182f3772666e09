(** The documented endpoint URI syntax, PROTO://HOST[:PORT][/PATH][?QUERY]
    (endpoint_uri.h:170-180), independent of the parser: the parts as they are
    written, and what they mean. *)
From Coq Require Import String.
From Verif Require Import Base Protocol_model Pct_spec.
Open Scope list_scope.
Open Scope Z_scope.

Record parts := mkParts {
  p_scheme : list Z; p_host : list Z; p_port : option (list Z);
  p_path : option (list Z); p_query : option (list Z) }.

Definition opt_text (prefix : list Z) (o : option (list Z)) : list Z :=
  match o with None => [] | Some s => prefix ++ s end.

(** The written form; a path includes its leading '/'. *)
Definition written (x : parts) : list Z :=
  p_scheme x ++ chars "://" ++ p_host x ++ opt_text (chars ":") (p_port x) ++
  opt_text [] (p_path x) ++ opt_text (chars "?") (p_query x).

Definition none_of (l s : list Z) : Prop := Forall (fun c => ~ In c l) s.
Definition digits (s : list Z) : Prop := s <> [] /\ Forall (fun c => 48 <= c <= 57) s.

(** A name or IPv4 address, or an IP literal in brackets. *)
Definition name_host (h : list Z) : Prop := h <> [] /\ none_of (chars "/:@[]") h.
Definition literal_host (h : list Z) : Prop :=
  exists a, h = chars "[" ++ a ++ chars "]" /\ a <> [] /\ none_of (chars "/@[]") a.

Record grammatical (x : parts) : Prop := mkGr {
  gr_scheme : p_scheme x <> [] /\ Forall (fun c => In c (chars "abcdefghijklmnopqrstuvwxyz0123456789+")) (p_scheme x);
  gr_host : name_host (p_host x) \/ literal_host (p_host x);
  gr_port : forall d, p_port x = Some d -> digits d;
  gr_path : forall p, p_path x = Some p -> exists r, p = chars "/" ++ r /\ none_of (chars "?#") r;
  gr_query : forall q, p_query x = Some q -> none_of (chars "?#") q }.

(** The host name has no '?' and, unless the host is a bracketed literal, a
    query is preceded by a port or a path. *)
Definition unambiguous (x : parts) : Prop :=
  literal_host (p_host x) \/
  (none_of (chars "?") (p_host x) /\ (p_port x <> None \/ p_path x <> None \/ p_query x = None)).

Definition decimal (s : list Z) : Z := fold_left (fun v c => v * 10 + (c - 48)) s 0.

(** Meaning of the written parts: protocol, host, port (-1: the protocol's
    default), decoded path, query as written. *)
Definition nonempty (o : option (list Z)) : option (list Z) :=
  match o with Some [] => None | _ => o end.

Definition means (x : parts) (proto : Z) (host : list Z) (port : Z) (path query : option (list Z)) : Prop :=
  exists a, find_by_scheme (p_scheme x) = Some a /\ proto = a_proto a /\ host = p_host x /\
    match p_port x with
    | Some d => port = decimal d /\ decimal d <= 65535
    | None => port = -1 /\ 0 < a_port a
    end /\
    match p_path x with
    | Some p => exists d, encodes p d /\ path = Some d
    | None => path = None
    end /\
    query = nonempty (p_query x) /\
    (a_path a = true \/ path = None /\ query = None).
