(** Model of roc_address/endpoint_uri.cpp, endpoint_uri_format.cpp and
    endpoint_uri_parse.rl. Strings are byte lists without NUL. Allocation of the
    host, path and query buffers is assumed to succeed (failing it only makes
    the setters return false); logging is omitted. *)
From Coq Require Import String.
From Verif Require Import Base Protocol_model Pct_model StrBuilder_model.
Open Scope list_scope.
Open Scope Z_scope.
Open Scope res_scope.

(** endpoint_uri.h:137-158. [i_x = true]: the part is marked invalid. *)
Record euri := mkUri {
  i_proto : bool; i_host : bool; i_port : bool; i_path : bool; i_query : bool;
  u_proto : Z; u_host : list Z; u_port : Z; u_service : list Z;
  u_path : list Z; u_query : list Z }.

Inductive subset := Full | Resource.

(** endpoint_uri.cpp:141-159 *)
Definition uri_clear (u : euri) (s : subset) : euri :=
  match s with
  | Full => mkUri true true true false false 0 [] (-1) [] [] []
  | Resource => mkUri (i_proto u) (i_host u) (i_port u) false false
                  (u_proto u) (u_host u) (u_port u) (u_service u) [] []
  end.

(** endpoint_uri.cpp:429-435: service_ has 6 chars (endpoint_uri.h:155), so at
    most 5 digits fit. *)
Definition service_from_port (port : Z) : res (list Z) :=
  d <- uint_digits port 10 ;; if (5 <? List.length d)%nat then Panic else Ok d.

(** endpoint_uri.cpp:437-449; [None] is false. *)
Definition service_from_proto (p : Z) : res (option (list Z)) :=
  a <- find_by_id p ;;
  match a with
  | None => Ok None
  | Some a => if a_port a <=? 0 then Ok None else d <- service_from_port (a_port a) ;; Ok (Some d)
  end.

Definition with_port (u : euri) (inv : bool) (port : Z) (srv : list Z) : euri :=
  mkUri (i_proto u) (i_host u) inv (i_path u) (i_query u) (u_proto u) (u_host u) port srv (u_path u) (u_query u).

(** endpoint_uri.cpp:168-186 *)
Definition set_proto (u : euri) (p : Z) : res (euri * bool) :=
  a <- find_by_id p ;;
  match a with
  | None => Ok (mkUri true (i_host u) (i_port u) (i_path u) (i_query u)
                  (u_proto u) (u_host u) (u_port u) (u_service u) (u_path u) (u_query u), false)
  | Some _ =>
      let u := mkUri (i_proto u) (i_host u) (i_port u) (i_path u) (i_query u)
                 p (u_host u) (u_port u) (u_service u) (u_path u) (u_query u) in
      u <- (if u_port u =? -1 then
              s <- service_from_proto p ;;
              Ok (match s with
                  | Some d => with_port u false (u_port u) d
                  | None => with_port u true (u_port u) (u_service u)
                  end)
            else Ok u) ;;
      Ok (mkUri false (i_host u) (i_port u) (i_path u) (i_query u)
            (u_proto u) (u_host u) (u_port u) (u_service u) (u_path u) (u_query u), true)
  end.

(** endpoint_uri.cpp:227-240 *)
Definition set_host (u : euri) (h : list Z) : euri * bool :=
  let bad := (List.length h =? 0)%nat in
  (mkUri (i_proto u) bad (i_port u) (i_path u) (i_query u)
     (u_proto u) h (u_port u) (u_service u) (u_path u) (u_query u), negb bad).

(** endpoint_uri.cpp:257-285 *)
Definition set_port (u : euri) (port : Z) : res (euri * bool) :=
  if port =? -1 then
    if negb (i_proto u) then
      s <- service_from_proto (u_proto u) ;;
      Ok (match s with
          | Some d => with_port u false (-1) d
          | None => with_port u true (-1) (u_service u)
          end, true)
    else Ok (with_port u true (-1) (u_service u), true)
  else if (port <? 0) || (65535 <? port) then Ok (with_port u true (u_port u) (u_service u), false)
  else d <- service_from_port port ;; Ok (with_port u false port d, true).

(** endpoint_uri.cpp:320-334 (set_path: already decoded text) *)
Definition set_path (u : euri) (p : list Z) : euri * bool :=
  (mkUri (i_proto u) (i_host u) (i_port u) false (i_query u)
     (u_proto u) (u_host u) (u_port u) (u_service u) p (u_query u), true).

(** endpoint_uri.cpp:346-372. On failure the buffer holds a partial result that
    is unreachable because the part is invalid; kept unchanged here. *)
Definition set_encoded_path (u : euri) (p : list Z) : euri * bool :=
  if (List.length p <? 1)%nat then set_path u []
  else match pct_decode p with
       | Some d => set_path u d
       | None => (mkUri (i_proto u) (i_host u) (i_port u) true (i_query u)
                    (u_proto u) (u_host u) (u_port u) (u_service u) (u_path u) (u_query u), false)
       end.

(** endpoint_uri.cpp:398-412 *)
Definition set_encoded_query (u : euri) (q : list Z) : euri * bool :=
  (mkUri (i_proto u) (i_host u) (i_port u) (i_path u) false
     (u_proto u) (u_host u) (u_port u) (u_service u) (u_path u) q, true).

(** endpoint_uri.cpp:92-139 *)
Definition verify (u : euri) (s : subset) : res bool :=
  match s with
  | Resource => Ok (negb (i_path u || i_query u))
  | Full =>
      if i_proto u || i_host u || i_port u || i_path u || i_query u then Ok false
      else if (List.length (u_service u) =? 0)%nat then Ok false
      else
        a <- find_by_id (u_proto u) ;;
        match a with
        | None => Ok false
        | Some a =>
            if (u_port u <? 0) && (a_port a <? 0) then Ok false
            else if negb (a_path a) && (negb (List.length (u_path u) =? 0)%nat || negb (List.length (u_query u) =? 0)%nat)
            then Ok false
            else Ok true
        end
  end.

(** Observers (endpoint_uri.cpp:188-193, 242-247, 287-292, 374-379, 414-419). *)
Definition get_proto (u : euri) : Z := if i_proto u then 0 else u_proto u.
Definition get_host (u : euri) : list Z := if i_host u then [] else u_host u.
Definition get_port (u : euri) : Z := if i_port u then -1 else u_port u.
Definition opt (l : list Z) : option (list Z) := if (List.length l =? 0)%nat then None else Some l.
Definition get_path (u : euri) : option (list Z) := if i_path u then None else opt (u_path u).
Definition get_query (u : euri) : option (list Z) := if i_query u then None else opt (u_query u).

(** endpoint_uri.cpp:36-62 *)
Definition opt_eqb (a b : option (list Z)) : bool :=
  match a, b with
  | None, None => true
  | Some x, Some y => list_eqb x y
  | _, _ => false
  end.
Definition uri_equal (a b : euri) : bool :=
  negb (i_proto a || i_host a || i_port a || i_path a || i_query a) &&
  negb (i_proto b || i_host b || i_port b || i_path b || i_query b) &&
  (get_proto a =? get_proto b) && list_eqb (get_host a) (get_host b) &&
  (get_port a =? get_port b) && opt_eqb (get_path a) (get_path b) && opt_eqb (get_query a) (get_query b).

(** endpoint_uri_format.cpp:16-60; the result is the text given to the builder
    ([None]: false). *)
Definition format_uri (u : euri) (s : subset) : res (option (list Z)) :=
  ok <- verify u s ;;
  if negb ok then Ok None
  else
    head <- (match s with
             | Full =>
                 if i_proto u then Ok None
                 else
                   a <- find_by_id (u_proto u) ;;
                   match a with
                   | None => Ok None
                   | Some a =>
                       match a_scheme a with
                       | None => UB
                       | Some n =>
                           if i_host u then Ok None
                           else if 0 <=? get_port u then
                             d <- uint_digits (get_port u) 10 ;;
                             Ok (Some (n ++ str "://" ++ u_host u ++ str ":" ++ d))
                           else Ok (Some (n ++ str "://" ++ u_host u))
                       end
                   end
             | Resource =>
                 match get_path u, get_query u with None, None => Ok None | _, _ => Ok (Some []) end
             end) ;;
    match head with
    | None => Ok None
    | Some h =>
        match (match get_path u with None => Some [] | Some p => pct_encode PctNonPath p end) with
        | None => Ok None
        | Some p =>
            Ok (Some (h ++ p ++ (match get_query u with None => [] | Some q => 63 :: q end)))
        end
    end.

(** ** The ragel machine, endpoint_uri_parse.rl:52-134.

    uri = ( proto '://' host (':' port)? )? path? ('?' query)?

    Ragel runs the deterministic machine obtained from all interpretations of
    the input at once: at each character it executes the actions of every
    interpretation that is still alive, in the order in which they were
    embedded. The model does the same with an explicit set of live positions. *)
Inductive st :=
| S0            (* before anything *)
| PR            (* in proto *)
| C1 | C2       (* ':' and ':/' read *)
| H0            (* '://' read *)
| HB0 | HB      (* '[' read, with none / some characters after it *)
| HE            (* ']' read *)
| HN            (* in an unbracketed host *)
| PT0 | PT      (* ':' read, in port *)
| PA            (* in path *)
| Q0 | Q.       (* '?' read, in query *)

(** Actions in embedding order: >start_token and %set_xxx of each component. *)
Inductive act := TokProto | SetProto | TokHost | SetHost | TokPort | SetPort | TokPath | SetPath | TokQuery | SetQuery.
Definition all_acts := [TokProto; SetProto; TokHost; SetHost; TokPort; SetPort; TokPath; SetPath; TokQuery; SetQuery].
Scheme Equality for act.
Scheme Equality for st.

(** endpoint_uri_parse.rl:116-124: character classes. *)
Definition is_proto_char (c : Z) : bool := ((97 <=? c) && (c <=? 122)) || isdigit c || (c =? 43).
Definition is_lit_char (c : Z) : bool := negb (mem c [47; 64; 91; 93]).   (* [^/@\[\]] *)
Definition is_name_char (c : Z) : bool := negb (mem c [47; 58; 64; 91; 93]). (* [^/:@\[\]] *)
Definition is_q_char (c : Z) : bool := negb (mem c [63; 35]).              (* [^?#] *)

(** Actions on leaving a component from one of its final states. Ragel embeds
    an entering action also as a leaving action when the component accepts the
    empty string (the query). *)
Definition out (q : st) : list act :=
  match q with
  | HE | HN => [SetHost]
  | PT => [SetPort]
  | PA => [SetPath]
  | Q0 => [TokQuery; SetQuery]
  | Q => [SetQuery]
  | _ => []
  end.
Definition final (q : st) : bool :=
  match q with S0 | HE | HN | PT | PA | Q0 | Q => true | _ => false end.

(** What may follow: path? ('?' query)? , and (':' port)? before it. *)
Definition to_tail (q : st) (c : Z) : list (list act * st) :=
  if c =? 47 then [(out q ++ [TokPath], PA)] else if c =? 63 then [(out q, Q0)] else [].
Definition to_port (q : st) (c : Z) : list (list act * st) :=
  if c =? 58 then [(out q, PT0)] else [].

Definition trans (q : st) (c : Z) : list (list act * st) :=
  match q with
  | S0 => (if is_proto_char c then [([TokProto], PR)] else []) ++ to_tail S0 c
  | PR => (if is_proto_char c then [([], PR)] else []) ++ (if c =? 58 then [([SetProto], C1)] else [])
  | C1 => if c =? 47 then [([], C2)] else []
  | C2 => if c =? 47 then [([], H0)] else []
  | H0 => (if c =? 91 then [([TokHost], HB0)] else []) ++ (if is_name_char c then [([TokHost], HN)] else [])
  | HB0 => if is_lit_char c then [([], HB)] else []
  | HB => (if is_lit_char c then [([], HB)] else []) ++ (if c =? 93 then [([], HE)] else [])
  | HE => to_port HE c ++ to_tail HE c
  | HN => (if is_name_char c then [([], HN)] else []) ++ to_port HN c ++ to_tail HN c
  | PT0 => if isdigit c then [([TokPort], PT)] else []
  | PT => (if isdigit c then [([], PT)] else []) ++ to_tail PT c
  | PA => (if is_q_char c then [([], PA)] else []) ++ (if c =? 63 then [(out PA, Q0)] else [])
  | Q0 => if is_q_char c then [([TokQuery], Q)] else []
  | Q => if is_q_char c then [([], Q)] else []
  end.

(** strtol(p, &end, 10) on text that starts with a digit: value (saturating at
    LONG_MAX) and number of characters consumed. *)
Fixpoint take_digits (s : list Z) : list Z :=
  match s with c :: s' => if isdigit c then c :: take_digits s' else [] | [] => [] end.
Definition dec_value (s : list Z) : Z := fold_left (fun v c => v * 10 + (c - 48)) s 0.
Definition strtol (s : list Z) : Z * nat :=
  let d := take_digits s in
  (Z.min (dec_value d) 9223372036854775807, List.length d).

(** The token between start_p and p. *)
Definition token (s : list Z) (start p : nat) : list Z := firstn (p - start) (skipn start s).

(** endpoint_uri_parse.rl:52-114. State: start_p and the result; [None] is
    "return false". *)
Definition run_act (s : list Z) (sub : subset) (p : nat) (a : act) (x : nat * euri) : res (option (nat * euri)) :=
  let '(start, u) := x in
  let keep (r : euri * bool) : option (nat * euri) := if snd r then Some (start, fst r) else None in
  match a with
  | TokProto | TokHost | TokPort | TokPath | TokQuery => Ok (Some (p, u))
  | SetProto =>
      if (16 <=? p - start)%nat then Ok None
      else match find_by_scheme (token s start p) with
           | None => Ok None
           | Some at_ => r <- set_proto u (a_proto at_) ;; Ok (keep r)
           end
  | SetHost => match sub with Resource => Ok None | Full => Ok (keep (set_host u (token s start p))) end
  | SetPort =>
      match sub with
      | Resource => Ok None
      | Full =>
          let '(v, n) := strtol (skipn start s) in
          if (v =? 9223372036854775807) || negb (start + n =? p)%nat then Ok None
          else r <- set_port u (s32 v) ;; Ok (keep r)
      end
  | SetPath => Ok (keep (set_encoded_path u (token s start p)))
  | SetQuery => Ok (keep (set_encoded_query u (token s start p)))
  end.

Fixpoint run_acts (s : list Z) (sub : subset) (p : nat) (l : list act) (x : nat * euri) : res (option (nat * euri)) :=
  match l with
  | [] => Ok (Some x)
  | a :: l' =>
      r <- run_act s sub p a x ;;
      match r with None => Ok None | Some y => run_acts s sub p l' y end
  end.

(** All actions of the live interpretations, each once, in embedding order. *)
Definition merge (ls : list (list act)) : list act :=
  filter (fun a => existsb (existsb (act_beq a)) ls) all_acts.
Fixpoint dedup (l : list st) : list st :=
  match l with
  | [] => []
  | q :: l' => if existsb (st_beq q) l' then dedup l' else q :: dedup l'
  end.

Fixpoint machine (s : list Z) (sub : subset) (p : nat) (rest : list Z) (live : list st) (x : nat * euri) : res (option euri) :=
  match rest with
  | [] =>
      match filter final live with
      | [] => Ok None
      | f =>
          r <- run_acts s sub p (merge (map out f)) x ;;
          Ok (match r with None => None | Some y => Some (snd y) end)
      end
  | c :: rest' =>
      match flat_map (fun q => trans q c) live with
      | [] => Ok None
      | t =>
          r <- run_acts s sub p (merge (map fst t)) x ;;
          match r with None => Ok None | Some y => machine s sub (S p) rest' (dedup (map snd t)) y end
      end
  end.

(** endpoint_uri_parse.rl:24-158, [u0] being the object passed in ([None]: the
    function returned false). *)
Definition parse_uri (s : list Z) (sub : subset) (u0 : euri) : res (option euri) :=
  r <- machine s sub 0 s [S0] (0%nat, uri_clear u0 sub) ;;
  match r with
  | None => Ok None
  | Some u => ok <- verify u sub ;; Ok (if ok then Some u else None)
  end.
