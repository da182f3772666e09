(** C36, continued: the parts of an endpoint URI, set one by one. *)
From Coq Require Import String.
From Verif Require Import Base Base_lemmas Protocol_model Pct_model Pct_spec Pct_props StrBuilder_model Uri_model Uri_spec Uri_proof Uri_props Protocol_props.
Open Scope list_scope.
Open Scope Z_scope.
Open Scope res_scope.

(** What a user sees of a URI. *)
Definition seen (u : euri) := (get_proto u, get_host u, get_port u, get_path u, get_query u).

(** Clearing leaves nothing; the resource alone is then fine, the URI is not. *)
Theorem C36_clear : forall u,
  seen (uri_clear u Full) = (0, [], -1, None, None) /\ verify (uri_clear u Full) Full = Ok false /\ verify (uri_clear u Full) Resource = Ok true /\
  seen (uri_clear u Resource) = (get_proto u, get_host u, get_port u, None, None) /\ verify (uri_clear u Resource) Resource = Ok true.
Proof. intros u. repeat split. Qed.
Print Assumptions C36_clear.

(** Setting the protocol: a known one is seen afterwards; an unknown one is refused and makes the URI
    invalid. *)
Theorem C36_set_proto : forall u p, exists u' ok, set_proto u p = Ok (u', ok) /\
  (ok = true <-> exists a, find_by_id p = Ok (Some a)) /\
  (ok = true -> get_proto u' = p) /\ (ok = false -> get_proto u' = 0 /\ verify u' Full = Ok false) /\
  get_host u' = get_host u /\ get_path u' = get_path u /\ get_query u' = get_query u.
Proof.
  intros u p. destruct (find_id_facts p) as (o & E & _). unfold set_proto. rewrite E. cbn [bind]. destruct o as [a|].
  - assert (Sv : exists s, service_from_proto p = Ok s). { apply service_from_proto_ok. }
    destruct Sv as (s & Es). set (u1 := mkUri _ _ _ _ _ p _ _ _ _ _).
    assert (X : exists u2, (if u_port u1 =? -1 then s <- service_from_proto p ;; Ok (match s with Some d => with_port u1 false (u_port u1) d | None => with_port u1 true (u_port u1) (u_service u1) end) else Ok u1) = Ok u2 /\
      u_proto u2 = p /\ i_host u2 = i_host u /\ u_host u2 = u_host u /\ i_path u2 = i_path u /\ u_path u2 = u_path u /\ i_query u2 = i_query u /\ u_query u2 = u_query u).
    { destruct (u_port u1 =? -1); [rewrite Es; cbn [bind]; destruct s; eexists; split; [reflexivity| |reflexivity|]; repeat split|eexists; split; [reflexivity|]; repeat split]. }
    destruct X as (u2 & -> & H1 & H2 & H3 & H4 & H5 & H6 & H7). cbn [bind]. eexists _, true. split; [reflexivity|].
    split; [split; [eauto|reflexivity]|]. unfold get_proto, get_host, get_path, get_query. cbn [i_proto u_proto i_host u_host i_path u_path i_query u_query]. rewrite H1, H2, H3, H4, H5, H6, H7. (split; [reflexivity|]); (split; [intros K; discriminate K|]); repeat split.
  - eexists _, false. split; [reflexivity|]. split; [split; [discriminate|intros (a & Ea); discriminate Ea]|]. repeat split; discriminate.
Qed.
Print Assumptions C36_set_proto.

(** Setting the host: anything but the empty text. *)
Theorem C36_set_host : forall u h, let '(u', ok) := set_host u h in
  (ok = true <-> h <> []) /\ get_host u' = h /\ (ok = false -> verify u' Full = Ok false) /\
  get_proto u' = get_proto u /\ get_port u' = get_port u /\ get_path u' = get_path u /\ get_query u' = get_query u.
Proof.
  intros u h. unfold set_host. destruct h as [|x h]; cbn [List.length Nat.eqb negb]; (split; [split; congruence|]); (split; [reflexivity|]); (split; [intros K; try discriminate K; unfold verify; cbn [i_host i_proto]; rewrite orb_true_r; reflexivity|]); repeat split.
Qed.
Print Assumptions C36_set_host.

(** Setting the port: a number up to 65535, or -1 for the default port of the protocol. *)
Theorem C36_set_port : forall u port, exists u' ok, set_port u port = Ok (u', ok) /\
  (ok = true <-> -1 <= port <= 65535) /\ get_port u' = (if ok then port else -1) /\ (ok = false -> verify u' Full = Ok false) /\
  get_proto u' = get_proto u /\ get_host u' = get_host u /\ get_path u' = get_path u /\ get_query u' = get_query u.
Proof.
  intros u port. unfold set_port. destruct (Z.eqb_spec port (-1)) as [->|N].
  - destruct (i_proto u) eqn:Ip; cbn [negb].
    + eexists _, true. split; [reflexivity|]. split; [split; [lia|reflexivity]|]. repeat split; discriminate.
    + assert (Sv : exists s, service_from_proto (u_proto u) = Ok s) by apply service_from_proto_ok.
      destruct Sv as (s & ->). cbn [bind]. eexists _, true. split; [reflexivity|]. split; [split; [lia|reflexivity]|]. destruct s; repeat split; discriminate.
  - destruct (Z.ltb_spec port 0); cbn [orb].
    { eexists _, false. split; [reflexivity|]. split; [split; [discriminate|lia]|]. split; [reflexivity|]. split; [|repeat split]. intros _. unfold verify. cbn [with_port i_port i_proto i_host]. rewrite orb_true_r. reflexivity. }
    destruct (Z.ltb_spec 65535 port).
    { eexists _, false. split; [reflexivity|]. split; [split; [discriminate|lia]|]. split; [reflexivity|]. split; [|repeat split]. intros _. unfold verify. cbn [with_port i_port i_proto i_host]. rewrite orb_true_r. reflexivity. }
    destruct (service_ok port ltac:(lia)) as (d & -> & _). cbn [bind]. eexists _, true. split; [reflexivity|]. split; [split; [lia|reflexivity]|]. repeat split; discriminate.
Qed.
Print Assumptions C36_set_port.

(** Setting the path in encoded form: the decoded text is seen afterwards; a broken code is refused and
    makes the URI invalid. *)
Theorem C36_set_path : forall u p, let '(u', ok) := set_encoded_path u p in
  (ok = true -> exists d, encodes p d /\ get_path u' = nonempty (Some d)) /\
  (ok = false -> (forall d, ~ encodes p d) /\ get_path u' = None /\ verify u' Full = Ok false /\ verify u' Resource = Ok false) /\
  get_proto u' = get_proto u /\ get_host u' = get_host u /\ get_port u' = get_port u /\ get_query u' = get_query u.
Proof.
  intros u p. unfold set_encoded_path. destruct (Nat.ltb_spec (List.length p) 1).
  - destruct p as [|x p]; [|cbn in H; lia]. cbn. split; [intros _; exists []; split; [constructor|reflexivity]|]. split; [discriminate|]. repeat split.
  - destruct (pct_decode p) as [d|] eqn:D; cbn [set_path].
    + split; [intros _; exists d; split; [apply C35_decode_exact, D|destruct d; reflexivity]|]. split; [discriminate|]. repeat split.
    + split; [discriminate|]. split; [intros _; split; [intros d Ed; apply C35_decode_exact in Ed; congruence|]|repeat split]. repeat split. unfold verify. cbn [i_path i_proto i_host i_port]. rewrite orb_true_r. reflexivity.
Qed.
Print Assumptions C36_set_path.

(** Equal URIs look the same, and two complete ones that look the same are equal. *)
Theorem C36_equal : forall a b,
  (uri_equal a b = true -> seen a = seen b) /\ (verify a Full = Ok true -> verify b Full = Ok true -> seen a = seen b -> uri_equal a b = true).
Proof.
  assert (Oe : forall x y, opt_eqb x y = true <-> x = y). { intros [x|] [y|]; cbn; try (split; [discriminate|congruence]); [|tauto]. rewrite list_eqb_true. split; congruence. }
  assert (Va : forall a, verify a Full = Ok true -> i_proto a || i_host a || i_port a || i_path a || i_query a = false). { intros a. unfold verify. destruct (i_proto a || i_host a || i_port a || i_path a || i_query a); [discriminate|reflexivity]. }
  intros a b. unfold uri_equal, seen. split.
  - intros E. repeat (apply andb_true_iff in E; destruct E as [E ?]). rewrite Z.eqb_eq in *. rewrite list_eqb_true in *. rewrite Oe in *. congruence.
  - intros A B E. rewrite (Va a A), (Va b B). cbn [negb andb]. assert (E1 : get_proto a = get_proto b) by congruence. assert (E2 : get_host a = get_host b) by congruence. assert (E3 : get_port a = get_port b) by congruence. assert (E4 : get_path a = get_path b) by congruence. assert (E5 : get_query a = get_query b) by congruence.
    rewrite !andb_true_iff, !Z.eqb_eq, list_eqb_true, !Oe. auto.
Qed.
Print Assumptions C36_equal.
