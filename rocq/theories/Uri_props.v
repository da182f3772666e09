(** C36: endpoint URIs. *)
From Coq Require Import String.
From Verif Require Import Base Base_lemmas Rtp_proof Protocol_model Pct_model Pct_spec Pct_proof StrBuilder_model StrBuilder_spec StrBuilder_proof
  Uri_model Uri_spec Uri_proof.
Open Scope list_scope.
Open Scope Z_scope.

Lemma none_q l : none_of (chars "?#") l -> Forall (fun c => is_q_char c = true) l.
Proof. unfold none_of. apply Forall_impl. intros c H. unfold is_q_char, mem, existsb. cbn in H. lia. Qed.
Lemma none_lit l : none_of (chars "/@[]") l -> Forall (fun c => is_lit_char c = true) l.
Proof. unfold none_of. apply Forall_impl. intros c H. unfold is_lit_char, mem, existsb. cbn in H. lia. Qed.
Lemma scheme_c c : In c (chars "abcdefghijklmnopqrstuvwxyz0123456789+") <-> is_proto_char c = true.
Proof. unfold is_proto_char, isdigit. cbn. split; lia. Qed.

Lemma observe_tail u path query : forall pd,
  i_path u = false -> i_query u = false -> u_path u = [] -> u_query u = [] ->
  (forall p, path = Some p -> exists r, p = 47 :: r) ->
  (path = None /\ pd = Some []) \/ (exists p, path = Some p /\ pct_decode p = pd) ->
  match pd with
  | None => tail_fin u path query = None
  | Some d => exists u', tail_fin u path query = Some u' /\
      u' = mkUri (i_proto u) (i_host u) (i_port u) false false (u_proto u) (u_host u) (u_port u) (u_service u) d
             (match query with None => [] | Some q => q end)
  end.
Proof.
  intros pd Ip Iq Up Uq Hp Hpd. unfold tail_fin. destruct u as [a b c d e f g h i j k]. cbn in *. subst.
  destruct Hpd as [[-> ->]|(p & -> & E)].
  - destruct query; eexists; split; reflexivity.
  - destruct (Hp p eq_refl) as (r & ->). unfold set_encoded_path. cbn [List.length Nat.ltb Nat.leb].
    rewrite E. destruct pd as [dd|]; [|reflexivity]. cbn [fin set_path snd fst]. destruct query; eexists; split; reflexivity.
Qed.

(** Parsing a written URI. For every grammatical, unambiguous URI text whose
    port number (if any) is below 2^31, and whatever object is passed in, the
    parser does not abort, accepts exactly when the text has a meaning (known
    protocol, port up to 65535 or a default one, well-formed escapes, path and
    query only where the protocol allows them), and the parts it stores are the
    written ones. *)
Theorem C36_parse x u0 :
  grammatical x -> unambiguous x -> (forall d, p_port x = Some d -> decimal d < 2147483648) ->
  exists r, parse_uri (written x) Full u0 = Ok r /\
    match r with
    | Some u => means x (get_proto u) (get_host u) (get_port u) (get_path u) (get_query u)
    | None => forall a b c d e, ~ means x a b c d e
    end.
Proof.
  intros [[Ns Fs] Gh Gp Gpa Gq] Hun Hport. unfold parse_uri. rewrite written_eq.
  assert (Hpath : forall p, p_path x = Some p -> exists r, p = 47 :: r /\ Forall (fun c => is_q_char c = true) r).
  { intros p E. destruct (Gpa p E) as (r & -> & F). exists r. split; [reflexivity|apply none_q, F]. }
  assert (Hdig : forall d, p_port x = Some d -> d <> [] /\ Forall (fun c => isdigit c = true) d).
  { intros d E. destruct (Gp d E) as [N F]. split; [exact N|]. eapply Forall_impl; [|exact F]. cbn beta. unfold isdigit. intros; lia. }
  rewrite run_all.
  2:{ exact Ns. }
  2:{ eapply Forall_impl; [|exact Fs]. intros c. apply scheme_c. }
  2:{ destruct Hun as [(a & E & N & F)|[Nq Ha]].
      - left. exists a. split; [exact E|]. split; [exact N|apply none_lit, F].
      - destruct Gh as [[N F]|(a & E & N & F)].
        + right. split; [split; [exact N|]|exact Ha]. unfold none_of in *. rewrite Forall_forall in *. intros c Hc.
          specialize (F c Hc). specialize (Nq c Hc). unfold name_c, is_name_char, mem, existsb. cbn in F, Nq. split; lia.
        + left. exists a. split; [exact E|]. split; [exact N|apply none_lit, F]. }
  2:{ exact Hdig. }
  2:{ exact Hpath. }
  2:{ intros y E. apply none_q, Gq, E. }
  destruct (find_by_scheme (p_scheme x)) as [a|] eqn:Ea.
  2:{ exists None. split.
      - destruct (16 <=? _)%nat; reflexivity.
      - intros aa b c d e (a & E & _). congruence. }
  destruct (scheme_facts _ _ Ea) as (Eid & Esch & Elen & _ & _ & Eattr).
  replace (16 <=? List.length (p_scheme x))%nat with false by lia.
  assert (Hsp : exists srv, set_proto (uri_clear u0 Full) (a_proto a) =
     Ok (mkUri false true (a_port a <=? 0) false false (a_proto a) [] (-1) srv [] [], true) /\ (0 < a_port a -> srv <> [])).
  { unfold set_proto, uri_clear. rewrite Eid. cbn [bind u_port]. change (-1 =? -1) with true. cbv iota.
    unfold service_from_proto. rewrite Eid. cbn [bind].
    destruct Eattr as [[-> _]|[-> _]].
    - change (554 <=? 0) with false. cbv iota. change (service_from_port 554) with (Ok [53;53;52]). eexists; split; [reflexivity|discriminate].
    - eexists; split; [reflexivity|lia]. }
  destruct Hsp as (srv & -> & Hsrv). cbn [bind fin snd fst].
  assert (Hne : p_host x <> []).
  { destruct Gh as [[N _]|(z & -> & _)]; [exact N|discriminate]. }
  unfold set_host. cbn [i_proto i_host i_port i_path i_query u_proto u_host u_port u_service u_path u_query].
  replace (List.length (p_host x) =? 0)%nat with false by (destruct (p_host x); [contradiction|reflexivity]).
  cbn [negb snd fst fin].
  set (pd := match p_path x with None => Some [] | Some p => pct_decode p end).
  (* what tail_fin and verify do after the port *)
  assert (K : forall port srv', srv' <> [] -> (0 <= port \/ (port = -1 /\ 0 < a_port a)) ->
    (match p_port x with Some d => port = decimal d /\ decimal d <= 65535 | None => port = -1 /\ 0 < a_port a end) ->
    exists r, bind (Ok (tail_fin (mkUri false false false false false (a_proto a) (p_host x) port srv' [] []) (p_path x) (p_query x)))
      (fun r => match r with None => Ok None | Some u => bind (verify u Full) (fun ok => Ok (if ok then Some u else None)) end) = Ok r /\
    match r with
    | Some u => means x (get_proto u) (get_host u) (get_port u) (get_path u) (get_query u)
    | None => forall a b c d e, ~ means x a b c d e
    end).
  { intros port srv' Hs' Hpo Hmp.
    pose proof (observe_tail (mkUri false false false false false (a_proto a) (p_host x) port srv' [] []) (p_path x) (p_query x) pd eq_refl eq_refl eq_refl eq_refl) as OT.
    assert (OT' := OT ltac:(intros p E; destruct (Hpath p E) as (r & -> & _); eauto)
       ltac:(unfold pd; destruct (p_path x); [right; eauto|left; auto])). clear OT.
    destruct pd as [dd|] eqn:Epd.
    - destruct OT' as (u' & -> & ->). cbn [bind]. unfold verify.
      cbn [i_proto i_host i_port i_path i_query u_proto u_host u_port u_service u_path u_query orb].
      replace (List.length srv' =? 0)%nat with false by (destruct srv'; [contradiction|reflexivity]).
      rewrite Eid. cbn [bind].
      replace ((port <? 0) && (a_port a <? 0)) with false by lia.
      set (q := match p_query x with None => [] | Some q => q end).
      assert (Hq' : get_query (mkUri false false false false false (a_proto a) (p_host x) port srv' dd q) = nonempty (p_query x)).
      { unfold get_query, opt, q, nonempty. cbn [i_query u_query]. destruct (p_query x) as [[|]|]; reflexivity. }
      assert (Hp' : match p_path x with
        | Some p => exists d, encodes p d /\ opt dd = Some d
        | None => opt dd = None end).
      { unfold pd in Epd. destruct (p_path x) as [p|] eqn:Ep.
        - exists dd. pose proof (decode_sound _ p dd (Nat.le_refl _) Epd) as En. split; [exact En|].
          destruct (Hpath p eq_refl) as (r & -> & _). inversion En; subst; reflexivity.
        - injection Epd as <-. reflexivity. }
      destruct (a_path a) eqn:Eap; cbn [negb andb].
      + eexists. split; [reflexivity|]. exists a. repeat split; auto.
      + destruct (negb (List.length dd =? 0)%nat || negb (List.length q =? 0)%nat) eqn:Ene.
        * eexists. split; [reflexivity|]. intros aa b c d e (a' & E1 & _ & _ & _ & E5 & E6 & E7).
          rewrite Ea in E1. injection E1 as <-. destruct E7 as [E7|[-> ->]]; [congruence|].
          assert (Ed : dd = []).
          { unfold pd in Epd. destruct (p_path x) as [p|]; [destruct E5 as (d0 & _ & E5); discriminate|congruence]. }
          assert (q = []).
          { unfold q. unfold nonempty in E6. destruct (p_query x) as [[|]|]; congruence. }
          subst dd. rewrite H in Ene. discriminate.
        * eexists. split; [reflexivity|]. exists a. rewrite Hq'. repeat split; auto.
          right. destruct dd; [|discriminate]. unfold q in Ene. unfold get_path, opt. cbn [i_path u_path]. split; [reflexivity|].
          destruct (p_query x) as [[|]|]; cbn in *; congruence.
    - rewrite OT'. eexists. split; [reflexivity|]. intros aa b c d e (a' & _ & _ & _ & _ & E5 & _).
      unfold pd in Epd. destruct (p_path x) as [p|]; [|discriminate]. destruct E5 as (d0 & En & _).
      apply decode_complete in En. congruence. }
  unfold rest_fin. destruct (p_port x) as [d|] eqn:Epo.
  - destruct (Hdig d eq_refl) as [Nd Fd]. specialize (Hport d eq_refl).
    change (decimal d) with (dec_value d) in *.
    assert (Hnn : 0 <= dec_value d).
    { unfold dec_value. assert (G : forall l v, 0 <= v -> Forall (fun c => isdigit c = true) l -> 0 <= fold_left (fun v c => v * 10 + (c - 48)) l v).
      { induction l as [|c l IH]; intros v Hv F; cbn [fold_left]; [exact Hv|]. rewrite Forall_cons_iff in F. destruct F as [Hc F].
        apply IH; [unfold isdigit in Hc; lia|exact F]. }
      apply G; [lia|exact Fd]. }
    unfold port_fin. replace (Z.min (dec_value d) 9223372036854775807) with (dec_value d) by lia.
    replace (dec_value d =? 9223372036854775807) with false by lia.
    assert (S32 : s32 (dec_value d) = dec_value d).
    { unfold s32, wraps. change (2 ^ 32) with 4294967296. change (2 ^ (32 - 1)) with 2147483648. rewrite Z.mod_small by lia.
      replace (dec_value d <? 2147483648) with true by lia. reflexivity. }
    rewrite S32. unfold set_port. replace (dec_value d =? -1) with false by lia. replace (dec_value d <? 0) with false by lia.
    cbn [orb]. destruct (65535 <? dec_value d) eqn:E65.
    + eexists. split; [reflexivity|]. intros aa b c dd e (a' & _ & _ & _ & E4 & _). rewrite Epo in E4. change (decimal d) with (dec_value d) in E4. lia.
    + destruct (service_ok (dec_value d) ltac:(lia)) as (ds & -> & _ & Nds & _). cbn [bind fin snd fst].
      apply K; auto. split; [reflexivity|lia].
  - destruct (a_port a <=? 0) eqn:Ep0.
    + (* invalid port part: verify fails *)
      assert (V : forall u, i_port u = true -> verify u Full = Ok false).
      { intros u E. unfold verify. rewrite E. rewrite !orb_true_r. reflexivity. }
      assert (TI : forall u path query u', tail_fin u path query = Some u' -> i_port u' = i_port u).
      { intros u path query u'. unfold tail_fin.
        assert (EP : forall u p u2, fin (set_encoded_path u p) = Some u2 -> i_port u2 = i_port u).
        { clear. intros u p u2. unfold set_encoded_path, fin. destruct (_ <? _)%nat; [intros [= <-]; reflexivity|].
          destruct (pct_decode p); intros [= <-]; reflexivity. }
        destruct path as [p|].
        - destruct (fin (set_encoded_path u p)) as [u2|] eqn:E; [|discriminate].
          destruct query; intros [= <-]; cbn; eapply EP, E.
        - destruct query; intros [= <-]; reflexivity. }
      exists None. split.
      * match goal with |- context [tail_fin ?u ?p ?q] => destruct (tail_fin u p q) as [u'|] eqn:Etf end; cbn [bind]; [|reflexivity].
        rewrite V; [reflexivity|]. rewrite (TI _ _ _ _ Etf). reflexivity.
      * intros aa b c dd e (a' & E1 & _ & _ & E4 & _). rewrite Epo in E4. rewrite Ea in E1. injection E1 as <-. lia.
    + apply K; [apply Hsrv; lia|right; split; [reflexivity|lia]|split; [reflexivity|lia]].
Qed.
Print Assumptions C36_parse.

(** A URI object that can be written unambiguously: it passes the library's own
    verification, its host is a name (without '?') or a bracketed literal, its
    port is the default (-1) or a 16-bit number, its path is empty or begins
    with '/' and has no NUL, its query has no '?' or '#', and unless the host is
    a literal a query comes with a port or a path. *)
Record writable (u : euri) : Prop := mkWr {
  wr_verify : verify u Full = Ok true;
  wr_host : (name_host (u_host u) /\ none_of (chars "?") (u_host u) /\ (0 <= u_port u \/ u_path u <> [] \/ u_query u = []))
            \/ literal_host (u_host u);
  wr_port : -1 <= u_port u <= 65535;
  wr_path : u_path u = [] \/ exists r, u_path u = 47 :: r /\ Forall (fun c => 0 < c < 256) r;
  wr_query : none_of (chars "?#") (u_query u) }.

Lemma opt_cons c l : opt (c :: l) = Some (c :: l).
Proof. reflexivity. Qed.

Lemma dec_value_value d : Forall (fun c => 48 <= c <= 57) d -> dec_value d = value 10 d.
Proof.
  unfold dec_value, value. generalize 0. induction d as [|c d IH]; intros v F; cbn [fold_left]; [reflexivity|].
  rewrite Forall_cons_iff in F. destruct F as [Hc F]. rewrite <- IH by exact F. f_equal. unfold char_digit.
  replace (c <=? 57) with true by lia. reflexivity.
Qed.

Lemma enc_path_chars p e : Forall (fun c => 0 < c < 256) p -> pct_encode PctNonPath p = Some e ->
  none_of (chars "?#") e /\ encodes e p.
Proof.
  intros F E. destruct (encode_spec PctNonPath p F) as (e' & E' & En & Hf & _). rewrite E in E'. injection E' as <-.
  split; [|exact En]. unfold none_of. eapply Forall_impl; [|exact Hf]. cbn beta. intros c [H|H] Hin.
  - cbn in Hin. destruct Hin as [<-|[<-|[]]]; discriminate.
  - cbn in Hin. lia.
Qed.

(** Formatting and parsing back gives an equal URI. *)
Theorem C36_round_trip u u0 :
  writable u ->
  exists t u', format_uri u Full = Ok (Some t) /\ parse_uri t Full u0 = Ok (Some u') /\ uri_equal u u' = true.
Proof.
  intros [Hv Hh Hpo Hpa Hq].
  pose proof Hv as Hv0. unfold verify in Hv.
  destruct (i_proto u || i_host u || i_port u || i_path u || i_query u) eqn:Ei; [discriminate|].
  apply orb_false_elim in Ei. destruct Ei as [Ei Iq]. apply orb_false_elim in Ei. destruct Ei as [Ei Ip].
  apply orb_false_elim in Ei. destruct Ei as [Ei Ipo]. apply orb_false_elim in Ei. destruct Ei as [Ipr Ih].
  destruct (List.length (u_service u) =? 0)%nat eqn:Esv; [discriminate|].
  destruct (find_id_facts (u_proto u)) as (o & Eo & Ho). rewrite Eo in Hv. cbn [bind] in Hv.
  destruct o as [a|]; [|discriminate]. destruct (Ho a eq_refl) as (Eap & n & En & Efs).
  destruct (scheme_facts n a Efs) as (_ & _ & _ & Nn & Fn & Eattr).
  destruct ((u_port u <? 0) && (a_port a <? 0)) eqn:Epp; [discriminate|].
  destruct (negb (a_path a) && _) eqn:Epq; [discriminate|]. clear Hv.
  (* the written parts *)
  assert (HD : exists pd, (if 0 <=? u_port u then exists d, uint_digits (u_port u) 10 = Ok d /\ pd = Some d /\ digits d /\ decimal d = u_port u
                            else pd = None)).
  { destruct (0 <=? u_port u) eqn:E.
    - destruct (service_ok (u_port u) ltac:(lia)) as (d & _ & E2 & N & V & F). exists (Some d), d. repeat split; auto.
      change (decimal d) with (dec_value d). rewrite dec_value_value by exact F. exact V.
    - eauto. }
  destruct HD as (pd & HD).
  assert (HP : exists pe, match opt (u_path u) with
     | None => pe = None
     | Some p => exists e, pct_encode PctNonPath p = Some e /\ pe = Some e /\ encodes e p /\ (exists r, e = 47 :: r /\ none_of (chars "?#") r) end).
  { destruct Hpa as [->|(r & -> & F)]; [exists None; reflexivity|]. rewrite opt_cons.
    assert (F' : Forall (fun c => 0 < c < 256) (47 :: r)) by (constructor; [lia|exact F]).
    destruct (encode_spec PctNonPath (47 :: r) F') as (e & E & _).
    destruct (enc_path_chars _ _ F' E) as [N C].
    exists (Some e), e. repeat split; auto. cbn [pct_encode] in E. change (47 =? 0) with false in E. change (skip_encoding PctNonPath 47) with true in E. cbv iota in E.
    destruct (pct_encode PctNonPath r) as [e0|]; [|discriminate]. cbn [option_map] in E. injection E as <-. exists e0. split; [reflexivity|].
    inversion N; assumption. }
  destruct HP as (pe & HP).
  set (x := mkParts n (u_host u) pd pe (opt (u_query u))).
  assert (FX : format_uri u Full = Ok (Some (written x))).
  { unfold format_uri. rewrite Hv0. cbn [bind negb]. rewrite Ipr, Eo. cbn [bind]. rewrite En, Ih. unfold get_port, get_path, get_query. rewrite Ipo, Ip, Iq.
    unfold written, x. cbn [p_scheme p_host p_port p_path p_query].
    assert (TQ : forall q : option (list Z), match q with None => [] | Some q => 63 :: q end = opt_text (chars "?") q) by (intros [|]; reflexivity).
    destruct (0 <=? u_port u) eqn:E.
    - destruct HD as (d & -> & -> & _). cbn [bind].
      destruct (opt (u_path u)) as [p|].
      + destruct HP as (e & -> & -> & _). rewrite TQ. do 2 f_equal. change (str "://") with (chars "://"). change (str ":") with (chars ":").
        cbn [opt_text app]. rewrite <- ?app_assoc. cbn [app]. rewrite <- ?app_assoc. reflexivity.
      + rewrite HP, TQ. do 2 f_equal. change (str "://") with (chars "://"). change (str ":") with (chars ":").
        cbn [opt_text app]. rewrite <- ?app_assoc. cbn [app]. rewrite <- ?app_assoc. reflexivity.
    - rewrite HD. cbn [bind]. destruct (opt (u_path u)) as [p|].
      + destruct HP as (e & -> & -> & _). rewrite TQ. do 2 f_equal. change (str "://") with (chars "://").
        cbn [opt_text app]. rewrite <- ?app_assoc. cbn [app]. rewrite <- ?app_assoc. reflexivity.
      + rewrite HP, TQ. do 2 f_equal. change (str "://") with (chars "://").
        cbn [opt_text app]. rewrite <- ?app_assoc. cbn [app]. reflexivity. }
  assert (GX : grammatical x).
  { constructor; unfold x; cbn [p_scheme p_host p_port p_path p_query].
    - split; [exact Nn|]. rewrite forallb_forall in Fn. apply Forall_forall. intros c Hc. apply scheme_c, Fn, Hc.
    - tauto.
    - intros d E. destruct (0 <=? u_port u); [|congruence]. destruct HD as (d' & _ & E2 & H & _). assert (d = d') by congruence. subst d'. exact H.
    - intros p E. destruct (opt (u_path u)); [|congruence]. destruct HP as (e & _ & E2 & _ & r & E3 & N). exists r. assert (p = e) by congruence. subst p e. split; [reflexivity|exact N].
    - intros q E. unfold opt in E. destruct (u_query u) as [|z0 q0]; [discriminate|]. injection E as <-. exact Hq. }
  assert (UX : unambiguous x).
  { unfold unambiguous, x. cbn [p_host p_port p_path p_query]. destruct Hh as [(N & Nq & C)|L]; [|left; exact L]. right. split; [exact Nq|].
    destruct C as [C|[C|C]].
    - left. replace (0 <=? u_port u) with true in HD by lia. destruct HD as (d & _ & -> & _). discriminate.
    - right. left. destruct Hpa as [|(r & E & _)]; [contradiction|]. rewrite E, opt_cons in HP. destruct HP as (e & _ & -> & _). discriminate.
    - right. right. rewrite C. reflexivity. }
  assert (PX : forall d, p_port x = Some d -> decimal d < 2147483648).
  { intros d E. unfold x in E. cbn [p_port] in E. destruct (0 <=? u_port u) eqn:E0; [|congruence]. destruct HD as (d' & _ & E2 & _ & V). assert (d = d') by congruence. subst d'. lia. }
  assert (MX : means x (u_proto u) (u_host u) (u_port u) (opt (u_path u)) (opt (u_query u))).
  { exists a. unfold x. cbn [p_scheme p_host p_port p_path p_query]. split; [exact Efs|]. split; [congruence|]. split; [reflexivity|].
    split.
    { destruct (0 <=? u_port u) eqn:E0.
      - destruct HD as (d & _ & -> & _ & V). lia.
      - rewrite HD. destruct Eattr as [[Q _]|[Q _]]; rewrite Q in *; [lia|]. exfalso. lia. }
    split.
    { destruct (opt (u_path u)) as [p|]; [destruct HP as (e & _ & -> & C & _); eauto|rewrite HP; reflexivity]. }
    split.
    { unfold opt. destruct (u_query u); reflexivity. }
    destruct (a_path a); [auto|]. right. cbn [negb andb] in Epq.
    unfold opt. destruct (List.length (u_path u) =? 0)%nat; [|discriminate]. destruct (List.length (u_query u) =? 0)%nat; [auto|discriminate]. }
  destruct (C36_parse x u0 GX UX PX) as (r & Er & Hr). destruct r as [u'|]; [|exfalso; exact (Hr _ _ _ _ _ MX)].
  exists (written x), u'. split; [exact FX|]. split; [exact Er|].
  destruct Hr as (a2 & M1 & M2 & M3 & M4 & M5 & M6 & _). destruct MX as (a3 & N1 & N2 & N3 & N4 & N5 & N6 & _).
  assert (a2 = a3) by congruence. subst a3.
  assert (Eport : get_port u' = u_port u) by (destruct (p_port x); lia).
  assert (Epath : get_path u' = opt (u_path u)).
  { destruct (p_path x); [|congruence]. destruct M5 as (d1 & M5 & ->). destruct N5 as (d2 & N5 & ->).
    apply decode_complete in M5, N5. congruence. }
  assert (Vu' : verify u' Full = Ok true).
  { unfold parse_uri in Er. destruct (machine _ _ _ _ _ _) as [[u2|]| |]; cbn [bind] in Er; try discriminate.
    destruct (verify u2 Full) as [[|]| |] eqn:E; cbn [bind] in Er; try discriminate. injection Er as <-. exact E. }
  assert (Iu' : (i_proto u' || i_host u' || i_port u' || i_path u' || i_query u') = false).
  { unfold verify in Vu'. destruct (i_proto u' || i_host u' || i_port u' || i_path u' || i_query u'); [discriminate|reflexivity]. }
  unfold uri_equal. rewrite Iu', Ipr, Ih, Ipo, Ip, Iq. cbn [negb andb orb].
  rewrite M2, M3, Eport, Epath, M6. unfold get_proto, get_host, get_port, get_path, get_query. rewrite Ipr, Ih, Ipo, Ip, Iq.
  assert (LE : forall l, list_eqb l l = true) by (intros; unfold list_eqb; destruct (list_eq_dec _ _ _); congruence).
  assert (OE : forall o, opt_eqb o o = true) by (intros [l|]; cbn; auto).
  rewrite N6. rewrite <- N2, Z.eqb_refl, <- N3, LE, Z.eqb_refl, !OE. reflexivity.
Qed.
Print Assumptions C36_round_trip.

(** The condition on the query is needed. A query directly after a host name
    is also read as part of the name ('?' is not excluded from it,
    endpoint_uri_parse.rl:119), and the host is overwritten by the query:
    "rtsp://host?query" is accepted with host "query". *)
Theorem C36_query_after_host_refuted :
  exists u u',
    verify u Full = Ok true /\ u_host u = chars "host" /\ u_query u = chars "query" /\
    format_uri u Full = Ok (Some (chars "rtsp://host?query")) /\
    parse_uri (chars "rtsp://host?query") Full u = Ok (Some u') /\
    get_host u' = chars "query" /\ uri_equal u u' = false.
Proof.
  exists (mkUri false false false false false 1 (chars "host") (-1) (chars "554") [] (chars "query")).
  eexists. repeat split; try (vm_compute; reflexivity).
Qed.
Print Assumptions C36_query_after_host_refuted.

(** The bound on the port number is needed: the number is reduced modulo 2^32
    before the range check (endpoint_uri_parse.rl:98), so port 4294967376 is
    accepted and stored as 80. *)
Theorem C36_port_wrap_refuted u0 :
  exists u, parse_uri (chars "rtp://host:4294967376") Full u0 = Ok (Some u) /\ get_port u = 80.
Proof. eexists. split; vm_compute; reflexivity. Qed.
Print Assumptions C36_port_wrap_refuted.

(** ** Every input *)

(** Positions of the machine and the texts that lead to them; with [res] (a
    resource is being parsed) without ever leaving a host. *)
Inductive reach (res : bool) : st -> list Z -> Prop :=
| reach_0 : reach res S0 []
| reach_step q w c a q' : reach res q w -> In (a, q') (trans q c) -> (res = true -> ~ In SetHost a) -> reach res q' (w ++ [c]).

Lemma dedup_in q l : In q (dedup l) -> In q l.
Proof.
  induction l as [|a l IH]; cbn [dedup]; [auto|]. destruct (existsb _ l); cbn [In]; [auto|]. intros [->|H]; auto.
Qed.

Lemma act_beq_refl a : act_beq a a = true.
Proof. destruct a; reflexivity. Qed.
Lemma act_beq_eq a b : act_beq a b = true -> a = b.
Proof. destruct a, b; cbn; congruence. Qed.

Lemma merge_in a l ls : In l ls -> In a l -> In a (merge ls).
Proof.
  intros Hl Ha. unfold merge. apply filter_In. split.
  - destruct a; cbn; tauto.
  - apply existsb_exists. exists l. split; [exact Hl|]. apply existsb_exists. exists a. split; [exact Ha|apply act_beq_refl].
Qed.
Lemma merge_in_inv a ls : In a (merge ls) -> exists l, In l ls /\ In a l.
Proof.
  unfold merge. intros H. apply filter_In in H. destruct H as [_ H]. apply existsb_exists in H. destruct H as (l & Hl & H).
  apply existsb_exists in H. destruct H as (b & Hb & E). apply act_beq_eq in E. subst. eauto.
Qed.

Definition is_res (sub : subset) : bool := match sub with Full => false | Resource => true end.

Lemma run_acts_res s p : forall l x y, run_acts s Resource p l x = Ok (Some y) -> ~ In SetHost l.
Proof.
  induction l as [|a l IH]; intros x y E; [tauto|]. cbn [run_acts] in E.
  destruct (run_act s Resource p a x) as [[z|]| |] eqn:Ea; cbn [bind] in E; try discriminate.
  intros [->|H]; [|exact (IH _ _ E H)]. destruct x. discriminate.
Qed.

(** The protocol part is valid only after a protocol was read. *)
Lemma run_act_proto s sub p a x y : run_act s sub p a x = Ok (Some y) -> a <> SetProto ->
  i_proto (snd y) = i_proto (snd x).
Proof.
  destruct x as [st0 u]. intros E N. unfold run_act in E. destruct a; try congruence; try (injection E as <-; reflexivity).
  - destruct sub; [|discriminate]. unfold set_host in E. cbn [snd fst] in E. destruct (negb _); [|discriminate]. injection E as <-. reflexivity.
  - destruct sub; [|discriminate]. destruct (strtol (skipn st0 s)) as [v n]. destruct (_ || _); [discriminate|].
    destruct (set_port u (s32 v)) as [[u2 b]| |] eqn:Es; cbn [bind snd fst] in E; try discriminate. destruct b; [|discriminate]. injection E as <-.
    cbn [snd]. unfold set_port in Es. destruct (_ =? -1).
    + destruct (negb (i_proto u)).
      * destruct (service_from_proto _) as [[d|]| |]; cbn [bind] in Es; try discriminate; injection Es as <-; reflexivity.
      * injection Es as <-. reflexivity.
    + destruct (_ || _); [discriminate|]. destruct (service_from_port _); cbn [bind] in Es; try discriminate. injection Es as <-. reflexivity.
  - unfold set_encoded_path in E. destruct (_ <? 1)%nat.
    + injection E as <-. reflexivity.
    + destruct (pct_decode _); cbn [snd fst set_path] in E; [|discriminate]. injection E as <-. reflexivity.
Qed.

Lemma run_acts_proto s sub p : forall l x y, run_acts s sub p l x = Ok (Some y) -> ~ In SetProto l ->
  i_proto (snd y) = i_proto (snd x).
Proof.
  induction l as [|a l IH]; intros x y E N; cbn [run_acts] in E; [injection E as <-; reflexivity|].
  destruct (run_act s sub p a x) as [[z|]| |] eqn:Ea; cbn [bind] in E; try discriminate.
  rewrite (IH _ _ E) by (intros H; apply N; right; exact H).
  eapply run_act_proto; [exact Ea|]. intros ->. apply N. left. reflexivity.
Qed.

Definition begins_proto (w : list Z) : Prop := exists c w', w = c :: w' /\ is_proto_char c = true.

Lemma reach_PR res q w : reach res q w -> q = PR -> begins_proto w.
Proof.
  induction 1 as [|q w c a q' R IH Hin Hres]; intros Ep; [discriminate|]. subst q'.
  assert (q = PR \/ (q = S0 /\ is_proto_char c = true)) as [Eq|[Eq Hc]].
  { destruct q; cbn [trans] in Hin; unfold to_tail, to_port in Hin;
    repeat match type of Hin with context [if ?b then _ else _] => destruct b eqn:? end; cbn [app In] in Hin;
    repeat match type of Hin with _ \/ _ => destruct Hin as [Hin|Hin] end; try contradiction; try discriminate Hin; auto. }
  - subst q. destruct (IH eq_refl) as (c0 & w' & -> & H). exists c0, (w' ++ [c]). auto.
  - subst q. inversion R; subst.
    + exists c, []. auto.
    + exfalso. destruct q; cbn [trans] in H0; unfold to_tail, to_port in H0;
      repeat match type of H0 with context [if ?b then _ else _] => destruct b eqn:? end; cbn [app In] in H0;
      repeat match type of H0 with _ \/ _ => destruct H0 as [H0|H0] end; try contradiction; try discriminate H0.
Qed.

Lemma setproto_from q c a q' : In (a, q') (trans q c) -> In SetProto a -> q = PR.
Proof.
  intros Hin Ha. destruct q; cbn [trans] in Hin; unfold to_tail, to_port in Hin;
    repeat match type of Hin with context [if ?b then _ else _] => destruct b eqn:? end; cbn [app In] in Hin;
    repeat match type of Hin with _ \/ _ => destruct Hin as [Hin|Hin] end; try contradiction; auto;
    injection Hin as <- _; cbn in Ha; intuition discriminate.
Qed.

Lemma begins_app w v : begins_proto w -> begins_proto (w ++ v).
Proof. intros (c & w' & -> & H). exists c, (w' ++ v). auto. Qed.

Lemma machine_reach s sub : forall rest p live x r w,
  (forall q, In q live -> reach (is_res sub) q w) -> (i_proto (snd x) = false -> sub = Full -> begins_proto w) ->
  machine s sub p rest live x = Ok (Some r) ->
  (exists q, final q = true /\ reach (is_res sub) q (w ++ rest) /\ (sub = Resource -> ~ In SetHost (out q))) /\
  (i_proto r = false -> sub = Full -> begins_proto (w ++ rest)).
Proof.
  induction rest as [|c rest IH]; intros p live x r w Hl Hx E; cbn [machine] in E.
  - rewrite app_nil_r. destruct (filter final live) as [|q f] eqn:Ef; [discriminate|].
    destruct (run_acts s sub p (merge (map out (q :: f))) x) as [[y|]| |] eqn:Er; cbn [bind] in E; try discriminate. injection E as <-.
    assert (H : In q (filter final live)) by (rewrite Ef; left; reflexivity). apply filter_In in H. destruct H.
    split.
    + exists q. split; [assumption|]. split; [auto|]. intros -> Hin.
      apply (run_acts_res _ _ _ _ _ Er). eapply merge_in; [left; reflexivity|exact Hin].
    + intros Hp. rewrite (run_acts_proto _ _ _ _ _ _ Er) in Hp; [auto|]. intros Hin. apply merge_in_inv in Hin. destruct Hin as (l & Hl' & Hin).
      apply in_map_iff in Hl'. destruct Hl' as (q0 & <- & _). destruct q0; cbn in Hin; intuition discriminate.
  - destruct (flat_map (fun q => trans q c) live) as [|t0 t] eqn:Et; [discriminate|].
    destruct (run_acts s sub p (merge (map fst (t0 :: t))) x) as [[y|]| |] eqn:Er; cbn [bind] in E; try discriminate.
    replace (w ++ c :: rest) with ((w ++ [c]) ++ rest) by (rewrite <- app_assoc; reflexivity).
    eapply IH; [| |exact E].
    + intros q Hq. apply dedup_in, in_map_iff in Hq. destruct Hq as ([a q'] & <- & Hin). cbn [snd].
      pose proof Hin as Hin0. rewrite <- Et in Hin. apply in_flat_map in Hin. destruct Hin as (q0 & Hq0 & Hin).
      eapply reach_step; [apply Hl, Hq0|exact Hin|]. destruct sub; cbn [is_res]; [discriminate|]. intros _ Hsh.
      apply (run_acts_res _ _ _ _ _ Er). eapply merge_in; [|exact Hsh]. apply in_map_iff. exists (a, q'). auto.
    + intros Hp Hf. destruct (in_dec act_eq_dec SetProto (merge (map fst (t0 :: t)))) as [Hin|Hnin].
      * apply merge_in_inv in Hin. destruct Hin as (l & Hl' & Hin). apply in_map_iff in Hl'. destruct Hl' as ([a q'] & <- & Hin').
        rewrite <- Et in Hin'. apply in_flat_map in Hin'. destruct Hin' as (q0 & Hq0 & Hin').
        pose proof (setproto_from _ _ _ _ Hin' Hin). subst q0. apply begins_app. eapply reach_PR; [apply Hl, Hq0|reflexivity].
      * apply begins_app. apply Hx; [|exact Hf]. rewrite <- Hp. symmetry. eapply run_acts_proto; eassumption.
Qed.

(** What the text read so far looks like in each position. *)
Definition authority (w sch host : list Z) (port : option (list Z)) : Prop :=
  w = sch ++ chars "://" ++ host ++ opt_text (chars ":") port /\
  sch <> [] /\ Forall (fun c => is_proto_char c = true) sch /\
  (name_host host \/ literal_host host) /\ (forall d, port = Some d -> digits d).
Definition head (w : list Z) : Prop := w = [] \/ exists sch host port, authority w sch host port.
Definition pathy (p : option (list Z)) : Prop := forall t, p = Some t -> exists r, t = chars "/" ++ r /\ none_of (chars "?#") r.

Definition look (q : st) (w : list Z) : Prop :=
  match q with
  | S0 => w = []
  | PR => w <> [] /\ Forall (fun c => is_proto_char c = true) w
  | C1 | C2 | H0 => exists sch, w = sch ++ (match q with C1 => [58] | C2 => [58;47] | _ => [58;47;47] end) /\ sch <> [] /\ Forall (fun c => is_proto_char c = true) sch
  | HB0 | HB => exists sch a, w = sch ++ chars "://[" ++ a /\ sch <> [] /\ Forall (fun c => is_proto_char c = true) sch /\
       none_of (chars "/@[]") a /\ (q = HB -> a <> [])
  | HE | HN => exists sch host, authority w sch host None
  | PT0 => exists sch host w', w = w' ++ [58] /\ authority w' sch host None
  | PT => exists sch host d, authority w sch host (Some d)
  | PA => exists h p, w = h ++ p /\ head h /\ pathy (Some p)
  | Q0 | Q => exists h p y, w = h ++ opt_text [] p ++ chars "?" ++ y /\ head h /\ pathy p /\ none_of (chars "?#") y /\ (q = Q0 -> y = [])
  end.

Lemma qc c : is_q_char c = true -> ~ In c (chars "?#").
Proof. unfold is_q_char, mem, existsb. cbn. lia. Qed.
Lemma litc c : is_lit_char c = true -> ~ In c (chars "/@[]").
Proof. unfold is_lit_char, mem, existsb. cbn. lia. Qed.
Lemma namec c : is_name_char c = true -> ~ In c (chars "/:@[]").
Proof. unfold is_name_char, mem, existsb. cbn. lia. Qed.

Lemma none_snoc l w c : none_of l w -> ~ In c l -> none_of l (w ++ [c]).
Proof. intros H N. apply Forall_app. split; [exact H|constructor; [exact N|constructor]]. Qed.

Lemma name_snoc h c : name_host h -> is_name_char c = true -> name_host (h ++ [c]).
Proof. intros [N F] Hc. split; [destruct h; discriminate|apply none_snoc; [exact F|apply namec, Hc]]. Qed.

Definition hn (w : list Z) : Prop := exists sch host, authority w sch host None /\ name_host host.

Lemma look_step q w c a q' :
  (q = HN -> hn w) -> look q w -> In (a, q') (trans q c) -> look q' (w ++ [c]) /\ (q' = HN -> hn (w ++ [c])).
Proof.
  intros Hn L Hin.
  assert (TAIL : forall q0, head w -> In (a, q') (to_tail q0 c) -> look q' (w ++ [c]) /\ (q' = HN -> hn (w ++ [c]))).
  { clear Hin. intros q0 Hh Hin. unfold to_tail in Hin. destruct (Z.eqb_spec c 47) as [->|].
    - destruct Hin as [[= <- <-]|[]]. split; [|discriminate]. cbn [look]. exists w, [47]. repeat split; auto.
      intros t [= <-]. exists []. split; [reflexivity|constructor].
    - destruct (Z.eqb_spec c 63) as [->|]; [|destruct Hin]. destruct Hin as [[= <- <-]|[]]. split; [|discriminate].
      cbn [look]. exists w, None, []. repeat split; auto; [intros t; discriminate|constructor]. }
  assert (AH : forall sch host port, authority w sch host port -> head w) by (intros; right; eauto).
  destruct q; cbn [trans look] in *.
  - (* S0 *) apply in_app_or in Hin. destruct Hin as [Hin|Hin].
    + destruct (is_proto_char c) eqn:Ec; [|destruct Hin]. destruct Hin as [[= <- <-]|[]]. split; [|discriminate].
      subst w. cbn. split; [discriminate|]. repeat constructor. exact Ec.
    + eapply TAIL; [left; exact L|exact Hin].
  - (* PR *) destruct L as [N F]. apply in_app_or in Hin. destruct Hin as [Hin|Hin].
    + destruct (is_proto_char c) eqn:Ec; [|destruct Hin]. destruct Hin as [[= <- <-]|[]]. split; [|discriminate].
      cbn. split; [destruct w; discriminate|]. apply Forall_app. split; [exact F|]. repeat constructor. exact Ec.
    + destruct (Z.eqb_spec c 58) as [->|]; [|destruct Hin]. destruct Hin as [[= <- <-]|[]]. split; [|discriminate]. cbn. eauto.
  - destruct (Z.eqb_spec c 47) as [->|]; [|destruct Hin]. destruct Hin as [[= <- <-]|[]]. split; [|discriminate].
    destruct L as (sch & -> & H). exists sch. rewrite <- app_assoc. auto.
  - destruct (Z.eqb_spec c 47) as [->|]; [|destruct Hin]. destruct Hin as [[= <- <-]|[]]. split; [|discriminate].
    destruct L as (sch & -> & H). exists sch. rewrite <- app_assoc. auto.
  - (* H0 *) destruct L as (sch & -> & N & F). apply in_app_or in Hin. destruct Hin as [Hin|Hin].
    + destruct (Z.eqb_spec c 91) as [->|]; [|destruct Hin]. destruct Hin as [[= <- <-]|[]]. split; [|discriminate].
      exists sch, []. split; [rewrite <- app_assoc; reflexivity|]. repeat split; auto; [constructor|discriminate].
    + destruct (is_name_char c) eqn:Ec; [|destruct Hin]. destruct Hin as [[= <- <-]|[]].
      assert (A : authority ((sch ++ [58;47;47]) ++ [c]) sch [c] None).
      { split; [rewrite <- app_assoc; reflexivity|]. split; [exact N|]. split; [exact F|]. split; [|intros d0; discriminate]. left. split; [discriminate|]. constructor; [apply namec, Ec|constructor]. }
      split; [exists sch, [c]; exact A|]. intros _. exists sch, [c]. split; [exact A|]. split; [discriminate|]. constructor; [apply namec, Ec|constructor].
  - (* HB0 *) destruct L as (sch & x & -> & N & F & Nx & _). destruct (is_lit_char c) eqn:Ec; [|destruct Hin]. destruct Hin as [[= <- <-]|[]].
    split; [|discriminate]. exists sch, (x ++ [c]). split; [cbn; rewrite <- !app_assoc; reflexivity|]. repeat split; auto; [apply none_snoc; [exact Nx|apply litc, Ec]|]. intros _. destruct x; discriminate.
  - (* HB *) destruct L as (sch & x & -> & N & F & Nx & Nn). apply in_app_or in Hin. destruct Hin as [Hin|Hin].
    + destruct (is_lit_char c) eqn:Ec; [|destruct Hin]. destruct Hin as [[= <- <-]|[]].
      split; [|discriminate]. exists sch, (x ++ [c]). split; [cbn; rewrite <- !app_assoc; reflexivity|]. repeat split; auto; [apply none_snoc; [exact Nx|apply litc, Ec]|]. intros _. destruct x; discriminate.
    + destruct (Z.eqb_spec c 93) as [->|]; [|destruct Hin]. destruct Hin as [[= <- <-]|[]]. split; [|discriminate].
      exists sch, (91 :: x ++ [93]). split; [cbn; rewrite ?app_nil_r, <- !app_assoc; cbn; rewrite <- ?app_assoc; reflexivity|]. split; [exact N|]. split; [exact F|]. split; [|intros d0; discriminate].
      right. exists x. repeat split; auto.
  - (* HE *) destruct L as (sch & host & A). apply in_app_or in Hin. destruct Hin as [Hin|Hin].
    + unfold to_port in Hin. destruct (Z.eqb_spec c 58) as [->|]; [|destruct Hin]. destruct Hin as [[= <- <-]|[]]. split; [|discriminate].
      exists sch, host, w. auto.
    + eapply TAIL; [eapply AH, A|exact Hin].
  - (* HN *) destruct L as (sch & host & A). apply in_app_or in Hin. destruct Hin as [Hin|Hin].
    + destruct (is_name_char c) eqn:Ec; [|destruct Hin]. destruct Hin as [[= <- <-]|[]].
      destruct (Hn eq_refl) as (sch2 & host2 & A2 & NH).
      assert (A3 : authority (w ++ [c]) sch2 (host2 ++ [c]) None /\ name_host (host2 ++ [c])).
      { pose proof (name_snoc host2 c NH Ec). split; [|assumption]. destruct A2 as (-> & N & F & _ & _).
        split; [cbn; rewrite !app_nil_r, <- !app_assoc; reflexivity|]. split; [exact N|]. split; [exact F|]. split; [left; assumption|intros d0; discriminate]. }
      split; [exists sch2, (host2 ++ [c]); apply A3|]. intros _. exists sch2, (host2 ++ [c]). exact A3.
    + apply in_app_or in Hin. destruct Hin as [Hin|Hin].
      * unfold to_port in Hin. destruct (Z.eqb_spec c 58) as [->|]; [|destruct Hin]. destruct Hin as [[= <- <-]|[]]. split; [|discriminate].
        exists sch, host, w. auto.
      * eapply TAIL; [eapply AH, A|exact Hin].
  - (* PT0 *) destruct L as (sch & host & w' & -> & A). destruct (isdigit c) eqn:Ec; [|destruct Hin]. destruct Hin as [[= <- <-]|[]]. split; [|discriminate].
    exists sch, host, [c]. destruct A as (-> & N & F & Hh & _). split; [cbn; rewrite app_nil_r, <- !app_assoc; cbn; rewrite <- ?app_assoc; reflexivity|].
    split; [exact N|]. split; [exact F|]. split; [exact Hh|]. intros d [= <-]. split; [discriminate|]. constructor; [unfold isdigit in Ec; lia|constructor].
  - (* PT *) destruct L as (sch & host & d & A). apply in_app_or in Hin. destruct Hin as [Hin|Hin].
    + destruct (isdigit c) eqn:Ec; [|destruct Hin]. destruct Hin as [[= <- <-]|[]]. split; [|discriminate].
      exists sch, host, (d ++ [c]). destruct A as (-> & N & F & Hh & Hd). split; [cbn; rewrite <- !app_assoc; cbn; rewrite <- ?app_assoc; reflexivity|].
      split; [exact N|]. split; [exact F|]. split; [exact Hh|]. intros d0 [= <-]. destruct (Hd d eq_refl) as [N0 F0]. split; [destruct d; discriminate|].
      apply Forall_app. split; [exact F0|]. constructor; [unfold isdigit in Ec; lia|constructor].
    + eapply TAIL; [eapply AH, A|exact Hin].
  - (* PA *) destruct L as (h & p & -> & Hh & Hp). apply in_app_or in Hin. destruct Hin as [Hin|Hin].
    + destruct (is_q_char c) eqn:Ec; [|destruct Hin]. destruct Hin as [[= <- <-]|[]]. split; [|discriminate].
      exists h, (p ++ [c]). rewrite <- app_assoc. repeat split; auto. intros t [= <-]. destruct (Hp p eq_refl) as (r & -> & Nr). exists (r ++ [c]).
      split; [reflexivity|apply none_snoc; [exact Nr|apply qc, Ec]].
    + destruct (Z.eqb_spec c 63) as [->|]; [|destruct Hin]. destruct Hin as [[= <- <-]|[]]. split; [|discriminate].
      exists h, (Some p), []. rewrite <- app_assoc. repeat split; auto. constructor.
  - (* Q0 *) destruct L as (h & p & y & -> & Hh & Hp & Hy & Hy0). destruct (is_q_char c) eqn:Ec; [|destruct Hin]. destruct Hin as [[= <- <-]|[]]. split; [|discriminate].
    exists h, p, (y ++ [c]). rewrite <- !app_assoc. repeat split; auto; [apply none_snoc; [exact Hy|apply qc, Ec]|discriminate].
  - (* Q *) destruct L as (h & p & y & -> & Hh & Hp & Hy & Hy0). destruct (is_q_char c) eqn:Ec; [|destruct Hin]. destruct Hin as [[= <- <-]|[]]. split; [|discriminate].
    exists h, p, (y ++ [c]). rewrite <- !app_assoc. repeat split; auto; [apply none_snoc; [exact Hy|apply qc, Ec]|discriminate].
Qed.

Lemma reach_look res q w : reach res q w -> look q w /\ (q = HN -> hn w).
Proof.
  induction 1 as [|q w c a q' R [IH1 IH2] Hin Hres]; [split; [reflexivity|discriminate]|].
  eapply look_step; eauto.
Qed.

(** Whatever the input, an accepted text is a grammatical URI text: nothing
    outside PROTO://HOST[:PORT][/PATH][?QUERY] is ever accepted. *)
Theorem C36_accepts_only_grammar s u0 u :
  parse_uri s Full u0 = Ok (Some u) -> exists x, grammatical x /\ s = written x.
Proof.
  unfold parse_uri. destruct (machine s Full 0 s [S0] (0%nat, uri_clear u0 Full)) as [[r|]| |] eqn:E; cbn [bind]; try discriminate.
  destruct (verify r Full) as [[|]| |] eqn:V; cbn [bind]; try discriminate. intros [= <-].
  destruct (machine_reach s Full s 0 [S0] (0%nat, uri_clear u0 Full) r [] ltac:(intros q [<-|[]]; constructor) ltac:(cbn; discriminate) E) as [(q & Fq & R & _) B].
  cbn [app] in *.
  assert (Ip : i_proto r = false).
  { unfold verify in V. destruct (i_proto r); [discriminate|reflexivity]. }
  destruct (B Ip eq_refl) as (c0 & w0 & Es & Hc0).
  destruct (reach_look _ _ _ R) as [L _].
  assert (MK : forall sch host port p y, authority (sch ++ chars "://" ++ host ++ opt_text (chars ":") port) sch host port -> pathy p ->
     (forall t, y = Some t -> none_of (chars "?#") t) -> grammatical (mkParts sch host port p y)).
  { intros sch host port p y (_ & N & F & Hh & Hd) Hp Hy. constructor; cbn [p_scheme p_host p_port p_path p_query]; auto.
    split; [exact N|]. eapply Forall_impl; [|exact F]. intros; apply scheme_c; assumption. }
  assert (HD : forall h p y, s = h ++ opt_text [] p ++ opt_text (chars "?") y -> head h -> pathy p ->
     (forall t, y = Some t -> none_of (chars "?#") t) -> exists x, grammatical x /\ s = written x).
  { intros h p y E0 [->|(sch & host & port & A)] Hp Hy.
    - exfalso. cbn [app] in E0. destruct p as [p|].
      + destruct (Hp p eq_refl) as (t & -> & _). rewrite Es in E0. cbn in E0. injection E0 as -> _. discriminate.
      + destruct y as [y|]; rewrite Es in E0; cbn in E0; [injection E0 as -> _|]; discriminate.
    - pose proof A as (Eh & _). exists (mkParts sch host port p y). rewrite Eh in A. split; [apply MK; auto|].
      unfold written. cbn [p_scheme p_host p_port p_path p_query]. rewrite E0, Eh, <- !app_assoc. reflexivity. }
  destruct q; try discriminate Fq; cbn [look] in L.
  - subst s. discriminate.
  - destruct L as (sch & host & A). apply (HD s None None); [cbn; rewrite app_nil_r; reflexivity|right; eauto|intros t; discriminate|intros t; discriminate].
  - destruct L as (sch & host & A). apply (HD s None None); [cbn; rewrite app_nil_r; reflexivity|right; eauto|intros t; discriminate|intros t; discriminate].
  - destruct L as (sch & host & d & A). apply (HD s None None); [cbn; rewrite app_nil_r; reflexivity|right; eauto|intros t; discriminate|intros t; discriminate].
  - destruct L as (h & p & E0 & Hh & Hp). apply (HD h (Some p) None); auto; [cbn; rewrite app_nil_r; exact E0|intros t; discriminate].
  - destruct L as (h & p & y & E0 & Hh & Hp & Hy & _). apply (HD h p (Some y)); auto. intros t [= <-]. exact Hy.
  - destruct L as (h & p & y & E0 & Hh & Hp & Hy & _). apply (HD h p (Some y)); auto. intros t [= <-]. exact Hy.
Qed.
Print Assumptions C36_accepts_only_grammar.

Lemma service_from_proto_ok p : exists o, service_from_proto p = Ok o.
Proof.
  unfold service_from_proto. destruct (find_id_facts p) as (o & -> & Ho). cbn [bind]. destruct o as [a|]; [|eauto].
  destruct (Ho a eq_refl) as (_ & n & _ & Efs). destruct (scheme_facts n a Efs) as (_ & _ & _ & _ & _ & Eattr).
  destruct (a_port a <=? 0) eqn:El; [eauto|]. destruct (service_ok (a_port a)) as (d & -> & _); [lia|]. cbn [bind]. eauto.
Qed.

Lemma run_act_ok s sub p a x : exists o, run_act s sub p a x = Ok o.
Proof.
  destruct x as [start u]. unfold run_act. destruct a; try (eexists; reflexivity).
  - destruct (16 <=? p - start)%nat; [eauto|]. destruct (find_by_scheme _) as [a|]; [|eauto].
    unfold set_proto. destruct (find_id_facts (a_proto a)) as (o & -> & _). cbn [bind]. destruct o; cbn [bind]; [|eauto].
    cbn [u_port]. destruct (_ =? -1); cbn [bind]; [|eauto].
    destruct (service_from_proto_ok (a_proto a)) as (o & ->). cbn [bind]. eauto.
  - destruct sub; eauto.
  - destruct sub; [|eauto]. destruct (strtol _) as [v n]. destruct (_ || _); [eauto|]. unfold set_port.
    destruct (s32 v =? -1).
    + destruct (negb _); [|cbn [bind]; eauto]. destruct (service_from_proto_ok (u_proto u)) as (o & ->). cbn [bind]. eauto.
    + destruct (_ || _) eqn:Er; cbn [bind]; [eauto|]. destruct (service_ok (s32 v)) as (d & -> & _); [lia|]. cbn [bind]. eauto.
Qed.

Lemma run_acts_ok s sub p : forall l x, exists o, run_acts s sub p l x = Ok o.
Proof.
  induction l as [|a l IH]; intros x; cbn [run_acts]; [eauto|].
  destruct (run_act_ok s sub p a x) as (o & ->). cbn [bind]. destruct o; eauto.
Qed.

Lemma machine_ok s sub : forall rest p live x, exists o, machine s sub p rest live x = Ok o.
Proof.
  induction rest as [|c rest IH]; intros p live x; cbn [machine].
  - destruct (filter final live); [eauto|]. destruct (run_acts_ok s sub p (merge (map out (s0 :: l))) x) as (o & ->). cbn [bind]. eauto.
  - destruct (flat_map _ live) as [|t0 t]; [eauto|].
    destruct (run_acts_ok s sub p (merge (map fst (t0 :: t))) x) as (o & ->). cbn [bind]. destruct o; eauto.
Qed.

(** Every text, grammatical or not, full URI or resource, whatever the object
    held before: the parser answers without a panic. *)
Theorem C36_safe s sub u0 : exists o, parse_uri s sub u0 = Ok o.
Proof.
  unfold parse_uri. destruct (machine_ok s sub s 0%nat [S0] (0%nat, uri_clear u0 sub)) as (o & ->). cbn [bind].
  destruct o as [u|]; [|eauto]. unfold verify. destruct sub; [|cbn [bind]; eauto].
  destruct (_ || _); cbn [bind]; [eauto|]. destruct (_ =? 0)%nat; cbn [bind]; [eauto|].
  destruct (find_id_facts (u_proto u)) as (o & -> & _). cbn [bind]. destruct o as [a|]; cbn [bind]; [|eauto].
  destruct (_ && _); cbn [bind]; [eauto|]. destruct (negb _ && _); cbn [bind]; eauto.
Qed.
Print Assumptions C36_safe.

(** A resource contains only a path and a query. *)
Lemma reach_res b q w : reach b q w -> b = true ->
  match q with
  | PT0 | PT => False
  | PA => pathy (Some w)
  | Q0 | Q => exists p y, w = opt_text [] p ++ chars "?" ++ y /\ pathy p /\ none_of (chars "?#") y
  | S0 => w = []
  | _ => True
  end.
Proof.
  intros R Eb. induction R as [|q w c a q' R IH Hin Hres]; [reflexivity|]. specialize (Hres Eb). clear R.
  assert (T : forall q0, q0 = S0 \/ In SetHost (out q0) -> w = [] \/ q0 <> S0 -> In (a, q') (to_tail q0 c) ->
    match q' with | PA => pathy (Some (w ++ [c])) | Q0 => exists p y, w ++ [c] = opt_text [] p ++ chars "?" ++ y /\ pathy p /\ none_of (chars "?#") y | _ => False end).
  { clear Hin. intros q0 Ho Hw Hin. unfold to_tail in Hin. destruct (Z.eqb_spec c 47) as [->|].
    - destruct Hin as [Hin|[]]. injection Hin as <- <-. destruct Ho as [->|Ho].
      + destruct Hw as [->|Hw]; [|congruence]. intros t Ht. injection Ht as <-. exists []. split; [reflexivity|constructor].
      + exfalso. apply Hres. apply in_or_app. left. exact Ho.
    - destruct (Z.eqb_spec c 63) as [->|]; [|destruct Hin]. destruct Hin as [Hin|[]]. injection Hin as <- <-. destruct Ho as [->|Ho].
      + destruct Hw as [->|Hw]; [|congruence]. exists None, []. split; [reflexivity|]. split; [intros t; discriminate|constructor].
      + exfalso. apply Hres. exact Ho. }
  assert (P : forall q0, In SetHost (out q0) -> ~ In (a, q') (to_port q0 c)).
  { intros q0 Ho Hp. unfold to_port in Hp. destruct (c =? 58); [|destruct Hp]. destruct Hp as [Hp|[]]. injection Hp as <- <-. exact (Hres Ho). }
  destruct q; cbn [trans] in Hin; try contradiction.
  - apply in_app_or in Hin. destruct Hin as [Hin|Hin].
    + destruct (is_proto_char c); [|destruct Hin]. destruct Hin as [Hin|[]]. injection Hin as <- <-. exact I.
    + specialize (T S0 (or_introl eq_refl) (or_introl IH) Hin). destruct q'; try exact I; try contradiction; exact T.
  - apply in_app_or in Hin. destruct Hin as [Hin|Hin]; [destruct (is_proto_char c)|destruct (c =? 58)]; try contradiction; (destruct Hin as [Hin|[]]; injection Hin as <- <-; exact I).
  - destruct (c =? 47); [|destruct Hin]; destruct Hin as [Hin|[]]; injection Hin as <- <-; exact I.
  - destruct (c =? 47); [|destruct Hin]; destruct Hin as [Hin|[]]; injection Hin as <- <-; exact I.
  - apply in_app_or in Hin. destruct Hin as [Hin|Hin]; [destruct (c =? 91)|destruct (is_name_char c)]; try contradiction; (destruct Hin as [Hin|[]]; injection Hin as <- <-; exact I).
  - destruct (is_lit_char c); [|destruct Hin]; destruct Hin as [Hin|[]]; injection Hin as <- <-; exact I.
  - apply in_app_or in Hin. destruct Hin as [Hin|Hin]; [destruct (is_lit_char c)|destruct (c =? 93)]; try contradiction; (destruct Hin as [Hin|[]]; injection Hin as <- <-; exact I).
  - apply in_app_or in Hin. destruct Hin as [Hin|Hin]; [exfalso; revert Hin; apply P; left; reflexivity|].
    assert (O1 : HE = S0 \/ In SetHost (out HE)) by (right; left; reflexivity).
      assert (O2 : w = [] \/ HE <> S0) by (right; discriminate).
      specialize (T HE O1 O2 Hin). clear -T. destruct q'; try exact I; try contradiction; exact T.
  - apply in_app_or in Hin. destruct Hin as [Hin|Hin].
    + destruct (is_name_char c); [|destruct Hin]. destruct Hin as [Hin|[]]. injection Hin as <- <-. exact I.
    + apply in_app_or in Hin. destruct Hin as [Hin|Hin]; [exfalso; revert Hin; apply P; left; reflexivity|].
      assert (O1 : HN = S0 \/ In SetHost (out HN)) by (right; left; reflexivity).
      assert (O2 : w = [] \/ HN <> S0) by (right; discriminate).
      specialize (T HN O1 O2 Hin). clear -T. destruct q'; try exact I; try contradiction; exact T.
  - apply in_app_or in Hin. destruct Hin as [Hin|Hin].
    + destruct (is_q_char c) eqn:Ec; [|destruct Hin]. destruct Hin as [Hin|[]]. injection Hin as <- <-.
      intros t Ht. injection Ht as <-. destruct (IH w eq_refl) as (r & -> & Nr). exists (r ++ [c]).
      split; [reflexivity|apply none_snoc; [exact Nr|apply qc, Ec]].
    + destruct (Z.eqb_spec c 63) as [->|]; [|destruct Hin]. destruct Hin as [Hin|[]]. injection Hin as <- <-.
      exists (Some w), []. split; [reflexivity|]. split; [exact IH|constructor].
  - destruct IH as (p & y & -> & Hp & Hy). destruct (is_q_char c) eqn:Ec; [|destruct Hin]. destruct Hin as [Hin|[]]. injection Hin as <- <-.
    exists p, (y ++ [c]). split; [rewrite <- !app_assoc; reflexivity|]. split; [exact Hp|]. apply none_snoc; [exact Hy|apply qc, Ec].
  - destruct IH as (p & y & -> & Hp & Hy). destruct (is_q_char c) eqn:Ec; [|destruct Hin]. destruct Hin as [Hin|[]]. injection Hin as <- <-.
    exists p, (y ++ [c]). split; [rewrite <- !app_assoc; reflexivity|]. split; [exact Hp|]. apply none_snoc; [exact Hy|apply qc, Ec].
Qed.

(** Parsing a resource accepts only [/PATH][?QUERY]: never a protocol or host. *)
Theorem C36_accepts_only_resource s u0 u :
  parse_uri s Resource u0 = Ok (Some u) ->
  exists path query, s = opt_text [] path ++ opt_text (chars "?") query /\
    (forall p, path = Some p -> exists r, p = chars "/" ++ r /\ none_of (chars "?#") r) /\
    (forall q, query = Some q -> none_of (chars "?#") q).
Proof.
  unfold parse_uri. destruct (machine s Resource 0 s [S0] (0%nat, uri_clear u0 Resource)) as [[r|]| |] eqn:E; cbn [bind]; try discriminate.
  intros _.
  destruct (machine_reach s Resource s 0 [S0] (0%nat, uri_clear u0 Resource) r [] ltac:(intros q [<-|[]]; constructor) ltac:(discriminate) E) as [(q & Fq & R & Hout) _].
  specialize (Hout eq_refl). cbn [app is_res] in *. pose proof (reach_res _ _ _ R eq_refl) as L.
  destruct q; try discriminate Fq; cbn [out In] in *; try tauto.
  - exists None, None. subst s. repeat split; intros t; discriminate.
  - exists (Some s), None. cbn. rewrite app_nil_r. split; [reflexivity|]. split; [exact L|intros t; discriminate].
  - destruct L as (p & y & -> & Hp & Hy). exists p, (Some y). split; [reflexivity|]. split; [exact Hp|]. intros t Ht. injection Ht as <-. exact Hy.
  - destruct L as (p & y & -> & Hp & Hy). exists p, (Some y). split; [reflexivity|]. split; [exact Hp|]. intros t Ht. injection Ht as <-. exact Hy.
Qed.
Print Assumptions C36_accepts_only_resource.

(** ** The hypotheses are met *)

Definition blank_uri : euri := mkUri true true true false false 0 [] (-1) [] [] [].

Ltac all_clear := unfold none_of, chars; cbn [List.map String.list_ascii_of_string]; repeat (apply Forall_cons; [cbn; lia|]); apply Forall_nil.

Example C36_parts :
  let x := mkParts (chars "rtsp") (chars "[::1]") (Some (chars "8554")) (Some (chars "/a%20b")) (Some (chars "k=v")) in
  grammatical x /\ unambiguous x /\ written x = chars "rtsp://[::1]:8554/a%20b?k=v" /\
  exists u, parse_uri (written x) Full blank_uri = Ok (Some u) /\
    get_host u = chars "[::1]" /\ get_port u = 8554 /\ get_path u = Some (chars "/a b") /\ get_query u = Some (chars "k=v").
Proof.
  cbn zeta.
  assert (L : literal_host (chars "[::1]")).
  { exists (chars "::1"). split; [reflexivity|]. split; [discriminate|]. all_clear. }
  split; [|split; [left; exact L|split; [reflexivity|eexists; split; [vm_compute; reflexivity|]; vm_compute; intuition congruence]]].
  constructor; cbn [p_scheme p_host p_port p_path p_query].
  - split; [discriminate|]. all_clear.
  - right. exact L.
  - intros d H. injection H as <-. split; [discriminate|]. all_clear.
  - intros p H. injection H as <-. exists (chars "a%20b"). split; [reflexivity|]. all_clear.
  - intros q H. injection H as <-. all_clear.
Qed.

Example C36_writable :
  writable (mkUri false false false false false 1 (chars "host") 8554 (chars "8554") (chars "/a b?") (chars "k=v")).
Proof.
  constructor; cbn [u_host u_port u_path u_query]; try lia.
  - vm_compute. reflexivity.
  - left. split; [split; [discriminate|]|split].
    + all_clear.
    + all_clear.
    + left. lia.
  - right. exists (chars "a b?"). split; [reflexivity|]. all_clear.
  - all_clear.
Qed.

Example C36_rejects :
  parse_uri (chars "rtp:/host:80") Full blank_uri = Ok None /\ parse_uri (chars "rtp://host:80/path") Full blank_uri = Ok None /\
  parse_uri (chars "rtsp://h/p?q?r") Full blank_uri = Ok None /\ parse_uri (chars "rtp://host:80") Resource blank_uri = Ok None /\
  exists u, parse_uri (chars "/p?q") Resource blank_uri = Ok (Some u).
Proof. repeat split; try (vm_compute; reflexivity). eexists. vm_compute. reflexivity. Qed.
