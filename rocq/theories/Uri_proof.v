From Coq Require Import String.
From Verif Require Import Base Base_lemmas Protocol_model Pct_model Pct_spec Pct_proof StrBuilder_model StrBuilder_spec StrBuilder_proof Uri_model Uri_spec.
Open Scope list_scope.
Open Scope Z_scope.

(** Protocol table facts *)
Lemma find_loop_in t s a : find_scheme_loop t s = Some a -> In a t /\ a_scheme a = Some s.
Proof.
  induction t as [|b t IH]; cbn [find_scheme_loop]; [discriminate|].
  destruct (a_proto b =? 0); [intros H; destruct (IH H); split; [right|]; assumption|].
  destruct (a_scheme b) as [n|] eqn:E; [|intros H; destruct (IH H); split; [right|]; assumption].
  unfold list_eqb. destruct (list_eq_dec Z.eq_dec n s) as [->|].
  - intros [= <-]. split; [left; reflexivity|exact E].
  - intros H. destruct (IH H). split; [right|]; assumption.
Qed.

Lemma scheme_facts s a : find_by_scheme s = Some a ->
  find_by_id (a_proto a) = Ok (Some a) /\ a_scheme a = Some s /\ (List.length s < 16)%nat /\
  s <> [] /\ forallb is_proto_char s = true /\
  ((a_port a = 554 /\ a_path a = true) \/ (a_port a = -1 /\ a_path a = false)).
Proof.
  intros H. apply find_loop_in in H. destruct H as [Hin Hs]. unfold protos in Hin. cbn [In all_attrs] in Hin.
  destruct Hin as [<-|[<-|[<-|[<-|[<-|[<-|[<-|[<-|[]]]]]]]]]; [discriminate Hs|..];
  (injection Hs as <-; split; [vm_compute; reflexivity|]; split; [reflexivity|]; split; [apply Nat.ltb_lt; vm_compute; reflexivity|];
   split; [discriminate|]; split; [vm_compute; reflexivity|]; cbn; auto).
Qed.

Lemma find_id_facts p : exists o, find_by_id p = Ok o /\
  forall a, o = Some a -> a_proto a = p /\ exists s, a_scheme a = Some s /\ find_by_scheme s = Some a.
Proof.
  destruct (Z_lt_le_dec p 0) as [H|H].
  { exists None. split; [|discriminate]. unfold find_by_id. replace (p <? 0) with true by lia. reflexivity. }
  destruct (Z_lt_le_dec p 8) as [H8|H8].
  2:{ exists None. split; [|discriminate]. unfold find_by_id. change (Z.of_nat max_protos) with 8. replace (8 <=? p) with true by lia.
      rewrite orb_true_r. reflexivity. }
  assert (C : p = 0 \/ p = 1 \/ p = 2 \/ p = 3 \/ p = 4 \/ p = 5 \/ p = 6 \/ p = 7) by lia.
  destruct C as [->|[->|[->|[->|[->|[->|[->| ->]]]]]]]; eexists; (split; [vm_compute; reflexivity|]); intros a E; [discriminate|..];
   (injection E as <-; split; [reflexivity|]; eexists; split; [reflexivity|]; vm_compute; reflexivity).
Qed.

(** Ports have at most five digits *)
Lemma value_ge base ds : 2 <= base -> Forall (fun c => 0 <= char_digit c < base) ds -> 0 <= value base ds.
Proof.
  intros Hb. induction ds as [|c ds IH]; intros F; [vm_compute; discriminate|].
  rewrite Forall_cons_iff in F. destruct F as [Hc F]. rewrite value_cons. specialize (IH F).
  assert (0 <= base ^ Z.of_nat (List.length ds)) by (apply Z.pow_nonneg; lia). nia.
Qed.

Lemma service_ok port : 0 <= port <= 65535 ->
  exists d, service_from_port port = Ok d /\ uint_digits port 10 = Ok d /\ d <> [] /\ value 10 d = port /\
    Forall (fun c => 48 <= c <= 57) d.
Proof.
  intros H. unfold service_from_port.
  destruct (uint_digits_spec port 10) as (d & E & V & N & F1 & F2 & L); try lia.
  assert (FD : Forall (fun c => 48 <= c <= 57) d).
  { rewrite Forall_forall in *. intros c Hc. specialize (F1 c Hc). specialize (F2 c Hc). unfold char_digit in F2.
    destruct (c <=? 57) eqn:?; lia. }
  rewrite E. cbn [bind].
  destruct (5 <? List.length d)%nat eqn:El.
  - exfalso. destruct d as [|x [|y l]]; [contradiction|cbn in El; lia|].
    specialize (L x y l eq_refl). rewrite value_cons in V.
    inversion F2 as [|? ? Hx F2']; subst. pose proof (value_ge 10 (y :: l) ltac:(lia) F2').
    inversion FD as [|? ? Hx' FD']; subst.
    assert (1 <= char_digit x) by (unfold char_digit; destruct (x <=? 57) eqn:?; lia).
    assert (10 ^ 5 <= 10 ^ Z.of_nat (List.length (y :: l))).
    { apply Z.pow_le_mono_r; [lia|]. cbn [List.length] in *. lia. }
    change (10 ^ 5) with 100000 in *. nia.
  - exists d. auto.
Qed.

(** Machine stepping *)
Section M.
  Variables (s : list Z) (sub : subset).

  Lemma seg_stay q : forall seg p r x, (forall c, In c seg -> trans q c = [([], q)]) ->
    machine s sub p (seg ++ r) [q] x = machine s sub (p + List.length seg) r [q] x.
  Proof.
    induction seg as [|c seg IH]; intros p r x H; cbn [app List.length].
    - rewrite Nat.add_0_r. reflexivity.
    - cbn [machine flat_map app]. rewrite (H c (or_introl eq_refl)). cbn [app map fst snd].
      change (merge [[]]) with (@nil act). cbn [run_acts bind].
      change (dedup [q]) with [q].
      rewrite IH by (intros; apply H; right; assumption). f_equal. lia.
  Qed.

  Lemma step1 q c r p x a q' : trans q c = [(a, q')] ->
    machine s sub p (c :: r) [q] x =
    bind (run_acts s sub p (merge [a]) x) (fun y => match y with None => Ok None | Some y => machine s sub (S p) r [q'] y end).
  Proof. intros H. cbn [machine flat_map app]. rewrite H. reflexivity. Qed.

  Lemma eof1 q p x : final q = true ->
    machine s sub p [] [q] x = bind (run_acts s sub p (merge [out q]) x) (fun y => Ok (match y with None => None | Some y => Some (snd y) end)).
  Proof. intros H. cbn [machine filter]. rewrite H. reflexivity. Qed.
End M.

Lemma token_mid (a t b : list Z) : token (a ++ t ++ b) (List.length a) (List.length a + List.length t) = t.
Proof.
  unfold token. replace (List.length a + List.length t - List.length a)%nat with (List.length t) by lia.
  rewrite skipn_app, skipn_all, Nat.sub_diag. cbn [skipn app].
  rewrite firstn_app, firstn_all, Nat.sub_diag. cbn. apply app_nil_r.
Qed.

Ltac eqbs := repeat match goal with |- context [?a =? ?b] => first [replace (a =? b) with false by lia | replace (a =? b) with true by lia] end.

Lemma tr_PR c : is_proto_char c = true -> trans PR c = [([], PR)].
Proof. intros H. cbn [trans]. rewrite H. unfold is_proto_char, isdigit in H. eqbs. reflexivity. Qed.
Lemma tr_S0 c : is_proto_char c = true -> trans S0 c = [([TokProto], PR)].
Proof. intros H. cbn [trans to_tail]. rewrite H. unfold is_proto_char, isdigit in H. unfold to_tail. eqbs. reflexivity. Qed.
Lemma tr_HN c : is_name_char c = true -> c <> 63 -> trans HN c = [([], HN)].
Proof. intros H N. cbn [trans]. rewrite H. unfold is_name_char, mem, existsb in H. unfold to_port, to_tail. eqbs. reflexivity. Qed.
Lemma tr_HB c : is_lit_char c = true -> trans HB c = [([], HB)].
Proof. intros H. cbn [trans]. rewrite H. unfold is_lit_char, mem, existsb in H. eqbs. reflexivity. Qed.
Lemma tr_PT c : isdigit c = true -> trans PT c = [([], PT)].
Proof. intros H. cbn [trans]. rewrite H. unfold isdigit in H. unfold to_tail. eqbs. reflexivity. Qed.
Lemma tr_PA c : is_q_char c = true -> trans PA c = [([], PA)].
Proof. intros H. cbn [trans]. rewrite H. unfold is_q_char, mem, existsb in H. eqbs. reflexivity. Qed.
Lemma tr_Q c : is_q_char c = true -> trans Q c = [([], Q)].
Proof. intros H. cbn [trans]. rewrite H. reflexivity. Qed.
Lemma tr_Q0 c : is_q_char c = true -> trans Q0 c = [([TokQuery], Q)].
Proof. intros H. cbn [trans]. rewrite H. reflexivity. Qed.

Definition name_c (c : Z) := is_name_char c = true /\ c <> 63.

(** The query part, from the '?' position. *)
Definition fin (r : euri * bool) : option euri := if snd r then Some (fst r) else None.

Lemma query_run pre q st0 u sub : Forall (fun c => is_q_char c = true) q ->
  let s := pre ++ q in
  machine s sub (List.length pre) q [Q0] (st0, u) = Ok (fin (set_encoded_query u q)).
Proof.
  intros F s. destruct q as [|c q].
  - rewrite eof1 by reflexivity.
    change (merge [out Q0]) with [TokQuery; SetQuery]. cbn [run_acts run_act bind set_encoded_query snd fst].
    unfold s. unfold token. rewrite Nat.sub_diag. reflexivity.
  - rewrite Forall_cons_iff in F. destruct F as [Hc F].
    rewrite (step1 s sub Q0 c q _ _ [TokQuery] Q) by (apply tr_Q0; exact Hc).
    change (merge [[TokQuery]]) with [TokQuery]. cbn [run_acts run_act bind].
    replace q with (q ++ []) by apply app_nil_r. rewrite seg_stay by (intros; apply tr_Q; rewrite Forall_forall in F; auto).
    rewrite eof1 by reflexivity. change (merge [out Q]) with [SetQuery]. cbn [run_acts run_act bind snd fst set_encoded_query].
    unfold s. rewrite app_nil_r.
    replace (S (List.length pre) + List.length q)%nat with (List.length pre + List.length (c :: q))%nat by (cbn; lia).
    pose proof (token_mid pre (c :: q) []) as T. rewrite app_nil_r in T. rewrite T. reflexivity.
Qed.

(** The path (from its '/') and query. *)
Definition tail_text (path query : option (list Z)) : list Z := opt_text [] path ++ opt_text [63] query.
Definition tail_fin (u : euri) (path query : option (list Z)) : option euri :=
  match (match path with None => Some u | Some p => fin (set_encoded_path u p) end) with
  | None => None
  | Some u => match query with None => Some u | Some q => fin (set_encoded_query u q) end
  end.

Lemma tail_run q pre path query x sub :
  q = HE \/ q = HN \/ q = PT ->
  (q = HN -> path <> None \/ query = None) ->
  (forall p, path = Some p -> exists r, p = 47 :: r /\ Forall (fun c => is_q_char c = true) r) ->
  (forall y, query = Some y -> Forall (fun c => is_q_char c = true) y) ->
  let s := pre ++ tail_text path query in
  machine s sub (List.length pre) (tail_text path query) [q] x =
  bind (run_acts s sub (List.length pre) (merge [out q]) x)
    (fun y => Ok (match y with None => None | Some y => tail_fin (snd y) path query end)).
Proof.
  intros Hq Hamb Hp Hy s. unfold tail_text.
  destruct path as [p|].
  - destruct (Hp p eq_refl) as (r & -> & Fr). cbn [opt_text app].
    rewrite (step1 s sub q 47 _ _ _ (out q ++ [TokPath]) PA).
    2:{ destruct Hq as [->|[->| ->]]; reflexivity. }
    assert (M : merge [out q ++ [TokPath]] = merge [out q] ++ [TokPath]) by (destruct Hq as [->|[->| ->]]; reflexivity).
    rewrite M.
    assert (RA : forall l x0, run_acts s sub (List.length pre) (l ++ [TokPath]) x0 =
       bind (run_acts s sub (List.length pre) l x0) (fun y => Ok (match y with None => None | Some y => Some (List.length pre, snd y) end))).
    { induction l as [|a l IHl]; intros [st0 u0]; [reflexivity|]; cbn [app run_acts].
      destruct (run_act s sub (List.length pre) a (st0, u0)) as [[y|]| |]; cbn [bind]; auto. }
    rewrite RA. destruct (run_acts s sub (List.length pre) (merge [out q]) x) as [[[st1 u1]|]| |]; cbn [bind snd]; auto.
    rewrite seg_stay by (intros; apply tr_PA; rewrite Forall_forall in Fr; auto).
    assert (TK : token s (List.length pre) (S (List.length pre) + List.length r) = 47 :: r).
    { unfold s, tail_text. cbn [opt_text app].
      replace (S (List.length pre) + List.length r)%nat with (List.length pre + List.length (47%Z :: r))%nat by (cbn; lia).
      change (47 :: r ++ opt_text [63] query) with ((47 :: r) ++ opt_text [63] query). apply token_mid. }
    destruct query as [y|].
    + cbn [opt_text app]. rewrite (step1 s sub PA 63 _ _ _ [SetPath] Q0) by reflexivity.
      change (merge [[SetPath]]) with [SetPath]. cbn [run_acts run_act bind]. rewrite TK.
      destruct (set_encoded_path u1 (47 :: r)) as [u2 [|]] eqn:E2; cbn [snd fst bind]; [|unfold tail_fin; rewrite E2; reflexivity].
      assert (Es : s = (pre ++ 47 :: r ++ [63]) ++ y).
      { unfold s, tail_text. cbn [opt_text app]. rewrite <- app_assoc. cbn [app]. rewrite <- app_assoc. reflexivity. }
      replace (S (S (List.length pre) + List.length r)) with (List.length (pre ++ 47 :: r ++ [63])).
      2:{ rewrite app_length. cbn [List.length]. rewrite app_length. cbn [List.length]. lia. }
      rewrite Es. rewrite query_run by (apply Hy; reflexivity). unfold tail_fin. rewrite E2. reflexivity.
    + cbn [opt_text]. rewrite eof1 by reflexivity. change (merge [out PA]) with [SetPath]. cbn [run_acts run_act bind]. rewrite TK.
      destruct (set_encoded_path u1 (47 :: r)) as [u2 [|]] eqn:E2; cbn [snd fst bind]; unfold tail_fin; rewrite E2; reflexivity.
  - cbn [opt_text app]. destruct query as [y|].
    + assert (q <> HN) by (intros ->; destruct (Hamb eq_refl); congruence).
      cbn [opt_text app]. rewrite (step1 s sub q 63 _ _ _ (out q) Q0).
      2:{ destruct Hq as [->|[->| ->]]; try contradiction; reflexivity. }
      destruct (run_acts s sub (List.length pre) (merge [out q]) x) as [[[st1 u1]|]| |]; cbn [bind snd]; auto.
      assert (Es : s = (pre ++ [63]) ++ y) by (unfold s, tail_text; cbn [opt_text app]; rewrite <- app_assoc; reflexivity).
      replace (S (List.length pre)) with (List.length (pre ++ [63])) by (rewrite app_length; cbn; lia).
      rewrite Es. rewrite query_run by (apply Hy; reflexivity). reflexivity.
    + cbn [opt_text]. rewrite eof1 by (destruct Hq as [->|[->| ->]]; reflexivity).
      destruct (run_acts s sub (List.length pre) (merge [out q]) x) as [[[st1 u1]|]| |]; cbn [bind snd]; auto.
Qed.

Definition port_fin (u : euri) (d : list Z) : res (option euri) :=
  let v := Z.min (dec_value d) 9223372036854775807 in
  if v =? 9223372036854775807 then Ok None else bind (set_port u (s32 v)) (fun r => Ok (fin r)).

Definition rest_fin (u : euri) (port path query : option (list Z)) : res (option euri) :=
  match port with
  | None => Ok (tail_fin u path query)
  | Some d => bind (port_fin u d) (fun r => Ok (match r with None => None | Some u => tail_fin u path query end))
  end.

Lemma take_digits_app d t : Forall (fun c => isdigit c = true) d ->
  (t = [] \/ exists c t', t = c :: t' /\ isdigit c = false) -> take_digits (d ++ t) = d.
Proof.
  intros F Ht. induction d as [|c d IH]; cbn [app take_digits].
  - destruct Ht as [->|(c & t' & -> & E)]; cbn [take_digits]; [reflexivity|rewrite E; reflexivity].
  - rewrite Forall_cons_iff in F. destruct F as [Hc F]. rewrite Hc, (IH F). reflexivity.
Qed.

Lemma rest_run qh pre port path query st0 u :
  qh = HE \/ qh = HN ->
  (qh = HN -> port <> None \/ path <> None \/ query = None) ->
  (forall d, port = Some d -> d <> [] /\ Forall (fun c => isdigit c = true) d) ->
  (forall p, path = Some p -> exists r, p = 47 :: r /\ Forall (fun c => is_q_char c = true) r) ->
  (forall y, query = Some y -> Forall (fun c => is_q_char c = true) y) ->
  let rest := opt_text [58] port ++ tail_text path query in
  let s := pre ++ rest in
  machine s Full (List.length pre) rest [qh] (st0, u) =
  match fin (set_host u (token s st0 (List.length pre))) with
  | None => Ok None
  | Some u1 => rest_fin u1 port path query
  end.
Proof.
  intros Hq Hamb Hd Hp Hy rest s.
  assert (MO : merge [out qh] = [SetHost]) by (destruct Hq as [->| ->]; reflexivity).
  destruct port as [d|].
  - destruct (Hd d eq_refl) as [Nd Fd]. unfold rest. cbn [opt_text app].
    rewrite (step1 s Full qh 58 _ _ _ (out qh) PT0) by (destruct Hq as [->| ->]; reflexivity).
    rewrite MO. cbn [run_acts run_act bind]. unfold fin at 1.
    destruct (set_host u (token s st0 (List.length pre))) as [u1 [|]]; cbn [snd fst bind]; [|reflexivity].
    destruct d as [|c d]; [contradiction|]. rewrite Forall_cons_iff in Fd. destruct Fd as [Hc Fd].
    cbn [app]. rewrite (step1 s Full PT0 c _ _ _ [TokPort] PT) by (cbn [trans]; rewrite Hc; reflexivity).
    change (merge [[TokPort]]) with [TokPort]. cbn [run_acts run_act bind].
    rewrite seg_stay by (intros; apply tr_PT; rewrite Forall_forall in Fd; auto).
    set (pre2 := pre ++ 58 :: c :: d).
    assert (Es : s = pre2 ++ tail_text path query).
    { unfold s, rest, pre2. cbn [opt_text app]. rewrite <- app_assoc. reflexivity. }
    assert (L2 : List.length pre2 = (S (S (List.length pre)) + List.length d)%nat).
    { unfold pre2. rewrite app_length. cbn [List.length]. lia. }
    rewrite <- L2. rewrite Es at 1. rewrite tail_run; auto; [|discriminate]. rewrite <- Es.
    change (merge [out PT]) with [SetPort]. cbn [run_acts run_act].
    assert (ST : strtol (skipn (S (List.length pre)) s) = (Z.min (dec_value (c :: d)) 9223372036854775807, S (List.length d))).
    { assert (skipn (S (List.length pre)) s = (c :: d) ++ tail_text path query) as ->.
      { unfold s, rest. cbn [opt_text app]. replace (S (List.length pre)) with (List.length pre + 1)%nat by lia.
        rewrite skipn_app. rewrite skipn_all2 by lia. replace (List.length pre + 1 - List.length pre)%nat with 1%nat by lia. reflexivity. }
      unfold strtol. rewrite take_digits_app; [reflexivity|constructor; assumption|].
      unfold tail_text. destruct path as [p|].
      - destruct (Hp p eq_refl) as (r & -> & _). right. do 2 eexists. split; [reflexivity|reflexivity].
      - destruct query as [y|]; [right; do 2 eexists; split; reflexivity|left; reflexivity]. }
    rewrite ST. unfold rest_fin, port_fin.
    replace (S (List.length pre) + S (List.length d) =? List.length pre2)%nat with true by (rewrite L2; lia).
    cbn [negb]. rewrite orb_false_r.
    destruct (_ =? 9223372036854775807); [reflexivity|].
    destruct (set_port u1 _) as [[u2 [|]]| |]; cbn [bind snd fst fin]; reflexivity.
  - unfold s, rest. cbn [opt_text app]. rewrite tail_run; auto.
    + rewrite MO. cbn [run_acts run_act bind].
      match goal with |- context [set_host ?a ?b] => destruct (set_host a b) as [u1 [|]] end; reflexivity.
    + tauto.
    + intros H. destruct (Hamb H) as [X|X]; [congruence|exact X].
Qed.

(** The whole text. *)
Definition wtext (x : parts) : list Z :=
  p_scheme x ++ 58 :: 47 :: 47 :: p_host x ++ opt_text [58] (p_port x) ++ tail_text (p_path x) (p_query x).
Lemma written_eq x : written x = wtext x.
Proof. reflexivity. Qed.

Definition host_lit (h : list Z) := exists a, h = 91 :: a ++ [93] /\ a <> [] /\ Forall (fun c => is_lit_char c = true) a.
Definition host_name (h : list Z) := h <> [] /\ Forall name_c h.

Lemma name_not91 c : is_name_char c = true -> (c =? 91) = false.
Proof. unfold is_name_char, mem, existsb. lia. Qed.

Lemma run_all x u0 :
  p_scheme x <> [] -> Forall (fun c => is_proto_char c = true) (p_scheme x) ->
  host_lit (p_host x) \/ (host_name (p_host x) /\ (p_port x <> None \/ p_path x <> None \/ p_query x = None)) ->
  (forall d, p_port x = Some d -> d <> [] /\ Forall (fun c => isdigit c = true) d) ->
  (forall p, p_path x = Some p -> exists r, p = 47 :: r /\ Forall (fun c => is_q_char c = true) r) ->
  (forall y, p_query x = Some y -> Forall (fun c => is_q_char c = true) y) ->
  machine (wtext x) Full 0 (wtext x) [S0] (0%nat, u0) =
  if (16 <=? List.length (p_scheme x))%nat then Ok None
  else match find_by_scheme (p_scheme x) with
  | None => Ok None
  | Some a =>
      bind (set_proto u0 (a_proto a)) (fun r =>
        match fin r with
        | None => Ok None
        | Some u1 =>
            match fin (set_host u1 (p_host x)) with
            | None => Ok None
            | Some u2 => rest_fin u2 (p_port x) (p_path x) (p_query x)
            end
        end)
  end.
Proof.
  intros Ns Fs Hh Hd Hp Hy. set (s := wtext x).
  destruct (p_scheme x) as [|c sc] eqn:Esc; [contradiction|].
  rewrite Forall_cons_iff in Fs. destruct Fs as [Hc Fs].
  set (tl0 := opt_text [58] (p_port x) ++ tail_text (p_path x) (p_query x)).
  assert (Es : s = c :: sc ++ 58 :: 47 :: 47 :: p_host x ++ tl0).
  { unfold s, wtext. rewrite Esc. reflexivity. }
  rewrite Es at 2.
  rewrite (step1 s Full S0 c _ _ _ [TokProto] PR) by (apply tr_S0; exact Hc).
  change (merge [[TokProto]]) with [TokProto]. cbn [run_acts run_act bind].
  rewrite seg_stay by (intros; apply tr_PR; rewrite Forall_forall in Fs; auto).
  rewrite (step1 s Full PR 58 _ _ _ [SetProto] C1) by reflexivity.
  change (merge [[SetProto]]) with [SetProto]. cbn [run_acts run_act].
  assert (T0 : token s 0 (1 + List.length sc) = c :: sc).
  { pose proof (token_mid [] (c :: sc) (58 :: 47 :: 47 :: p_host x ++ tl0)) as T. cbn [app List.length] in T. rewrite Es. exact T. }
  rewrite T0. replace (1 + List.length sc - 0)%nat with (List.length (c :: sc)) by (cbn; lia).
  destruct (16 <=? List.length (c :: sc))%nat; [reflexivity|].
  destruct (find_by_scheme (c :: sc)) as [a|]; [|reflexivity].
  destruct (set_proto u0 (a_proto a)) as [[u1 [|]]| |]; cbn [bind snd fst fin]; try reflexivity.
  rewrite (step1 s Full C1 47 _ _ _ [] C2) by reflexivity.
  change (merge [[]]) with (@nil act). cbn [run_acts bind].
  rewrite (step1 s Full C2 47 _ _ _ [] H0) by reflexivity.
  change (merge [[]]) with (@nil act). cbn [run_acts bind].
  set (pre0 := c :: sc ++ [58; 47; 47]).
  assert (Es0 : s = pre0 ++ p_host x ++ tl0).
  { rewrite Es. unfold pre0. cbn [app]. rewrite <- app_assoc. reflexivity. }
  replace (S (S (S (1 + List.length sc)))) with (List.length pre0).
  2:{ unfold pre0. cbn [List.length]. rewrite app_length. cbn [List.length]. lia. }
  assert (TH : token s (List.length pre0) (List.length (pre0 ++ p_host x)) = p_host x).
  { rewrite Es0, app_length. apply token_mid. }
  assert (Es1 : s = (pre0 ++ p_host x) ++ tl0) by (rewrite Es0, app_assoc; reflexivity).
  destruct Hh as [(a0 & Eh & Na & Fa)|[(Nh & Fh) Hamb]].
  - rewrite Eh at 1. cbn [app]. rewrite <- app_assoc.
    rewrite (step1 s Full H0 91 _ _ _ [TokHost] HB0) by reflexivity.
    change (merge [[TokHost]]) with [TokHost]. cbn [run_acts run_act bind].
    destruct a0 as [|b a1]; [contradiction|]. rewrite Forall_cons_iff in Fa. destruct Fa as [Hb Fa].
    cbn [app]. rewrite (step1 s Full HB0 b _ _ _ [] HB) by (cbn [trans]; rewrite Hb; reflexivity).
    change (merge [[]]) with (@nil act). cbn [run_acts bind].
    rewrite seg_stay by (intros; apply tr_HB; rewrite Forall_forall in Fa; auto).
    cbn [app]. rewrite (step1 s Full HB 93 _ _ _ [] HE) by reflexivity.
    change (merge [[]]) with (@nil act). cbn [run_acts bind].
    replace (S (S (S (List.length pre0)) + List.length a1)) with (List.length (pre0 ++ p_host x)).
    2:{ rewrite Eh, app_length. cbn [List.length app]. rewrite app_length. cbn [List.length]. lia. }
    rewrite Es1 at 1. unfold tl0. rewrite rest_run; auto; [|discriminate]. fold tl0. rewrite <- Es1, TH. reflexivity.
  - destruct (p_host x) as [|b h1] eqn:Eh; [contradiction|]. rewrite Forall_cons_iff in Fh. destruct Fh as [[Hb Hb2] Fh].
    cbn [app]. rewrite (step1 s Full H0 b _ _ _ [TokHost] HN) by (cbn [trans]; rewrite (name_not91 b Hb), Hb; reflexivity).
    change (merge [[TokHost]]) with [TokHost]. cbn [run_acts run_act bind].
    rewrite seg_stay by (intros; apply tr_HN; rewrite Forall_forall in Fh; apply Fh; assumption).
    replace (S (List.length pre0) + List.length h1)%nat with (List.length (pre0 ++ b :: h1)) by (rewrite app_length; cbn [List.length]; lia).
    rewrite Es1 at 1. unfold tl0. rewrite rest_run; auto. fold tl0. rewrite <- Es1, TH. reflexivity.
Qed.
