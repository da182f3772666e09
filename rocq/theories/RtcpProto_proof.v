From Coq Require Import Lia.
From Verif Require Import Base Base_lemmas RtcpTrav_model RtcpTrav_spec RtcpBuild_model RtcpBuild_spec RtcpBuild_proof RtcpRead_proof RtcpBack_proof.
Open Scope res_scope.
Local Open Scope nat_scope.

(** *** From calls to bytes *)
(** what remains to be allowed once reports were seen or not *)
Definition rest_ok (cfg : wcfg) (f1 : bool) (ps : list pk) : Prop :=
  (c_srrr cfg = true -> f1 = true \/ match ps with [] => True | p :: _ => is_report p = true end) /\
  (c_srrr cfg = false -> Forall (fun p => is_report p = false) ps) /\
  (c_sdes cfg = false -> Forall (fun p => match p with PSdes _ => False | _ => True end) ps) /\
  (c_xr cfg = false -> Forall (fun p => match p with PXr _ _ => False | _ => True end) ps).
Lemma rest_may cfg f1 p ps : rest_ok cfg f1 (p :: ps) -> may cfg p f1 /\ rest_ok cfg (f1 || is_report p) ps.
Proof.
  intros (H1 & H2 & H3 & H4). split.
  - destruct cfg as [s d x]. cbn [c_srrr c_sdes c_xr] in *. destruct p; cbn [may c_srrr c_sdes c_xr is_report] in *.
    + destruct s; [reflexivity|]. specialize (H2 eq_refl). inversion H2; discriminate.
    + destruct s; [reflexivity|]. specialize (H2 eq_refl). inversion H2; discriminate.
    + split; [destruct d; [reflexivity|specialize (H3 eq_refl); inversion H3; contradiction]|]. destruct s; [|reflexivity]. destruct (H1 eq_refl) as [-> |X]; [reflexivity|discriminate].
    + destruct s; [|reflexivity]. destruct (H1 eq_refl) as [-> |X]; [reflexivity|discriminate].
    + split; [destruct x; [reflexivity|specialize (H4 eq_refl); inversion H4; contradiction]|]. destruct s; [|reflexivity]. destruct (H1 eq_refl) as [-> |X]; [reflexivity|discriminate].
  - split; [|split; [|split]]; intros E.
    + left. destruct (H1 E) as [-> | ->]; [reflexivity|apply Bool.orb_true_r].
    + specialize (H2 E). inversion H2; assumption.
    + specialize (H3 E). inversion H3; assumption.
    + specialize (H4 E). inversion H4; assumption.
Qed.
Definition named_b (ps : list pk) (f2 : bool) : bool := fold_left (fun f p => cname_after p f) ps f2.
Definition reported (ps : list pk) (f1 : bool) : bool := fold_left (fun f p => f || is_report p) ps f1.
Definition fin_last (ps : list pk) (lst : list Z) : list Z := match ps with [] => lst | _ => enc_pk (last ps (PRr 0 [])) end.
Lemma pks_run cfg cap : forall ps f1 f2 pre lst b, top cfg cap f1 f2 pre lst b -> Forall pk_ok ps -> rest_ok cfg f1 ps -> Forall (fun p => (Z.of_nat (size p) <= 65535)%Z) ps ->
  exists b' pre', w_run b (concat (map calls_pk ps)) = Ok b' /\ top cfg cap (reported ps f1) (named_b ps f2) pre' (fin_last ps lst) b' /\
    pre' ++ fin_last ps lst = pre ++ lst ++ concat (map enc_pk ps).
Proof.
  induction ps as [|p ps IH]; intros f1 f2 pre lst b T F R Sz; cbn [map concat w_run].
  - exists b, pre. split; [reflexivity|]. split; [exact T|]. rewrite app_nil_r. reflexivity.
  - inversion F; subst. inversion Sz; subst. destruct (rest_may _ _ _ _ R) as [M R']. rewrite run_app. destruct (pk_run cfg cap f1 f2 pre lst b p T) as (b1 & -> & T1); [assumption..|]. cbn [bind].
    destruct (IH _ _ _ _ _ T1) as (b' & pre' & -> & T' & E); [assumption..|]. exists b', pre'. split; [reflexivity|].
    assert (El : fin_last (p :: ps) lst = fin_last ps (enc_pk p)) by (destruct ps; reflexivity). rewrite El. split; [exact T'|].
    rewrite E, <- !app_assoc. reflexivity.
Qed.
Lemma sizes_all ps n : sizes_ok ps n -> Forall (fun p => (Z.of_nat (size p) <= 65535)%Z) ps.
Proof.
  induction ps as [|p ps IH]; intros H; [constructor|]. assert (X : size p <= limit /\ sizes_ok ps n).
  { destruct ps as [|p' ps]; [split; [cbn [sizes_ok] in H; lia|exact I]|exact H]. }
  destruct X as [X1 X2]. constructor; [unfold limit in X1; lia|apply IH, X2].
Qed.
Lemma last_size ps n : sizes_ok ps n -> ps <> [] -> size (last ps (PRr 0 [])) + n <= limit.
Proof.
  induction ps as [|p ps IH]; intros H N; [contradiction|]. destruct ps as [|p' ps]; [exact H|]. destruct H as [_ H]. change (last (p :: p' :: ps) (PRr 0 [])) with (last (p' :: ps) (PRr 0 [])). apply IH; [exact H|discriminate].
Qed.
Lemma cenc_split ps pad pre : ps <> [] -> pre ++ enc_pk (last ps (PRr 0 [])) = concat (map enc_pk ps) -> pre ++ penc (last ps (PRr 0 [])) pad = concat (cenc ps pad).
Proof.
  revert pre. induction ps as [|p ps IH]; intros pre N E; [contradiction|]. destruct ps as [|p' ps].
  - cbn [map concat last cenc] in *. rewrite app_nil_r in *. apply (f_equal (@length Z)) in E as L. rewrite app_length in L. assert (pre = []) by (destruct pre; [reflexivity|cbn in L; lia]). subst pre. reflexivity.
  - change (last (p :: p' :: ps) (PRr 0 [])) with (last (p' :: ps) (PRr 0 [])) in *. change (cenc (p :: p' :: ps) pad) with (penc p None :: cenc (p' :: ps) pad).
    change (concat (map enc_pk (p :: p' :: ps))) with (enc_pk p ++ concat (map enc_pk (p' :: ps))) in E. cbn [concat]. rewrite penc_none.
    assert (X : exists t, pre = enc_pk p ++ t).
    { exists (skipn (length (enc_pk p)) pre). assert (Lp : length (enc_pk p) <= length pre).
      { apply (f_equal (@length Z)) in E. rewrite !app_length in E. assert (length (enc_pk (last (p' :: ps) (PRr 0 []))) <= length (concat (map enc_pk (p' :: ps)))); [|lia].
        clear. revert p'. induction ps as [|q ps IH]; intros p'; [cbn; rewrite app_nil_r; lia|]. change (last (p' :: q :: ps) (PRr 0 [])) with (last (q :: ps) (PRr 0 [])).
        change (concat (map enc_pk (p' :: q :: ps))) with (enc_pk p' ++ concat (map enc_pk (q :: ps))). rewrite app_length. specialize (IH q). lia. }
      apply (f_equal (firstn (length (enc_pk p)))) in E. rewrite !firstn_app, firstn_all, Nat.sub_diag in E. cbn [firstn] in E. rewrite app_nil_r in E.
      replace (length (enc_pk p) - length pre) with 0 in E by lia. cbn [firstn] in E. rewrite app_nil_r in E. rewrite <- E at 1. symmetry. apply firstn_skipn. }
    destruct X as (t & ->). rewrite <- app_assoc in *. apply app_inv_head in E. f_equal. apply IH; [discriminate|exact E].
Qed.
Definition done cfg cap f1 f2 st (out : list Z) (b : bld) : Prop :=
  common cfg cap st f1 f2 b /\ ((w_trunc b = true /\ cap < length out) \/ (w_trunc b = false /\ w_buf b = out /\ w_rsz b = length out /\ length out <= cap)).
Lemma pad_run cfg cap f1 f2 pre p b n : top cfg cap f1 f2 pre (enc_pk p) b -> pk_ok p -> pad_ok (Some n) -> size p + n <= limit ->
  exists b', w_step b (OPadding n) = Ok b' /\ done cfg cap f1 f2 WLast (pre ++ penc p (Some n)) b'.
Proof.
  intros [(C1 & C2 & C3 & C4 & C5) H] O (P1 & P2) Sz. cbn [w_step]. rewrite (is_st_ok b WTop) by (first [exact C1|cbn; tauto]). rewrite P1. cbn [Nat.eqb negb orb].
  destruct (Nat.ltb_spec n 1); [lia|]. destruct (Nat.ltb_spec 255 n); [lia|]. cbn [orb]. assert (Zs : (Z.of_nat (size p + n) <= 65532)%Z) by (unfold limit in Sz; lia).
  pose proof (len_penc p (Some n) (conj P1 P2)) as Lp. cbn [padn] in Lp. pose proof (len_pk p) as Le. pose proof (len_body p) as Lb.
  destruct b as [bst buf rsz start hdr xhdr s r cn tr cp cf]. pj. subst. unfold done, common.
  destruct H as [[-> L]|(-> & -> & -> & Hh & L)].
  - eexists. split; [reflexivity|]. pj. split; [repeat split|]. left. split; [reflexivity|]. rewrite app_length. lia.
  - change (match enc_pk p with [] => None | _ => Some (length pre) end) with (Some (length pre)) in Hh. rewrite Hh. unfold enc_pk at 1, pkt at 1, hd4 at 1. cbn [app].
    rewrite set_padding_mid by (apply cnt_le, O). cbn [bind].
    set (w := (Z.of_nat (length (body_of p)) / 4)%Z). change ((160 + Z.of_nat (cnt_of p))%Z :: ty_of p :: byte_of w 1 :: byte_of w 0 :: body_of p) with
      ([(160 + Z.of_nat (cnt_of p))%Z; ty_of p] ++ byte_of w 1 :: (byte_of w 0 :: body_of p)). change 2 with (length [(160 + Z.of_nat (cnt_of p))%Z; ty_of p]) at 1. rewrite rd_mid_k. cbn [bind].
    change ([(160 + Z.of_nat (cnt_of p))%Z; ty_of p] ++ byte_of w 1 :: (byte_of w 0 :: body_of p)) with ([(160 + Z.of_nat (cnt_of p))%Z; ty_of p; byte_of w 1] ++ byte_of w 0 :: body_of p).
    change 3 with (length [(160 + Z.of_nat (cnt_of p))%Z; ty_of p; byte_of w 1]) at 1. rewrite rd_mid_k. cbn [bind].
    destruct (len_field (length (body_of p)) (body_mod p)) as [R E]; [lia|]. fold w in R, E. rewrite be16_put16 by lia. rewrite E.
    change ([(160 + Z.of_nat (cnt_of p))%Z; ty_of p; byte_of w 1] ++ byte_of w 0 :: body_of p) with ([(160 + Z.of_nat (cnt_of p))%Z; ty_of p; byte_of w 1; byte_of w 0] ++ body_of p).
    rewrite set_len_mid; [|lia|lia|repeat apply mod4_add; [reflexivity|apply body_mod|exact P1]]. cbn [bind].
    replace (4 + length (body_of p) + n - 4) with (length (body_of p) + n) by lia.
    assert (Ep : penc p (Some n) = (hd4 (160 + Z.of_nat (cnt_of p)) (ty_of p) (length (body_of p) + n) ++ body_of p) ++ repeat 0%Z (n - 1) ++ [Z.of_nat n]).
    { unfold penc, phead, hbyte. cbn [padf padn padb]. replace (128 + Z.of_nat (cnt_of p) + 32)%Z with (160 + Z.of_nat (cnt_of p))%Z by lia. reflexivity. }
    destruct (Nat.ltb_spec (cap - (length pre + length (enc_pk p))) n).
    + eexists. split; [reflexivity|]. pj. split; [repeat split|]. left. split; [reflexivity|]. rewrite app_length. lia.
    + eexists. split; [reflexivity|]. pj. split; [repeat split|]. right. split; [reflexivity|]. split; [rewrite Ep, <- !app_assoc; reflexivity|]. rewrite app_length. split; lia.
Qed.
Lemma build_run cfg cap ps pad : valid cfg ps pad ->
  exists b st, w_run (w_new cfg cap) (calls ps pad) = Ok b /\ (st = WTop \/ st = WLast) /\ done cfg cap (reported ps false) (named_b ps false) st (concat (cenc ps pad)) b.
Proof.
  intros (N & F & Sz & (A1 & A2 & A3 & A4) & P). fold (padn pad) in Sz. unfold calls. rewrite run_app.
  assert (T0 : top cfg cap false false [] [] (w_new cfg cap)) by (split; [repeat split|]; right; repeat split; cbn; lia).
  destruct (pks_run cfg cap ps false false [] [] _ T0 F) as (b & pre & -> & T & E).
  { split; [intros X; right; apply A1, X|]. split; [exact A2|]. split; [exact A3|exact A4]. }
  { eapply sizes_all; exact Sz. }
  cbn [bind app] in *. assert (El : fin_last ps [] = enc_pk (last ps (PRr 0 []))) by (destruct ps; [contradiction|reflexivity]). rewrite El in *.
  pose proof (cenc_split ps pad pre N E) as Ec. destruct pad as [n|].
  - rewrite run1. assert (Ol : pk_ok (last ps (PRr 0 []))). { clear - F N. induction ps as [|p ps IH]; [contradiction|]. inversion F; subst. destruct ps; [assumption|]. apply IH; [discriminate|assumption]. }
    destruct (pad_run _ _ _ _ _ _ _ _ T Ol P (last_size _ _ Sz N)) as (b' & Eb & D). exists b', WLast. rewrite <- Ec. split; [exact Eb|]. split; [right; reflexivity|exact D].
  - exists b, WTop. split; [reflexivity|]. split; [left; reflexivity|]. rewrite penc_none in Ec. rewrite <- Ec. destruct T as [C D]. split; [exact C|].
    destruct D as [[D1 D2]|(D1 & D2 & D3 & _ & D4)]; [left; split; [exact D1|rewrite app_length; exact D2]|]. right. split; [exact D1|]. split; [exact D2|]. rewrite app_length. split; [exact D3|exact D4].
Qed.
Lemma named_true ps f : named_b ps f = true <-> f = true \/ Exists (fun p => match p with PSdes (_ :: _) => True | _ => False end) ps.
Proof.
  unfold named_b. revert f. induction ps as [|p ps IH]; intros f; cbn [fold_left].
  - split; [intros ->; left; reflexivity|]. intros [H|H]; [exact H|inversion H].
  - rewrite IH. split.
    + intros [H|H]; [|right; right; exact H]. destruct p as [| |[|c cs]| |]; cbn [cname_after] in H; try (left; exact H). right. left. exact I.
    + intros [H|H].
      * left. subst f. destruct p as [| |[|c cs]| |]; reflexivity.
      * inversion H as [? ? X|]; subst; [|right; assumption]. left. destruct p as [| |[|c cs]| |]; try contradiction. reflexivity.
Qed.
Lemma reported_true ps f : f = true \/ existsb is_report ps = true -> reported ps f = true.
Proof.
  unfold reported. revert f. induction ps as [|p ps IH]; intros f H; cbn [fold_left existsb] in *.
  - destruct H; [assumption|discriminate].
  - apply IH. destruct H as [-> |H]; [left; reflexivity|]. destruct (is_report p) eqn:E; [left; apply Bool.orb_true_r|right; exact H].
Qed.

(** *** Every accepted sequence of calls describes packets *)
Definition fl (b : bld) := (w_st b, w_cfg b, (w_sr b || w_rr b), w_cname b).
Lemma fl_block b p : fl (fst (add_block b p)) = fl b.
Proof. unfold add_block. destruct (w_trunc b); [reflexivity|]. destruct (_ <? _); reflexivity. Qed.
Lemma fl_begin b p : fl (begin_packet b p) = fl b.
Proof. unfold begin_packet. destruct (w_trunc b); [reflexivity|]. destruct (_ <? _); reflexivity. Qed.
Ltac bd H := match type of H with bind ?r _ = Ok _ => destruct r; cbn [bind] in H; [|discriminate H|discriminate H] end.
Lemma fl_end b b' : end_packet b = Ok b' -> fl b' = fl b.
Proof.
  unfold end_packet. intros H. destruct (w_trunc b) eqn:T; [congruence|]. destruct (_ || _); [discriminate|]. destruct (w_hdr b); [|discriminate]. bd H. injection H as <-. reflexivity.
Qed.
Lemma fl_report b r b' : add_report b r = Ok b' -> fl b' = fl b.
Proof.
  unfold add_report. pose proof (fl_block b (enc_rin r)) as E. destruct (add_block b (enc_rin r)) as [b1 ok]. cbn [fst] in E. intros H. destruct (negb ok); [congruence|].
  destruct (w_hdr b1); [|discriminate]. bd H. bd H. injection H as <-. exact E.
Qed.
Lemma fl_counted b p b' : add_counted b p = Ok b' -> fl b' = fl b.
Proof.
  unfold add_counted. pose proof (fl_block b p) as E. destruct (add_block b p) as [b1 ok]. cbn [fst] in E. intros H. destruct (negb ok); [congruence|].
  destruct (w_hdr b1); [|discriminate]. bd H. injection H as <-. exact E.
Qed.
Lemma fl_xblock b p b' : add_xblock b p = Ok b' -> fl b' = fl b.
Proof.
  unfold add_xblock. pose proof (fl_block b p) as E. destruct (add_block b p) as [b1 ok]. cbn [fst] in E. intros H. destruct (negb ok); [congruence|]. bd H. injection H as <-. exact E.
Qed.
Lemma is_st_in b l : is_st b l = true -> In (w_st b) l.
Proof. unfold is_st. intros H. apply existsb_exists in H. destruct H as (s & I & E). destruct s, (w_st b); try discriminate; exact I. Qed.

(** which calls are accepted, and the packets as far as they were described *)
Inductive open : wst -> bool -> pk -> list op -> Prop :=
| N_sr st f s rs : st = WSrHead \/ st = WSrReport -> open st f (PSr s rs) ([OBeginSr s] ++ map OSrReport rs)
| N_rr st f s rs : st = WRrHead \/ st = WRrReport -> open st f (PRr s rs) ([OBeginRr s] ++ map ORrReport rs)
| N_sdes f cs : Forall one_name cs -> open WSdesHead f (PSdes cs) ([OBeginSdes] ++ concat (map calls_chunk cs))
| N_chunk (f : bool) cs s items : Forall one_name cs -> texts_ok items ->
    (if f then exists n, filter (fun i => fst i =? 1)%Z items = [(1, n)]%Z /\ n <> [] else filter (fun i => fst i =? 1)%Z items = []) ->
    open WSdesChunk f (PSdes cs) ([OBeginSdes] ++ concat (map calls_chunk cs) ++ [OBeginChunk s] ++ map (fun i => OItem (fst i) (snd i)) items)
| N_bye0 f : open WByeHead f (PBye [] None) [OBeginBye]
| N_bye f ss : ss <> [] -> open WByeSsrc f (PBye ss None) ([OBeginBye] ++ map OByeSsrc ss)
| N_reason f ss t : ss <> [] -> length t <= 255 -> open WByeReason f (PBye ss (Some t)) ([OBeginBye] ++ map OByeSsrc ss ++ [OByeReason t])
| N_xr f s bs : open WXrHead f (PXr s bs) ([OBeginXr s] ++ concat (map calls_xin bs))
| N_dlrr st f s bs ds : st = WDlrrHead \/ st = WDlrrReport -> open st f (PXr s bs) ([OBeginXr s] ++ concat (map calls_xin bs) ++ [OBeginDlrr] ++ map ODlrrReport ds).
Definition prot (cfg : wcfg) (ops : list op) (b : bld) : Prop :=
  exists ps, Forall shape_ok ps /\ w_cfg b = cfg /\
  ((w_st b = WTop /\ ops = calls ps None /\ allowed cfg ps /\ w_sr b || w_rr b = existsb is_report ps /\ (ps = [] -> w_hdr b = None /\ w_trunc b = false)) \/
   (w_st b = WLast /\ (exists n, ops = calls ps (Some n) /\ pad_ok (Some n)) /\ allowed cfg ps /\ ps <> []) \/
   (exists p o, open (w_st b) (w_cname b) p o /\ ops = calls ps None ++ o /\ allowed cfg (ps ++ [p]) /\ w_sr b || w_rr b = existsb is_report (ps ++ [p]))).

Lemma allowed_snoc cfg ps p : allowed cfg ps -> may cfg p (existsb is_report ps) -> allowed cfg (ps ++ [p]).
Proof.
  intros (A1 & A2 & A3 & A4) M. split; [|split; [|split]]; intros E.
  - specialize (A1 E). destruct ps as [|q ps]; [|exact A1]. cbn [app existsb] in *. destruct p; cbn [may is_report] in *; rewrite ?E in *; cbn [negb orb] in *; try reflexivity; try discriminate; destruct M; discriminate.
  - apply Forall_app. split; [apply A2, E|]. constructor; [|constructor]. destruct p; cbn [may is_report] in *; congruence.
  - apply Forall_app. split; [apply A3, E|]. constructor; [|constructor]. destruct p; cbn [may] in *; try exact I. destruct M; congruence.
  - apply Forall_app. split; [apply A4, E|]. constructor; [|constructor]. destruct p; cbn [may] in *; try exact I. destruct M; congruence.
Qed.
Lemma allowed_like cfg ps p q : ty_of p = ty_of q -> allowed cfg (ps ++ [p]) -> allowed cfg (ps ++ [q]).
Proof.
  intros T (A1 & A2 & A3 & A4). assert (Is : is_report p = is_report q) by (destruct p, q; try reflexivity; discriminate). split; [|split; [|split]]; intros E.
  - specialize (A1 E). destruct ps; [cbn in *; congruence|exact A1].
  - specialize (A2 E). apply Forall_app in A2. destruct A2 as [B1 B2]. apply Forall_app. split; [exact B1|]. inversion B2; subst. constructor; [congruence|constructor].
  - specialize (A3 E). apply Forall_app in A3. destruct A3 as [B1 B2]. apply Forall_app. split; [exact B1|]. inversion B2; subst. constructor; [|constructor]. destruct p, q; try discriminate; assumption.
  - specialize (A4 E). apply Forall_app in A4. destruct A4 as [B1 B2]. apply Forall_app. split; [exact B1|]. inversion B2; subst. constructor; [|constructor]. destruct p, q; try discriminate; assumption.
Qed.
Lemma report_like ps p q : ty_of p = ty_of q -> existsb is_report (ps ++ [p]) = existsb is_report (ps ++ [q]).
Proof. intros T. rewrite !existsb_app. cbn [existsb]. assert (Is : is_report p = is_report q) by (destruct p, q; try reflexivity; discriminate). rewrite Is. reflexivity. Qed.
Lemma calls_snoc ps p : calls (ps ++ [p]) None = calls ps None ++ calls_pk p.
Proof. unfold calls. rewrite map_app, concat_app. cbn [map concat]. rewrite !app_nil_r. reflexivity. Qed.

Lemma prot_begin cfg ops b b1 st p o : prot cfg ops b -> w_st b = WTop -> may cfg p (w_sr b || w_rr b) -> fl b1 = (st, cfg, (w_sr b || w_rr b) || is_report p, w_cname b) ->
  open st (w_cname b) p [o] -> prot cfg (ops ++ [o]) b1.
Proof.
  intros (ps & Sh & Cf & [(St & -> & A & Fl & _)|[(St & _)|(p' & o' & On & _)]]) Tp M E On'; [|congruence|rewrite Tp in On; inversion On; match goal with H : _ \/ _ |- _ => destruct H; discriminate end].
  unfold fl in E. assert (E1 : w_st b1 = st) by congruence. assert (E2 : w_cfg b1 = cfg) by congruence. assert (E3 : w_sr b1 || w_rr b1 = (w_sr b || w_rr b) || is_report p) by congruence. assert (E4 : w_cname b1 = w_cname b) by congruence.
  exists ps. split; [exact Sh|]. split; [exact E2|]. right. right. exists p, [o]. rewrite E1, E4. split; [exact On'|]. split; [reflexivity|]. rewrite Fl in *. split; [apply allowed_snoc; assumption|].
  rewrite E3, existsb_app. cbn [existsb]. rewrite Bool.orb_false_r. reflexivity.
Qed.
Lemma prot_open cfg ops b : prot cfg ops b -> w_st b <> WTop -> w_st b <> WLast -> exists ps p o, Forall shape_ok ps /\ w_cfg b = cfg /\
  open (w_st b) (w_cname b) p o /\ ops = calls ps None ++ o /\ allowed cfg (ps ++ [p]) /\ w_sr b || w_rr b = existsb is_report (ps ++ [p]).
Proof. intros (ps & Sh & Cf & [(St & _)|[(St & _)|(p & o & H)]]) N1 N2; [contradiction|contradiction|]. exists ps, p, o. tauto. Qed.
(** the packet goes on *)
Lemma prot_next cfg ps p q o o' b1 st cn f : Forall shape_ok ps -> allowed cfg (ps ++ [p]) -> f = existsb is_report (ps ++ [p]) -> ty_of p = ty_of q ->
  fl b1 = (st, cfg, f, cn) -> open st cn q o' -> o' = o -> prot cfg (calls ps None ++ o) b1.
Proof.
  intros Sh A Fl T E On ->. unfold fl in E. assert (E1 : w_st b1 = st) by congruence. assert (E2 : w_cfg b1 = cfg) by congruence. assert (E3 : w_sr b1 || w_rr b1 = f) by congruence. assert (E4 : w_cname b1 = cn) by congruence.
  exists ps. split; [exact Sh|]. split; [exact E2|]. right. right. exists q, o. rewrite E1, E4. split; [exact On|]. split; [reflexivity|]. split; [eapply allowed_like; eassumption|]. rewrite E3, Fl. apply report_like, T.
Qed.
(** the packet ends *)
Lemma prot_done cfg ps p o b1 cn f : Forall shape_ok ps -> shape_ok p -> allowed cfg (ps ++ [p]) -> f = existsb is_report (ps ++ [p]) ->
  fl b1 = (WTop, cfg, f, cn) -> calls_pk p = o -> prot cfg (calls ps None ++ o) b1.
Proof.
  intros Sh Sp A Fl E <-. unfold fl in E. exists (ps ++ [p]). split; [apply Forall_app; split; [exact Sh|constructor; [exact Sp|constructor]]|]. split; [congruence|]. left. split; [congruence|]. split; [symmetry; apply calls_snoc|].
  split; [exact A|]. split; [congruence|]. intros X. destruct ps; discriminate.
Qed.
Lemma fl_st b s : fl (st_upd b s) = (s, w_cfg b, w_sr b || w_rr b, w_cname b). Proof. reflexivity. Qed.

Ltac gd H := match type of H with (if negb ?c then Panic else _) = Ok _ => destruct c eqn:?G; cbn [negb] in H; [|discriminate H] end.
Ltac ins G := apply is_st_in in G; cbn [In] in G.
Ltac opn P G := destruct (prot_open _ _ _ P) as (ps & p & o & Sh & Cf & On & -> & A & Fl); [intros X; rewrite X in G; tauto || (repeat destruct G as [G|G]; discriminate || contradiction)|intros X; rewrite X in G; tauto || (repeat destruct G as [G|G]; discriminate || contradiction)|].

Lemma snoc_map {A B} (f : A -> B) l x : map f l ++ [f x] = map f (l ++ [x]). Proof. rewrite map_app. reflexivity. Qed.
Lemma snoc_cat {A B} (f : A -> list B) l x : concat (map f l) ++ f x = concat (map f (l ++ [x])). Proof. rewrite map_app, concat_app. cbn [map concat]. rewrite app_nil_r. reflexivity. Qed.
Lemma cat1 {A B} (f : A -> list B) l x y : f x = [y] -> concat (map f l) ++ [y] = concat (map f (l ++ [x])). Proof. intros <-. apply snoc_cat. Qed.
Lemma fl_fields b st cfg f cn : fl b = (st, cfg, f, cn) -> w_st b = st /\ w_cfg b = cfg /\ w_sr b || w_rr b = f /\ w_cname b = cn.
Proof. unfold fl. intros H. repeat split; congruence. Qed.

Lemma prot_step cfg ops b o b' : prot cfg ops b -> w_step b o = Ok b' -> prot cfg (ops ++ [o]) b'.
Proof.
  intros P H. assert (Cf0 : w_cfg b = cfg) by (destruct P as (ps & _ & C & _); exact C).
  destruct o; cbn [w_step] in H.
  - (* begin_sr *) destruct (is_st b [WTop]) eqn:G; cbn [negb orb] in H; [|discriminate]. destruct (c_srrr (w_cfg b)) eqn:C; [|discriminate]. cbn [negb] in H. ins G. destruct G as [G|[]].
    eapply (prot_begin cfg ops b b' WSrHead (PSr s [])); [exact P|congruence|cbn; congruence| |].
    + assert (E : b' = begin_packet (srrr_upd (st_upd b WSrHead) true (w_rr b)) (enc_sr s)) by congruence. rewrite E, fl_begin, <- Cf0. unfold fl. cbn. rewrite Bool.orb_true_r. reflexivity.
    + exact (N_sr WSrHead _ s [] (or_introl eq_refl)).
  - (* sr report *) gd H. ins G. opn P G. apply fl_report in H. rewrite fl_st in H. rewrite <- app_assoc.
    assert (X : exists s0 rs, p = PSr s0 rs /\ o = [OBeginSr s0] ++ map OSrReport rs). { destruct G as [G|[G|[]]]; rewrite <- G in On; inversion On; subst; eauto; match goal with E : _ \/ _ |- _ => destruct E; discriminate end. }
    destruct X as (s0 & rs & -> & ->). eapply (prot_next cfg ps _ (PSr s0 (rs ++ [r]))); [exact Sh|exact A|exact Fl|reflexivity|rewrite H, Cf0; reflexivity|apply N_sr; right; reflexivity|]. rewrite <- snoc_map, app_assoc. reflexivity.
  - (* end sr *) gd H. ins G. opn P G. apply fl_end in H. rewrite fl_st in H. rewrite <- app_assoc.
    assert (X : exists s0 rs, p = PSr s0 rs /\ o = [OBeginSr s0] ++ map OSrReport rs). { destruct G as [G|[G|[]]]; rewrite <- G in On; inversion On; subst; eauto; match goal with E : _ \/ _ |- _ => destruct E; discriminate end. }
    destruct X as (s0 & rs & -> & ->). eapply prot_done; [exact Sh| |exact A|exact Fl|rewrite H, Cf0; reflexivity|cbn [calls_pk]; rewrite app_assoc; reflexivity]. exact I.
  - (* begin_rr *) destruct (is_st b [WTop]) eqn:G; cbn [negb orb] in H; [|discriminate]. destruct (c_srrr (w_cfg b)) eqn:C; [|discriminate]. cbn [negb] in H. ins G. destruct G as [G|[]].
    eapply (prot_begin cfg ops b b' WRrHead (PRr ssrc [])); [exact P|congruence|cbn; congruence| |].
    + assert (E : b' = begin_packet (srrr_upd (st_upd b WRrHead) (w_sr b) true) (enc_rr ssrc)) by congruence. rewrite E, fl_begin, <- Cf0. unfold fl. cbn. rewrite !Bool.orb_true_r. reflexivity.
    + exact (N_rr WRrHead _ ssrc [] (or_introl eq_refl)).
  - gd H. ins G. opn P G. apply fl_report in H. rewrite fl_st in H. rewrite <- app_assoc.
    assert (X : exists s0 rs, p = PRr s0 rs /\ o = [OBeginRr s0] ++ map ORrReport rs). { destruct G as [G|[G|[]]]; rewrite <- G in On; inversion On; subst; eauto; match goal with E : _ \/ _ |- _ => destruct E; discriminate end. }
    destruct X as (s0 & rs & -> & ->). eapply (prot_next cfg ps _ (PRr s0 (rs ++ [r]))); [exact Sh|exact A|exact Fl|reflexivity|rewrite H, Cf0; reflexivity|apply N_rr; right; reflexivity|]. rewrite <- snoc_map, app_assoc. reflexivity.
  - gd H. ins G. opn P G. apply fl_end in H. rewrite fl_st in H. rewrite <- app_assoc.
    assert (X : exists s0 rs, p = PRr s0 rs /\ o = [OBeginRr s0] ++ map ORrReport rs). { destruct G as [G|[G|[]]]; rewrite <- G in On; inversion On; subst; eauto; match goal with E : _ \/ _ |- _ => destruct E; discriminate end. }
    destruct X as (s0 & rs & -> & ->). eapply prot_done; [exact Sh| |exact A|exact Fl|rewrite H, Cf0; reflexivity|cbn [calls_pk]; rewrite app_assoc; reflexivity]. exact I.
  - (* begin_sdes *) destruct (is_st b [WTop]) eqn:G; cbn [negb orb] in H; [|discriminate]. destruct (c_sdes (w_cfg b)) eqn:C; cbn [negb orb] in H; [|discriminate]. destruct (first_ok b) eqn:Fo; [|discriminate]. cbn [negb] in H. ins G. destruct G as [G|[]].
    eapply (prot_begin cfg ops b b' WSdesHead (PSdes [])); [exact P|congruence|cbn [may]; split; [congruence|rewrite <- Cf0; unfold first_ok in Fo; rewrite <- Fo, ?Bool.orb_assoc; reflexivity]| |].
    + assert (E : b' = begin_packet (st_upd b WSdesHead) (head RTCP_SDES)) by congruence. rewrite E, fl_begin, <- Cf0. unfold fl. cbn. rewrite Bool.orb_false_r. reflexivity.
    + exact (N_sdes _ [] (Forall_nil _)).
  - (* begin_chunk *) gd H. ins G. destruct G as [G|[]]. opn P G. apply fl_counted in H. unfold fl in H at 2. cbn in H. rewrite <- app_assoc.
    rewrite <- G in On. inversion On; subst; try (match goal with E : _ \/ _ |- _ => destruct E; discriminate end).
    eapply (prot_next _ ps _ (PSdes cs)); [exact Sh|exact A|exact Fl|reflexivity|exact H|apply (N_chunk false cs ssrc []); [assumption|constructor|reflexivity]|]. rewrite <- !app_assoc. reflexivity.
  - (* item *) destruct (is_st b [WSdesChunk]) eqn:G; cbn [negb orb] in H; [|discriminate]. destruct (Nat.ltb_spec 255 (length text)) as [Lt|Lt]; [discriminate|]. ins G. destruct G as [G|[]]. opn P G.
    rewrite <- G in On. inversion On; subst; try (match goal with E : _ \/ _ |- _ => destruct E; discriminate end).
    rewrite <- app_assoc. destruct (ty =? 1)%Z eqn:Ty; cbn [andb] in H.
    + destruct (Nat.eqb_spec (length text) 0) as [L0|L0]; cbn [orb] in H; [discriminate|]. destruct (w_cname b) eqn:Cn; [discriminate|]. cbn [orb] in H.
      eapply (prot_next _ ps _ (PSdes cs)); [exact Sh|exact A|exact Fl|reflexivity| |apply (N_chunk true cs s (items ++ [(ty, text)])); [assumption|apply Forall_app; split; [assumption|constructor; [exact Lt|constructor]]|]|].
      * match type of H with Ok ?x = _ => assert (E : b' = x) by congruence end. rewrite E, fl_block. unfold fl. cbn. rewrite <- G. reflexivity.
      * exists text. rewrite filter_app. match goal with E : filter _ items = [] |- _ => rewrite E end. cbn [filter fst]. rewrite Ty. cbn [app]. apply Z.eqb_eq in Ty. subst ty. split; [reflexivity|]. intros ->. apply L0. reflexivity.
      * rewrite map_app, <- !app_assoc. reflexivity.
    + eapply (prot_next _ ps _ (PSdes cs)); [exact Sh|exact A|exact Fl|reflexivity| |apply (N_chunk (w_cname b) cs s (items ++ [(ty, text)])); [assumption|apply Forall_app; split; [assumption|constructor; [exact Lt|constructor]]|]|].
      * match type of H with Ok ?x = _ => assert (E : b' = x) by congruence end. rewrite E, fl_block. unfold fl. rewrite <- G. reflexivity.
      * rewrite filter_app. cbn [filter fst]. rewrite Ty, app_nil_r. assumption.
      * rewrite map_app, <- !app_assoc. reflexivity.
  - (* end_chunk *) destruct (is_st b [WSdesChunk]) eqn:G; cbn [negb orb] in H; [|discriminate]. destruct (w_cname b) eqn:Cn; [|discriminate]. cbn [negb] in H. ins G. destruct G as [G|[]]. opn P G.
    rewrite <- G in On. inversion On; subst; try (match goal with E : _ \/ _ |- _ => destruct E; discriminate end). rewrite <- app_assoc.
    match goal with E : if w_cname b then _ else _ |- _ => rewrite Cn in E; rename E into Nm end.
    eapply (prot_next _ ps _ (PSdes (cs ++ [(s, items)]))); [exact Sh|exact A|exact Fl|reflexivity| |apply (N_sdes true); apply Forall_app; split; [assumption|constructor; [split; assumption|constructor]]|].
    + match type of H with Ok ?x = _ => assert (E : b' = x) by congruence end. rewrite E, fl_block. unfold fl. cbn. rewrite Cn. reflexivity.
    + rewrite <- snoc_cat. unfold calls_chunk at 2. cbn [fst snd]. rewrite <- !app_assoc. reflexivity.
  - (* end_sdes *) gd H. ins G. destruct G as [G|[]]. opn P G. apply fl_end in H. rewrite fl_st in H. rewrite <- app_assoc.
    rewrite <- G in On. inversion On; subst; try (match goal with E : _ \/ _ |- _ => destruct E; discriminate end).
    eapply (prot_done _ ps (PSdes cs)); [exact Sh|assumption|exact A|exact Fl|exact H|]. cbn [calls_pk]. rewrite <- ?app_assoc. reflexivity.
  - (* begin_bye *) destruct (is_st b [WTop]) eqn:G; cbn [negb orb] in H; [|discriminate]. destruct (first_ok b) eqn:Fo; [|discriminate]. cbn [negb] in H. ins G. destruct G as [G|[]].
    eapply (prot_begin cfg ops b b' WByeHead (PBye [] None)); [exact P|congruence|cbn [may]; rewrite <- Cf0; unfold first_ok in Fo; rewrite <- Fo, ?Bool.orb_assoc; reflexivity| |].
    + assert (E : b' = begin_packet (st_upd b WByeHead) (head RTCP_BYE)) by congruence. rewrite E, fl_begin, <- Cf0. unfold fl. cbn. rewrite Bool.orb_false_r. reflexivity.
    + apply N_bye0.
  - (* bye ssrc *) gd H. ins G. opn P G. apply fl_counted in H. rewrite fl_st in H. rewrite <- app_assoc.
    assert (X : exists ss, p = PBye ss None /\ o = [OBeginBye] ++ map OByeSsrc ss). { destruct G as [G|[G|[]]]; rewrite <- G in On; inversion On; subst; try (match goal with E : _ \/ _ |- _ => destruct E; discriminate end); [exists []; split; reflexivity|eauto]. }
    destruct X as (ss & -> & ->). eapply (prot_next cfg ps _ (PBye (ss ++ [ssrc]) None)); [exact Sh|exact A|exact Fl|reflexivity|rewrite H, Cf0; reflexivity|apply N_bye; intros E; destruct ss; discriminate|]. rewrite <- snoc_map, app_assoc. reflexivity.
  - (* bye reason *) destruct (is_st b [WByeSsrc]) eqn:G; cbn [negb orb] in H; [|discriminate]. destruct (Nat.ltb_spec 255 (length text)) as [Lt|Lt]; [discriminate|]. ins G. destruct G as [G|[]]. opn P G. rewrite <- app_assoc.
    rewrite <- G in On. inversion On; subst; try (match goal with E : _ \/ _ |- _ => destruct E; discriminate end).
    eapply (prot_next _ ps _ (PBye ss (Some text))); [exact Sh|exact A|exact Fl|reflexivity| |apply (N_reason (w_cname b)); assumption|].
    + match type of H with Ok ?x = _ => assert (E : b' = x) by congruence end. rewrite E, fl_block. reflexivity.
    + rewrite <- ?app_assoc. reflexivity.
  - (* end bye *) gd H. ins G. opn P G. apply fl_end in H. rewrite fl_st in H. rewrite <- app_assoc.
    destruct G as [G|[G|[]]]; rewrite <- G in On; inversion On; subst; try (match goal with E : _ \/ _ |- _ => destruct E; discriminate end).
    + eapply (prot_done _ ps (PBye ss None)); [exact Sh|split; [assumption|exact I]|exact A|exact Fl|exact H|]. cbn [calls_pk]. rewrite <- ?app_assoc. reflexivity.
    + eapply (prot_done _ ps (PBye ss (Some t))); [exact Sh|split; assumption|exact A|exact Fl|exact H|]. cbn [calls_pk]. rewrite <- ?app_assoc. reflexivity.
  - (* begin_xr *) destruct (is_st b [WTop]) eqn:G; cbn [negb orb] in H; [|discriminate]. destruct (c_xr (w_cfg b)) eqn:C; cbn [negb orb] in H; [|discriminate]. destruct (first_ok b) eqn:Fo; [|discriminate]. cbn [negb] in H. ins G. destruct G as [G|[]].
    eapply (prot_begin cfg ops b b' WXrHead (PXr ssrc [])); [exact P|congruence|cbn [may]; split; [congruence|rewrite <- Cf0; unfold first_ok in Fo; rewrite <- Fo, ?Bool.orb_assoc; reflexivity]| |].
    + assert (E : b' = begin_packet (st_upd b WXrHead) (enc_xr ssrc)) by congruence. rewrite E, fl_begin, <- Cf0. unfold fl. cbn. rewrite Bool.orb_false_r. reflexivity.
    + exact (N_xr _ ssrc []).
  - (* rrtr *) gd H. ins G. destruct G as [G|[]]. opn P G. apply fl_xblock in H. unfold fl in H at 2. rewrite <- app_assoc.
    rewrite <- G in On, H. inversion On; subst; try (match goal with E : _ \/ _ |- _ => destruct E; discriminate end).
    eapply (prot_next _ ps _ (PXr s (bs ++ [IRrtr ntp]))); [exact Sh|exact A|exact Fl|reflexivity|exact H|apply N_xr|]. rewrite <- (cat1 calls_xin bs (IRrtr ntp) _ eq_refl), <- ?app_assoc. reflexivity.
  - (* begin dlrr *) gd H. ins G. destruct G as [G|[]]. opn P G. rewrite <- app_assoc.
    assert (E : fl b' = (WDlrrHead, w_cfg b, w_sr b || w_rr b, w_cname b)).
    { cbv zeta in H. pose proof (fl_block (st_upd b WDlrrHead) (xhead XR_DLRR 0)) as E. destruct (add_block (st_upd b WDlrrHead) (xhead XR_DLRR 0)) as [b1 ok]. cbn [fst] in E. rewrite fl_st in E.
      assert (X : b' = if ok then xhdr_upd b1 (length (w_buf b)) else b1) by congruence. rewrite X. destruct ok; exact E. }
    rewrite <- G in On. inversion On; subst; try (match goal with E : _ \/ _ |- _ => destruct E; discriminate end).
    eapply (prot_next _ ps _ (PXr s bs)); [exact Sh|exact A|exact Fl|reflexivity|exact E|apply (N_dlrr WDlrrHead (w_cname b) s bs []); left; reflexivity|]. rewrite <- ?app_assoc. reflexivity.
  - (* dlrr report *) gd H. ins G. opn P G. rewrite <- app_assoc.
    assert (X : exists s bs ds, p = PXr s bs /\ o = [OBeginXr s] ++ concat (map calls_xin bs) ++ [OBeginDlrr] ++ map ODlrrReport ds). { destruct G as [G|[G|[]]]; rewrite <- G in On; inversion On; subst; eauto; match goal with E : _ \/ _ |- _ => destruct E; discriminate end. }
    destruct X as (s & bs & ds & -> & ->).
    assert (E : fl b' = (WDlrrReport, cfg, w_sr b || w_rr b, w_cname b)). { match type of H with Ok ?x = _ => assert (E : b' = x) by congruence end. rewrite E, fl_block, fl_st, Cf0. reflexivity. }
    eapply (prot_next _ ps _ (PXr s bs)); [exact Sh|exact A|exact Fl|reflexivity|exact E|apply (N_dlrr WDlrrReport (w_cname b) s bs (ds ++ [d])); right; reflexivity|]. rewrite <- snoc_map, <- ?app_assoc. reflexivity.
  - (* end dlrr *) gd H. ins G. opn P G. rewrite <- app_assoc.
    assert (X : exists s bs ds, p = PXr s bs /\ o = [OBeginXr s] ++ concat (map calls_xin bs) ++ [OBeginDlrr] ++ map ODlrrReport ds). { destruct G as [G|[G|[]]]; rewrite <- G in On; inversion On; subst; eauto; match goal with E : _ \/ _ |- _ => destruct E; discriminate end. }
    destruct X as (s & bs & ds & -> & ->).
    assert (E : fl b' = (WXrHead, cfg, w_sr b || w_rr b, w_cname b)). { rewrite <- Cf0. destruct (w_trunc b); [assert (E : b' = st_upd b WXrHead) by congruence; rewrite E; reflexivity|]. bd H. match type of H with Ok ?x = _ => assert (E : b' = x) by congruence end. rewrite E. reflexivity. }
    eapply (prot_next _ ps _ (PXr s (bs ++ [IDlrr ds]))); [exact Sh|exact A|exact Fl|reflexivity|exact E|apply N_xr|]. rewrite <- snoc_cat. cbn [calls_xin]. rewrite <- ?app_assoc. reflexivity.
  - (* measurement *) gd H. ins G. destruct G as [G|[]]. opn P G. apply fl_xblock in H. unfold fl in H at 2. rewrite <- app_assoc.
    rewrite <- G in On, H. inversion On; subst; try (match goal with E : _ \/ _ |- _ => destruct E; discriminate end).
    eapply (prot_next _ ps _ (PXr s (bs ++ [IMeas m]))); [exact Sh|exact A|exact Fl|reflexivity|exact H|apply N_xr|]. rewrite <- (cat1 calls_xin bs (IMeas m) _ eq_refl), <- ?app_assoc. reflexivity.
  - gd H. ins G. destruct G as [G|[]]. opn P G. apply fl_xblock in H. unfold fl in H at 2. rewrite <- app_assoc.
    rewrite <- G in On, H. inversion On; subst; try (match goal with E : _ \/ _ |- _ => destruct E; discriminate end).
    eapply (prot_next _ ps _ (PXr s (bs ++ [IDelay d]))); [exact Sh|exact A|exact Fl|reflexivity|exact H|apply N_xr|]. rewrite <- (cat1 calls_xin bs (IDelay d) _ eq_refl), <- ?app_assoc. reflexivity.
  - gd H. ins G. destruct G as [G|[]]. opn P G. apply fl_xblock in H. unfold fl in H at 2. rewrite <- app_assoc.
    rewrite <- G in On, H. inversion On; subst; try (match goal with E : _ \/ _ |- _ => destruct E; discriminate end).
    eapply (prot_next _ ps _ (PXr s (bs ++ [IQueue q]))); [exact Sh|exact A|exact Fl|reflexivity|exact H|apply N_xr|]. rewrite <- (cat1 calls_xin bs (IQueue q) _ eq_refl), <- ?app_assoc. reflexivity.
  - (* end_xr *) gd H. ins G. destruct G as [G|[]]. opn P G. apply fl_end in H. rewrite fl_st in H. rewrite <- app_assoc.
    rewrite <- G in On. inversion On; subst; try (match goal with E : _ \/ _ |- _ => destruct E; discriminate end).
    eapply (prot_done _ ps (PXr s bs)); [exact Sh|exact I|exact A|exact Fl|exact H|]. cbn [calls_pk]. rewrite <- ?app_assoc. reflexivity.
  - (* padding *) destruct (is_st b [WTop]) eqn:G; cbn [negb orb] in H; [|discriminate]. destruct (Nat.eqb_spec (n mod 4) 0) as [M|M]; cbn [negb orb] in H; [|discriminate].
    destruct (Nat.ltb_spec n 1) as [L1|L1]; cbn [orb] in H; [discriminate|]. destruct (Nat.ltb_spec 255 n) as [L2|L2]; [discriminate|]. ins G. destruct G as [G|[]].
    destruct P as (ps & Sh & _ & [(St & -> & A & Fl & Ne)|[(St & _)|(p' & o' & On & _)]]); [|congruence|rewrite <- G in On; inversion On; match goal with E : _ \/ _ |- _ => destruct E; discriminate end].
    assert (X : w_st b' = WLast /\ w_cfg b' = cfg /\ ps <> []).
    { destruct (w_trunc b) eqn:T.
      - assert (E : b' = st_upd b WLast) by congruence. rewrite E. split; [reflexivity|]. split; [exact Cf0|]. intros Z0. destruct (Ne Z0). congruence.
      - destruct (w_hdr b) eqn:Hd; [|discriminate]. bd H. bd H. bd H. bd H. destruct (_ <? _); match type of H with Ok ?x = _ => assert (E : b' = x) by congruence end; rewrite E; (split; [reflexivity|]; split; [exact Cf0|]; intros Z0; destruct (Ne Z0); congruence). }
    destruct X as (X1 & X2 & X3). exists ps. split; [exact Sh|]. split; [exact X2|]. right. left. split; [exact X1|]. split; [|split; assumption]. exists n. split; [unfold calls; rewrite app_nil_r; reflexivity|]. split; [exact M|lia].
Qed.
Lemma w_run_snoc b ops o : w_run b (ops ++ [o]) = (x <- w_run b ops ;; w_step x o).
Proof. rewrite run_app. destruct (w_run b ops); cbn [bind]; [apply run1|reflexivity..]. Qed.
Lemma prot_run cfg cap ops b : w_run (w_new cfg cap) ops = Ok b -> prot cfg ops b.
Proof.
  revert b. induction ops as [|o ops IH] using rev_ind; intros b H.
  - injection H as <-. exists []. split; [constructor|]. split; [reflexivity|]. left. split; [reflexivity|]. split; [reflexivity|]. split; [|split; [reflexivity|split; reflexivity]].
    split; [intros _; exact I|]. repeat split; intros _; constructor.
  - rewrite w_run_snoc in H. destruct (w_run (w_new cfg cap) ops) as [b1| |] eqn:R; cbn [bind] in H; [|discriminate..]. eapply prot_step; [apply IH; reflexivity|exact H].
Qed.
