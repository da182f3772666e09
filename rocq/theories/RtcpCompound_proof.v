From Coq Require Import Lia.
From Verif Require Import Base Base_lemmas RtcpTrav_model RtcpTrav_spec RtcpTrav_proof.
Open Scope res_scope.
Local Open Scope nat_scope.

Definition one (buf : list Z) (pos n : nat) (b0 ty : Z) : res (option view * bool) :=
  sl <- sub buf pos (pos + n) ;;
  if (ty =? RTCP_SR)%Z || (ty =? RTCP_RR)%Z then
    p <- remove_padding buf sl b0 n ;;
    match p with
    | None => Ok (None, true)
    | Some sl' =>
      ok <- (if (ty =? RTCP_SR)%Z then check_sr sl' else check_rr sl') ;;
      if ok : bool then v <- read_packet (if (ty =? RTCP_SR)%Z then TSR else TRR) sl' ;; Ok (Some v, false) else Ok (None, true)
    end
  else if (ty =? RTCP_SDES)%Z then v <- read_packet TSDES sl ;; Ok (Some v, false)
  else if (ty =? RTCP_BYE)%Z then v <- read_packet TBYE sl ;; Ok (Some v, false)
  else if (ty =? RTCP_XR)%Z then v <- read_packet TXR sl ;; Ok (Some v, false)
  else Ok (None, false).
Definition add (o : option view) (vs : list view) : list view := match o with Some v => v :: vs | None => vs end.

Inductive runs (buf : list Z) : nat -> bool -> list view -> bool -> Prop :=
| R_end pos err : pos = length buf -> runs buf pos err [] err
| R_short pos err : pos <> length buf -> length buf < pos + 4 -> runs buf pos err [] true
| R_vers pos err b0 : pos <> length buf -> pos + 4 <= length buf -> rd buf pos = Ok b0 -> version b0 <> 2%Z -> runs buf pos err [] true
| R_long pos err b0 lw : pos <> length buf -> pos + 4 <= length buf -> rd buf pos = Ok b0 -> version b0 = 2%Z ->
    r16 buf (pos + 2) = Ok lw -> length buf < pos + len_bytes lw -> runs buf pos err [] true
| R_step pos err b0 ty lw ov er vs e : pos <> length buf -> pos + 4 <= length buf -> rd buf pos = Ok b0 -> version b0 = 2%Z ->
    rd buf (pos + 1) = Ok ty -> r16 buf (pos + 2) = Ok lw -> pos + len_bytes lw <= length buf ->
    one buf pos (len_bytes lw) b0 ty = Ok (ov, er) -> runs buf (pos + len_bytes lw) (err || er) vs e -> runs buf pos err (add ov vs) e.

Ltac ok2 := repeat match goal with
  | H : rd ?b ?p = Ok ?x, H' : rd ?b ?p = Ok ?y |- _ => assert (x = y) by congruence; subst y; clear H'
  | H : r16 ?b ?p = Ok ?x, H' : r16 ?b ?p = Ok ?y |- _ => assert (x = y) by congruence; subst y; clear H'
  end.
Lemma runs_det buf pos err vs e : runs buf pos err vs e -> forall vs' e', runs buf pos err vs' e' -> vs' = vs /\ e' = e.
Proof.
  induction 1; intros vs' e' H'.
  - inversion H'; subst; try (split; reflexivity); lia.
  - inversion H'; subst; try (split; reflexivity); lia.
  - inversion H'; subst; try (split; reflexivity); try lia; ok2; congruence.
  - inversion H'; subst; try (split; reflexivity); try lia; ok2; try congruence; lia.
  - inversion H'; subst; try lia; ok2; try congruence; try lia.
    match goal with A : one _ _ _ _ _ = Ok (?o1, ?e1), B : one _ _ _ _ _ = Ok (?o2, ?e2) |- _ => assert (o1 = o2 /\ e1 = e2) as [-> ->] by (split; congruence) end.
    match goal with R : runs _ (pos + _) _ ?v ?x |- _ /\ _ => destruct (IHruns _ _ R) as [-> ->] end. split; reflexivity.
Qed.

Definition from (it : titer) : nat := match t_st it with TAt _ => t_pos it + t_len it | _ => t_pos it end.
Ltac bnd H := match type of H with bind ?r _ = Ok _ => let E := fresh "E" in destruct r eqn:E; cbn [bind] in H; [|discriminate|discriminate] end.
Lemma idx_rd l i a : idx l i = Ok a -> rd l i = Ok a.
Proof. unfold idx. destruct (length l <? i); [discriminate|auto]. Qed.
Lemma t_loop_runs buf fuel : forall pos len sl err it, pos <= length buf -> t_loop fuel buf pos len sl err = Ok it ->
  (t_st it = TEnd /\ runs buf pos err [] (t_err it)) \/
  (exists k, t_st it = TAt k /\ t_pos it + t_len it <= length buf /\ forall v vs e, read_packet k (t_slice it) = Ok v -> runs buf (t_pos it + t_len it) (t_err it) vs e -> runs buf pos err (v :: vs) e).
Proof.
  induction fuel as [|f IH]; intros pos len sl err it P H; [discriminate|]. cbn [t_loop] in H.
  destruct (Nat.eqb_spec pos (length buf)) as [Pe|Pe]; [injection H as <-; left; split; [reflexivity|apply R_end; exact Pe]|].
  destruct (Nat.ltb_spec (length buf) (pos + 4)); [injection H as <-; left; split; [reflexivity|apply R_short; assumption]|].
  bnd H. apply idx_rd in E. bnd H. bnd H. cbv zeta in H. rename a into b0, a0 into ty, a1 into lw.
  destruct (Z.eqb_spec (version b0) 2) as [Vb|Vb]; cbn [negb] in H; [|injection H as <-; left; split; [reflexivity|eapply R_vers; eassumption]].
  destruct (Nat.ltb_spec (length buf) (pos + len_bytes lw)); [injection H as <-; left; split; [reflexivity|eapply R_long; eassumption]|].
  bnd H. rename a into s.
  assert (Step : forall ov er vs e, one buf pos (len_bytes lw) b0 ty = Ok (ov, er) -> runs buf (pos + len_bytes lw) (err || er) vs e -> runs buf pos err (add ov vs) e).
  { intros. eapply R_step; try eassumption; lia. }
  assert (Skip : forall s' er, one buf pos (len_bytes lw) b0 ty = Ok (None, er) -> t_loop f buf (pos + len_bytes lw) (len_bytes lw) s' (err || er) = Ok it ->
    (t_st it = TEnd /\ runs buf pos err [] (t_err it)) \/
    (exists k, t_st it = TAt k /\ t_pos it + t_len it <= length buf /\ forall v vs e, read_packet k (t_slice it) = Ok v -> runs buf (t_pos it + t_len it) (t_err it) vs e -> runs buf pos err (v :: vs) e)).
  { intros s' er O Lp. apply IH in Lp; [|lia]. destruct Lp as [[L1 L2]|(k & L1 & L2 & L3)].
    - left. split; [exact L1|]. apply (Step None er [] _ O L2).
    - right. exists k. split; [exact L1|]. split; [exact L2|]. intros v vs e V R. apply (Step None er (v :: vs) e O). apply L3; assumption. }
  assert (At : forall k s', (forall v, read_packet k s' = Ok v -> one buf pos (len_bytes lw) b0 ty = Ok (Some v, false)) -> it = mkT (TAt k) pos (len_bytes lw) s' err ->
    (t_st it = TEnd /\ runs buf pos err [] (t_err it)) \/
    (exists k, t_st it = TAt k /\ t_pos it + t_len it <= length buf /\ forall v vs e, read_packet k (t_slice it) = Ok v -> runs buf (t_pos it + t_len it) (t_err it) vs e -> runs buf pos err (v :: vs) e)).
  { intros k s' O ->. right. exists k. split; [reflexivity|]. split; [cbn; lia|]. cbn. intros v vs e V R. apply (Step (Some v) false vs e (O v V)). rewrite Bool.orb_false_r. exact R. }
  unfold one in Step, Skip, At. rewrite E2 in Step, Skip, At. cbn [bind] in Step, Skip, At.
  destruct ((ty =? RTCP_SR)%Z || (ty =? RTCP_RR)%Z).
  - bnd H. cbn [bind] in Skip, At. destruct a as [s'|]; [|apply (Skip s true); [reflexivity|rewrite Bool.orb_true_r; exact H]].
    destruct (if (ty =? RTCP_SR)%Z then check_sr s' else check_rr s') as [ok| |]; cbn [bind] in H, Skip, At; try discriminate.
    destruct ok.
    + eapply At; [|injection H as <-; reflexivity]. intros v V. rewrite V. reflexivity.
    + apply (Skip s' true); [reflexivity|rewrite Bool.orb_true_r; exact H].
  - destruct (ty =? RTCP_SDES)%Z; [eapply At; [|injection H as <-; reflexivity]; intros v V; rewrite V; reflexivity|].
    destruct (ty =? RTCP_BYE)%Z; [eapply At; [|injection H as <-; reflexivity]; intros v V; rewrite V; reflexivity|].
    destruct (ty =? RTCP_XR)%Z; [eapply At; [|injection H as <-; reflexivity]; intros v V; rewrite V; reflexivity|].
    apply (Skip s false); [reflexivity|rewrite Bool.orb_false_r; exact H].
Qed.
Lemma t_walk_runs buf fuel : forall it vs e, t_st it <> TEnd -> from it <= length buf -> t_walk fuel buf it = Ok (vs, e) -> runs buf (from it) (t_err it) vs e.
Proof.
  induction fuel as [|f IH]; intros it vs e N P H; [discriminate|]. cbn [t_walk] in H. bnd H. rename a into it'.
  assert (L : exists n l s, t_loop n buf (from it) l s (t_err it) = Ok it').
  { destruct it as [st pos len sl err]. destruct st; cbn [t_next] in E; unfold from; cbn; [eauto|eauto|cbn in N; congruence]. }
  destruct L as (n & l & s & L). apply t_loop_runs in L; [|exact P]. destruct L as [[L1 L2]|(k & L1 & L2 & L3)]; rewrite L1 in H.
  - injection H as <- <-. exact L2.
  - bnd H. rename a into v. bnd H. destruct a as [vs' e']. injection H as <- <-. cbn. apply L3; [reflexivity|].
    assert (X : from it' = t_pos it' + t_len it') by (unfold from; rewrite L1; reflexivity).
    rewrite <- X. apply IH; [congruence|lia|exact E1].
Qed.
Lemma walk_runs buf vs e : walk buf = Ok (Some (vs, e)) -> runs buf 0 false vs e.
Proof.
  unfold walk. destruct (length buf <? 4); [discriminate|]. intros H. bnd H. destruct a as [vs' e']. injection H as <- <-. apply (t_walk_runs buf (S (length buf)) t_begin); [discriminate|cbn; lia|exact E].
Qed.

(** *** One packet, alone or inside a larger buffer *)
Lemma version_div b : byte_ok b -> version b = (b / 64)%Z.
Proof. intros B. unfold byte_ok in B. unfold version. change 3%Z with (Z.ones 2). rewrite Z.land_ones by lia. rewrite Z.shiftr_div_pow2 by lia. change (2 ^ 6)%Z with 64%Z. change (2 ^ 2)%Z with 4%Z. rewrite Z.mod_small; lia. Qed.
Lemma padding_div b : has_padding b = negb ((b / 32) mod 2 =? 0)%Z.
Proof. unfold has_padding. change 1%Z with (Z.ones 1). rewrite Z.land_ones by lia. rewrite Z.shiftr_div_pow2 by lia. reflexivity. Qed.
Lemma rd_mid (pre p r : list Z) i : i < length p -> rd (pre ++ p ++ r) (length pre + i) = rd p i.
Proof. intros H. unfold rd. rewrite nth_error_app2 by lia. replace (length pre + i - length pre) with i by lia. rewrite nth_error_app1 by lia. reflexivity. Qed.
Lemma r16_mid pre p r i : i + 2 <= length p -> r16 (pre ++ p ++ r) (length pre + i) = r16 p i.
Proof. intros H. unfold r16. rewrite rd_mid by lia. replace (length pre + i + 1) with (length pre + (i + 1)) by lia. rewrite rd_mid by lia. reflexivity. Qed.
Lemma sub_mid pre p r : sub (pre ++ p ++ r) (length pre) (length pre + length p) = Ok p.
Proof.
  rewrite sub_in by (rewrite ?app_length; lia). replace (length pre + length p - length pre) with (length p) by lia.
  rewrite skipn_app, skipn_all, Nat.sub_diag. cbn [skipn app]. rewrite firstn_app, firstn_all, Nat.sub_diag. cbn. rewrite app_nil_r. reflexivity.
Qed.
Lemma one_mid pre p r b0 ty : (pre = [] \/ has_padding b0 = false \/ ((ty =? RTCP_SR)%Z || (ty =? RTCP_RR)%Z) = false) ->
  one (pre ++ p ++ r) (length pre) (length p) b0 ty = one p 0 (length p) b0 ty.
Proof.
  intros H. unfold one. rewrite sub_mid. pose proof (sub_mid [] p []) as S0. cbn [app length] in S0. rewrite app_nil_r in S0. cbn [Nat.add] in *. rewrite S0. cbn [bind].
  assert (X : ((ty =? RTCP_SR)%Z || (ty =? RTCP_RR)%Z) = true -> remove_padding (pre ++ p ++ r) p b0 (length p) = remove_padding p p b0 (length p)).
  { intros T. unfold remove_padding. destruct (has_padding b0); [|reflexivity]. destruct H as [->|[H|H]]; [|discriminate|congruence]. cbn [app].
    unfold idx. destruct (length p <? length p - 1); [reflexivity|]. destruct (rd p (length p - 1)); try reflexivity. cbn [bind].
    destruct ((Z.to_nat a <? 1) || (length p - 4 <? Z.to_nat a)); [reflexivity|]. rewrite !sub_in by (rewrite ?app_length; lia). cbn [skipn].
    rewrite firstn_app. replace (length p - Z.to_nat a - 0 - length p) with 0 by lia. cbn [firstn]. rewrite app_nil_r. reflexivity. }
  destruct ((ty =? RTCP_SR)%Z || (ty =? RTCP_RR)%Z); [rewrite X by reflexivity|]; reflexivity.
Qed.
Lemma packet_shape p : bytes_ok p -> is_packet p -> exists b0 ty lw, rd p 0 = Ok b0 /\ rd p 1 = Ok ty /\ r16 p 2 = Ok lw /\ version b0 = 2%Z /\ length p = len_bytes lw /\ 4 <= length p.
Proof.
  intros B (b0 & ty & h & l & body & -> & V & L). exists b0, ty, (be16 h l). unfold bytes_ok in B. inversion B; subst. repeat split; try reflexivity.
  - rewrite version_div by assumption. exact V.
  - unfold len_bytes, be16. cbn [length] in *. lia.
  - cbn. lia.
Qed.
Lemma single_runs p vs e : bytes_ok p -> is_packet p -> runs p 0 false vs e -> exists b0 ty ov, rd p 0 = Ok b0 /\ rd p 1 = Ok ty /\ one p 0 (length p) b0 ty = Ok (ov, e) /\ vs = add ov [].
Proof.
  intros B I R. destruct (packet_shape p B I) as (b0 & ty & lw & E0 & E1 & E2 & V & L & G). exists b0, ty. inversion R; subst; try lia; cbn [Nat.add] in *; ok2; try congruence; try lia.
  match goal with X : runs p (len_bytes ?w) _ _ _ |- _ => rewrite <- L in X; inversion X; subst; try lia end.
  exists ov. repeat split; try assumption. rewrite L. assumption.
Qed.
Lemma bad_tail pre t err : bytes_ok t -> t <> [] -> (forall p r, t = p ++ r -> ~ is_packet p) -> runs (pre ++ t) (length pre) err [] true.
Proof.
  intros B N H. assert (0 < length t) by (destruct t; [congruence|cbn; lia]).
  assert (NE : length pre <> length (pre ++ t)) by (rewrite app_length; lia).
  destruct (Nat.ltb_spec (length t) 4); [apply R_short; [exact NE|rewrite app_length; lia]|].
  destruct t as [|b0 [|ty [|h [|l body]]]]; cbn in H1; try lia. set (t := b0 :: ty :: h :: l :: body) in *.
  assert (L4 : 4 <= length t) by (cbn; lia).
  assert (E0 : rd (pre ++ t) (length pre) = Ok b0) by (pose proof (rd_mid pre t [] 0 ltac:(lia)) as X; rewrite app_nil_r, Nat.add_0_r in X; rewrite X; reflexivity).
  assert (E2 : r16 (pre ++ t) (length pre + 2) = Ok (be16 h l)) by (pose proof (r16_mid pre t [] 2 ltac:(lia)) as X; rewrite app_nil_r in X; rewrite X; reflexivity).
  assert (Bs : byte_ok b0 /\ byte_ok h /\ byte_ok l) by (unfold bytes_ok, t in B; rewrite !Forall_cons_iff in B; tauto). destruct Bs as (Bb & Bh & Bl).
  destruct (Z.eq_dec (version b0) 2) as [V|V]; [|eapply R_vers; [exact NE|rewrite app_length; lia|exact E0|exact V]].
  eapply R_long; [exact NE|rewrite app_length; lia|exact E0|exact V|exact E2|]. rewrite app_length.
  destruct (Nat.lt_ge_cases (length t) (len_bytes (be16 h l))) as [Lt|Ge]; [lia|]. exfalso.
  assert (G4 : 4 <= len_bytes (be16 h l)) by (apply len_bytes_ge; unfold be16, byte_ok in *; lia).
  apply (H (firstn (len_bytes (be16 h l)) t) (skipn (len_bytes (be16 h l)) t)); [symmetry; apply firstn_skipn|].
  assert (Lf : length (firstn (len_bytes (be16 h l)) t) = len_bytes (be16 h l)) by (rewrite firstn_length; lia).
  destruct (len_bytes (be16 h l)) as [|[|[|[|n]]]] eqn:Ln; try lia.
  exists b0, ty, h, l, (firstn n body). split; [reflexivity|]. split; [rewrite <- version_div by exact Bb; exact V|].
  rewrite Lf, <- Ln. unfold len_bytes, be16, byte_ok in *. lia.
Qed.

Fixpoint anyb (l : list bool) : bool := match l with [] => false | b :: r => b || anyb r end.
Lemma layout_runs t ps e : layout t ps e -> forall pre err rs, bytes_ok t ->
  Forall2 (fun p r => walk p = Ok (Some r)) ps rs ->
  (pre = [] \/ Forall (fun p => ~ padded_report p) ps) -> Forall (fun p => ~ padded_report p) (tl ps) ->
  runs (pre ++ t) (length pre) err (concat (map fst rs)) (err || (e || anyb (map snd rs))).
Proof.
  induction 1 as [|t N Bad|p t ps e Ip Ly IH]; intros pre err rs B W P1 P2.
  - inversion W; subst. cbn. rewrite Bool.orb_false_r, app_nil_r. apply R_end. reflexivity.
  - inversion W; subst. cbn. rewrite Bool.orb_true_r. apply bad_tail; assumption.
  - inversion W as [|? [vs ep] ? rs' Wp Wr]; subst. cbn [map concat fst snd anyb].
    assert (Bp : bytes_ok p /\ bytes_ok t) by (unfold bytes_ok in *; apply Forall_app; exact B). destruct Bp as [Bp Bt].
    pose proof (walk_runs _ _ _ Wp) as Rp. destruct (single_runs p vs ep Bp Ip Rp) as (b0 & ty & ov & E0 & E1 & O & ->).
    destruct (packet_shape p Bp Ip) as (b0' & ty' & lw & E0' & E1' & E2 & V & L & G). ok2.
    replace (concat (add ov [] :: map fst rs')) with (add ov (concat (map fst rs'))) by (destruct ov; reflexivity).
    replace (add ov [] ++ concat (map fst rs')) with (add ov (concat (map fst rs'))) by (destruct ov; reflexivity).
    eapply (R_step _ _ _ b0 ty lw ov ep).
    + rewrite !app_length. lia.
    + rewrite !app_length. lia.
    + pose proof (rd_mid pre p t 0 ltac:(lia)) as X. rewrite Nat.add_0_r in X. rewrite X. exact E0.
    + exact V.
    + rewrite rd_mid by lia. exact E1.
    + rewrite r16_mid by lia. exact E2.
    + rewrite !app_length. lia.
    + rewrite <- L. rewrite one_mid; [exact O|]. destruct P1 as [->|P1]; [left; reflexivity|]. right. inversion P1; subst.
      destruct (has_padding b0) eqn:Pad; [|left; reflexivity]. right. destruct ((ty =? RTCP_SR)%Z || (ty =? RTCP_RR)%Z) eqn:T; [|reflexivity]. exfalso.
      match goal with X : ~ padded_report p |- _ => apply X end. destruct Ip as (c0 & cty & h & l & body & -> & _). injection E0 as <-. injection E1 as <-.
      exists c0, cty, (h :: l :: body). split; [reflexivity|]. split.
      * apply Bool.orb_true_iff in T. destruct T as [T|T]; apply Z.eqb_eq in T; [left|right]; exact T.
      * rewrite padding_div in Pad. destruct (Z.eqb_spec ((c0 / 32) mod 2) 0); [discriminate|]. lia.
    + replace (pre ++ p ++ t) with ((pre ++ p) ++ t) by (rewrite app_assoc; reflexivity). replace (length pre + len_bytes lw) with (length (pre ++ p)) by (rewrite app_length; lia).
      replace (err || (e || (ep || anyb (map snd rs')))) with ((err || ep) || (e || anyb (map snd rs'))) by (destruct err, ep, e; reflexivity).
      apply IH; [exact Bt|exact Wr|right; exact P2|]. destruct ps; [constructor|]. cbn in P2 |- *. inversion P2; assumption.
Qed.
