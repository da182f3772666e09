From Coq Require Import Lia.
From Verif Require Import Base Base_lemmas FecWriter_model FecWriter_spec.
Open Scope res_scope.
Local Open Scope Z_scope.

Lemma f_run_snoc w cs c : f_run w (cs ++ [c]) = (a <- f_run w cs ;; b <- f_call (fst a) c ;; Ok (fst b, snd a ++ snd b)).
Proof.
  revert w. induction cs as [|d cs IH]; intros w; cbn [app f_run].
  - cbn [bind fst snd]. destruct (f_call w c) as [[x y]| |]; cbn [bind fst snd app]; rewrite ?app_nil_r; reflexivity.
  - destruct (f_call w d) as [[x y]| |]; cbn [bind fst snd]; [|reflexivity..]. rewrite IH. destruct (f_run x cs) as [[x1 y1]| |]; cbn [bind fst snd]; [|reflexivity..].
    destruct (f_call x1 c) as [[x2 y2]| |]; cbn [bind fst snd]; [|reflexivity..]. rewrite app_assoc. reflexivity.
Qed.
Fixpoint effect (mx s r : Z) (cs : list wcall) : Z * Z :=
  match cs with
  | [] => (s, r)
  | CWrite _ _ :: cs => effect mx s r cs
  | CResize s' r' :: cs => if accepted mx s' r' then effect mx s' r' cs else effect mx s r cs
  end.
Lemma written_snoc mx s r cs c : written mx s r (cs ++ [c]) = written mx s r cs ++ match c with CWrite p _ => [(p, effect mx s r cs)] | _ => [] end.
Proof.
  revert s r. induction cs as [|d cs IH]; intros s r; cbn [app written effect].
  - destruct c as [p v|s' r']; [reflexivity|]. destruct (accepted mx s' r'); reflexivity.
  - destruct d as [p v|s' r']; [rewrite IH; reflexivity|]. destruct (accepted mx s' r'); apply IH.
Qed.
Lemma effect_snoc mx s r cs c : effect mx s r (cs ++ [c]) = match c with CWrite _ _ => effect mx s r cs | CResize s' r' => if accepted mx s' r' then (s', r') else effect mx s r cs end.
Proof.
  revert s r. induction cs as [|d cs IH]; intros s r; cbn [app effect].
  - destruct c as [p v|s' r']; [reflexivity|]. destruct (accepted mx s' r'); reflexivity.
  - destruct d as [p v|s' r']; [apply IH|]. destruct (accepted mx s' r'); apply IH.
Qed.
Lemma parts_more bs l rest x : parts bs l rest -> parts bs (l ++ x) (rest ++ x).
Proof. induction 1; [constructor|]. rewrite <- app_assoc. constructor; assumption. Qed.
Lemma parts_close bs l l1 l2 b : parts bs l (l1 ++ l2) -> block_of b l1 -> parts (bs ++ [b]) l l2.
Proof.
  intros P B. remember (l1 ++ l2) as rest eqn:E. revert E. induction P as [l|c k1 k2 rest bs K P IH]; intros E.
  - subst l. cbn [app]. constructor; [exact B|constructor].
  - cbn [app]. constructor; [exact K|]. apply IH, E.
Qed.
Lemma blocks_snoc sbn bs b : 0 <= sbn < 2 ^ 16 -> blocks sbn (bs ++ [b]) = blocks sbn bs ++ whole b (number sbn (length bs)).
Proof.
  revert sbn. induction bs as [|c bs IH]; intros sbn R; cbn [app blocks length].
  - unfold number. cbn [Z.of_nat]. rewrite Z.add_0_r, Z.mod_small by exact R. rewrite app_nil_r. reflexivity.
  - rewrite IH by (apply Z.mod_pos_bound; reflexivity). rewrite <- app_assoc. do 3 f_equal. unfold number. rewrite Zplus_mod_idemp_l. f_equal. lia.
Qed.
Lemma number_S sbn n : u16 (number sbn n + 1) = number sbn (S n).
Proof. unfold number, u16, wrapu. rewrite Zplus_mod_idemp_l. f_equal. lia. Qed.
Lemma sources_snoc b sbn ids x : forall i, sources b sbn i (ids ++ [x]) = sources b sbn i ids ++ [ESet (Z.of_nat (i + length ids)) (Src x); EOut (Src x) (tagk b sbn (i + length ids))].
Proof.
  induction ids as [|y ids IH]; intros i; cbn [app sources length].
  - rewrite Nat.add_0_r. reflexivity.
  - rewrite IH. replace (i + S (length ids))%nat with (S i + length ids)%nat by lia. reflexivity.
Qed.
(** the sources do not depend on the other fields *)
Lemma sources_same b c sbn i ids : k_s b = k_s c -> k_r b = k_r c -> sources b sbn i ids = sources c sbn i ids.
Proof. intros E1 E2. revert i. induction ids as [|x ids IH]; intros i; cbn [sources]; [reflexivity|]. rewrite IH. unfold tagk. rewrite E1, E2. reflexivity. Qed.

(** *** Closing a block *)
Definition made (w : fwr) (v : wenv) (i : nat) : option (sym * ftag) := if v_make v i then Some (Rep i, tag w (u16 (u16 (f_cs w) + u16 (Z.of_nat i)))) else None.
Lemma make_spec w v : forall n k, (forall i, (k <= i < k + n)%nat -> v_make v i = true -> v_valid v i = true) -> forall pre, length pre = k ->
  make_repair w v (pre ++ repeat None n) (seq k n) = Ok (pre ++ map (made w v) (seq k n)).
Proof.
  induction n as [|n IH]; intros k V pre L; cbn [seq make_repair repeat map]; [reflexivity|].
  assert (X : forall z, pre ++ z :: repeat None n = (pre ++ [z]) ++ repeat None n) by (intros z; rewrite <- app_assoc; reflexivity).
  unfold made at 1. destruct (v_make v k) eqn:M.
  - rewrite (V k) by (lia || exact M). unfold wr. rewrite app_length. cbn [length]. destruct (Nat.ltb_spec k (length pre + S (length (repeat (@None (sym * ftag)) n)))); [|lia]. cbn [bind].
    rewrite <- L. rewrite upd_app_r by lia. rewrite Nat.sub_diag. cbn [upd]. rewrite X, L. rewrite IH; [rewrite <- app_assoc; reflexivity|intros i Hi; apply V; lia|rewrite app_length; cbn; lia].
  - rewrite X. rewrite IH; [rewrite <- app_assoc; reflexivity|intros i Hi; apply V; lia|rewrite app_length; cbn; lia].
Qed.
Lemma make_valid w v : forall n k pre l, length pre = k -> make_repair w v (pre ++ repeat None n) (seq k n) = Ok l -> forall i, (k <= i < k + n)%nat -> v_make v i = true -> v_valid v i = true.
Proof.
  induction n as [|n IH]; intros k pre l L H i Hi M; [lia|]. cbn [seq make_repair repeat] in H.
  assert (X : forall z, pre ++ z :: repeat None n = (pre ++ [z]) ++ repeat None n) by (intros z; rewrite <- app_assoc; reflexivity).
  destruct (v_make v k) eqn:Mk.
  - destruct (v_valid v k) eqn:Vk; [|discriminate]. unfold wr in H. rewrite app_length in H. cbn [length] in H. destruct (Nat.ltb_spec k (length pre + S (length (repeat (@None (sym * ftag)) n)))); [|lia]. cbn [bind] in H.
    rewrite <- L in H at 1. rewrite upd_app_r in H by lia. rewrite L, Nat.sub_diag in H. cbn [upd] in H. rewrite X in H. destruct (Nat.eq_dec i k) as [-> |Ne]; [exact Vk|].
    eapply IH; [|exact H| |exact M]; [rewrite app_length; cbn; lia|lia].
  - destruct (Nat.eq_dec i k) as [-> |Ne]; [congruence|]. rewrite X in H. eapply IH; [|exact H| |exact M]; [rewrite app_length; cbn; lia|lia].
Qed.
Lemma rd_made w v n i : (i < n)%nat -> rd (map (made w v) (seq 0 n)) i = Ok (made w v i).
Proof. intros H. unfold rd. rewrite nth_error_map. rewrite (nth_error_nth' _ 0%nat) by (rewrite seq_length; exact H). rewrite seq_nth by exact H. reflexivity. Qed.
Lemma encode_spec w v n : forall m k, (k + m = n)%nat -> encode_repair w (map (made w v) (seq 0 n)) (seq k m) =
  Ok (map (fun i => ESet (u64 (f_cs w + Z.of_nat i)) (Rep i)) (filter (v_make v) (seq k m)) ++ [EFill]).
Proof.
  induction m as [|m IH]; intros k E; cbn [seq encode_repair filter map app]; [reflexivity|]. rewrite rd_made by lia. cbn [bind]. rewrite IH by lia. cbn [bind]. unfold made at 1. destruct (v_make v k); reflexivity.
Qed.
Lemma compose_spec w v n : forall m k, (k + m = n)%nat -> (forall i, v_make v i = true -> v_rcompose v i = true) -> compose_repair v (map (made w v) (seq 0 n)) (seq k m) = Ok tt.
Proof.
  induction m as [|m IH]; intros k E C; cbn [seq compose_repair]; [reflexivity|]. rewrite rd_made by lia. cbn [bind]. unfold made at 1. destruct (v_make v k) eqn:M; [rewrite (C k M)|]; apply IH; (lia || exact C).
Qed.
Lemma write_spec w v : forall m k pre, length pre = k ->
  write_repair v (pre ++ map (made w v) (seq k m)) (seq k m) =
  if forallb (fun i => implb (v_make v i) (v_rwrite v i)) (seq k m)
  then Ok (pre ++ repeat None m, map (fun i => EOut (Rep i) (tag w (u16 (u16 (f_cs w) + u16 (Z.of_nat i))))) (filter (v_make v) (seq k m))) else Panic.
Proof.
  induction m as [|m IH]; intros k pre L; cbn [seq write_repair forallb filter map repeat]; [reflexivity|].
  assert (R : rd (pre ++ made w v k :: map (made w v) (seq (S k) m)) k = Ok (made w v k)).
  { unfold rd. rewrite nth_error_app2 by lia. rewrite L, Nat.sub_diag. reflexivity. }
  rewrite R. cbn [bind]. assert (X : forall z (t : list (option (sym * ftag))), pre ++ z :: t = (pre ++ [z]) ++ t) by (intros z t; rewrite <- app_assoc; reflexivity).
  unfold made at 1. destruct (v_make v k) eqn:M; cbn [implb andb].
  - destruct (v_rwrite v k); cbn [andb]; [|reflexivity]. unfold wr. rewrite app_length. cbn [length]. destruct (Nat.ltb_spec k (length pre + S (length (map (made w v) (seq (S k) m))))); [|lia]. cbn [bind].
    rewrite <- L at 1. rewrite upd_app_r by lia. rewrite L, Nat.sub_diag. cbn [upd]. rewrite X, IH by (rewrite app_length; cbn; lia).
    destruct (forallb _ (seq (S k) m)); cbn [bind fst snd]; [|reflexivity]. rewrite <- app_assoc. reflexivity.
  - unfold made at 1. rewrite M. rewrite X, IH by (rewrite app_length; cbn; lia). destruct (forallb _ (seq (S k) m)); [|reflexivity]. rewrite <- app_assoc. reflexivity.
Qed.
Definition close_tags (w : fwr) (is : list nat) : list wev :=
  map (fun i => ESet (u64 (f_cs w + Z.of_nat i)) (Rep i)) is ++ [EFill] ++ map (fun i => EOut (Rep i) (tag w (u16 (u16 (f_cs w) + u16 (Z.of_nat i))))) is ++ [EEnd].
Lemma end_spec w v r es w' : f_block w = repeat None (Z.to_nat (f_cr w)) -> r = end_block w v -> r = Ok (w', es) ->
  w' = w /\ es = close_tags w (filter (v_make v) (seq 0 (Z.to_nat (f_cr w)))).
Proof.
  intros B -> H. unfold end_block in H. rewrite B in H. set (n := Z.to_nat (f_cr w)) in *.
  destruct (make_repair w v (repeat None n) (seq 0 n)) as [l| |] eqn:Mk; cbn [bind] in H; [|discriminate..].
  pose proof (make_spec w v n 0 (fun i Hi M => make_valid w v n 0 [] l eq_refl Mk i Hi M) [] eq_refl) as Ms. cbn [app] in Ms. rewrite Mk in Ms. assert (l = map (made w v) (seq 0 n)) by congruence. subst l.
  rewrite (encode_spec w v n n 0 eq_refl) in H. cbn [bind] in H. destruct (compose_repair _ _ _); cbn [bind] in H; [|discriminate..].
  pose proof (write_spec w v n 0 [] eq_refl) as Ws. cbn [app] in Ws. rewrite Ws in H. destruct (forallb _ _); cbn [bind fst snd] in H; [|discriminate].
  injection H as <- <-. split; [rewrite <- B; destruct w; reflexivity|]. unfold close_tags. rewrite <- !app_assoc. reflexivity.
Qed.
Lemma end_calm w v : f_block w = repeat None (Z.to_nat (f_cr w)) -> calm v -> end_block w v = Ok (w, close_tags w (seq 0 (Z.to_nat (f_cr w)))).
Proof.
  intros B (_ & _ & _ & _ & C1 & C2 & C3 & C4). unfold end_block. rewrite B. set (n := Z.to_nat (f_cr w)) in *.
  pose proof (make_spec w v n 0 (fun i Hi M => C2 i) [] eq_refl) as Ms. cbn [app] in Ms. rewrite Ms. cbn [bind]. rewrite (encode_spec w v n n 0 eq_refl). cbn [bind]. rewrite (compose_spec w v n n 0 eq_refl) by (intros; apply C3). cbn [bind].
  pose proof (write_spec w v n 0 [] eq_refl) as Ws. cbn [app] in Ws. rewrite Ws.
  assert (F : forallb (fun i => implb (v_make v i) (v_rwrite v i)) (seq 0 n) = true) by (apply forallb_forall; intros i _; rewrite C4; destruct (v_make v i); reflexivity). rewrite F. cbn [bind fst snd].
  assert (G : filter (v_make v) (seq 0 n) = seq 0 n). { clear - C1. generalize 0%nat. induction n as [|n IH]; intros k; cbn [seq filter]; [reflexivity|]. rewrite C1, IH. reflexivity. }
  rewrite G. unfold blk_upd. rewrite <- B. destruct w; cbn. unfold close_tags. rewrite <- !app_assoc. reflexivity.
Qed.

(** *** The invariant *)
Definition all_made (bs : list block) : Prop := Forall (fun b => k_made b = seq 0 (k_r b)) bs.
Definition open_in (mx : Z) (w : fwr) (b : block) (l : list (wpk * (Z * Z))) : Prop :=
  block_of b l /\ part_ok mx b /\ f_cur w = Z.of_nat (length l) /\ f_cs w = Z.of_nat (k_s b) /\ f_cr w = Z.of_nat (k_r b) /\ f_pay w = k_pay b /\ f_block w = repeat None (k_r b).
Record inv (mx s r sbn : Z) (cs : list wcall) (w : fwr) (es : list wev) : Prop := mkInv {
  i_valid : f_valid w = true; i_max : f_max w = mx; i_eff : effect mx s r cs = (f_ns w, f_nr w); i_nr : 0 <= f_nr w; i_acc : accepted mx (f_ns w) (f_nr w) = true;
  i_str : exists bs, Forall (whole_ok mx) bs /\ (Forall calm (envs cs) -> all_made bs) /\
    ((f_alive w = true /\ f_sbn w = number sbn (length bs) /\ f_cur w = 0 /\ f_block w = repeat None (length (f_block w)) /\ parts bs (written mx s r cs) [] /\ es = blocks sbn bs) \/
     (f_alive w = true /\ f_sbn w = number sbn (length bs) /\ exists b l, open_in mx w b l /\ parts bs (written mx s r cs) l /\ es = blocks sbn bs ++ opening b (number sbn (length bs))) \/
     (f_alive w = false /\ exists rest tl, parts bs (written mx s r cs) rest /\ es = blocks sbn bs ++ tl /\ tail_ok mx (number sbn (length bs)) false tl rest)) }.

Lemma envs_snoc cs c : Forall calm (envs (cs ++ [c])) -> Forall calm (envs cs) /\ match c with CWrite _ v => calm v | _ => True end.
Proof. unfold envs. rewrite flat_map_app. intros H. apply Forall_app in H. destruct H as [H1 H2]. split; [exact H1|]. destruct c; [|exact I]. cbn in H2. inversion H2; assumption. Qed.
Lemma acc_spec mx s r : accepted mx s r = true <-> 0 < s /\ s + r <= mx.
Proof. unfold accepted. lia. Qed.
Lemma dead_more mx sbn tl rest x : tail_ok mx sbn false tl rest -> tail_ok mx sbn false tl (rest ++ x).
Proof.
  intros H. inversion H; subst; [constructor; discriminate|constructor; reflexivity|]. rewrite <- app_assoc. constructor; [assumption..|discriminate].
Qed.
Lemma block_snoc b l p z : block_of b l -> q_size p = k_pay b -> block_of (mkBlock (k_s b) (k_r b) (k_pay b) (k_src b ++ [q_id p]) (k_made b)) (l ++ [(p, z)]).
Proof.
  destruct l as [|[p0 [s r]] l]; [contradiction|]. cbn [block_of app]. intros (A & B & C & D & E & F) S0. cbn [k_s k_r k_pay k_src]. repeat split; try assumption.
  - rewrite E. cbn [map fst]. rewrite map_app. reflexivity.
  - change ((p0, (s, r)) :: l ++ [(p, z)]) with (((p0, (s, r)) :: l) ++ [(p, z)]). apply Forall_app. split; [exact F|]. constructor; [exact S0|constructor].
Qed.
Lemma rep_resize (l : list (option (sym * ftag))) n : l = repeat None (length l) -> resize_block l n = repeat None n.
Proof.
  intros ->. unfold resize_block. rewrite repeat_length. set (m := length l). clearbody m. clear l. revert m. induction n as [|n IH]; intros m; [reflexivity|]. destruct m as [|m]; cbn [repeat firstn app Nat.sub]; [reflexivity|]. f_equal. apply IH.
Qed.
(** the packet is put in a block *)
Lemma put_packet mx s r sbn cs p v bs w b l es0 es1 w' es :
  mx <= 2 ^ 16 -> 0 <= sbn < 2 ^ 16 ->
  f_valid w = true -> f_max w = mx -> effect mx s r cs = (f_ns w, f_nr w) -> 0 <= f_nr w -> accepted mx (f_ns w) (f_nr w) = true -> Forall (whole_ok mx) bs -> (Forall calm (envs cs) -> all_made bs) ->
  f_alive w = true -> f_sbn w = number sbn (length bs) ->
  parts bs (written mx s r (cs ++ [CWrite p v])) (l ++ [(p, (f_ns w, f_nr w))]) ->
  block_of (mkBlock (k_s b) (k_r b) (k_pay b) (k_src b ++ [q_id p]) []) (l ++ [(p, (f_ns w, f_nr w))]) ->
  f_cur w = Z.of_nat (length l) -> (length l < k_s b)%nat -> length (k_src b) = length l -> Z.of_nat (k_s b + k_r b) <= mx ->
  f_cs w = Z.of_nat (k_s b) -> f_cr w = Z.of_nat (k_r b) -> f_pay w = k_pay b -> f_block w = repeat None (k_r b) ->
  es0 ++ es1 = blocks sbn bs ++ [EBegin (Z.of_nat (k_s b)) (Z.of_nat (k_r b)) (k_pay b)] ++ sources b (number sbn (length bs)) 0 (k_src b) ->
  (es2 <- write_source w p v ;;
   if f_cur (cur_upd w (u64 (f_cur w + 1))) =? f_cs (cur_upd w (u64 (f_cur w + 1))) then
     q <- end_block (cur_upd w (u64 (f_cur w + 1))) v ;; Ok (next_block (fst q), es1 ++ es2 ++ snd q)
   else Ok (cur_upd w (u64 (f_cur w + 1)), es1 ++ es2)) = Ok (w', es) ->
  inv mx s r sbn (cs ++ [CWrite p v]) w' (es0 ++ es).
Proof.
  intros Mx Sb V Mm Ef Nr Ac Wh Cm Al Sn Pt Bo Cu Lt Ls Le Es Er Ep Eb E0 H.
  assert (L16 : Z.of_nat (length l) < 2 ^ 16) by lia. assert (U1 : u64 (f_cur w + 1) = Z.of_nat (S (length l))) by (rewrite Cu; unfold u64, wrapu; rewrite Z.mod_small; lia).
  rewrite U1 in H. unfold write_source in H. destruct (v_compose v); [|discriminate]. destruct (v_write v); [|discriminate]. cbn [negb bind] in H.
  set (sb := number sbn (length bs)) in *. set (b1 := mkBlock (k_s b) (k_r b) (k_pay b) (k_src b ++ [q_id p]) []) in *.
  assert (Eo : es0 ++ es1 ++ [ESet (f_cur w) (Src (q_id p)); EOut (Src (q_id p)) (tag w (u16 (f_cur w)))] = blocks sbn bs ++ opening b1 sb).
  { rewrite app_assoc, E0, <- !app_assoc. f_equal. unfold opening. cbn [k_s k_r k_pay k_src b1]. f_equal. rewrite (sources_same b1 b) by reflexivity. rewrite sources_snoc. f_equal. rewrite Ls, Cu. cbn [Nat.add]. unfold tag, tagk. rewrite Es, Er, Sn.
    replace (u16 (Z.of_nat (length l))) with (Z.of_nat (length l)) by (unfold u16, wrapu; rewrite Z.mod_small; lia).
    replace (u64 (Z.of_nat (k_s b) + Z.of_nat (k_r b))) with (Z.of_nat (k_s b + k_r b)) by (unfold u64, wrapu; rewrite Z.mod_small; lia). reflexivity. }
  cbn [f_cur f_cs cur_upd] in H. rewrite Es in H. destruct (Z.eqb_spec (Z.of_nat (S (length l))) (Z.of_nat (k_s b))) as [E|E].
  - destruct (end_block (cur_upd w (Z.of_nat (S (length l)))) v) as [[w1 q]| |] eqn:En; cbn [bind fst snd] in H; [|discriminate..].
    assert (Bk : f_block (cur_upd w (Z.of_nat (S (length l)))) = repeat None (Z.to_nat (f_cr (cur_upd w (Z.of_nat (S (length l))))))) by (cbn [f_block f_cr cur_upd]; rewrite Er, Nat2Z.id; exact Eb).
    destruct (end_spec _ v _ _ _ Bk (eq_sym En) eq_refl) as [-> ->]. cbn [f_cr cur_upd] in H. rewrite Er, Nat2Z.id in H.
    assert (Ew : w' = next_block (cur_upd w (Z.of_nat (S (length l))))) by congruence. rewrite Ew. match type of H with Ok (_, ?x) = _ => assert (Ee : es = x) by congruence end. rewrite Ee. clear H Ew Ee w' es.
    set (fs := filter (v_make v) (seq 0 (k_r b))). set (b2 := mkBlock (k_s b) (k_r b) (k_pay b) (k_src b ++ [q_id p]) fs).
    constructor; cbn [f_valid f_max f_ns f_nr next_block cur_upd]; try assumption; [rewrite effect_snoc; assumption|].
    exists (bs ++ [b2]). split; [apply Forall_app; split; [exact Wh|]; constructor; [|constructor]|].
    { unfold whole_ok. cbn [k_s k_r k_src k_made b2]. rewrite app_length. cbn [length]. split; [lia|]. split; [exact Le|]. split; [lia|]. exists (v_make v). reflexivity. }
    split.
    { intros X. apply envs_snoc in X. destruct X as [X1 (_ & _ & _ & _ & X2 & _)]. apply Forall_app. split; [apply Cm, X1|]. constructor; [|constructor]. cbn [k_made k_r b2]. unfold fs. clear - X2. generalize 0%nat. induction (k_r b) as [|n IH]; intros k; cbn [seq filter]; [reflexivity|]. rewrite X2, IH. reflexivity. }
    left. cbn [f_alive f_sbn f_cur f_block next_block cur_upd]. split; [exact Al|]. split; [rewrite Sn, app_length, Nat.add_1_r; apply number_S|]. split; [reflexivity|]. split; [rewrite Eb, repeat_length; reflexivity|]. split.
    + apply (parts_close _ _ (l ++ [(p, (f_ns w, f_nr w))]) []); [rewrite app_nil_r; exact Pt|]. destruct (l ++ [(p, (f_ns w, f_nr w))]) as [|[p0 [s0 r0]] l0]; [contradiction|exact Bo].
    + rewrite blocks_snoc by exact Sb. fold sb. rewrite (app_assoc es1), (app_assoc es0), Eo. unfold whole. rewrite <- !app_assoc. f_equal. change (opening b2 sb) with ([EBegin (Z.of_nat (k_s b2)) (Z.of_nat (k_r b2)) (k_pay b2)] ++ sources b2 sb 0 (k_src b2)).
      change (opening b1 sb) with ([EBegin (Z.of_nat (k_s b2)) (Z.of_nat (k_r b2)) (k_pay b2)] ++ sources b1 sb 0 (k_src b2)). rewrite (sources_same b1 b2) by reflexivity. f_equal.
      unfold close_tags, closing. cbn [k_made k_s b2].
      assert (In1 : forall i, In i fs -> (i < k_r b)%nat) by (intros i I; unfold fs in I; apply filter_In in I; destruct I as [I _]; apply in_seq in I; lia).
      assert (M1 : map (fun i => ESet (u64 (f_cs (cur_upd w (Z.of_nat (S (length l)))) + Z.of_nat i)) (Rep i)) fs = map (fun i => ESet (Z.of_nat (k_s b + i)) (Rep i)) fs).
      { apply map_ext_in. intros i I. apply In1 in I. cbn [f_cs cur_upd]. rewrite Es. unfold u64, wrapu. rewrite Z.mod_small by lia. f_equal. lia. }
      assert (M2 : map (fun i => EOut (Rep i) (tag (cur_upd w (Z.of_nat (S (length l)))) (u16 (u16 (f_cs (cur_upd w (Z.of_nat (S (length l))))) + u16 (Z.of_nat i))))) fs = map (fun i => EOut (Rep i) (tagk b2 sb (k_s b + i))) fs).
      { apply map_ext_in. intros i I. apply In1 in I. f_equal. unfold tag, tagk. cbn [f_cs f_cr f_sbn cur_upd k_s k_r b2]. rewrite Es, Er, Sn. f_equal.
        - unfold u16, wrapu. rewrite <- Zplus_mod. rewrite Z.mod_small by lia. lia.
        - unfold u64, wrapu. rewrite Z.mod_small by lia. lia. }
      rewrite M1, M2. reflexivity.
  - assert (Ew : w' = cur_upd w (Z.of_nat (S (length l)))) by congruence. rewrite Ew. match type of H with Ok (_, ?x) = _ => assert (Ee : es = x) by congruence end. rewrite Ee. clear H Ew Ee w' es.
    constructor; cbn [f_valid f_max f_ns f_nr cur_upd]; try assumption; [rewrite effect_snoc; assumption|]. exists bs. split; [exact Wh|]. split; [intros X; apply envs_snoc in X; apply Cm, X|].
    right. left. cbn [f_alive f_sbn cur_upd]. split; [exact Al|]. split; [exact Sn|]. exists b1, (l ++ [(p, (f_ns w, f_nr w))]). split; [|split; [exact Pt|exact Eo]].
    split; [exact Bo|]. split; [split; [|exact Le]; cbn [k_src k_s b1]; rewrite app_length; cbn [length]; lia|]. cbn [f_cur f_cs f_cr f_pay f_block cur_upd]. rewrite app_length. cbn [length]. split; [lia|]. split; [exact Es|]. split; [exact Er|]. split; [exact Ep|exact Eb].
Qed.
Lemma step_inv mx s r sbn cs w es c w' es' : mx <= 2 ^ 16 -> 0 <= sbn < 2 ^ 16 -> in_range c -> inv mx s r sbn cs w es -> f_call w c = Ok (w', es') -> inv mx s r sbn (cs ++ [c]) w' (es ++ es').
Proof.
  intros Mx Sb Rg [V Mm Ef Nr Ac (bs & Wh & Cm & St)] H. destruct c as [p v|s' r']; cbn [f_call] in H.
  - unfold f_write in H. rewrite V in H. cbn [negb] in H. destruct St as [(Al & Sn & Cu & Bk & Pt & ->)|[(Al & Sn & b & l & (Bo & (Po1 & Po2) & Cu & Es & Er & Ep & Eb) & Pt & ->)|(Al & rest & tl & Pt & -> & Tl)]]; rewrite Al in H; cbn [negb] in H.
    + destruct (check_packet w p); [|discriminate]. cbn [negb] in H. change (f_cur (first_upd w)) with (f_cur w) in H. rewrite Cu in H. cbn [Z.eqb] in H.
      unfold begin_block, apply_sizes in H. cbn [f_ns f_nr f_block first_upd f_cs f_cr f_pay f_first f_sbn f_rsn f_cur f_scheme f_max f_valid f_alive] in H.
      assert (Pt' : parts bs (written mx s r (cs ++ [CWrite p v])) [(p, (f_ns w, f_nr w))]) by (rewrite written_snoc, Ef; exact (parts_more _ _ _ _ Pt)).
      assert (Dead : forall w1, f_valid w1 = true -> f_max w1 = mx -> f_ns w1 = f_ns w -> f_nr w1 = f_nr w -> f_alive w1 = false -> forall tl, tail_ok mx (number sbn (length bs)) false tl [(p, (f_ns w, f_nr w))] -> inv mx s r sbn (cs ++ [CWrite p v]) w1 (blocks sbn bs ++ tl)).
      { intros w1 V1 M1 N1 R1 A1 tl Tl. constructor; rewrite ?N1, ?R1; try assumption; [rewrite effect_snoc; assumption|]. exists bs. split; [exact Wh|]. split; [intros X; apply envs_snoc in X; apply Cm, X|]. right. right. split; [exact A1|]. exists [(p, (f_ns w, f_nr w))], tl. split; [exact Pt'|]. split; [reflexivity|exact Tl]. }
      destruct (Z.eqb_spec (q_size p) 0) as [Z0|Z0].
      { cbn [negb] in H. assert (Ew : w' = kill (first_upd w)) by congruence. assert (Ee : es' = []) by congruence. rewrite Ew, Ee. apply Dead; try reflexivity; try assumption. constructor. discriminate. }
      destruct (negb (Z.of_nat (length (f_block w)) =? f_nr w) && negb (v_alloc v)) eqn:Fa.
      { cbn [negb] in H. assert (Ew : w' = kill (first_upd w)) by congruence. assert (Ee : es' = []) by congruence. rewrite Ew, Ee. apply Dead; try reflexivity; try assumption. constructor. discriminate. }
      cbn [negb] in H. set (bl := if Z.of_nat (length (f_block w)) =? f_nr w then f_block w else resize_block (f_block w) (Z.to_nat (f_nr w))) in H.
      assert (Ebl : bl = repeat None (Z.to_nat (f_nr w))). { unfold bl. destruct (Z.eqb_spec (Z.of_nat (length (f_block w))) (f_nr w)) as [E|E]; [rewrite Bk at 1; f_equal; lia|apply rep_resize, Bk]. }
      cbn [f_cs f_cr f_pay] in H. destruct (v_begin v) eqn:Bg; cbn [negb] in H.
      2:{ match type of H with Ok (?x, ?y) = _ => assert (Ew : w' = x) by congruence; assert (Ee : es' = y) by congruence end. rewrite Ew, Ee. apply Dead; try reflexivity; try assumption. constructor. reflexivity. }
      cbn [f_pay] in H. rewrite Z.eqb_refl in H. cbn [negb] in H. apply acc_spec in Ac as Ac'.
      set (w1 := mkFwr (f_ns w) (f_ns w) (f_nr w) (f_nr w) (q_size p) bl false (f_sbn w) (f_rsn w) (f_cur w) (f_scheme w) (f_max w) (f_valid w) (f_alive w)) in H.
      set (b := mkBlock (Z.to_nat (f_ns w)) (Z.to_nat (f_nr w)) (q_size p) [] []).
      refine (put_packet mx s r sbn cs p v bs w1 b [] (blocks sbn bs) [EBegin (f_ns w) (f_nr w) (q_size p)] w' es' Mx Sb _ _ _ _ _ Wh Cm _ _ _ _ _ _ _ _ _ _ _ _ _ H); cbn [f_valid f_max f_ns f_nr f_alive f_sbn f_cur f_cs f_cr f_pay f_block w1 k_s k_r k_pay k_src b length app]; try assumption; try reflexivity; try lia.
      { cbn [block_of map fst k_s k_r k_pay k_src]. split; [lia|]. split; [lia|]. split; [reflexivity|]. split; [exact Z0|]. split; [reflexivity|]. constructor; [reflexivity|constructor]. }
      { cbn [sources]. rewrite !Z2Nat.id by lia. reflexivity. }
    + destruct (check_packet w p); [|discriminate]. cbn [negb] in H. change (f_cur (first_upd w)) with (f_cur w) in H.
      assert (Ll : length (k_src b) = length l /\ l <> []). { destruct l as [|[p0 [s0 r0]] l]; [contradiction|]. cbn [block_of] in Bo. destruct Bo as (_ & _ & _ & _ & -> & _). rewrite map_length. split; [reflexivity|discriminate]. }
      destruct Ll as [Ll Nl]. destruct (Z.eqb_spec (f_cur w) 0) as [E|E]; [destruct l; [contradiction|]; cbn [length] in Cu; lia|]. cbn [negb] in H. change (f_pay (first_upd w)) with (f_pay w) in H.
      assert (Pt' : parts bs (written mx s r (cs ++ [CWrite p v])) (l ++ [(p, (f_ns w, f_nr w))])) by (rewrite written_snoc, Ef; exact (parts_more _ _ _ _ Pt)).
      destruct (Z.eqb_spec (q_size p) (f_pay w)) as [Eq|Eq]; cbn [negb] in H.
      * refine (put_packet mx s r sbn cs p v bs (first_upd w) b l (blocks sbn bs ++ opening b (number sbn (length bs))) [] w' es' Mx Sb _ _ _ _ _ Wh Cm _ _ _ _ _ _ _ _ _ _ _ _ _ H); cbn [f_valid f_max f_ns f_nr f_alive f_sbn f_cur f_cs f_cr f_pay f_block first_upd]; try assumption; try lia.
        { pose proof (block_snoc b l p (f_ns w, f_nr w) Bo ltac:(congruence)) as Q. destruct (l ++ [(p, (f_ns w, f_nr w))]) as [|[p0 [s0 r0]] l0]; [contradiction|exact Q]. }
        { rewrite app_nil_r. reflexivity. }
      * assert (Ew : w' = kill (first_upd w)) by congruence. assert (Ee : es' = []) by congruence. rewrite Ew, Ee, app_nil_r. constructor; try assumption; [cbn; rewrite effect_snoc; assumption|]. exists bs. split; [exact Wh|]. split; [intros X; apply envs_snoc in X; apply Cm, X|].
        right. right. split; [reflexivity|]. eexists _, _. split; [exact Pt'|]. split; [reflexivity|]. constructor; [exact Bo|split; assumption|discriminate].
    + assert (Ew : w' = w) by congruence. assert (Ee : es' = []) by congruence. rewrite Ew, Ee, app_nil_r. constructor; try assumption; [rewrite effect_snoc; assumption|]. exists bs. split; [exact Wh|]. split; [intros X; apply envs_snoc in X; apply Cm, X|].
      right. right. split; [exact Al|]. exists (rest ++ [(p, (f_ns w, f_nr w))]), tl. split; [rewrite written_snoc, Ef; apply parts_more, Pt|]. split; [reflexivity|]. apply dead_more, Tl.
  - assert (Ee : es' = []) by congruence. assert (Ew : w' = fst (f_resize w s' r')) by congruence. rewrite Ew, Ee, app_nil_r. clear H Ew Ee. destruct Rg as [R1 R2].
    assert (X : let w1 := fst (f_resize w s' r') in f_ns w1 = (if accepted mx s' r' then s' else f_ns w) /\ f_nr w1 = (if accepted mx s' r' then r' else f_nr w) /\
      (f_valid w1, f_max w1, f_alive w1, f_sbn w1, f_cur w1, f_block w1) = (f_valid w, f_max w, f_alive w, f_sbn w, f_cur w, f_block w) /\ (f_cs w1, f_cr w1, f_pay w1) = (f_cs w, f_cr w, f_pay w)).
    { unfold f_resize. destruct (Z.eqb_spec (f_ns w) s') as [E1|E1]; cbn [andb].
      - destruct (Z.eqb_spec (f_nr w) r') as [E2|E2]; cbn [fst]; [subst s' r'; rewrite Ac; repeat split|].
        destruct (Z.eqb_spec s' 0) as [E3|E3]; [cbn [fst]; assert (A0 : accepted mx s' r' = false) by (unfold accepted; lia); rewrite A0; repeat split|].
        rewrite Mm. unfold u64, wrapu. rewrite Z.mod_small by lia. destruct (Z.ltb_spec mx (s' + r')) as [E4|E4]; cbn [fst].
        + assert (A0 : accepted mx s' r' = false) by (unfold accepted; lia). rewrite A0. repeat split. rewrite Mm. reflexivity.
        + assert (A0 : accepted mx s' r' = true) by (unfold accepted; lia). rewrite A0. cbn. repeat split.
      - destruct (Z.eqb_spec s' 0) as [E3|E3]; [cbn [fst]; assert (A0 : accepted mx s' r' = false) by (unfold accepted; lia); rewrite A0; repeat split|].
        rewrite Mm. unfold u64, wrapu. rewrite Z.mod_small by lia. destruct (Z.ltb_spec mx (s' + r')) as [E4|E4]; cbn [fst].
        + assert (A0 : accepted mx s' r' = false) by (unfold accepted; lia). rewrite A0. repeat split. rewrite Mm. reflexivity.
        + assert (A0 : accepted mx s' r' = true) by (unfold accepted; lia). rewrite A0. cbn. repeat split. }
    cbv zeta in X. destruct X as (X1 & X2 & X3 & X4). set (w1 := fst (f_resize w s' r')) in *. clearbody w1.
    assert (Y1 : f_valid w1 = f_valid w) by congruence. assert (Y2 : f_max w1 = f_max w) by congruence. assert (Y3 : f_alive w1 = f_alive w) by congruence. assert (Y4 : f_sbn w1 = f_sbn w) by congruence. assert (Y5 : f_cur w1 = f_cur w) by congruence. assert (Y6 : f_block w1 = f_block w) by congruence.
    assert (Y7 : f_cs w1 = f_cs w) by congruence. assert (Y8 : f_cr w1 = f_cr w) by congruence. assert (Y9 : f_pay w1 = f_pay w) by congruence.
    constructor; rewrite ?X1, ?X2, ?Y1, ?Y2; try assumption.
    + rewrite effect_snoc. destruct (accepted mx s' r'); [reflexivity|exact Ef].
    + destruct (accepted mx s' r'); lia.
    + destruct (accepted mx s' r') eqn:A0; assumption.
    + exists bs. split; [exact Wh|]. split; [intros X; apply envs_snoc in X; apply Cm, X|]. rewrite written_snoc, app_nil_r, Y3, Y4, Y5, Y6. unfold open_in. rewrite Y5, Y6, Y7, Y8, Y9. exact St.
Qed.
Lemma run_inv mx s r sbn rsn scheme cs w es : mx <= 2 ^ 16 -> 0 <= sbn < 2 ^ 16 -> 0 < s < 2 ^ 63 -> 0 <= r < 2 ^ 63 -> Forall in_range cs -> s + r <= mx -> f_run (f_new s r scheme mx sbn rsn) cs = Ok (w, es) -> inv mx s r sbn cs w es.
Proof.
  intros Mx Sb S0 R0 Rg Ac. revert w es. induction cs as [|c cs IH] using rev_ind; intros w es H.
  - cbn in H. assert (Ew : w = f_new s r scheme mx sbn rsn) by congruence. assert (Ee : es = []) by congruence. rewrite Ew, Ee. unfold f_new, f_resize. cbn [f_ns f_nr f_max].
    destruct (Z.eqb_spec 0 s); [lia|]. cbn [andb]. destruct (Z.eqb_spec s 0); [lia|]. unfold u64, wrapu. rewrite Z.mod_small by lia. destruct (Z.ltb_spec mx (s + r)); [lia|].
    constructor; try reflexivity; cbn; [lia|apply acc_spec; lia|]. exists []. split; [constructor|]. split; [constructor|]. left. repeat split; try reflexivity; [|constructor]. unfold number. cbn [length Z.of_nat]. rewrite Z.add_0_r, Z.mod_small; [reflexivity|exact Sb].
  - apply Forall_app in Rg. destruct Rg as [Rg1 Rg2]. rewrite f_run_snoc in H. destruct (f_run (f_new s r scheme mx sbn rsn) cs) as [[w1 e1]| |] eqn:E1; cbn [bind fst snd] in H; [|discriminate..].
    destruct (f_call w1 c) as [[w2 e2]| |] eqn:E2; cbn [bind fst snd] in H; [|discriminate..]. assert (Ew : w = w2) by congruence. assert (Ee : es = e1 ++ e2) by congruence. rewrite Ew, Ee.
    inversion Rg2; subst. eapply step_inv; [exact Mx|exact Sb|assumption|apply IH; [assumption|reflexivity]|exact E2].
Qed.
(** *** When the writer stops *)
Lemma misfit_more mx l x : misfit mx l -> misfit mx (l ++ x).
Proof. intros (bs & b & l1 & y & l2 & P & R). exists bs, b, l1, y, (l2 ++ x). split; [|exact R]. apply (parts_more _ _ _ x) in P. rewrite <- app_assoc in P. exact P. Qed.
Lemma scheme_call w c w' es : f_call w c = Ok (w', es) -> f_scheme w' = f_scheme w.
Proof.
  destruct c as [p v|s r]; cbn [f_call].
  - unfold f_write. destruct (negb (f_valid w)); [discriminate|]. destruct (negb (f_alive w)); [congruence|]. destruct (negb (check_packet w p)); [discriminate|].
    assert (X : forall w1 ok e1, (if f_cur (first_upd w) =? 0 then begin_block (first_upd w) p v else (first_upd w, true, [])) = (w1, ok, e1) -> f_scheme w1 = f_scheme w).
    { intros w1 ok e1 H. destruct (_ =? 0) in H; [|assert (w1 = first_upd w) by congruence; subst; reflexivity]. unfold begin_block, apply_sizes in H. destruct (q_size p =? 0); cbn in H; [assert (w1 = kill (first_upd w)) by congruence; subst; reflexivity|].
      destruct (_ && _) in H; cbn in H; [assert (w1 = kill (first_upd w)) by congruence; subst; reflexivity|]. destruct (v_begin v); inversion H; reflexivity. }
    destruct (if f_cur (first_upd w) =? 0 then begin_block (first_upd w) p v else (first_upd w, true, [])) as [[w1 ok] e1] eqn:E. specialize (X _ _ _ eq_refl).
    destruct (negb ok); [intros H; congruence|]. destruct (negb (q_size p =? f_pay w1)); [intros H; assert (w' = kill w1) by congruence; subst; exact X|].
    destruct (write_source w1 p v); cbn [bind]; [|discriminate..]. destruct (f_cur (cur_upd _ _) =? _).
    + unfold end_block. cbv zeta. destruct (make_repair _ _ _ _); cbn [bind]; [|discriminate..]. destruct (encode_repair _ _ _); cbn [bind]; [|discriminate..]. destruct (compose_repair _ _ _); cbn [bind]; [|discriminate..]. destruct (write_repair _ _ _); cbn [bind]; [|discriminate..].
      intros H. match type of H with Ok (?x, _) = _ => assert (w' = x) by congruence end. subst w'. exact X.
    + intros H. match type of H with Ok (?x, _) = _ => assert (w' = x) by congruence end. subst w'. exact X.
  - intros H. assert (w' = fst (f_resize w s r)) by congruence. subst w'. unfold f_resize. destruct (_ && _); [reflexivity|]. destruct (s =? 0); [reflexivity|]. destruct (_ <? _); reflexivity.
Qed.
Lemma live_step mx s r sbn cs w es c : mx <= 2 ^ 16 -> inv mx s r sbn cs w es -> good_call (f_scheme w) c -> (f_alive w = true \/ misfit mx (written mx s r cs)) ->
  exists w' es', f_call w c = Ok (w', es') /\ (f_alive w' = true \/ misfit mx (written mx s r (cs ++ [c]))).
Proof.
  intros Mx [V Mm Ef Nr Ac (bs & Wh & Cm & St)] G Lv. destruct c as [p v|s' r']; cbn [f_call].
  - destruct G as (Cv & G1 & G2 & G3 & G4 & G5). assert (Ck : check_packet w p = true) by (unfold check_packet; rewrite G1, G2, G3, G4, Z.eqb_refl; reflexivity).
    unfold f_write. rewrite V. cbn [negb]. destruct (f_alive w) eqn:Al; cbn [negb].
    2:{ exists w, []. split; [reflexivity|]. right. rewrite written_snoc. apply misfit_more. destruct Lv as [L|L]; [discriminate|exact L]. }
    rewrite Ck. cbn [negb].
    assert (Main : forall w1 e1, f_alive w1 = true -> f_cs w1 = f_cs w1 -> f_block w1 = repeat None (Z.to_nat (f_cr w1)) ->
      exists w' es', (es2 <- write_source w1 p v ;; if f_cur (cur_upd w1 (u64 (f_cur w1 + 1))) =? f_cs (cur_upd w1 (u64 (f_cur w1 + 1))) then q <- end_block (cur_upd w1 (u64 (f_cur w1 + 1))) v ;; Ok (next_block (fst q), e1 ++ es2 ++ snd q) else Ok (cur_upd w1 (u64 (f_cur w1 + 1)), e1 ++ es2)) = Ok (w', es') /\ f_alive w' = true).
    { intros w1 e1 A1 _ B1. unfold write_source. destruct Cv as (C1 & C2 & C3 & C4 & Crest). rewrite C3, C4. cbn [negb bind]. destruct (_ =? _).
      - rewrite end_calm by (first [exact B1|repeat split; first [assumption|apply Crest]]). cbn [bind fst snd]. eexists _, _. split; [reflexivity|exact A1].
      - eexists _, _. split; [reflexivity|exact A1]. }
    change (f_cur (first_upd w)) with (f_cur w). destruct St as [(_ & Sn & Cu & Bk & Pt & ->)|[(_ & Sn & b & l & (Bo & (Po1 & Po2) & Cu & Es & Er & Ep & Eb) & Pt & ->)|(X & _)]]; [| |congruence].
    + rewrite Cu. cbn [Z.eqb]. unfold begin_block, apply_sizes. cbn [f_ns f_nr f_block first_upd f_cs f_cr f_pay f_first f_sbn f_rsn f_cur f_scheme f_max f_valid f_alive].
      destruct (Z.eqb_spec (q_size p) 0) as [Z0|Z0]; [lia|]. destruct Cv as (C1 & C2 & Crest). rewrite C1, C2. rewrite Bool.andb_false_r. cbn [negb f_pay f_cs f_cr]. rewrite Z.eqb_refl. cbn [negb].
      set (bl := if Z.of_nat (length (f_block w)) =? f_nr w then f_block w else resize_block (f_block w) (Z.to_nat (f_nr w))).
      assert (Ebl : bl = repeat None (Z.to_nat (f_nr w))). { unfold bl. destruct (Z.eqb_spec (Z.of_nat (length (f_block w))) (f_nr w)) as [E|E]; [rewrite Bk at 1; f_equal; lia|apply rep_resize, Bk]. }
      edestruct Main as (w' & es' & E & A'); [| | |exists w', es'; split; [exact E|left; exact A']]; [exact Al|reflexivity|exact Ebl].
    + assert (Nl : l <> []) by (destruct l; [contradiction|discriminate]). destruct (Z.eqb_spec (f_cur w) 0) as [E|E]; [destruct l; [contradiction|]; cbn [length] in Cu; lia|]. cbn [negb]. change (f_pay (first_upd w)) with (f_pay w).
      destruct (Z.eqb_spec (q_size p) (f_pay w)) as [Eq|Eq]; cbn [negb].
      * edestruct Main as (w' & es' & E' & A'); [| | |exists w', es'; split; [exact E'|left; exact A']]; [exact Al|reflexivity|cbn [f_block f_cr first_upd]; rewrite Er, Nat2Z.id; exact Eb].
      * eexists _, _. split; [reflexivity|]. right. exists bs, b, l, (p, (f_ns w, f_nr w)), []. rewrite written_snoc, Ef. split; [apply parts_more, Pt|]. split; [exact Bo|]. split; [split; assumption|]. cbn [fst]. congruence.
  - eexists _, _. split; [reflexivity|]. rewrite written_snoc, app_nil_r. destruct Lv as [L|L]; [left|right; exact L]. unfold f_resize. destruct (_ && _); [exact L|]. destruct (s' =? 0); [exact L|]. destruct (_ <? _); exact L.
Qed.
Lemma live_run mx s r sbn rsn scheme cs : mx <= 2 ^ 16 -> 0 <= sbn < 2 ^ 16 -> 0 < s < 2 ^ 63 -> 0 <= r < 2 ^ 63 -> Forall in_range cs -> s + r <= mx -> Forall (good_call scheme) cs ->
  exists w es, f_run (f_new s r scheme mx sbn rsn) cs = Ok (w, es) /\ f_scheme w = scheme /\ (f_alive w = true \/ misfit mx (written mx s r cs)).
Proof.
  intros Mx Sb S0 R0 Rg Ac. revert Rg. induction cs as [|c cs IH] using rev_ind; intros Rg G.
  - eexists _, _. split; [reflexivity|]. assert (X : f_scheme (f_new s r scheme mx sbn rsn) = scheme /\ f_alive (f_new s r scheme mx sbn rsn) = true); [|tauto].
    unfold f_new, f_resize. cbn [f_ns f_nr f_max]. destruct (Z.eqb_spec 0 s); [lia|]. cbn [andb]. destruct (s =? 0); [split; reflexivity|]. destruct (_ <? _); split; reflexivity.
  - apply Forall_app in Rg. destruct Rg as [Rg1 Rg2]. apply Forall_app in G. destruct G as [G1 G2]. inversion G2; subst. inversion Rg2; subst. destruct (IH Rg1 G1) as (w & es & E & Sc & Lv).
    pose proof (run_inv mx s r sbn rsn scheme cs w es Mx Sb S0 R0 Rg1 Ac E) as I.
    destruct (live_step mx s r sbn cs w es c Mx I) as (w' & es' & E' & Lv'); [rewrite Sc; assumption|exact Lv|]. exists w', (es ++ es'). rewrite f_run_snoc, E. cbn [bind fst snd]. rewrite E'. cbn [bind fst snd]. split; [reflexivity|]. split; [rewrite (scheme_call _ _ _ _ E'); exact Sc|exact Lv'].
Qed.
Lemma misfit_uniform mx l z : misfit mx l -> ~ Forall (fun x => q_size (fst x) = z) l.
Proof.
  intros (bs & b & l1 & x & l2 & P & B & _ & N) F.
  assert (X : Forall (fun x => q_size (fst x) = z) (l1 ++ x :: l2)). { remember (l1 ++ x :: l2) as rest. clear - P F. induction P; [exact F|]. apply Forall_app in F. apply IHP, F. }
  apply Forall_app in X. destruct X as [X1 X2]. inversion X2; subst. destruct l1 as [|[p [s r]] l1]; [contradiction|]. cbn [block_of] in B. destruct B as (_ & _ & B & _). inversion X1; subst. cbn [fst] in *. congruence.
Qed.
