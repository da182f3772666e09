From Verif Require Import Base Base_lemmas Spsc_model Spsc_spec.

Lemma p32 : 2 ^ 32 = 4294967296. Proof. reflexivity. Qed.

Definition len (l : list Z) : Z := Z.of_nat (length l).
Definition destroyed (c : cons) : bool := match c with CDestroyed _ _ => true | _ => false end.
Definition expected (P C : list Z) (p : prod) (c : cons) (i : Z) : cell :=
  if i <=? len P then
    if (i =? len C + 1) && destroyed c then Empty else Full (nth (Z.to_nat (i - 1)) P 0)
  else if i =? len P + 1 then match p with PConstructing _ _ => Torn | PConstructed v _ => Full v | _ => Empty end
  else Empty.

Record sinv (n : Z) (s : spsc) (P C : list Z) : Prop := mkSinv {
  v_le : len C <= len P <= len C + n;
  v_pre : C = firstn (length C) P;
  v_rd : sr_rd s = u32 (len C);
  v_wr : sr_wr s = u32 (len P + 1);
  v_cells : forall i, len C + 1 <= i <= len C + n + 1 -> sr_cells s (i mod (n + 1)) = expected P C (sr_prod s) (sr_cons s) i;
  v_prod : match sr_prod s with PIdle => True
           | PBegun _ k | PConstructing _ k | PConstructed _ k => k = (len P + 1) mod (n + 1) /\ len P < len C + n end;
  v_cons : match sr_cons s with CIdle => True
           | CBegun k => k = (len C + 1) mod (n + 1) /\ len C < len P
           | CCopied v k | CDestroyed v k => k = (len C + 1) mod (n + 1) /\ len C < len P /\ nth (length C) P 0 = v end }.

Definition pend (s : spsc) : Z := match sr_prod s with PIdle => 0 | _ => 1 end.

Lemma pend_nonneg s : 0 <= pend s. Proof. unfold pend. destruct (sr_prod s); lia. Qed.

Lemma mod_inj a i j m : 0 < m -> a <= i < a + m -> a <= j < a + m -> i mod m = j mod m -> i = j.
Proof.
  intros Hm Hi Hj E. pose proof (Z.div_mod i m ltac:(lia)). pose proof (Z.div_mod j m ltac:(lia)).
  assert (i / m = j / m) by nia. nia.
Qed.

Lemma idx_ok n pushes i : 0 <= n < 2 ^ 31 -> positions_ok n pushes -> 0 <= i <= pushes + 1 -> u32 i mod (n + 1) = i mod (n + 1).
Proof.
  intros Hn H Hi. unfold u32, wrapu. change (2 ^ 31) with 2147483648 in Hn. destruct H as [(q & H)|H]; rewrite p32 in *.
  - rewrite H. assert (0 < n + 1) by lia. assert (0 < q) by nia.
    pose proof (Z.div_mod i (q * (n + 1)) ltac:(nia)) as E. rewrite E at 2.
    replace (q * (n + 1) * (i / (q * (n + 1))) + i mod (q * (n + 1))) with (i mod (q * (n + 1)) + (q * (i / (q * (n + 1)))) * (n + 1)) by ring.
    rewrite Z.mod_add by lia. auto.
  - rewrite (Z.mod_small i) by lia. auto.
Qed.

Lemma nth_firstn_eq (P : list Z) k j d : (j < k)%nat -> nth j (firstn k P) d = nth j P d.
Proof.
  revert P j. induction k; intros P j H; [lia|]. destruct P; [auto|]. destruct j; [auto|]. cbn. apply IHk. lia.
Qed.

Lemma set_cell_window n (f : Z -> cell) a j c i : 0 <= n -> a <= i < a + (n + 1) -> a <= j < a + (n + 1) ->
  set_cell f (j mod (n + 1)) c (i mod (n + 1)) = if i =? j then c else f (i mod (n + 1)).
Proof.
  intros Hn Hi Hj. unfold set_cell. destruct (Z.eqb_spec i j) as [->|Hne]; [rewrite Z.eqb_refl; auto|].
  destruct (Z.eqb_spec (i mod (n + 1)) (j mod (n + 1))) as [E|]; [|auto].
  apply (mod_inj a) in E; lia.
Qed.

Lemma firstn_snoc (P : list Z) k : (k < length P)%nat -> firstn (S k) P = firstn k P ++ [nth k P 0].
Proof.
  revert k. induction P as [|x P IH]; intros k H; [cbn in H; lia|]. destruct k; [reflexivity|].
  cbn [length] in H. change (firstn (S (S k)) (x :: P)) with (x :: firstn (S k) P).
  rewrite IH by lia. reflexivity.
Qed.

Definition outp (o : srout) : list Z := match o with RPush v true => [v] | _ => [] end.
Definition outc (o : srout) : list Z := match o with RPop (Some v) => [v] | _ => [] end.

Lemma step_sinv n pushes s P C l r : 0 <= n < 2 ^ 31 -> positions_ok n pushes -> sinv n s P C ->
  len P + pend s + push_calls [l] <= pushes ->
  sr_step n s l = Some r ->
  exists o s', r = Ok (o, s') /\ sinv n s' (P ++ outp o) (C ++ outc o) /\
    len (P ++ outp o) + pend s' <= len P + pend s + push_calls [l] /\
    (match o with RPush _ false => len P = len C + n | RPop None => len P = len C | _ => True end).
Proof.
  intros Hn HP I HB E. pose proof I as I0. destruct I as [LE PRE RD WR CE PR CO].
  destruct s as [rd wr cells p c]. cbn [sr_rd sr_wr sr_cells sr_prod sr_cons] in *.
  assert (N31 : n < 2147483648) by exact (proj2 Hn).
  assert (LC : 0 <= len C) by (unfold len; lia).
  assert (NB : 0 < n + 1) by lia.
  assert (LAPP : forall l x, len (l ++ [x]) = len l + 1) by (intros; unfold len; rewrite app_length; cbn [length]; lia).
  destruct l; cbn [sr_step] in E.
  - (* LPush *)
    destruct p; try discriminate E. injection E as <-. unfold begin_write. cbn [sr_rd sr_wr]. unfold chunk_count.
    assert (ED : u32 (wr - rd) = len P + 1 - len C).
    { rewrite WR, RD. unfold u32, wrapu. rewrite p32. lia. }
    rewrite ED. cbn [pend sr_prod] in *. unfold push_calls in *. cbn [filter length] in *.
    destruct (Z.geb_spec (len P + 1 - len C) (n + 1)).
    + eexists _, _. split; [reflexivity|]. cbn [outp outc]. rewrite !app_nil_r. split; [exact I0|]. cbn [pend sr_prod]. split; lia.
    + eexists _, _. split; [reflexivity|]. cbn [outp outc]. rewrite !app_nil_r. split; [|cbn [pend sr_prod]; split; [lia|exact I]].
      constructor; cbn [sr_rd sr_wr sr_cells sr_prod sr_cons]; auto.
      split; [|lia]. rewrite WR. apply (idx_ok n pushes); auto. unfold len in *. lia.
  - (* LConstruct *)
    destruct p; try discriminate E. injection E as <-. destruct PR as (-> & PR).
    assert (EC : cells ((len P + 1) mod (n + 1)) = Empty).
    { rewrite CE by lia. unfold expected. destruct (Z.leb_spec (len P + 1) (len P)); [lia|]. rewrite Z.eqb_refl. auto. }
    rewrite EC. eexists _, _. split; [reflexivity|]. cbn [outp outc]. rewrite !app_nil_r.
    split; [|split; [unfold pend, push_calls; cbn [sr_prod filter length]; try (destruct p); lia|exact I]].
    constructor; cbn [sr_rd sr_wr sr_cells sr_prod sr_cons]; auto.
    intros i Hi. rewrite (set_cell_window n cells (len C + 1)) by lia. rewrite CE by lia. unfold expected.
    destruct (Z.eqb_spec i (len P + 1)) as [->|]; [|reflexivity].
    destruct (Z.leb_spec (len P + 1) (len P)); [lia|reflexivity].
  - destruct p; try discriminate E. injection E as <-. destruct PR as (-> & PR).
    eexists _, _. split; [reflexivity|]. cbn [outp outc]. rewrite !app_nil_r.
    split; [|split; [unfold pend, push_calls; cbn [sr_prod filter length]; try (destruct p); lia|exact I]].
    constructor; cbn [sr_rd sr_wr sr_cells sr_prod sr_cons]; auto.
    intros i Hi. rewrite (set_cell_window n cells (len C + 1)) by lia. rewrite CE by lia. unfold expected.
    destruct (Z.eqb_spec i (len P + 1)) as [->|]; [|reflexivity].
    destruct (Z.leb_spec (len P + 1) (len P)); [lia|reflexivity].
  - (* LEndWrite *)
    destruct p as [| | |v k]; try discriminate E. injection E as <-. destruct PR as (-> & PR).
    eexists _, _. split; [reflexivity|]. cbn [outp outc]. rewrite app_nil_r.
    split; [|cbn [pend sr_prod] in *; rewrite LAPP; split; [unfold push_calls in *; cbn in *; lia|exact I]].
    assert (LCN : (length C <= length P)%nat) by (unfold len in *; lia).
    constructor; cbn [sr_rd sr_wr sr_cells sr_prod sr_cons]; auto; rewrite ?LAPP.
    + lia.
    + rewrite PRE at 1. rewrite firstn_app. replace (length C - length P)%nat with 0%nat by lia. cbn [firstn]. rewrite app_nil_r. auto.
    + rewrite WR. unfold u32, wrapu. rewrite p32. lia.
    + intros i Hi. rewrite CE by lia. unfold expected. rewrite LAPP.
      destruct (Z.leb_spec i (len P)).
      * destruct (Z.leb_spec i (len P + 1)); [|lia]. rewrite app_nth1 by (unfold len in *; lia). reflexivity.
      * destruct (Z.eqb_spec i (len P + 1)) as [->|].
        -- destruct (Z.leb_spec (len P + 1) (len P + 1)); [|lia].
           replace (Z.to_nat (len P + 1 - 1)) with (length P) by (unfold len; lia).
           rewrite app_nth2 by lia. rewrite Nat.sub_diag. cbn [nth].
           destruct ((len P + 1 =? len C + 1) && destroyed c) eqn:ED; [|reflexivity].
           exfalso. destruct c; cbn [destroyed] in ED; try (rewrite andb_false_r in ED; discriminate). lia.
        -- destruct (Z.leb_spec i (len P + 1)); [lia|]. destruct (Z.eqb_spec i (len P + 1 + 1)); reflexivity.
    + destruct c; auto.
      * intuition lia.
      * destruct CO as (-> & ? & ?). split; [auto|]. split; [lia|]. rewrite app_nth1 by (unfold len in *; lia). auto.
      * destruct CO as (-> & ? & ?). split; [auto|]. split; [lia|]. rewrite app_nth1 by (unfold len in *; lia). auto.
  - (* LPop *)
    destruct c; try discriminate E. injection E as <-.
    unfold begin_read. cbn [sr_rd sr_wr]. unfold chunk_count.
    assert (ED : u32 (rd + 1) = u32 (len C + 1)) by (rewrite RD; unfold u32, wrapu; rewrite p32; lia).
    rewrite ED, WR. destruct (Z.eqb_spec (u32 (len C + 1)) (u32 (len P + 1))) as [EE|EE].
    + eexists _, _. split; [reflexivity|]. cbn [outp outc]. rewrite !app_nil_r. split; [rewrite <- WR; exact I0|].
      split; [unfold pend, push_calls; cbn [sr_prod filter length]; try (destruct p); lia|].
      unfold u32, wrapu in EE. rewrite p32 in EE. lia.
    + eexists _, _. split; [reflexivity|]. cbn [outp outc]. rewrite !app_nil_r.
      split; [|split; [unfold pend, push_calls; cbn [sr_prod filter length]; try (destruct p); lia|exact I]].
      assert (len C <> len P) by congruence.
      constructor; cbn [sr_rd sr_wr sr_cells sr_prod sr_cons]; auto.
      split; [|lia]. apply (idx_ok n pushes); auto. pose proof (pend_nonneg (mkSpsc rd wr cells p CIdle)). unfold push_calls in HB. cbn [filter length] in HB. lia.
  - (* LCopy *)
    destruct c as [|k| |]; try discriminate E. injection E as <-. destruct CO as (-> & CO).
    rewrite CE by lia. unfold expected. destruct (Z.leb_spec (len C + 1) (len P)); [|lia]. cbn [destroyed]. rewrite andb_false_r.
    eexists _, _. split; [reflexivity|]. cbn [outp outc]. rewrite !app_nil_r.
    split; [|split; [unfold pend, push_calls; cbn [sr_prod filter length]; try (destruct p); lia|exact I]].
    constructor; cbn [sr_rd sr_wr sr_cells sr_prod sr_cons]; auto.
    split; [auto|]. split; [lia|]. f_equal. unfold len. lia.
  - (* LDestroy *)
    destruct c as [| |v k|]; try discriminate E. injection E as <-. destruct CO as (-> & CO & CV).
    rewrite CE by lia. unfold expected at 1. destruct (Z.leb_spec (len C + 1) (len P)); [|lia]. cbn [destroyed]. rewrite andb_false_r.
    eexists _, _. split; [reflexivity|]. cbn [outp outc]. rewrite !app_nil_r.
    split; [|split; [unfold pend, push_calls; cbn [sr_prod filter length]; try (destruct p); lia|exact I]].
    constructor; cbn [sr_rd sr_wr sr_cells sr_prod sr_cons]; auto.
    intros i Hi. rewrite (set_cell_window n cells (len C + 1)) by lia. rewrite CE by lia. unfold expected. cbn [destroyed].
    destruct (Z.eqb_spec i (len C + 1)) as [->|]; cbn [andb]; [|reflexivity].
    destruct (Z.leb_spec (len C + 1) (len P)); [reflexivity|lia].
  - (* LEndRead *)
    destruct c as [| | |v k]; try discriminate E. injection E as <-. destruct CO as (-> & CO & CV).
    eexists _, _. split; [reflexivity|]. cbn [outp outc]. rewrite app_nil_r.
    split; [|split; [unfold pend, push_calls; cbn [sr_prod filter length]; try (destruct p); lia|exact I]].
    assert (LCN : (length C < length P)%nat) by (unfold len in *; lia).
    constructor; cbn [sr_rd sr_wr sr_cells sr_prod sr_cons]; auto; rewrite ?LAPP.
    + lia.
    + rewrite app_length. cbn [length]. rewrite Nat.add_1_r, firstn_snoc by auto. rewrite CV. f_equal. auto.
    + rewrite RD. unfold u32, wrapu. rewrite p32. lia.
    + intros i Hi. destruct (Z.eq_dec i (len C + 1 + n + 1)) as [->|Hne].
      * replace ((len C + 1 + n + 1) mod (n + 1)) with ((len C + 1) mod (n + 1)).
        2:{ replace (len C + 1 + n + 1) with (len C + 1 + 1 * (n + 1)) by ring. rewrite Z.mod_add by lia. auto. }
        rewrite CE by lia. unfold expected. rewrite LAPP.
        destruct (Z.leb_spec (len C + 1) (len P)); [|lia]. rewrite Z.eqb_refl. cbn [destroyed andb].
        destruct (Z.leb_spec (len C + 1 + n + 1) (len P)); [lia|]. destruct (Z.eqb_spec (len C + 1 + n + 1) (len P + 1)); [lia|reflexivity].
      * rewrite CE by lia. unfold expected. rewrite LAPP. cbn [destroyed]. rewrite andb_false_r.
        destruct (Z.leb_spec i (len P)); [|reflexivity]. destruct (Z.eqb_spec i (len C + 1)); [lia|reflexivity].
    + destruct p; auto; intuition lia.
Qed.

Lemma push_calls_cons l ls : push_calls (l :: ls) = push_calls [l] + push_calls ls.
Proof. unfold push_calls. cbn [filter]. destruct l; cbn [length]; lia. Qed.
Lemma push_calls_nonneg ls : 0 <= push_calls ls. Proof. unfold push_calls. lia. Qed.

Lemma run_sinv n pushes : 0 <= n < 2 ^ 31 -> positions_ok n pushes -> forall ls s P C, sinv n s P C ->
  len P + pend s + push_calls ls <= pushes ->
  exists outs s', sr_run n s ls = Ok (outs, s') /\ sinv n s' (P ++ pushed outs) (C ++ popped outs) /\
    len (P ++ pushed outs) + pend s' <= len P + pend s + push_calls ls.
Proof.
  intros Hn HP. induction ls as [|l ls IH]; intros s P C I HB; cbn [sr_run].
  - exists [], s. cbn [pushed popped flat_map]. rewrite !app_nil_r. split; [auto|]. split; [auto|]. unfold push_calls. cbn. lia.
  - rewrite push_calls_cons in *. pose proof (push_calls_nonneg ls). pose proof (push_calls_nonneg [l]).
    destruct (sr_step n s l) as [r|] eqn:E.
    + destruct (step_sinv n pushes s P C l r Hn HP I ltac:(lia) E) as (o & s1 & -> & I1 & B1 & _).
      destruct (IH s1 _ _ I1 ltac:(lia)) as (outs & s2 & E2 & I2 & B2). cbn [bind fst snd]. rewrite E2. cbn [bind fst snd].
      exists (o :: outs), s2. split; [auto|]. cbn [pushed popped flat_map]. fold (outp o) (outc o) (pushed outs) (popped outs).
      rewrite !app_assoc. split; [auto|lia].
    + destruct (IH s P C I ltac:(lia)) as (outs & s2 & E2 & I2 & B2). exists outs, s2. split; [auto|]. split; [auto|lia].
Qed.

Lemma new_sinv n : 0 <= n -> sinv n sr_new [] [].
Proof.
  intros Hn. constructor; cbn; auto; try lia.
  intros i Hi. unfold expected. cbn. destruct (Z.leb_spec i 0); [lia|]. destruct (i =? 1); auto.
Qed.
