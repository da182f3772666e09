(** Lemmas about index maps, the final matrix and the mapping of one frame. *)
From Coq Require Import QArith Lqa.
From Verif Require Import Base Base_lemmas ChannelSet_model ChannelSet_spec ChannelSet_proof ChannelSet_props.
From Verif Require Import ChanMap_tables ChanMap_model ChanMap_spec ChanMap_mat ChanMap_search.
Open Scope Z_scope.
Open Scope res_scope.

(** Positions in a list. *)
Lemma pos_lt l c : In c l -> (pos_in l c < length l)%nat.
Proof. induction l as [|x l IH]; cbn; [tauto|]. destruct (Z.eqb_spec x c); [lia|]. intros [E|I]; [contradiction|]. specialize (IH I). lia. Qed.
Lemma pos_nth l c : In c l -> nth_error l (pos_in l c) = Some c.
Proof. induction l as [|x l IH]; cbn; [tauto|]. destruct (Z.eqb_spec x c); [now subst|]. intros [E|I]; [contradiction|]. cbn. auto. Qed.
Lemma pos_inj l a b : In a l -> In b l -> pos_in l a = pos_in l b -> a = b.
Proof. intros A B E. pose proof (pos_nth l a A). pose proof (pos_nth l b B). rewrite E in H. congruence. Qed.
Lemma pos_app_in l r c : In c l -> pos_in (l ++ r) c = pos_in l c.
Proof. induction l as [|x l IH]; cbn; [tauto|]. destruct (Z.eqb_spec x c); auto. intros [E|I]; [contradiction|]. f_equal. auto. Qed.
Lemma pos_app_new l c : ~ In c l -> pos_in (l ++ [c]) c = length l.
Proof. induction l as [|x l IH]; cbn; intros N; [now rewrite Z.eqb_refl|]. destruct (Z.eqb_spec x c); [tauto|]. f_equal. tauto. Qed.
Lemma map_pos l : NoDup l -> map (pos_in l) l = seq 0 (length l).
Proof.
  intros N. apply nth_error_ext. intros n. rewrite nth_error_map. destruct (nth_error l n) as [c|] eqn:E; cbn.
  - assert (L : (n < length l)%nat) by (apply nth_error_Some; congruence).
    rewrite nth_error_nth' with (d := O) by (now rewrite seq_length). rewrite seq_nth by auto. cbn. f_equal.
    assert (I : In c l) by (eapply nth_error_In; eauto). pose proof (pos_nth l c I) as P.
    eapply NoDup_nth_error; eauto; [now apply pos_lt|congruence].
  - symmetry. apply nth_error_None. rewrite seq_length. now apply nth_error_None.
Qed.
Lemma sum_pos (f : nat -> Q) l n : NoDup l -> (length l <= n)%nat -> (forall k, (length l <= k)%nat -> (k < n)%nat -> f k == 0)%Q ->
  (sumQ f (seq 0 n) == sumQ (fun c => f (pos_in l c)) l)%Q.
Proof.
  intros N L Z. replace n with (length l + (n - length l))%nat by lia. rewrite seq_app.
  assert (A : forall (a b : list nat), (sumQ f (a ++ b) == sumQ f a + sumQ f b)%Q).
  { induction a; intros b; cbn [app]; rewrite ?sumQ_nil, ?sumQ_cons; [lra|]. rewrite IHa. lra. }
  rewrite A, <- (map_pos l N), sumQ_map.
  rewrite (sumQ_zero f (seq (0 + length l) (n - length l))); [lra|]. intros k K. apply in_seq in K. apply Z; lia.
Qed.

(** Index maps. *)
Lemma has_channel_mem s c : 0 <= c < 17 -> has_channel s c = Ok (mem s c).
Proof. intros C. unfold mem. destruct (has_channel s c) eqn:E; auto; unfold has_channel, max_chans in E; destruct (Z.leb_spec 1024 c); try lia; discriminate E. Qed.
Lemma bit_has c c' : 0 <= c -> 0 <= c' -> Z.testbit (bit c) c' = (c =? c').
Proof. intros. unfold bit. rewrite Z.shiftl_1_l. destruct (Z.eqb_spec c c') as [->|N]; [now apply Z.pow2_bits_true|now apply Z.pow2_bits_false]. Qed.

Lemma index_loop_ok s ord : forall done im, Forall inr ord -> Forall inr done -> NoDup (done ++ ord) ->
  (forall c, 0 <= c -> has (im_set im) c = existsb (Z.eqb c) (filter (mem s) done)) ->
  length (im_idx im) = 17%nat ->
  (forall c, In c (filter (mem s) done) -> nth (Z.to_nat c) (im_idx im) 0 = Z.of_nat (pos_in (filter (mem s) done) c)) ->
  exists im', index_loop ord s (Z.of_nat (length (filter (mem s) done))) im = Ok im' /\
    (forall c, 0 <= c -> has (im_set im') c = existsb (Z.eqb c) (filter (mem s) (done ++ ord))) /\
    (forall c, In c (filter (mem s) (done ++ ord)) -> nth (Z.to_nat c) (im_idx im') 0 = Z.of_nat (pos_in (filter (mem s) (done ++ ord)) c)).
Proof.
  induction ord as [|ch ord IH]; intros done im RO RD ND S L P.
  - rewrite app_nil_r. exists im. auto.
  - cbn [index_loop]. pose proof (Forall_inv RO) as C. rewrite has_channel_mem by exact C. cbn [bind].
    assert (NI : ~ In ch done) by (apply NoDup_remove_2 in ND; intros I; apply ND; apply in_app_iff; auto).
    replace (done ++ ch :: ord) with ((done ++ [ch]) ++ ord) in * by (now rewrite <- app_assoc).
    assert (RD' : Forall inr (done ++ [ch])) by (apply Forall_app; split; [exact RD|constructor; [exact C|constructor]]).
    assert (FE : filter (mem s) (done ++ [ch]) = filter (mem s) done ++ (if mem s ch then [ch] else [])).
    { rewrite filter_app. cbn. now destruct (mem s ch). }
    destruct (mem s ch) eqn:M.
    + specialize (IH (done ++ [ch]) (mkI (Z.lor (im_set im) (bit ch)) (upd (im_idx im) (Z.to_nat ch) (Z.of_nat (length (filter (mem s) done)))))).
      rewrite FE in IH. rewrite app_length in IH. cbn [length] in IH.
      replace (Z.of_nat (length (filter (mem s) done) + 1)) with (Z.of_nat (length (filter (mem s) done)) + 1) in IH by lia.
      apply IH; auto.
      * now apply Forall_inv_tail in RO.
      * cbn [im_set]. intros c Hc. unfold has in *. rewrite Z.lor_spec, bit_has, S by (unfold inr in C; lia).
        rewrite existsb_app. cbn. rewrite orb_false_r. f_equal. apply Z.eqb_sym.
      * cbn [im_idx]. now rewrite length_upd.
      * cbn [im_idx]. intros c I. apply in_app_iff in I. destruct I as [I|[<-|[]]].
        -- rewrite pos_app_in by auto. rewrite <- P by auto. apply nth_same. apply nth_error_upd_neq.
           assert (c <> ch) by (intros ->; apply filter_In in I; tauto).
           assert (inr c) by (apply filter_In in I as [I _]; rewrite Forall_forall in RD; auto). unfold inr in *. lia.
        -- rewrite pos_app_new by (intros I; apply filter_In in I; tauto). apply nth_error_nth. apply nth_error_upd_eq. unfold inr in C. lia.
    + specialize (IH (done ++ [ch]) im). rewrite FE, app_nil_r in IH. apply IH; auto. now apply Forall_inv_tail in RO.
Qed.

Lemma order_ok o : Forall inr (order_table o) /\ NoDup (order_table o).
Proof.
  split.
  - assert (H : forallb (fun c => (0 <=? c) && (c <? 17)) (order_table o) = true) by (destruct o; vm_compute; reflexivity).
    rewrite forallb_forall in H. apply Forall_forall. intros c I. specialize (H c I). unfold inr. lia.
  - destruct o; vm_compute; repeat constructor; cbn; intuition discriminate.
Qed.

(** The part of a surround set that its order knows. *)
Definition fchans (s : chset) : list Z := filter (mem s) (order_table (ch_order s)).
Lemma fchans_inr s c : In c (fchans s) -> inr c.
Proof. intros I. apply filter_In in I as [I _]. destruct (order_ok (ch_order s)) as [F _]. rewrite Forall_forall in F. auto. Qed.
Lemma fchans_nodup s : NoDup (fchans s).
Proof. apply NoDup_filter. apply order_ok. Qed.
Lemma fchans_len s : (length (fchans s) <= 17)%nat.
Proof.
  assert (H : (length (fchans s) <= length chans)%nat); [|now rewrite len_chans in H].
  apply NoDup_incl_length; [apply fchans_nodup|]. intros c I. apply in_chans. now apply (fchans_inr s).
Qed.
Lemma index_map_ok s : exists im, index_map s = Ok im /\
  (forall c, 0 <= c -> has (im_set im) c = true <-> In c (fchans s)) /\
  (forall c, In c (fchans s) -> nth (Z.to_nat c) (im_idx im) 0 = Z.of_nat (pos_in (fchans s) c)).
Proof.
  destruct (order_ok (ch_order s)) as [F N].
  destruct (index_loop_ok s (order_table (ch_order s)) [] (mkI 0 (repeat 0 17)) F (Forall_nil _) N) as (im & E & A & B).
  - cbn. intros c C. unfold has. apply Z.bits_0.
  - reflexivity.
  - cbn. tauto.
  - cbn [app filter length] in *. exists im. split; [exact E|]. split; [|exact B]. intros c C. rewrite A by auto. fold (fchans s).
    rewrite existsb_exists. split; [intros (x & X & Y); apply Z.eqb_eq in Y; now subst x|]. intros I. exists c. split; auto. apply Z.eqb_refl.
Qed.

(** The final matrix. *)
Section Populate.
Variables (im om : imap) (li lo : list Z) (cm : mat).
Hypothesis HI : forall c, 0 <= c -> has (im_set im) c = true <-> In c li.
Hypothesis HO : forall c, 0 <= c -> has (im_set om) c = true <-> In c lo.
Hypothesis PI : forall c, In c li -> nth (Z.to_nat c) (im_idx im) 0 = Z.of_nat (pos_in li c).
Hypothesis PO : forall c, In c lo -> nth (Z.to_nat c) (im_idx om) 0 = Z.of_nat (pos_in lo c).
Hypothesis LI : (length li <= 17)%nat.
Hypothesis LO : (length lo <= 17)%nat.

Let inner (o : Z) (acc : res mat) (i : Z) : res mat :=
      if negb (has (im_set im) i) then acc else
      m <- acc ;;
      let oi := nth (Z.to_nat o) (im_idx om) 0 in
      let ii := nth (Z.to_nat i) (im_idx im) 0 in
      if negb (oi <? CHMAX) then Panic else if negb (ii <? CHMAX) then Panic
      else Ok (put m oi ii (get cm o i)).

Lemma inner_ok o l m : In o lo -> Forall inr l -> NoDup l -> wf m ->
  exists m', fold_left (inner o) l (Ok m) = Ok m' /\ wf m' /\
    (forall i, In i l -> In i li -> get m' (Z.of_nat (pos_in lo o)) (Z.of_nat (pos_in li i)) = get cm o i) /\
    (forall a b, inr a -> inr b -> (a <> Z.of_nat (pos_in lo o) \/ forall i, In i l -> In i li -> b <> Z.of_nat (pos_in li i)) -> get m' a b = get m a b).
Proof.
  intros O. pose proof (pos_lt lo o O) as OL. revert m. induction l as [|i l IH]; intros m R N W; cbn [fold_left].
  - exists m. repeat (split; [auto; cbn; tauto|]). auto.
  - pose proof (Forall_inv R) as I. apply Forall_inv_tail in R. apply NoDup_cons_iff in N as [N1 N].
    unfold inner at 2. destruct (has (im_set im) i) eqn:H; cbn [negb].
    + apply HI in H; [|unfold inr in I; lia]. pose proof (pos_lt li i H) as IL. cbn [bind]. rewrite PO, PI by auto. cbv zeta. unfold CHMAX.
      destruct (Z.ltb_spec (Z.of_nat (pos_in lo o)) 17); [|lia]. destruct (Z.ltb_spec (Z.of_nat (pos_in li i)) 17); [|lia]. cbn [negb].
      assert (A1 : inr (Z.of_nat (pos_in lo o))) by (unfold inr; lia). assert (A2 : inr (Z.of_nat (pos_in li i))) by (unfold inr; lia).
      destruct (IH (put m (Z.of_nat (pos_in lo o)) (Z.of_nat (pos_in li i)) (get cm o i)) R N (wf_put _ _ _ _ W A1)) as (m' & E & W' & P1 & P2).
      exists m'. split; [exact E|]. split; [exact W'|]. split.
      * intros j [<-|J] JI; [|now apply P1]. rewrite P2; auto.
        -- rewrite get_put by auto. now rewrite !Z.eqb_refl.
        -- right. intros k K KI X. apply N1. assert (i = k) by (apply (pos_inj li); auto; lia). now subst k.
      * intros a b RA RB D. rewrite P2; auto; [|destruct D as [D|D]; [now left|right; intros k K KI; apply D; auto; now right]].
        rewrite get_put by auto. destruct (Z.eqb_spec (Z.of_nat (pos_in lo o)) a) as [<-|]; auto.
        destruct (Z.eqb_spec (Z.of_nat (pos_in li i)) b) as [<-|]; auto. destruct D as [D|D]; [tauto|]. exfalso. apply (D i); auto. now left.
    + destruct (IH m R N W) as (m' & E & W' & P1 & P2). exists m'. split; [exact E|]. split; [exact W'|]. split.
      * intros j [<-|J] JI; [|now apply P1]. apply HI in JI; [congruence|unfold inr in I; lia].
      * intros a b RA RB D. apply P2; auto. destruct D as [D|D]; [now left|right; intros k K KI; apply D; auto; now right].
Qed.

Let outer (acc : res mat) (o : Z) : res mat := if negb (has (im_set om) o) then acc else fold_left (inner o) chans acc.
Lemma outer_ok l m : Forall inr l -> NoDup l -> wf m -> (forall i, In i li -> inr i) ->
  exists m', fold_left outer l (Ok m) = Ok m' /\ wf m' /\
    (forall o i, In o l -> In o lo -> In i li -> get m' (Z.of_nat (pos_in lo o)) (Z.of_nat (pos_in li i)) = get cm o i) /\
    (forall a b, inr a -> inr b -> ((forall o, In o l -> In o lo -> a <> Z.of_nat (pos_in lo o)) \/ forall i, In i li -> b <> Z.of_nat (pos_in li i)) -> get m' a b = get m a b).
Proof.
  intros R N W RI. revert m R N W. induction l as [|o l IH]; intros m R N W; cbn [fold_left].
  - exists m. repeat (split; [auto; cbn; tauto|]). auto.
  - pose proof (Forall_inv R) as I. apply Forall_inv_tail in R. apply NoDup_cons_iff in N as [N1 N].
    unfold outer at 2. destruct (has (im_set om) o) eqn:H; cbn [negb].
    + apply HO in H; [|unfold inr in I; lia]. pose proof (pos_lt lo o H) as OL.
      destruct (inner_ok o chans m H) as (m1 & E1 & W1 & P1 & P2); auto.
      { apply Forall_forall. intros c. apply in_chans. }
      { unfold chans. repeat constructor; cbn; intuition discriminate. }
      destruct (IH m1 R N W1) as (m' & E & W' & Q1 & Q2). rewrite E1. exists m'. split; [exact E|]. split; [exact W'|]. split.
      * intros p i [<-|J] JO JI; [|now apply Q1]. pose proof (pos_lt li i JI) as IL. rewrite Q2; auto; try (unfold inr; lia).
        -- apply P1; auto. apply in_chans. auto.
        -- left. intros k K KI X. apply N1. assert (o = k) by (apply (pos_inj lo); auto; lia). now subst k.
      * intros a b RA RB D. rewrite Q2; auto; [|destruct D as [D|D]; [left; intros k K KI; apply D; auto; now right|now right]].
        apply P2; auto. destruct D as [D|D]; [left; apply D; auto; now left|right; auto].
    + destruct (IH m R N W) as (m' & E & W' & Q1 & Q2). exists m'. split; [exact E|]. split; [exact W'|]. split.
      * intros p i [<-|J] JO JI; [|now apply Q1]. apply HO in JO; [congruence|unfold inr in I; lia].
      * intros a b RA RB D. apply Q2; auto. destruct D as [D|D]; [left; intros k K KI; apply D; auto; now right|now right].
Qed.
Lemma populate_ok : (forall i, In i li -> inr i) -> (forall o, In o lo -> inr o) ->
  exists m, populate im om cm = Ok m /\ wf m /\
    (forall o i, In o lo -> In i li -> get m (Z.of_nat (pos_in lo o)) (Z.of_nat (pos_in li i)) = get cm o i) /\
    (forall a b, inr a -> inr b -> ((forall o, In o lo -> a <> Z.of_nat (pos_in lo o)) \/ forall i, In i li -> b <> Z.of_nat (pos_in li i)) -> get m a b = 0%Q).
Proof.
  intros RI RO. destruct (outer_ok chans zero_mat) as (m & E & W & P1 & P2); auto.
  { apply Forall_forall. intros c. apply in_chans. }
  { unfold chans. repeat constructor; cbn; intuition discriminate. }
  { apply wf_zero. }
  exists m. split; [exact E|]. split; [exact W|]. split.
  - intros o i O I. apply P1; auto. apply in_chans. auto.
  - intros a b A B D. rewrite P2; auto; [now apply get_zero|]. destruct D as [D|D]; [left; auto|right; auto].
Qed.
End Populate.

(** Mapping a frame between two surround sets. *)
Lemma ss_sum_ok m o inp : forall k i acc, 0 <= o < 17 -> 0 <= i -> i + Z.of_nat k <= 17 -> (Z.to_nat i + k <= length inp)%nat ->
  exists q, ss_sum m o inp i k acc = Ok q /\
    (q == acc + sumQ (fun j => nth j inp 0 * get m o (Z.of_nat j)) (seq (Z.to_nat i) k))%Q.
Proof.
  induction k as [|k IH]; intros i acc O I L LI; cbn [ss_sum seq].
  - exists acc. split; auto. rewrite sumQ_nil. lra.
  - unfold rd. rewrite (nth_error_nth' inp 0%Q) by lia. cbn [bind]. unfold coeff, CHMAX.
    destruct (Z.ltb_spec o 17); [|lia]. destruct (Z.ltb_spec i 17); [|lia]. cbn [andb bind].
    destruct (IH (i + 1) (acc + nth (Z.to_nat i) inp 0 * get m o i)%Q) as (q & E & Q); try lia.
    exists q. split; auto. rewrite Q, sumQ_cons. replace (Z.to_nat (i + 1)) with (S (Z.to_nat i)) by lia.
    rewrite (Z2Nat.id i) by lia. lra.
Qed.
Lemma ss_out_ok m nin inp : forall k o, 0 <= o -> o + Z.of_nat k <= 17 -> (nin <= 17)%nat -> (nin <= length inp)%nat ->
  exists l, ss_out m nin inp o k = Ok l /\ length l = k /\
    forall j, (j < k)%nat -> exists q, nth_error l j = Some (clampQ q) /\
      (q == sumQ (fun n => nth n inp 0 * get m (o + Z.of_nat j) (Z.of_nat n)) (seq 0 nin))%Q.
Proof.
  induction k as [|k IH]; intros o O L N LI; cbn [ss_out].
  - exists []. repeat (split; auto). intros j J. lia.
  - destruct (ss_sum_ok m o inp nin 0 0%Q) as (q & E & Q); try lia. rewrite E. cbn [bind].
    destruct (IH (o + 1)) as (l & E' & LL & H); try lia. rewrite E'. cbn [bind]. eexists. split; [reflexivity|]. cbn. split; [lia|].
    intros [|j] J.
    + exists q. split; auto. rewrite Q. replace (o + Z.of_nat 0) with o by lia. change (Z.to_nat 0) with 0%nat. lra.
    + destruct (H j) as (q' & A & B); [lia|]. exists q'. split; [exact A|]. rewrite B. replace (o + 1 + Z.of_nat j) with (o + Z.of_nat (S j)) by lia. reflexivity.
Qed.

Lemma clamp_cut q : cut_of (clampQ q) q.
Proof.
  unfold clampQ, cut_of, in_range. cbv zeta.
  assert (LB : forall a b, Qle_bool a b = false -> (b < a)%Q).
  { intros a b H. destruct (Qlt_le_dec b a) as [|G]; auto. apply Qle_bool_iff in G. congruence. }
  destruct (Qle_bool q 1) eqn:A; cbn [negb].
  - apply Qle_bool_iff in A. destruct (Qle_bool (-(1)) q) eqn:B; cbn [negb].
    + apply Qle_bool_iff in B. split; [auto|]. left. split; auto. reflexivity.
    + apply LB in B. split; [split; lra|]. right. right. split; auto. reflexivity.
  - apply LB in A. cbn. split; [split; lra|]. right. left. split; auto. reflexivity.
Qed.
Lemma cut_eq y x x' : (x == x')%Q -> cut_of y x -> cut_of y x'.
Proof.
  unfold cut_of, in_range. intros E [A B]. split; auto. destruct B as [[B C]|[[B C]|[B C]]]; [left|right; left|right; right]; lra.
Qed.

(** Independence of frames. *)
Lemma frames_app step inp out fs outs : length inp = length outs -> 
  Forall2 (fun a b => forall r, step (a ++ r) = Ok (b, r)) inp outs -> fs = concat inp -> out = concat outs ->
  frames step (length inp) fs = Ok out.
Proof.
  intros L F -> ->. clear L. induction F as [|a b inp outs H F IH]; cbn [length frames concat]; auto.
  rewrite H. cbn [bind fst snd]. rewrite IH. reflexivity.
Qed.
