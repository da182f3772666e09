(** The mapping of frames by a mapper: surround sets, tracks, and mixtures. *)
From Coq Require Import QArith Lqa Permutation.
From Verif Require Import Base Base_lemmas ChannelSet_model ChannelSet_spec ChannelSet_proof ChannelSet_props.
From Verif Require Import ChanMap_tables ChanMap_model ChanMap_spec ChanMap_mat ChanMap_search ChanMap_frame.
Open Scope Z_scope.
Open Scope res_scope.
Local Opaque tables tmasks classes.

Lemma members_spec s c : In c (members s) <-> 0 <= c < 1024 /\ mem s c = true.
Proof.
  unfold members. rewrite filter_In, in_map_iff. split.
  - intros [(n & <- & I) M]. apply in_seq in I. split; auto. lia.
  - intros [R M]. split; auto. exists (Z.to_nat c). split; [lia|]. apply in_seq. lia.
Qed.
Lemma num_members s : built s -> num_channels s = Z.of_nat (length (members s)) /\ NoDup (members s).
Proof. intros B. destruct (C37_queries s B) as (_ & A & N & _). auto. Qed.
Lemma fchans_mem s c : In c (fchans s) <-> In c (order_table (ch_order s)) /\ mem s c = true.
Proof. apply filter_In. Qed.
Lemma surround_num s : surround s -> (length (fchans s) <= Z.to_nat (num_channels s))%nat /\ 0 < num_channels s <= 17.
Proof.
  intros (B & V & L). destruct (num_members s B) as [N ND]. apply (C37_valid s B) in V as [NE V].
  assert (LT : forall c, In c (members s) -> inr c).
  { intros c I. destruct V as [(_ & _ & V)|(V & _)]; [|congruence]. pose proof (proj1 (proj1 (members_spec s c) I)). specialize (V c I). unfold inr. lia. }
  assert (A : (length (members s) <= length chans)%nat) by (apply NoDup_incl_length; auto; intros c I; apply in_chans; auto).
  rewrite len_chans in A.
  assert (C : (length (fchans s) <= length (members s))%nat).
  { apply NoDup_incl_length; [apply fchans_nodup|]. intros c I. apply members_spec. split; [apply fchans_inr in I; unfold inr in I; lia|].
    apply fchans_mem in I. tauto. }
  destruct (members s); [congruence|]. cbn [length] in *. lia.
Qed.
Lemma frame_chans_s s : ch_layout s = LSurround -> frame_chans s = fchans s.
Proof. unfold frame_chans, fchans. now intros ->. Qed.
Lemma frame_chans_m s : ch_layout s = LMultitrack -> frame_chans s = members s.
Proof. unfold frame_chans. now intros ->. Qed.

(** One frame between surround sets. *)
Definition mask_of (s : chset) (m : Z) : Prop := forall c, 0 <= c -> has m c = true <-> In c (fchans s).
Lemma nth_app_l {A} (l r : list A) k d : (k < length l)%nat -> nth k (l ++ r) d = nth k l d.
Proof. intros. now apply app_nth1. Qed.

Lemma made_ss fuel inp out mp : surround inp -> surround out -> mapper_new fuel inp out = Some (Ok mp) ->
  mp_in mp = inp /\ mp_out mp = out /\
  exists mi mo cm, mask_of inp mi /\ mask_of out mo /\ chan_map fuel mi mo = Some cm /\
    forall frame, is_frame inp frame -> exists outf, length outf = Z.to_nat (num_channels out) /\
      (forall r, map_frame mp (frame ++ r) = Ok (outf, r)) /\
      (forall o, In o (fchans out) -> cut_of (chan_sample out outf o) (sumQ (fun i => get cm o i * chan_sample inp frame i)%Q (fchans inp))) /\
      (forall k, (length (fchans out) <= k)%nat -> (k < Z.to_nat (num_channels out))%nat -> (nth k outf 0 == 0)%Q).
Proof.
  intros SI SO. unfold mapper_new. pose proof SI as (BI & VI & LI). pose proof SO as (BO & VO & LO). rewrite VI, VO, LI, LO. cbn [negb].
  unfold build. destruct (index_map_ok inp) as (im & EI & AI & PI). destruct (index_map_ok out) as (om & EO & AO & PO). rewrite EI, EO.
  destruct (chan_map fuel (im_set im) (im_set om)) as [cm|] eqn:CM; [|discriminate].
  destruct (populate_ok im om (fchans inp) (fchans out) cm AI AO PI PO (fchans_len inp) (fchans_len out) (fchans_inr inp) (fchans_inr out)) as (m & EP & W & G1 & G2).
  rewrite EP. cbn [bind]. intros H. assert (HM : mp = mkM inp out (ch_or inp out) m) by congruence. subst mp. cbn [mp_in mp_out]. clear H.
  repeat (split; [reflexivity|]). exists (im_set im), (im_set om), cm. split; [exact AI|]. split; [exact AO|]. split; [exact CM|].
  intros frame F. unfold is_frame in F. destruct (surround_num inp SI) as [NI RI]. destruct (surround_num out SO) as [NO RO].
  assert (LF : length frame = Z.to_nat (num_channels inp)) by lia.
  destruct (ss_out_ok m (Z.to_nat (num_channels inp)) frame (Z.to_nat (num_channels out)) 0) as (outf & E & LOUT & H); try lia.
  exists outf. split; [exact LOUT|]. split.
  - intros r. unfold map_frame. cbn [mp_in mp_out mp_mat]. rewrite LI, LO. unfold ss_frame.
    assert (EQ : ss_out m (Z.to_nat (num_channels inp)) (frame ++ r) 0 (Z.to_nat (num_channels out)) = Ok outf).
    { rewrite <- E. assert (X : forall k i acc o, (Z.to_nat i + k <= length frame)%nat -> 0 <= i -> ss_sum m o (frame ++ r) i k acc = ss_sum m o frame i k acc).
      { induction k as [|k IH]; intros i acc o L P; cbn [ss_sum]; auto. unfold rd. rewrite nth_error_app1 by lia.
        destruct (nth_error frame (Z.to_nat i)); auto. cbn [bind]. destruct (coeff m o i); auto. cbn [bind]. apply IH; lia. }
      assert (Y : forall k o, ss_out m (Z.to_nat (num_channels inp)) (frame ++ r) o k = ss_out m (Z.to_nat (num_channels inp)) frame o k).
      { induction k as [|k IH]; intros o; cbn [ss_out]; auto. rewrite X by lia. now rewrite IH. }
      apply Y. }
    rewrite EQ. cbn [bind]. rewrite app_length. destruct (Nat.ltb_spec (length frame + length r) (Z.to_nat (num_channels inp))); [lia|].
    rewrite <- LF. now rewrite skipn_app, skipn_all, Nat.sub_diag.
  - assert (ROW : forall j, (j < Z.to_nat (num_channels out))%nat -> cut_of (nth j outf 0%Q) (sumQ (fun n => nth n frame 0 * get m (Z.of_nat j) (Z.of_nat n)) (seq 0 (Z.to_nat (num_channels inp))))%Q).
    { intros j J. destruct (H j J) as (q & A & B). rewrite (nth_error_nth _ _ _ A). eapply cut_eq; [|apply clamp_cut]. rewrite B. reflexivity. }
    split.
    + intros o O. unfold chan_sample. rewrite (frame_chans_s out), (frame_chans_s inp) by auto.
      pose proof (pos_lt _ _ O) as LT. eapply cut_eq; [|apply ROW; lia].
      rewrite (sum_pos _ (fchans inp)); [|apply fchans_nodup|exact NI|].
      * apply sumQ_ext. intros i I. rewrite G1 by auto. ring.
      * intros k K1 K2. rewrite G2; [ring|unfold inr; lia|unfold inr; lia|]. right. intros i I. pose proof (pos_lt _ _ I). lia.
    + intros k K1 K2. pose proof (ROW k K2) as R. eapply cut_eq in R; [|apply sumQ_zero; intros n N; apply in_seq in N; rewrite G2; [ring|unfold inr; lia|unfold inr; lia|]].
      * destruct R as [_ R]. destruct R as [[_ R]|[[R _]|[R _]]]; [exact R|lra|lra].
      * left. intros o O. pose proof (pos_lt _ _ O). lia.
Qed.

(** Sizes. *)
Lemma map_samples_frames mp fs outs : 
  let ci := num_channels (mp_in mp) in let co := num_channels (mp_out mp) in
  0 < ci -> 0 < co -> Forall (is_frame (mp_in mp)) fs -> 
  Forall2 (fun a b => forall r, map_frame mp (a ++ r) = Ok (b, r)) fs outs ->
  map_samples mp (concat fs) (Z.of_nat (length fs) * co) = Ok (concat outs).
Proof.
  intros ci co CI CO F1 F2. unfold map_samples. fold ci. fold co.
  assert (L : Z.of_nat (length (concat fs)) = Z.of_nat (length fs) * ci).
  { clear F2. induction F1 as [|a fs H F IH]; cbn [concat length]; [lia|]. rewrite app_length. unfold is_frame in H. fold ci in H. lia. }
  rewrite L. rewrite !Z.mod_mul, !Z.div_mul by lia. rewrite !Z.eqb_refl. cbn [negb]. rewrite Nat2Z.id.
  assert (E : length fs = length outs) by (clear - F2; induction F2; cbn; auto).
  eapply frames_app; eauto.
Qed.
Lemma map_one mp frame outf : 0 < num_channels (mp_in mp) -> 0 < num_channels (mp_out mp) -> is_frame (mp_in mp) frame ->
  (forall r, map_frame mp (frame ++ r) = Ok (outf, r)) -> map_samples mp frame (num_channels (mp_out mp)) = Ok outf.
Proof.
  intros A B F H. pose proof (map_samples_frames mp [frame] [outf] A B) as M. cbn [concat length] in M. rewrite !app_nil_r in M.
  replace (Z.of_nat 1 * num_channels (mp_out mp)) with (num_channels (mp_out mp)) in M by lia. apply M; repeat constructor; auto.
Qed.

(** Sums over the channels of a set. *)
Lemma sum_filter (f : Z -> Q) P l : (forall c, In c l -> P c = false -> f c == 0)%Q -> (sumQ f l == sumQ f (filter P l))%Q.
Proof.
  induction l as [|c l IH]; intros H; [reflexivity|]. rewrite sumQ_cons, IH by (intros; apply H; auto; now right). cbn [filter].
  destruct (P c) eqn:E; [rewrite sumQ_cons; reflexivity|]. rewrite (H c (or_introl eq_refl) E). lra.
Qed.
Lemma sum_chans (f : Z -> Q) l : NoDup l -> (forall c, In c l -> inr c) -> (forall c, inr c -> ~ In c l -> f c == 0)%Q ->
  (sumQ f chans == sumQ f l)%Q.
Proof.
  intros N I H. rewrite (sum_filter f (fun c => if in_dec Z.eq_dec c l then true else false) chans).
  - apply sumQ_perm. apply NoDup_Permutation; [apply NoDup_filter; unfold chans; repeat constructor; cbn; intuition discriminate|exact N|].
    intros c. rewrite filter_In, in_chans. destruct (in_dec Z.eq_dec c l); split; auto; try tauto. intros [_ X]. discriminate X.
  - intros c C. apply in_chans in C. destruct (in_dec Z.eq_dec c l); [discriminate|]. auto.
Qed.

(** Facts about the matrix in terms of channels. *)
Definition avg_on (cm : mat) (li lo : list Z) : Prop :=
  (forall o i, In o lo -> In i li -> (0 <= get cm o i /\ get cm o i <= 1)%Q) /\
  (forall o, In o lo -> (sumQ (get cm o) li == 1)%Q \/ forall i, In i li -> (get cm o i == 0)%Q).
Lemma mask_no s m c : mask_of s m -> inr c -> ~ In c (fchans s) -> has m c = false.
Proof. intros M C N. destruct (has m c) eqn:E; auto. apply M in E; [tauto|unfold inr in C; lia]. Qed.
Lemma chan_map_avg fuel inp out mi mo cm : mask_of inp mi -> mask_of out mo -> chan_map fuel mi mo = Some cm ->
  avg_on cm (fchans inp) (fchans out).
Proof.
  intros MI MO E. apply chan_map_good in E as [->|(W & N & A & S)].
  - split.
    + intros o i O I. apply fchans_inr in O, I. rewrite get_fallback by auto. destruct (o =? i); lra.
    + intros o O. pose proof (fchans_inr _ _ O) as RO. destruct (in_dec Z.eq_dec o (fchans inp)) as [I|I].
      * left. assert (X : forall l, NoDup l -> (forall c, In c l -> inr c) -> (sumQ (get fallback o) l == if in_dec Z.eq_dec o l then 1 else 0)%Q).
        { induction l as [|c l IH]; intros ND R; [reflexivity|]. apply NoDup_cons_iff in ND as [N1 ND].
          rewrite sumQ_cons, IH by (auto; intros; apply R; now right). rewrite get_fallback by (auto; apply R; now left).
          destruct (in_dec Z.eq_dec o (c :: l)) as [[->|J]|J]; destruct (in_dec Z.eq_dec o l) as [K|K]; try tauto.
          - rewrite Z.eqb_refl. lra.
          - destruct (Z.eqb_spec o c); [subst; tauto|lra].
          - exfalso. apply J. now right.
          - destruct (Z.eqb_spec o c); [subst; exfalso; apply J; now left|lra]. }
        rewrite X; [|apply fchans_nodup|apply fchans_inr]. destruct (in_dec Z.eq_dec o (fchans inp)); [reflexivity|tauto].
      * right. intros i J. rewrite get_fallback by (auto; now apply (fchans_inr inp)). destruct (Z.eqb_spec o i); [subst; tauto|reflexivity].
  - split.
    + intros o i O I. apply fchans_inr in O, I. split; [auto|]. destruct (A o O) as [B|B]; [|rewrite (B i I); lra].
      rewrite <- B. apply sumQ_le1; [|now apply in_chans]. intros a J. apply in_chans in J. auto.
    + intros o O. apply fchans_inr in O. destruct (A o O) as [B|B]; [left|right; intros i I; apply B; now apply (fchans_inr inp)].
      rewrite <- (sum_chans (get cm o) (fchans inp)); [exact B|apply fchans_nodup|apply fchans_inr|].
      intros c C NC. apply S; auto. now apply (mask_no inp).
Qed.

Lemma impulse_sample s i j : In i (frame_chans s) -> In j (frame_chans s) -> (length (frame_chans s) <= Z.to_nat (num_channels s))%nat ->
  chan_sample s (impulse s i) j = if i =? j then 1%Q else 0%Q.
Proof.
  intros I J L. unfold chan_sample, impulse. pose proof (pos_lt _ _ I) as PI. pose proof (pos_lt _ _ J) as PJ. destruct (Z.eqb_spec i j) as [<-|N].
  - apply nth_error_nth. apply nth_error_upd_eq. rewrite repeat_length. lia.
  - transitivity (nth (pos_in (frame_chans s) j) (repeat 0%Q (Z.to_nat (num_channels s))) 0%Q); [|apply nth_repeat].
    apply nth_same. apply nth_error_upd_neq. intros E. apply N. apply (pos_inj (frame_chans s)); auto.
Qed.
Lemma impulse_frame s i : 0 <= num_channels s -> is_frame s (impulse s i).
Proof. intros N. unfold is_frame, impulse. rewrite length_upd, repeat_length. lia. Qed.

Lemma sum_delta (f : Z -> Q) l i : NoDup l -> In i l -> (sumQ (fun j => f j * (if i =? j then 1 else 0)) l == f i)%Q.
Proof.
  induction l as [|c l IH]; intros N I; [destruct I|]. apply NoDup_cons_iff in N as [N1 N]. rewrite sumQ_cons. destruct I as [->|I].
  - rewrite Z.eqb_refl. rewrite sumQ_zero; [ring|]. intros a A. destruct (Z.eqb_spec i a); [subst; tauto|ring].
  - rewrite IH by auto. destruct (Z.eqb_spec i c); [subst; tauto|ring].
Qed.

(** The weights are the entries of the matrix. *)
Lemma made_weight fuel inp out mp : surround inp -> surround out -> mapper_new fuel inp out = Some (Ok mp) ->
  mp_in mp = inp /\ mp_out mp = out /\
  exists mi mo cm, mask_of inp mi /\ mask_of out mo /\ chan_map fuel mi mo = Some cm /\ avg_on cm (fchans inp) (fchans out) /\
    (forall o i, In o (fchans out) -> In i (fchans inp) -> (weight mp o i == get cm o i)%Q) /\
    forall frame, is_frame inp frame -> exists outf, is_frame out outf /\
      (forall r, map_frame mp (frame ++ r) = Ok (outf, r)) /\
      (forall o, In o (fchans out) -> cut_of (chan_sample out outf o) (sumQ (fun i => get cm o i * chan_sample inp frame i)%Q (fchans inp))) /\
      (forall k, (length (fchans out) <= k)%nat -> (k < Z.to_nat (num_channels out))%nat -> (nth k outf 0 == 0)%Q).
Proof.
  intros SI SO E. destruct (made_ss fuel inp out mp SI SO E) as (EI & EO & mi & mo & cm & MI & MO & CM & H).
  split; [exact EI|]. split; [exact EO|]. exists mi, mo, cm. split; [exact MI|]. split; [exact MO|]. split; [exact CM|].
  pose proof (chan_map_avg fuel inp out mi mo cm MI MO CM) as AV. split; [exact AV|].
  destruct (surround_num inp SI) as [NI RI]. destruct (surround_num out SO) as [NO RO]. pose proof SI as (_ & _ & LI).
  split.
  - intros o i O I. destruct (H (impulse inp i) (impulse_frame inp i ltac:(lia))) as (outf & L & M & C & _).
    unfold weight. rewrite EI, EO, <- EO.
    rewrite (map_one mp (impulse inp i) outf); try (rewrite ?EI, ?EO; lia || apply impulse_frame; lia).
    + specialize (C o O). rewrite EO. eapply cut_eq in C.
      2:{ transitivity (sumQ (fun j => get cm o j * (if (i =? j)%Z then 1 else 0))%Q (fchans inp)); [|apply sum_delta; [apply fchans_nodup|exact I]].
          apply sumQ_ext. intros j J. rewrite impulse_sample; rewrite ?frame_chans_s; auto. reflexivity. }
      destruct (proj1 AV o i O I) as [A B]. destruct C as [_ [[_ C]|[[C _]|[C _]]]]; [exact C|lra|lra].
    + exact M.
  - intros frame F. destruct (H frame F) as (outf & L & R). exists outf. split; [unfold is_frame; lia|exact R].
Qed.

(** Tracks and mixtures. *)
Lemma ms_out_ok nout : forall nin xs r, length xs = nin ->
  ms_out nin nout (xs ++ r) = Ok (map (fun k => nth k xs 0%Q) (seq 0 nout), (nin - nout)%nat, skipn nout xs ++ r).
Proof.
  induction nout as [|k IH]; intros nin xs r L; cbn [ms_out].
  - cbn. now rewrite Nat.sub_0_r.
  - destruct nin as [|n].
    + destruct xs; [|discriminate L]. cbn [app]. specialize (IH O [] r eq_refl). cbn [app] in IH. rewrite IH. cbn [bind fst snd].
      rewrite skipn_nil. cbn [seq map app nth Nat.sub]. rewrite <- (seq_shift k 0), map_map. do 4 f_equal.
      apply map_ext. intros [|a]; reflexivity.
    + destruct xs as [|x xs]; [discriminate L|]. cbn [app]. rewrite (IH n xs r) by (cbn in L; lia). cbn [bind fst snd seq map nth Nat.sub skipn].
      rewrite <- (seq_shift k 0), map_map. reflexivity.
Qed.
Lemma ms_frame_ok nin nout frame r : length frame = nin ->
  ms_frame nin nout (frame ++ r) = Ok (map (fun k => nth k frame 0%Q) (seq 0 nout), r).
Proof.
  intros L. unfold ms_frame. rewrite (ms_out_ok nout nin frame r L). cbn [bind].
  rewrite app_length, skipn_length, L. destruct (Nat.ltb_spec (nin - nout + length r) (nin - nout)); [lia|].
  do 2 f_equal. assert (K : length (skipn nout frame) = (nin - nout)%nat) by (rewrite skipn_length; lia).
  rewrite <- K. now rewrite skipn_app, skipn_all, Nat.sub_diag.
Qed.

Definition zrange (ch : Z) (k : nat) : list Z := map (fun n => ch + Z.of_nat n) (seq 0 k).
Lemma zrange_S ch k : zrange ch (S k) = ch :: zrange (ch + 1) k.
Proof. unfold zrange. cbn [seq map]. f_equal; [lia|]. rewrite <- (seq_shift k 0), map_map. apply map_ext. intros a. lia. Qed.
Lemma zrange_app n k : forall ch, zrange ch (n + k) = zrange ch n ++ zrange (ch + Z.of_nat n) k.
Proof.
  induction n as [|n IH]; intros ch; [cbn [Nat.add]; change (Z.of_nat 0) with 0; rewrite Z.add_0_r; reflexivity|]. cbn [Nat.add]. rewrite !zrange_S, IH. cbn [app]. do 3 f_equal. lia.
Qed.
Lemma seq_zrange n : map Z.of_nat (seq 0 n) = zrange 0 n.
Proof. unfold zrange. apply map_ext. intros a. lia. Qed.
Lemma has_mem s c : 0 <= c < 1024 -> has_channel s c = Ok (mem s c).
Proof. intros C. unfold mem. destruct (has_channel s c) eqn:E; auto; unfold has_channel, max_chans in E; destruct (Z.leb_spec 1024 c); try lia; discriminate E. Qed.
Lemma in_zrange ch k c : In c (zrange ch k) <-> ch <= c < ch + Z.of_nat k.
Proof.
  unfold zrange. rewrite in_map_iff. split; [intros (n & <- & I); apply in_seq in I; lia|]. intros H. exists (Z.to_nat (c - ch)). split; [lia|]. apply in_seq. lia.
Qed.
Lemma mm_out_ok si so k : forall ch xs r, 0 <= ch -> ch + Z.of_nat k <= 1024 -> length xs = length (filter (mem si) (zrange ch k)) ->
  mm_out si so ch k (xs ++ r) =
  Ok (map (fun c => if mem si c then nth (pos_in (filter (mem si) (zrange ch k)) c) xs 0%Q else 0%Q) (filter (mem so) (zrange ch k)), r).
Proof.
  induction k as [|k IH]; intros ch xs r C L LX.
  - cbn in *. destruct xs; [reflexivity|discriminate LX].
  - cbn [mm_out]. rewrite !has_mem by lia. cbn [bind]. rewrite zrange_S in *. cbn [filter] in *.
    assert (G : forall c, In c (filter (mem so) (zrange (ch + 1) k)) -> c <> ch).
    { intros c I. apply filter_In in I as [I _]. apply in_zrange in I. lia. }
    destruct (mem si ch) eqn:MI.
    + destruct xs as [|x xs]; [discriminate LX|]. cbn [app]. rewrite (IH (ch + 1) xs r) by (cbn in LX; lia). cbn [bind fst snd].
      assert (E : map (fun c => if mem si c then nth (pos_in (filter (mem si) (zrange (ch + 1) k)) c) xs 0%Q else 0%Q) (filter (mem so) (zrange (ch + 1) k))
                = map (fun c => if mem si c then nth (pos_in (ch :: filter (mem si) (zrange (ch + 1) k)) c) (x :: xs) 0%Q else 0%Q) (filter (mem so) (zrange (ch + 1) k))).
      { apply map_ext_in. intros c I. specialize (G c I). cbn [pos_in]. destruct (Z.eqb_spec ch c); [congruence|]. reflexivity. }
      rewrite E. destruct (mem so ch); cbn [map]; [|reflexivity]. rewrite MI. cbn [pos_in]. rewrite Z.eqb_refl. reflexivity.
    + rewrite (IH (ch + 1) xs r) by (auto; lia). cbn [bind fst snd]. destruct (mem so ch); cbn [map]; [|reflexivity]. rewrite MI. reflexivity.
Qed.
Lemma filter_none {A} (P : A -> bool) l : (forall a, In a l -> P a = false) -> filter P l = [].
Proof. induction l; cbn; intros H; auto. rewrite (H a) by auto. apply IHl. auto. Qed.
Lemma filter_part (P : Z -> bool) a b c : (forall x, In x a -> P x = false) -> (forall x, In x c -> P x = false) ->
  filter P (a ++ b ++ c) = filter P b.
Proof. intros A C. rewrite !filter_app, (filter_none P a A), (filter_none P c C). apply app_nil_r. Qed.
Lemma members_def s : members s = filter (mem s) (zrange 0 (Z.to_nat 1024)).
Proof. unfold members. rewrite seq_zrange. exact eq_refl. Qed.
Lemma range_part N f l : 0 <= f -> f <= l < Z.of_nat N ->
  zrange 0 N = zrange 0 (Z.to_nat f) ++ zrange f (Z.to_nat (l - f + 1)) ++ zrange (l + 1) (Z.to_nat (Z.of_nat N - 1 - l)).
Proof.
  intros F L. replace N with (Z.to_nat f + (Z.to_nat (l - f + 1) + Z.to_nat (Z.of_nat N - 1 - l)))%nat at 1 by lia.
  rewrite !zrange_app. replace (0 + Z.of_nat (Z.to_nat f)) with f by lia. replace (f + Z.of_nat (Z.to_nat (l - f + 1))) with (l + 1) by lia. reflexivity.
Qed.
Lemma members_range s f l : 0 <= f -> f <= l < 1024 -> (forall c, In c (members s) -> f <= c <= l) ->
  members s = filter (mem s) (zrange f (Z.to_nat (l - f + 1))).
Proof.
  intros F L H. rewrite members_def. pose proof (range_part (Z.to_nat 1024) f l F ltac:(lia)) as E. rewrite E.
  assert (Q : Z.of_nat (Z.to_nat 1024) = 1024) by lia. clear E. 
  apply filter_part; intros c I; apply in_zrange in I; (destruct (mem s c) eqn:M; [|reflexivity]);
    (assert (J : In c (members s)) by (apply members_spec; split; [lia|exact M])); specialize (H c J); lia.
Qed.
Lemma valid_num s : built s -> ch_is_valid s = true -> 0 < num_channels s /\ members s <> [].
Proof.
  intros B V. destruct (num_members s B) as [N _]. apply (C37_valid s B) in V as [NE _]. split; auto. destruct (members s); [congruence|]. cbn [length] in *. lia.
Qed.

Lemma mm_frame_ok inp out mp frame r : tracks inp -> tracks out -> mp_in mp = inp -> mp_out mp = out -> mp_inout mp = ch_or inp out ->
  is_frame inp frame ->
  mm_frame mp (frame ++ r) = Ok (map (fun c => if mem inp c then chan_sample inp frame c else 0%Q) (members out), r).
Proof.
  intros (BI & VI & LI) (BO & VO & LO) EI EO EB F. unfold mm_frame. rewrite EI, EO, EB.
  pose proof (b_or inp out BI BO) as BB.
  assert (MO : forall c, 0 <= c -> mem (ch_or inp out) c = mem inp c || mem out c) by (intros c C; apply (C37_bitwise inp out c BI BO C)).
  destruct (valid_num inp BI VI) as [NI NE].
  assert (NB : members (ch_or inp out) <> []).
  { destruct (members inp) as [|c l] eqn:E; [congruence|]. intros X. assert (I : In c (members inp)) by (rewrite E; now left).
    apply members_spec in I as [R M]. assert (J : In c (members (ch_or inp out))) by (apply members_spec; split; auto; rewrite MO by lia; now rewrite M).
    rewrite X in J. destruct J. }
  destruct (C37_queries (ch_or inp out) BB) as (_ & _ & _ & _ & Q). destruct (Q NB) as (f & l & EF & EL & IF & IL & R). rewrite EF, EL. cbn [bind].
  apply members_spec in IF as [RF _]. pose proof IL as IL'. apply members_spec in IL as [RL _].
  assert (FL : f <= l) by (apply R in IL'; lia).
  assert (RI : forall s, (s = inp \/ s = out) -> forall c, In c (members s) -> f <= c <= l).
  { intros s D c I. apply R. apply members_spec in I as [RC M]. apply members_spec. split; auto. rewrite MO by lia. destruct D as [->| ->]; rewrite M; auto. apply orb_true_r. }
  pose proof (members_range inp f l ltac:(lia) ltac:(lia) (RI inp (or_introl eq_refl))) as MI.
  pose proof (members_range out f l ltac:(lia) ltac:(lia) (RI out (or_intror eq_refl))) as MU.
  rewrite mm_out_ok; [|lia|lia|].
  - do 2 f_equal. rewrite <- MU. apply map_ext. intros c. unfold chan_sample. rewrite frame_chans_m by auto. now rewrite <- MI.
  - rewrite <- MI. destruct (num_members inp BI) as [N _]. unfold is_frame in F. lia.
Qed.
