(** C61: the channel mapper. *)
From Coq Require Import QArith Lqa Permutation.
From Verif Require Import Base Base_lemmas ChannelSet_model ChannelSet_spec ChannelSet_proof ChannelSet_props.
From Verif Require Import ChanMap_tables ChanMap_model ChanMap_spec ChanMap_mat ChanMap_search ChanMap_frame ChanMap_proof ChanMap_mirror.
Open Scope Z_scope.
Open Scope res_scope.
Local Opaque tables tmasks classes.

Lemma usable_cases s : usable s -> surround s \/ tracks s.
Proof.
  intros [B V]. pose proof (proj1 (C37_valid s B) V) as [_ [(L & _)|(L & _)]]; [left|right]; repeat split; auto.
Qed.
Lemma usable_num s : usable s -> 0 < num_channels s.
Proof. intros [B V]. now apply valid_num. Qed.
Lemma surround_usable s : surround s -> usable s. Proof. intros (A & B & _). now split. Qed.
Lemma tracks_usable s : tracks s -> usable s. Proof. intros (A & B & _). now split. Qed.

Lemma made_other inp out mp : usable inp -> usable out -> (tracks inp \/ tracks out) -> made inp out mp -> mp = mkM inp out (ch_or inp out) zero_mat.
Proof.
  intros [BI VI] [BO VO] T (f & H). unfold mapper_new in H. rewrite VI, VO in H. cbn [negb] in H.
  destruct T as [(_ & _ & L)|(_ & _ & L)]; rewrite L in H; [|destruct (ch_layout inp)]; congruence.
Qed.
Lemma made_map inp out mp : usable inp -> usable out -> made inp out mp ->
  mp_in mp = inp /\ mp_out mp = out /\
  forall frame, is_frame inp frame -> exists outf, is_frame out outf /\ forall r, map_frame mp (frame ++ r) = Ok (outf, r).
Proof.
  intros UI UO M. pose proof (usable_num _ UI) as NI. pose proof (usable_num _ UO) as NO.
  destruct (usable_cases _ UI) as [SI|TI].
  - destruct (usable_cases _ UO) as [SO|TO].
    + destruct M as (f & M). destruct (made_weight f inp out mp SI SO M) as (EI & EO & mi & mo & cm & _ & _ & _ & _ & _ & H).
      split; auto. split; auto. intros frame F. destruct (H frame F) as (outf & A & B & _). eauto.
    + apply made_other in M; auto. subst mp. split; [reflexivity|]. split; [reflexivity|]. intros frame F.
      exists (map (fun k => nth k frame 0%Q) (seq 0 (Z.to_nat (num_channels out)))). split; [unfold is_frame; rewrite map_length, seq_length; lia|].
      intros r. unfold map_frame. cbn [mp_in mp_out]. destruct SI as (_ & _ & LI), TO as (_ & _ & LO). rewrite LI, LO.
      apply ms_frame_ok. unfold is_frame in F. lia.
  - destruct (usable_cases _ UO) as [SO|TO].
    + apply made_other in M; auto. subst mp. split; [reflexivity|]. split; [reflexivity|]. intros frame F.
      exists (map (fun k => nth k frame 0%Q) (seq 0 (Z.to_nat (num_channels out)))). split; [unfold is_frame; rewrite map_length, seq_length; lia|].
      intros r. unfold map_frame. cbn [mp_in mp_out]. destruct SO as (_ & _ & LO), TI as (_ & _ & LI). rewrite LI, LO.
      apply ms_frame_ok. unfold is_frame in F. lia.
    + apply made_other in M; auto. subst mp. split; [reflexivity|]. split; [reflexivity|]. intros frame F.
      exists (map (fun c => if mem inp c then chan_sample inp frame c else 0%Q) (members out)). split.
      * unfold is_frame. rewrite map_length. symmetry. apply num_members. apply TO.
      * intros r. unfold map_frame. cbn [mp_in mp_out]. pose proof TI as (_ & _ & LI). pose proof TO as (_ & _ & LO). rewrite LI, LO.
        apply mm_frame_ok; auto.
Qed.

(** C61: frames are mapped one by one, each the same wherever it is in the call. *)
Theorem C61_frames : forall inp out mp fs, usable inp -> usable out -> made inp out mp -> Forall (is_frame inp) fs ->
  exists outs, Forall2 (fun a b => is_frame out b /\ map_samples mp a (num_channels out) = Ok b) fs outs /\
    map_samples mp (concat fs) (Z.of_nat (length fs) * num_channels out) = Ok (concat outs).
Proof.
  intros inp out mp fs UI UO M F. destruct (made_map inp out mp UI UO M) as (EI & EO & H).
  pose proof (usable_num _ UI) as NI. pose proof (usable_num _ UO) as NO.
  assert (X : exists outs, Forall2 (fun a b => is_frame out b /\ forall r, map_frame mp (a ++ r) = Ok (b, r)) fs outs).
  { clear - F H. induction F as [|a fs A F IH]; [exists []; constructor|]. destruct IH as (outs & IH). destruct (H a A) as (b & B). exists (b :: outs). now constructor. }
  destruct X as (outs & X). exists outs. split.
  - assert (G : forall a b, is_frame inp a -> is_frame out b /\ (forall r, map_frame mp (a ++ r) = Ok (b, r)) -> is_frame out b /\ map_samples mp a (num_channels out) = Ok b).
    { intros a b A [B C]. split; auto. rewrite <- EO. apply map_one; rewrite ?EI, ?EO; auto. }
    clear - X F G. induction X; [constructor|]. pose proof (Forall_inv F). apply Forall_inv_tail in F. constructor; auto.
  - rewrite <- EO. apply map_samples_frames; rewrite ?EI, ?EO; auto. clear - X. induction X; constructor; tauto.
Qed.

(** C61: a call with buffers of matching sizes returns as many samples as asked for; other
    sizes are refused with a panic; nothing is ever read outside the input. *)
Lemma cut_frames s (l : list Q) k : 0 < num_channels s -> Z.of_nat (length l) = Z.of_nat k * num_channels s ->
  exists fs, Forall (is_frame s) fs /\ length fs = k /\ concat fs = l.
Proof.
  intros N. revert l. induction k as [|k IH]; intros l L.
  - exists []. repeat split; auto. destruct l; [reflexivity|cbn [length] in L; lia].
  - destruct (IH (skipn (Z.to_nat (num_channels s)) l)) as (fs & F & LF & C); [rewrite skipn_length; nia|].
    exists (firstn (Z.to_nat (num_channels s)) l :: fs). cbn [length concat]. rewrite C, firstn_skipn. split; [|split; [lia|reflexivity]].
    constructor; auto. unfold is_frame. rewrite firstn_length. nia.
Qed.
Theorem C61_sizes : forall inp out mp l n, usable inp -> usable out -> made inp out mp -> 0 <= n ->
  ((exists k, Z.of_nat (length l) = Z.of_nat k * num_channels inp /\ n = Z.of_nat k * num_channels out) ->
     exists l', map_samples mp l n = Ok l' /\ Z.of_nat (length l') = n) /\
  (~ (exists k, Z.of_nat (length l) = Z.of_nat k * num_channels inp /\ n = Z.of_nat k * num_channels out) ->
     map_samples mp l n = Panic).
Proof.
  intros inp out mp l n UI UO M N0. pose proof (usable_num _ UI) as NI. pose proof (usable_num _ UO) as NO. split.
  - intros (k & A & B). destruct (cut_frames inp l k NI A) as (fs & F & LF & C). destruct (C61_frames inp out mp fs UI UO M F) as (outs & P & E).
    rewrite LF, C, <- B in E. exists (concat outs). split; auto.
    assert (G : Z.of_nat (length (concat outs)) = Z.of_nat (length fs) * num_channels out).
    { clear - P. induction P as [|a b fs outs [H _] P IH]; [reflexivity|]. cbn [concat length]. rewrite app_length. unfold is_frame in H. lia. }
    rewrite G, LF. auto.
  - intros H. destruct (made_map inp out mp UI UO M) as (EI & EO & _). unfold map_samples. rewrite EI, EO.
    destruct (Z.eqb_spec (Z.of_nat (length l) mod num_channels inp) 0) as [A|A]; [cbn [negb]|reflexivity].
    destruct (Z.eqb_spec (n mod num_channels out) 0) as [B|B]; [cbn [negb]|reflexivity].
    destruct (Z.eqb_spec (Z.of_nat (length l) / num_channels inp) (n / num_channels out)) as [C|C]; [exfalso|reflexivity].
    apply H. exists (Z.to_nat (n / num_channels out)).
    pose proof (Z.div_mod (Z.of_nat (length l)) (num_channels inp) ltac:(lia)) as D1. pose proof (Z.div_mod n (num_channels out) ltac:(lia)) as D2.
    assert (P : 0 <= n / num_channels out) by (apply Z.div_pos; lia). rewrite Z2Nat.id by exact P. rewrite A in D1. rewrite B in D2. rewrite <- C at 1. split; lia.
Qed.

(** C61: each output channel is a fixed linear combination of the input channels, cut to
    the range of samples; positions of unknown channels are silent. *)
Theorem C61_linear : forall inp out mp frame, surround inp -> surround out -> made inp out mp -> is_frame inp frame ->
  exists outf, map_samples mp frame (num_channels out) = Ok outf /\ is_frame out outf /\
    (forall o, In o (frame_chans out) ->
       cut_of (chan_sample out outf o) (total (fun i => weight mp o i * chan_sample inp frame i)%Q (frame_chans inp))) /\
    (forall k, (length (frame_chans out) <= k)%nat -> (nth k outf 0 == 0)%Q).
Proof.
  intros inp out mp frame SI SO (f & M) F. destruct (made_weight f inp out mp SI SO M) as (EI & EO & mi & mo & cm & _ & _ & _ & _ & W & H).
  destruct (H frame F) as (outf & FO & A & B & C). exists outf. pose proof (usable_num _ (surround_usable _ SI)). pose proof (usable_num _ (surround_usable _ SO)).
  rewrite !frame_chans_s by (apply SI || apply SO). split; [|split; [exact FO|split]].
  - rewrite <- EO. apply map_one; rewrite ?EI, ?EO; auto.
  - intros o O. eapply cut_eq; [|exact (B o O)]. apply sumQ_ext. intros i I. rewrite (W o i O I). reflexivity.
  - intros k K. destruct (Nat.lt_ge_cases k (Z.to_nat (num_channels out))) as [L|L]; [auto|].
    rewrite nth_overflow; [reflexivity|]. unfold is_frame in FO. lia.
Qed.

(** C61: each output channel is an average of input channels, or silent. *)
Theorem C61_average : forall inp out mp o, surround inp -> surround out -> made inp out mp -> In o (frame_chans out) ->
  (forall i, In i (frame_chans inp) -> (0 <= weight mp o i /\ weight mp o i <= 1)%Q) /\
  ((total (weight mp o) (frame_chans inp) == 1)%Q \/ forall i, In i (frame_chans inp) -> (weight mp o i == 0)%Q).
Proof.
  intros inp out mp o SI SO (f & M) O. destruct (made_weight f inp out mp SI SO M) as (EI & EO & mi & mo & cm & _ & _ & _ & (A & B) & W & _).
  rewrite !frame_chans_s in * by (apply SI || apply SO). split.
  - intros i I. rewrite (W o i O I). now apply A.
  - destruct (B o O) as [E|E]; [left|right].
    + rewrite <- E. apply sumQ_ext. intros i I. now apply W.
    + intros i I. rewrite (W o i O I). auto.
Qed.

(** C61: samples in range are never cut. *)
Lemma avg_range (w x : Z -> Q) l : (forall i, In i l -> 0 <= w i)%Q -> (forall i, In i l -> in_range (x i)) ->
  (- sumQ w l <= sumQ (fun i => w i * x i) l /\ sumQ (fun i => w i * x i) l <= sumQ w l)%Q.
Proof.
  induction l as [|c l IH]; intros W X; [rewrite !sumQ_nil; lra|]. rewrite !sumQ_cons.
  destruct IH as [A B]; [intros; apply W; now right|intros; apply X; now right|].
  pose proof (W c (or_introl eq_refl)) as WC. destruct (X c (or_introl eq_refl)) as [X1 X2]. 
  assert (0 <= w c * (1 - x c))%Q by (apply Qmult_le_0_compat; lra). assert (0 <= w c * (1 + x c))%Q by (apply Qmult_le_0_compat; lra). lra.
Qed.
Theorem C61_no_clip : forall inp out mp frame, surround inp -> surround out -> made inp out mp -> is_frame inp frame ->
  Forall in_range frame ->
  exists outf, map_samples mp frame (num_channels out) = Ok outf /\
    forall o, In o (frame_chans out) ->
      (chan_sample out outf o == total (fun i => weight mp o i * chan_sample inp frame i) (frame_chans inp))%Q.
Proof.
  intros inp out mp frame SI SO M F R. destruct (C61_linear inp out mp frame SI SO M F) as (outf & E & _ & L & _). exists outf. split; auto.
  intros o O. specialize (L o O). destruct (C61_average inp out mp o SI SO M O) as [A B].
  assert (X : forall i, In i (frame_chans inp) -> in_range (chan_sample inp frame i)).
  { intros i I. unfold chan_sample. destruct (nth_in_or_default (pos_in (frame_chans inp) i) frame 0%Q) as [N|N]; [rewrite Forall_forall in R; auto|].
    rewrite N. unfold in_range. lra. }
  destruct (avg_range (weight mp o) (chan_sample inp frame) (frame_chans inp)) as [P Q]; [intros i I; now apply A|exact X|].
  assert (T : (sumQ (weight mp o) (frame_chans inp) <= 1)%Q).
  { destruct B as [B|B]; [unfold total in B; unfold sumQ; rewrite B; lra|]. rewrite sumQ_zero by exact B. lra. }
  destruct L as [_ [[_ L]|[[L _]|[L _]]]]; [exact L| |]; exfalso; unfold total in L; unfold sumQ in *; lra.
Qed.

(** C61: a channel that both ends have is never dropped. *)
Theorem C61_shared : forall inp out mp c, surround inp -> surround out -> made inp out mp ->
  In c (frame_chans inp) -> In c (frame_chans out) -> (0 < weight mp c c)%Q.
Proof.
  intros inp out mp c SI SO (f & M). rewrite !frame_chans_s by (apply SI || apply SO). intros I O.
  destruct (made_weight f inp out mp SI SO M) as (EI & EO & mi & mo & cm & MI & MO & CM & _ & W & _).
  rewrite (W c c O I). pose proof (fchans_inr _ _ I) as R. pose proof R as R'. unfold inr in R'. apply (shared_pos f mi mo cm); auto; [apply MI|apply MO]; auto; lia.
Qed.

(** C61: between sets with the same channels, each channel is copied. *)
Theorem C61_same : forall inp out mp, surround inp -> surround out -> made inp out mp ->
  (forall c, In c (frame_chans inp) <-> In c (frame_chans out)) ->
  forall o i, In o (frame_chans out) -> In i (frame_chans inp) -> (weight mp o i == if o =? i then 1 else 0)%Q.
Proof.
  intros inp out mp SI SO (f & M) S o i. rewrite !frame_chans_s in * by (apply SI || apply SO). intros O I.
  destruct (made_weight f inp out mp SI SO M) as (EI & EO & mi & mo & cm & MI & MO & CM & _ & W & _).
  rewrite (W o i O I). assert (E : mi = mo).
  { apply Z.bits_inj'. intros c C. apply eq_true_iff_eq. unfold mask_of, has in *. rewrite (MI c C), (MO c C). apply S. }
  subst mo. unfold chan_map in CM. rewrite Z.eqb_refl in CM. assert (cm = fallback) by congruence. subst cm.
  rewrite get_fallback by (eapply fchans_inr; eauto). reflexivity.
Qed.

(** C61: exchanging left and right at both ends exchanges left and right in the result. *)
Theorem C61_mirror : forall inp out inp' out' mp mp', surround inp -> surround out -> surround inp' -> surround out' ->
  mirrored inp inp' -> mirrored out out' -> made inp out mp -> made inp' out' mp' ->
  forall o i, In o (frame_chans out) -> In i (frame_chans inp) ->
    In (mirror o) (frame_chans out') /\ In (mirror i) (frame_chans inp') /\ (weight mp' (mirror o) (mirror i) == weight mp o i)%Q.
Proof.
  intros inp out inp' out' mp mp' SI SO SI' SO' RI RO (f & M) M' o i.
  rewrite !frame_chans_s by (apply SI || apply SO || apply SI' || apply SO'). intros O I.
  pose proof (fchans_inr _ _ O) as IO. pose proof (fchans_inr _ _ I) as II.
  pose proof (proj2 (mirrored_fchans out out' o RO IO) O) as O'. pose proof (proj2 (mirrored_fchans inp inp' i RI II) I) as I'.
  split; [exact O'|]. split; [exact I'|].
  destruct (made_weight f inp out mp SI SO M) as (_ & _ & mi & mo & cm & MI & MO & CM & _ & W & _).
  destruct M' as (f' & M'). destruct (made_weight f' inp' out' mp' SI' SO' M') as (_ & _ & mi' & mo' & cm' & MI' & MO' & CM' & _ & W' & _).
  rewrite (W o i O I), (W' _ _ O' I').
  assert (K : forall f g a b m, chan_map f a b = Some m -> (f <= g)%nat -> chan_map g a b = Some m).
  { intros x g a b m. unfold chan_map. destruct (a =? b); auto. rewrite !build_chain. destruct (chain x a b) as [l|] eqn:E; [|discriminate].
    intros H L. now rewrite (chain_more x g a b l E L). }
  apply (K f (Nat.max f f')) in CM; [|lia]. apply (K f' (Nat.max f f')) in CM'; [|lia].
  destruct (gmat_chan_map mirror mirror_inv mirror_inr mirror_chans tmasks_mirror tables_mirror (Nat.max f f') mi mi' mo mo' cm) as (x & E & G);
    [exact (mask_low _ _ MI)|exact (mask_low _ _ MI')|exact (mask_low _ _ MO)|exact (mask_low _ _ MO')| | |exact CM|].
  - apply (mask_g mirror inp inp'); auto using mirror_inr. intros c. now apply mirrored_fchans.
  - apply (mask_g mirror out out'); auto using mirror_inr. intros c. now apply mirrored_fchans.
  - assert (x = cm') by congruence. subst x. apply G; auto.
Qed.

(** C61: what goes where does not depend on the order of channels in the frames. *)
Theorem C61_order : forall inp out inp' out' mp mp', surround inp -> surround out -> surround inp' -> surround out' ->
  (forall c, In c (frame_chans inp) <-> In c (frame_chans inp')) -> (forall c, In c (frame_chans out) <-> In c (frame_chans out')) ->
  made inp out mp -> made inp' out' mp' ->
  forall o i, In o (frame_chans out) -> In i (frame_chans inp) -> (weight mp' o i == weight mp o i)%Q.
Proof.
  intros inp out inp' out' mp mp' SI SO SI' SO' RI RO (f & M) (f' & M') o i O I. pose proof (proj1 (RO o) O) as O'. pose proof (proj1 (RI i) I) as I'.
  rewrite !frame_chans_s in * by (apply SI || apply SO || apply SI' || apply SO').
  destruct (made_weight f inp out mp SI SO M) as (_ & _ & mi & mo & cm & MI & MO & CM & _ & W & _).
  destruct (made_weight f' inp' out' mp' SI' SO' M') as (_ & _ & mi' & mo' & cm' & MI' & MO' & CM' & _ & W' & _).
  rewrite (W o i O I), (W' _ _ O' I').
  assert (EI : mi = mi').
  { apply Z.bits_inj'. intros c C. apply eq_true_iff_eq. unfold mask_of, has in *. rewrite (MI c C), (MI' c C). apply RI. }
  assert (EO : mo = mo').
  { apply Z.bits_inj'. intros c C. apply eq_true_iff_eq. unfold mask_of, has in *. rewrite (MO c C), (MO' c C). apply RO. }
  subst mi' mo'.
  assert (K : forall f g a b m, chan_map f a b = Some m -> (f <= g)%nat -> chan_map g a b = Some m).
  { intros x g a b m. unfold chan_map. destruct (a =? b); auto. rewrite !build_chain. destruct (chain x a b) as [l|] eqn:E; [|discriminate].
    intros H L. now rewrite (chain_more x g a b l E L). }
  apply (K f (Nat.max f f')) in CM; [|lia]. apply (K f' (Nat.max f f')) in CM'; [|lia]. assert (cm = cm') by congruence. subst cm'. reflexivity.
Qed.

(** C61: between tracks, by track number; a track that the input lacks is silent. *)
Theorem C61_tracks : forall inp out mp frame, tracks inp -> tracks out -> made inp out mp -> is_frame inp frame ->
  exists outf, map_samples mp frame (num_channels out) = Ok outf /\ is_frame out outf /\
    forall c, In c (members out) -> chan_sample out outf c = if mem inp c then chan_sample inp frame c else 0%Q.
Proof.
  intros inp out mp frame TI TO M F. pose proof (tracks_usable _ TI) as UI. pose proof (tracks_usable _ TO) as UO.
  apply made_other in M; auto. subst mp. exists (map (fun c => if mem inp c then chan_sample inp frame c else 0%Q) (members out)).
  split; [|split].
  - change (num_channels out) with (num_channels (mp_out (mkM inp out (ch_or inp out) zero_mat))). apply map_one; cbn [mp_in mp_out]; auto using usable_num.
    intros r. unfold map_frame. cbn [mp_in mp_out]. pose proof TI as (_ & _ & LI). pose proof TO as (_ & _ & LO). rewrite LI, LO. apply mm_frame_ok; auto.
  - unfold is_frame. rewrite map_length. symmetry. apply num_members. apply TO.
  - intros c C. unfold chan_sample at 1. rewrite frame_chans_m by apply TO.
    apply nth_error_nth. rewrite nth_error_map, (pos_nth _ _ C). reflexivity.
Qed.

(** C61: between tracks and surround channels, the samples are copied in order; output
    channels beyond the input channels are silent. *)
Theorem C61_copy : forall inp out mp frame, (surround inp /\ tracks out) \/ (tracks inp /\ surround out) ->
  made inp out mp -> is_frame inp frame ->
  exists outf, map_samples mp frame (num_channels out) = Ok outf /\ is_frame out outf /\
    forall k, (k < length outf)%nat -> nth k outf 0%Q = if Nat.ltb k (length frame) then nth k frame 0%Q else 0%Q.
Proof.
  intros inp out mp frame T M F. 
  assert (U : usable inp /\ usable out /\ (tracks inp \/ tracks out)) by (destruct T as [[A B]|[A B]]; auto using surround_usable, tracks_usable).
  destruct U as (UI & UO & TT). apply made_other in M; auto. subst mp. pose proof (usable_num _ UI). pose proof (usable_num _ UO).
  exists (map (fun k => nth k frame 0%Q) (seq 0 (Z.to_nat (num_channels out)))). split; [|split].
  - change (num_channels out) with (num_channels (mp_out (mkM inp out (ch_or inp out) zero_mat))) at 1. apply map_one; cbn [mp_in mp_out]; auto.
    intros r. unfold map_frame. cbn [mp_in mp_out]. unfold is_frame in F.
    destruct T as [[(_ & _ & LI) (_ & _ & LO)]|[(_ & _ & LI) (_ & _ & LO)]]; rewrite LI, LO; apply ms_frame_ok; lia.
  - unfold is_frame. rewrite map_length, seq_length. lia.
  - intros k K. rewrite map_length, seq_length in K.
    transitivity (nth k frame 0%Q).
    + apply nth_error_nth. rewrite nth_error_map. rewrite (nth_error_nth' _ 0%nat) by (rewrite seq_length; lia). rewrite seq_nth by lia. reflexivity.
    + destruct (Nat.ltb_spec k (length frame)); [reflexivity|]. now apply nth_overflow.
Qed.

(** C61: a mapper is made for all sets that have a known channel other than LFE. *)
Theorem C61_terminates : forall inp out ci co, surround inp -> surround out ->
  In ci (frame_chans inp) -> ci <> LFE -> In co (frame_chans out) -> co <> LFE ->
  exists mp, made inp out mp /\ forall mp', made inp out mp' -> mp' = mp.
Proof.
  intros inp out ci co SI SO. rewrite !frame_chans_s by (apply SI || apply SO). intros CI NI CO NO.
  destruct (terminates inp out ci co SI SO CI NI CO NO) as (mp & M). exists mp. split; auto. intros mp' M'. now apply (made_same inp out).
Qed.
Lemma mask_covered s m : surround s -> mask_of s m -> covered s -> cl m <> -1.
Proof.
  intros S M (t & T & H) E. rewrite frame_chans_s in H by apply S.
  assert (X : subset m (t_in t) = true) by (apply subset_spec; intros c C B; apply M in B; auto; now apply H).
  pose proof (proj1 (in_tmasks t T)) as TM. rewrite <- (cl_subset m (t_in t) TM) in X. rewrite E in X. rewrite subset_spec in X. specialize (X 20 ltac:(lia) eq_refl).
  assert (K : forallb (fun M => negb (has M 20)) tmasks = true) by (vm_compute; reflexivity). rewrite forallb_forall in K.
  specialize (K _ TM). rewrite X in K. discriminate K.
Qed.
(** C61: making a mapper never ends if the output has no known channel but LFE while the
    input has one, within the input of some table. *)
Theorem C61_terminates_out_refuted : forall inp out ci, surround inp -> surround out ->
  In ci (frame_chans inp) -> ci <> LFE -> covered inp -> (forall c, In c (frame_chans out) -> c = LFE) ->
  never_returns inp out.
Proof.
  intros inp out ci SI SO CI NI CV H f. destruct (mapper_new_masks inp out SI SO) as (mi & mo & MI & MO & N). apply (N f).
  rewrite frame_chans_s in CI by apply SI. rewrite frame_chans_s in H by apply SO. pose proof (fchans_inr _ _ CI) as R. unfold inr in R.
  assert (HI : has mi ci = true) by (apply MI; auto; lia).
  assert (A : cl mi <> lfe_only) by (apply (cl_not_lfe mi ci); auto; lia).
  assert (B : cl mo = lfe_only) by (apply cl_lfe; [exact (mask_low _ _ MO)|]; intros c C X; apply H; now apply MO).
  unfold chan_map. destruct (Z.eqb_spec mi mo) as [E|_]; [subst mo; congruence|]. rewrite build_chain.
  rewrite (chain_same f mi mi mo lfe_only); [|apply same_refl|rewrite <- B; apply same_cl]. rewrite chain_to_lfe; [reflexivity|exact A|]. now apply (mask_covered inp).
Qed.
(** C61: likewise if the input has no known channel but LFE, while the output has one other
    than the front center, within the input of some table. *)
Theorem C61_terminates_in_refuted : forall inp out co, surround inp -> surround out ->
  (forall c, In c (frame_chans inp) -> c = LFE) -> In co (frame_chans out) -> co <> LFE -> co <> FC -> covered out ->
  never_returns inp out.
Proof.
  intros inp out co SI SO H CO N1 N2 CV f. destruct (mapper_new_masks inp out SI SO) as (mi & mo & MI & MO & N). apply (N f).
  rewrite frame_chans_s in CO by apply SO. rewrite frame_chans_s in H by apply SI. pose proof (fchans_inr _ _ CO) as R. unfold inr in R.
  assert (HO : has mo co = true) by (apply MO; auto; lia).
  assert (A : cl mo <> lfe_only) by (apply (cl_not_lfe mo co); auto; lia).
  assert (B : cl mi = lfe_only) by (apply cl_lfe; [exact (mask_low _ _ MI)|]; intros c C X; apply H; now apply MI).
  unfold chan_map. destruct (Z.eqb_spec mi mo) as [E|_]; [subst mo; congruence|]. rewrite build_chain.
  rewrite (chain_same f mi lfe_only mo mo); [|rewrite <- B; apply same_cl|apply same_refl]. rewrite chain_from_lfe; [reflexivity|exact A|now apply (mask_covered out)|].
  intros E. pose proof (cl_sup mo) as S. rewrite E, subset_spec in S. specialize (S co ltac:(lia) HO).
  assert (Q : forallb (fun c => negb (has M_1_1 c) || (c =? LFE) || (c =? FC)) chans = true) by (vm_compute; reflexivity).
  rewrite forallb_forall in Q. specialize (Q co (proj2 (in_chans co) R)). rewrite S in Q. apply Z.eqb_neq in N1, N2. rewrite N1, N2 in Q. discriminate Q.
Qed.

(** C61: between the named layouts nothing is lost and nothing is silent, but for six pairs. *)
Definition used_in (m : mat) (i o : Z) : bool :=
   forallb (fun c => negb (has i c) || (c =? LFE) || existsb (fun d => has o d && negb (Qeq_bool (get m d c) 0)) chans) chans &&
   forallb (fun c => negb (has o c) || (c =? LFE) || existsb (fun d => has i d && negb (Qeq_bool (get m c d) 0)) chans) chans.
Definition pair_used (i o : Z) : bool := match chan_map 12 i o with None => false | Some m => used_in m i o end.
Definition pair_in (l : list (Z * Z)) (i o : Z) : bool := existsb (fun p => (fst p =? i) && (snd p =? o)) l.
Lemma layouts_used : forallb (fun i => forallb (fun o => pair_in unmapped i o || pair_used i o) layouts) layouts = true.
Proof. vm_cast_no_check (eq_refl true). Qed.
Lemma layout_mask s M m : surround s -> In M layouts -> of_layout s M -> mask_of s m -> m = M.
Proof.
  intros S I L A. apply Z.bits_inj'. intros c C. apply eq_true_iff_eq. unfold mask_of, has in A. rewrite (A c C). rewrite <- frame_chans_s by apply S.
  rewrite (L c). split; [tauto|]. intros B. split; auto. split; [exact C|]. destruct (Z.lt_ge_cases c 17) as [|G]; auto. exfalso.
  assert (X : forallb (fun M => (0 <=? M) && (M <? 2 ^ 17)) layouts = true) by (vm_compute; reflexivity). rewrite forallb_forall in X. specialize (X M I).
  apply andb_true_iff in X as [X1 X2]. apply Z.leb_le in X1. apply Z.ltb_lt in X2.
  rewrite (Z.bits_above_log2 M c) in B; [discriminate B|exact X1|]. destruct (Z.eq_dec M 0) as [->|N]; [cbn; lia|]. apply Z.log2_lt_pow2; [lia|].
  apply Z.lt_le_trans with (2 ^ 17); [exact X2|]. apply Z.pow_le_mono_r; lia.
Qed.
Lemma chan_map_12 f i o m x : chan_map f i o = Some m -> chan_map 12 i o = Some x -> m = x.
Proof.
  unfold chan_map. destruct (i =? o); [congruence|]. rewrite !build_chain. destruct (chain f i o) as [l|] eqn:E; [|discriminate].
  destruct (chain 12 i o) as [l'|] eqn:E'; [|discriminate]. rewrite (chain_det _ _ _ _ _ _ E E'). congruence.
Qed.
Theorem C61_layouts : forall inp out mp Mi Mo, surround inp -> surround out -> made inp out mp ->
  In Mi layouts -> In Mo layouts -> of_layout inp Mi -> of_layout out Mo -> ~ In (Mi, Mo) unmapped -> all_used mp inp out.
Proof.
  intros inp out mp Mi Mo SI SO (f & M) LI LO OI OO NU.
  destruct (made_weight f inp out mp SI SO M) as (_ & _ & mi & mo & cm & MI & MO & CM & (NN & _) & W & _).
  pose proof (layout_mask inp Mi mi SI LI OI MI). pose proof (layout_mask out Mo mo SO LO OO MO). subst mi mo.
  pose proof layouts_used as H. rewrite forallb_forall in H. specialize (H Mi LI). rewrite forallb_forall in H. specialize (H Mo LO).
  apply orb_true_iff in H as [H|H].
  - exfalso. apply NU. unfold pair_in in H. apply existsb_exists in H as ((a & b) & I & E). cbn [fst snd] in E. apply andb_true_iff in E as [E1 E2].
    apply Z.eqb_eq in E1, E2. congruence.
  - unfold pair_used in H. destruct (chan_map 12 Mi Mo) as [x|] eqn:E; [|discriminate H]. pose proof (chan_map_12 f _ _ _ _ CM E). subst x.
    unfold used_in in H. apply andb_true_iff in H as [H1 H2]. rewrite forallb_forall in H1, H2.
    assert (P : forall o i, In o (fchans out) -> In i (fchans inp) -> negb (Qeq_bool (get cm o i) 0) = true -> (0 < weight mp o i)%Q).
    { intros o i O I Q. rewrite (W o i O I). destruct (NN o i O I) as [A _]. apply negb_true_iff in Q. apply Qeq_bool_neq in Q. destruct (Qlt_le_dec 0 (get cm o i)); auto. exfalso. apply Q. lra. }
    unfold all_used. rewrite !frame_chans_s by (apply SI || apply SO). split.
    + intros i I N. pose proof (fchans_inr _ _ I) as R. specialize (H1 i (proj2 (in_chans i) R)). unfold inr in R.
      assert (B : has Mi i = true) by (apply MI; auto; lia). apply Z.eqb_neq in N. rewrite B, N in H1. cbn [negb orb] in H1.
      apply existsb_exists in H1 as (o & RO & Q). apply in_chans in RO. unfold inr in RO. apply andb_true_iff in Q as [Q1 Q2]. apply MO in Q1; [|lia]. exists o. auto.
    + intros o O N. pose proof (fchans_inr _ _ O) as R. specialize (H2 o (proj2 (in_chans o) R)). unfold inr in R.
      assert (B : has Mo o = true) by (apply MO; auto; lia). apply Z.eqb_neq in N. rewrite B, N in H2. cbn [negb orb] in H2.
      apply existsb_exists in H2 as (i & RI & Q). apply in_chans in RI. unfold inr in RI. apply andb_true_iff in Q as [Q1 Q2]. apply MI in Q1; [|lia]. exists i. auto.
Qed.
Definition pair_lost (i o : Z) : bool := match chan_map 12 i o with None => false | Some m =>
   existsb (fun c => has i c && negb (c =? LFE) && forallb (fun d => negb (has o d) || Qeq_bool (get m d c) 0) chans) chans &&
   existsb (fun c => has o c && negb (c =? LFE) && forallb (fun d => negb (has i d) || Qeq_bool (get m c d) 0) chans) chans end.
Lemma unmapped_lost : forallb (fun p => pair_lost (fst p) (snd p)) unmapped = true.
Proof. vm_compute. reflexivity. Qed.
Theorem C61_layouts_refuted : forall inp out mp Mi Mo, surround inp -> surround out -> made inp out mp ->
  In (Mi, Mo) unmapped -> of_layout inp Mi -> of_layout out Mo -> loses mp inp out.
Proof.
  intros inp out mp Mi Mo SI SO (f & M) U OI OO.
  assert (L : In Mi layouts /\ In Mo layouts).
  { assert (X : forallb (fun p => existsb (Z.eqb (fst p)) layouts && existsb (Z.eqb (snd p)) layouts) unmapped = true) by (vm_compute; reflexivity).
    rewrite forallb_forall in X. specialize (X _ U). cbn [fst snd] in X. apply andb_true_iff in X as [X1 X2].
    apply existsb_exists in X1 as (a & A & E). apply existsb_exists in X2 as (b & B & E'). apply Z.eqb_eq in E, E'. subst a b. auto. }
  destruct L as [LI LO].
  destruct (made_weight f inp out mp SI SO M) as (_ & _ & mi & mo & cm & MI & MO & CM & _ & W & _).
  pose proof (layout_mask inp Mi mi SI LI OI MI). pose proof (layout_mask out Mo mo SO LO OO MO). subst mi mo.
  pose proof unmapped_lost as H. rewrite forallb_forall in H. specialize (H _ U). cbn [fst snd] in H. unfold pair_lost in H.
  destruct (chan_map 12 Mi Mo) as [x|] eqn:E; [|discriminate H]. pose proof (chan_map_12 f _ _ _ _ CM E). subst x.
  apply andb_true_iff in H as [H1 H2]. apply existsb_exists in H1 as (i & RI & H1). apply existsb_exists in H2 as (o & RO & H2).
  apply andb_true_iff in H1 as [H1 K1]. apply andb_true_iff in H1 as [I1 N1]. apply andb_true_iff in H2 as [H2 K2]. apply andb_true_iff in H2 as [I2 N2].
  apply in_chans in RI, RO. unfold inr in RI, RO. apply MI in I1; [|lia]. apply MO in I2; [|lia]. rewrite forallb_forall in K1, K2.
  apply negb_true_iff, Z.eqb_neq in N1, N2. unfold loses. rewrite !frame_chans_s by (apply SI || apply SO). split; [exists i|exists o]; (split; [assumption|split; [assumption|]]).
  - intros d D. rewrite (W d i D I1). pose proof (fchans_inr _ _ D) as R. specialize (K1 d (proj2 (in_chans d) R)). unfold inr in R.
    assert (B : has Mo d = true) by (apply MO; auto; lia). rewrite B in K1. cbn [negb orb] in K1. now apply Qeq_bool_iff.
  - intros d D. rewrite (W o d I2 D). pose proof (fchans_inr _ _ D) as R. specialize (K2 d (proj2 (in_chans d) R)). unfold inr in R.
    assert (B : has Mi d = true) by (apply MI; auto; lia). rewrite B in K2. cbn [negb orb] in K2. now apply Qeq_bool_iff.
Qed.

(** Concrete cases. *)
Definition sset (o : order) (M : Z) : chset := match ch_make LSurround o M with Ok s => s | _ => ch_empty end.
Definition tset (M : Z) : chset := match ch_make LMultitrack ONone M with Ok s => s | _ => ch_empty end.
Lemma sset_surround o M s : 0 <= M < 2 ^ 32 -> ch_make LSurround o M = Ok s -> ch_is_valid s = true -> ch_layout s = LSurround -> surround s.
Proof. intros R E V L. split; [exact (b_make _ _ _ _ R E)|]. split; auto. Qed.
Lemma tset_tracks M s : 0 <= M < 2 ^ 32 -> ch_make LMultitrack ONone M = Ok s -> ch_is_valid s = true -> ch_layout s = LMultitrack -> tracks s.
Proof. intros R E V L. split; [exact (b_make _ _ _ _ R E)|]. split; auto. Qed.
Definition ex51 := sset OSmpte M_5_1.
Definition ex2 := sset OAlsa M_Stereo.
Example C61_ex_sets : surround ex51 /\ surround ex2.
Proof.
  split; [apply (sset_surround OSmpte M_5_1)|apply (sset_surround OAlsa M_Stereo)]; try (split; [now vm_compute|reflexivity]); vm_compute; reflexivity.
Qed.
Definition ex_mp : mapper := match mapper_new 12 ex51 ex2 with Some (Ok m) => m | _ => mkM ch_empty ch_empty ch_empty [] end.
Example C61_ex_made : made ex51 ex2 ex_mp.
Proof. exists 12%nat. vm_compute. reflexivity. Qed.
(** A frame of 5.1 in the order of SMPTE has front left and right, center, LFE, back left
    and right; what the left channel of stereo gets of them. *)
Example C61_ex_frame : frame_chans ex51 = [FL; FR; FC; LFE; BL; BR] /\ frame_chans ex2 = [FL; FR] /\
  map (fun i => Qred (weight ex_mp FL i)) (frame_chans ex51) =
    [6250000000000 # 18213835166289; 0; 1767767 # 4267767; 0; 4419417500000 # 18213835166289; 0]%Q.
Proof. vm_compute. auto. Qed.
Example C61_ex_layouts : of_layout ex51 M_5_1 /\ of_layout ex2 M_Stereo /\ ~ In (M_5_1, M_Stereo) unmapped.
Proof.
  assert (G : forall s M l, frame_chans s = l -> filter (fun c => Z.testbit M c) chans = l \/ (forall c, In c l <-> In c (filter (fun c => Z.testbit M c) chans)) -> of_layout s M).
  { intros s M l E H c. rewrite E. assert (X : In c l <-> In c (filter (fun c => Z.testbit M c) chans)) by (destruct H as [<-|H]; [tauto|apply H]).
    rewrite X, filter_In, in_chans. reflexivity. }
  split; [|split].
  - apply (G _ _ [FL; FR; FC; LFE; BL; BR]); [vm_compute; reflexivity|]. right. intros c. vm_compute. tauto.
  - apply (G _ _ [FL; FR]); [vm_compute; reflexivity|]. right. intros c. vm_compute. tauto.
  - vm_compute. intuition discriminate.
Qed.
(** Sets of three channels on the left and the same on the right. *)
Definition exl := sset OSmpte (Z.lor M_Mono (Z.lor (bit FL) (bit BL))).
Definition exr := sset OSmpte (Z.lor M_Mono (Z.lor (bit FR) (bit BR))).
Example C61_ex_mirror : mirrored exl exr.
Proof.
  split; [reflexivity|]. intros c C. apply in_chans in C.
  assert (X : forallb (fun c => Bool.eqb (mem exr (mirror c)) (mem exl c)) chans = true) by (vm_compute; reflexivity).
  rewrite forallb_forall in X. now apply Bool.eqb_prop, X.
Qed.
(** Stereo to LFE alone, LFE alone to stereo, stereo to channels that ALSA does not know. *)
Definition exlfe := sset OSmpte (bit LFE).
Definition exalsa := sset OAlsa (Z.lor (bit FLC) (bit FRC)).
Example C61_ex_never : surround exlfe /\ surround exalsa /\ covered ex2 /\
  (forall c, In c (frame_chans exlfe) -> c = LFE) /\ (forall c, In c (frame_chans exalsa) -> c = LFE) /\
  never_returns ex2 exlfe /\ never_returns ex2 exalsa /\ never_returns exlfe ex2.
Proof.
  assert (S1 : surround exlfe) by (apply (sset_surround OSmpte (bit LFE)); [split; [now vm_compute|reflexivity]| | |]; vm_compute; reflexivity).
  assert (S2 : surround exalsa) by (apply (sset_surround OAlsa (Z.lor (bit FLC) (bit FRC))); [split; [now vm_compute|reflexivity]| | |]; vm_compute; reflexivity).
  assert (F : frame_chans ex2 = [FL; FR]) by (vm_compute; reflexivity).
  assert (F1 : frame_chans exlfe = [LFE]) by (vm_compute; reflexivity).
  assert (F2 : frame_chans exalsa = []) by (vm_compute; reflexivity).
  assert (CV : covered ex2).
  { assert (X : existsb (fun t => has (t_in t) FL && has (t_in t) FR) tables = true) by (vm_compute; reflexivity).
    apply existsb_exists in X as (t & T & X). apply andb_true_iff in X as [X1 X2]. exists t. split; [exact T|].
    rewrite F. intros c [<-|[<-|[]]]; assumption. }
  assert (H1 : forall c, In c (frame_chans exlfe) -> c = LFE) by (rewrite F1; intros c [<-|[]]; reflexivity).
  assert (H2 : forall c, In c (frame_chans exalsa) -> c = LFE) by (rewrite F2; intros c []).
  pose proof (proj2 C61_ex_sets) as S.
  split; [exact S1|]. split; [exact S2|]. split; [exact CV|]. split; [exact H1|]. split; [exact H2|].
  split; [|split].
  - apply (C61_terminates_out_refuted ex2 exlfe FL S S1); [rewrite F; left; reflexivity|discriminate|exact CV|exact H1].
  - apply (C61_terminates_out_refuted ex2 exalsa FL S S2); [rewrite F; left; reflexivity|discriminate|exact CV|exact H2].
  - apply (C61_terminates_in_refuted exlfe ex2 FL S1 S H1); [rewrite F; left; reflexivity|discriminate|discriminate|exact CV].
Qed.
(** Tracks 0, 2 and 5 to tracks 1, 2 and 5. *)
Example C61_ex_tracks : tracks (tset 37) /\ tracks (tset 38) /\ exists mp, made (tset 37) (tset 38) mp /\
  map_samples mp [1 # 2; 1 # 3; 1 # 5; 1 # 7; 1 # 8; 1 # 9]%Q 6 = Ok [0; 1 # 3; 1 # 5; 0; 1 # 8; 1 # 9]%Q.
Proof.
  split; [apply (tset_tracks 37); [lia| | |]; vm_compute; reflexivity|]. split; [apply (tset_tracks 38); [lia| | |]; vm_compute; reflexivity|].
  eexists. split; [exists 1%nat; vm_compute; reflexivity|]. vm_compute. reflexivity.
Qed.

Print Assumptions C61_frames.
Print Assumptions C61_sizes.
Print Assumptions C61_linear.
Print Assumptions C61_average.
Print Assumptions C61_no_clip.
Print Assumptions C61_shared.
Print Assumptions C61_same.
Print Assumptions C61_mirror.
Print Assumptions C61_order.
Print Assumptions C61_tracks.
Print Assumptions C61_copy.
Print Assumptions C61_terminates.
Print Assumptions C61_terminates_out_refuted.
Print Assumptions C61_terminates_in_refuted.
Print Assumptions C61_layouts.
Print Assumptions C61_layouts_refuted.
