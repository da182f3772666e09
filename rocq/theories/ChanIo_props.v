(** C63: the stages of a pipeline that change the channel layout. *)
From Coq Require Import QArith Reals Lra.
From Verif Require Import Base Base_lemmas ChannelSet_model ChanMap_model ChanMap_spec ChanMap_props.
From Verif Require Import TimeConv_model TimeConv_spec TimeConv_props ChanIo_model ChanIo_spec ChanIo_proof.
Open Scope Z_scope.
Open Scope res_scope.
Local Opaque map_samples.

(** How many sampling moments fit into the internal buffer. *)
Definition batch (b : Z) (s : chset) : nat := Z.to_nat (b / num_channels s).

Lemma batch_pos b s : usable s -> num_channels s <= b -> (0 < batch b s)%nat.
Proof. intros U B. pose proof (usable_num _ U). unfold batch. pose proof (Z.div_str_pos b (num_channels s)). lia. Qed.

(** C63: whatever the size of the internal buffer, reading a frame gives what one call of
    the mapper makes of the samples that the source gives next; the frame has exactly the
    flags that one of the source's frames has, the capture time of the first of them and the
    duration of its own samples; and the source has given no more than that. *)
Theorem C63_read : forall inp out mp b fuel fs more rs rest, usable inp -> usable out -> made inp out mp ->
  num_channels inp <= b -> Forall (is_frame inp) fs -> 0 < Z.of_nat (length fs) < 2 ^ 32 ->
  parts (length fs) (batch b inp) (length rs) -> Forall fine rs -> (length rs < fuel)%nat ->
  exists l fl t, 
    chan_read fuel mp b (Z.of_nat (length fs) * num_channels out) (mkSrc (fs ++ more) (map Some rs ++ rest)) =
      Ok (Some (Some (mkFr l fl (Z.of_nat (length fs)) t), mkSrc more rest)) /\
    one_call mp fs l /\ union_flags fl rs /\ option_map snd (hd_error rs) = Some t.
Proof.
  intros inp out mp b fuel fs more rs rest UI UO M B F N P R L. destruct (made_map inp out mp UI UO M) as (EI & EO & _).
  pose proof (usable_num _ UO) as NO.
  destruct (read_loop_ok inp out mp UI UO M rs fuel (batch b inp) fs more rest [] 0 None F P R L) as (l & C & E).
  destruct rs as [|[fl0 t0] rs]; [unfold parts in P; cbn [length] in P; lia|].
  exists l, (lors 0 ((fl0, t0) :: rs)), t0. split; [|split; [exact C|split; [apply lors_union|reflexivity]]].
  unfold chan_read. rewrite EI, EO, Z.mod_mul, Z.div_mul by lia. cbn [Z.eqb negb]. rewrite Nat2Z.id. unfold batch in E. rewrite E. cbn [bind app hd_error option_map].
  rewrite set_dur_ok by lia. reflexivity.
Qed.
Print Assumptions C63_read.

(** C63: reading frames of any sizes one after the other gives one uninterrupted stream. *)
Definition job_ok (inp : chset) (b : Z) (fuel : nat) (j : list (list Q) * list (Z * Z)) : Prop :=
  Forall (is_frame inp) (fst j) /\ 0 < Z.of_nat (length (fst j)) < 2 ^ 32 /\
  parts (length (fst j)) (batch b inp) (length (snd j)) /\ Forall fine (snd j) /\ (length (snd j) < fuel)%nat.
Theorem C63_stream : forall inp out mp b fuel js more rest, usable inp -> usable out -> made inp out mp ->
  num_channels inp <= b -> Forall (job_ok inp b fuel) js ->
  exists outs,
    chan_reads fuel mp b (map (fun j => Z.of_nat (length (fst j)) * num_channels out) js)
      (mkSrc (concat (map fst js) ++ more) (map Some (concat (map snd js)) ++ rest)) = Ok (Some (outs, mkSrc more rest)) /\
    one_call mp (concat (map fst js)) (concat (map fr_samples outs)).
Proof.
  intros inp out mp b fuel js more rest UI UO M B J. destruct (made_map inp out mp UI UO M) as (EI & EO & _).
  induction J as [|[fs rs] js (F & N & P & R & L) J IH].
  - exists []. split; [reflexivity|]. apply one_call_nil; rewrite ?EI, ?EO; auto.
  - destruct IH as (outs & E & C). cbn [fst snd] in *.
    destruct (C63_read inp out mp b fuel fs (concat (map fst js) ++ more) rs (map Some (concat (map snd js)) ++ rest) UI UO M B F N P R L)
      as (l & fl & t & E1 & C1 & _).
    exists (mkFr l fl (Z.of_nat (length fs)) t :: outs). cbn [map concat fst snd chan_reads fr_samples]. split.
    + rewrite map_app, <- !app_assoc. rewrite E1. cbn [bind]. rewrite E. reflexivity.
    + assert (FJ : Forall (is_frame inp) (concat (map fst js))).
      { clear - J. induction J as [|j js (H & _) J IH]; [constructor|]. cbn [map concat]. apply Forall_app. now split. }
      destruct (one_call_app inp out mp fs (concat (map fst js)) UI UO M F FJ) as (a & c & A & D & AD & _).
      rewrite (one_call_fun _ _ _ _ A C1), (one_call_fun _ _ _ _ D C) in AD. exact AD.
Qed.
Print Assumptions C63_stream.

(** C63: when the source fails in the middle of a frame the read fails, and the samples that
    were taken from the source before that are gone. *)
Theorem C63_failed : forall inp out mp b fuel n fs more rs rest, usable inp -> usable out -> made inp out mp ->
  num_channels inp <= b -> Forall (is_frame inp) fs -> Forall fine rs ->
  length fs = (length rs * batch b inp)%nat -> (length fs < n)%nat -> (length rs < fuel)%nat ->
  chan_read fuel mp b (Z.of_nat n * num_channels out) (mkSrc (fs ++ more) (map Some rs ++ None :: rest)) =
    Ok (Some (None, mkSrc more rest)).
Proof.
  intros inp out mp b fuel n fs more rs rest UI UO M B F R LF LN L. destruct (made_map inp out mp UI UO M) as (EI & EO & _).
  pose proof (usable_num _ UO) as NO. unfold chan_read. rewrite EI, EO, Z.mod_mul, Z.div_mul by lia. cbn [Z.eqb negb]. rewrite Nat2Z.id.
  fold (batch b inp). rewrite (read_loop_fails inp out mp UI UO M) by (auto using batch_pos). reflexivity.
Qed.
Print Assumptions C63_failed.

(** C63: an internal buffer too small for one sampling moment makes the reader ask the
    source for empty frames for as long as the source agrees; the writer panics. *)
Theorem C63_small_buffer : forall inp out mp sp b fuel, usable inp -> usable out -> made inp out mp -> 0 <= b ->
  (b < num_channels inp -> forall n fs rs, (0 < n)%nat -> Forall fine rs -> (length rs < fuel)%nat ->
     chan_read fuel mp b (Z.of_nat n * num_channels out) (mkSrc fs (map Some rs)) = Ok (Some (None, mkSrc fs []))) /\
  (b < num_channels out -> forall f k, (0 < k)%nat -> (0 < fuel)%nat -> Z.testbit (fr_flags f) 0 = false ->
     Z.of_nat (length (fr_samples f)) = Z.of_nat k * num_channels inp ->
     chan_write fuel mp sp b f = Panic).
Proof.
  intros inp out mp sp b fuel UI UO M B. destruct (made_map inp out mp UI UO M) as (EI & EO & _).
  pose proof (usable_num _ UO) as NO. pose proof (usable_num _ UI) as NI. split.
  - intros S n fs rs N R L. unfold chan_read. rewrite EI, EO, Z.mod_mul, Z.div_mul by lia. cbn [Z.eqb negb]. rewrite Nat2Z.id.
    rewrite (Z.div_small b) by lia. change (Z.to_nat 0) with 0%nat. rewrite (read_loop_stuck inp out mp UI UO M) by auto. reflexivity.
  - intros S f k K L RW LN. unfold chan_write. rewrite EI, EO, (raw_ok _ RW), LN, Z.mod_mul, Z.div_mul by lia. cbn [Z.eqb negb]. rewrite Nat2Z.id.
    rewrite (Z.div_small b) by lia. change (Z.to_nat 0) with 0%nat. destruct fuel as [|fuel]; [lia|]. destruct k as [|k]; [lia|].
    cbn [write_loop Nat.min Nat.mul firstn]. unfold write_batch. cbn [Z.of_nat Z.mul].
    pose proof (one_call_nil mp) as C. rewrite EI, EO in C. specialize (C UI UO). unfold one_call in C. cbn [concat length Z.of_nat Z.mul] in C.
    rewrite C. reflexivity.
Qed.
Print Assumptions C63_small_buffer.

(** C63: frames that are cut in the middle of a sampling moment, frames to be filled that
    hold nothing and frames of the source that are not raw are refused with a panic; an
    empty frame that is written is nothing. *)
Theorem C63_refused : forall inp out mp sp b fuel, usable inp -> usable out -> made inp out mp -> num_channels inp <= b ->
  (forall n s, n mod num_channels out <> 0 -> chan_read (S fuel) mp b n s = Panic) /\
  (forall s, chan_read (S fuel) mp b 0 s = Panic) /\
  (forall n fs more fl t rest, (0 < n)%nat -> Z.testbit fl 0 = true -> length fs = Nat.min n (batch b inp) ->
     chan_read (S fuel) mp b (Z.of_nat n * num_channels out) (mkSrc (fs ++ more) (Some (fl, t) :: rest)) = Panic) /\
  (forall f, Z.testbit (fr_flags f) 0 = true \/ Z.of_nat (length (fr_samples f)) mod num_channels inp <> 0 ->
     chan_write (S fuel) mp sp b f = Panic) /\
  (forall f, Z.testbit (fr_flags f) 0 = false -> fr_samples f = [] -> chan_write (S fuel) mp sp b f = Ok (Some [])).
Proof.
  intros inp out mp sp b fuel UI UO M B. destruct (made_map inp out mp UI UO M) as (EI & EO & _).
  pose proof (usable_num _ UO) as NO. pose proof (usable_num _ UI) as NI. split; [|split; [|split; [|split]]].
  - intros n s N. unfold chan_read. rewrite EO, (proj2 (Z.eqb_neq _ _) N). reflexivity.
  - intros s. unfold chan_read. rewrite EO, Z.mod_0_l, Z.div_0_l by lia. reflexivity.
  - intros n fs more fl t rest N RW LF. unfold chan_read. rewrite EI, EO, Z.mod_mul, Z.div_mul by lia. cbn [Z.eqb negb]. rewrite Nat2Z.id.
    fold (batch b inp). cbn [read_loop]. destruct n as [|n]; [lia|]. rewrite <- LF. unfold read_batch, src_read. cbn [sr_reads sr_frames].
    rewrite app_length, (proj2 (Nat.leb_le _ _)) by lia. unfold is_raw. rewrite RW. reflexivity.
  - intros f [H|H]; unfold chan_write; rewrite EI.
    + unfold is_raw. rewrite H. reflexivity.
    + destruct (negb (is_raw (fr_flags f))); [reflexivity|]. rewrite (proj2 (Z.eqb_neq _ _) H). reflexivity.
  - intros f H E. unfold chan_write. rewrite (raw_ok _ H), E, EI. cbn [length Z.of_nat negb]. rewrite Z.mod_0_l, Z.div_0_l by lia. reflexivity.
Qed.
Print Assumptions C63_refused.

(** C63: writing a frame hands on what one call of the mapper makes of it, cut into as few
    frames as the internal buffer allows, all full but the last; they have the flags of the
    frame. Without a capture time they have none; with one, the first has it and every
    further one has it plus the duration of those before, to within 0.24 millionths and half
    a nanosecond for each. *)
Theorem C63_write : forall inp out mp sp b fuel fs fl d ts p, usable inp -> usable out -> made inp out mp -> usual sp ->
  num_channels out <= b -> Forall (is_frame inp) fs -> Z.of_nat (length fs) < 2 ^ 32 -> fine (fl, ts) ->
  parts (length fs) (batch b out) p -> (p < fuel)%nat ->
  (IZR ts + 2 * exact_ns (Z.of_nat (length fs)) (s_rate sp) + INR p < IZR (2 ^ 62))%R ->
  exists outs l, chan_write fuel mp sp b (mkFr (concat fs) fl d ts) = Ok (Some outs) /\
    one_call mp fs l /\ concat (map fr_samples outs) = l /\ length outs = p /\
    forall k g, nth_error outs k = Some g ->
      let before := (k * batch b out)%nat in
      fr_flags g = fl /\ fr_dur g = Z.of_nat (Nat.min (batch b out) (length fs - before)) /\
      Z.of_nat (length (fr_samples g)) = fr_dur g * num_channels out /\
      (ts = 0 -> fr_ts g = 0) /\
      (0 < ts -> let x := exact_ns (Z.of_nat before) (s_rate sp) in
         (Rabs (IZR (fr_ts g) - (IZR ts + x)) <= x / 4194304 + INR k / 2)%R).
Proof.
  intros inp out mp sp b fuel fs fl d ts p UI UO M U B F N [R T] P L HB. destruct (made_map inp out mp UI UO M) as (EI & EO & _).
  pose proof (usable_num _ UI) as NI. cbn [fst snd] in R, T.
  destruct (write_loop_ok inp out mp UI UO M sp (batch b out) fl U (batch_pos _ _ UO B) p fuel fs ts F P N T HB L) as (outs & l & E & C & CC & LL & O).
  exists outs, l. split; [|split; [exact C|split; [exact CC|split; [exact LL|exact O]]]].
  assert (LC : Z.of_nat (length (concat fs)) = Z.of_nat (length fs) * num_channels inp).
  { clear - F. induction F as [|x l X F IH]; [reflexivity|]. cbn [concat length]. rewrite app_length. unfold is_frame in X. lia. }
  unfold chan_write. cbn [fr_flags fr_samples fr_ts]. rewrite EI, EO, (raw_ok _ R), LC, Z.mod_mul, Z.div_mul by lia. cbn [Z.eqb negb]. rewrite Nat2Z.id. exact E.
Qed.
Print Assumptions C63_write.

(** Concrete cases: 5.1 to stereo through a buffer of 13 samples, two sampling moments at a
    time; the first frame of the source has no packet drops, the second has. *)
Definition ex_fs : list (list Q) := [[1 # 2; 0; 0; 0; 0; 0]; [0; 1 # 2; 0; 0; 0; 0]; [0; 0; 1 # 2; 0; 0; 0]]%Q.
Definition ex_rs : list (Z * Z) := [(2, 5000); (10, 5042)].
Example C63_ex_read : usable ex51 /\ usable ex2 /\ made ex51 ex2 ex_mp /\ num_channels ex51 <= 13 /\ Forall (is_frame ex51) ex_fs /\
  parts (length ex_fs) (batch 13 ex51) (length ex_rs) /\ Forall fine ex_rs /\
  exists l, one_call ex_mp ex_fs l /\ length l = 6%nat /\
  chan_read 3 ex_mp 13 6 (mkSrc (ex_fs ++ [repeat 0%Q 6]) (map Some ex_rs ++ [None])) =
    Ok (Some (Some (mkFr l 10 3 5000), mkSrc [repeat 0%Q 6] [None])) /\
  chan_read 3 ex_mp 13 6 (mkSrc ex_fs [Some (2, 5000); None]) = Ok (Some (None, mkSrc [[0; 0; 1 # 2; 0; 0; 0]%Q] [])).
Proof.
  destruct C61_ex_sets as [S1 S2]. split; [now apply surround_usable|]. split; [now apply surround_usable|]. split; [exact C61_ex_made|].
  split; [vm_compute; discriminate|]. split; [repeat constructor|]. split.
  { split; [vm_compute; lia|]. intros j H. assert (E : batch 13 ex51 = 2%nat) by (vm_compute; reflexivity). rewrite E in H. cbn [length ex_fs ex_rs] in *. lia. }
  split; [repeat constructor; cbn; lia|].
  eexists. split; [vm_compute; reflexivity|]. vm_compute. auto.
Qed.
Example C63_ex_write : parts (length ex_fs) (batch 5 ex2) 2 /\
  exists a c, chan_write 3 ex_mp studio 5 (mkFr (concat ex_fs) 8 3 1000000) =
    Ok (Some [mkFr a 8 2 1000000; mkFr c 8 1 1041667]) /\ one_call ex_mp ex_fs (a ++ c).
Proof.
  split.
  { split; [vm_compute; lia|]. intros j H. assert (E : batch 5 ex2 = 2%nat) by (vm_compute; reflexivity). rewrite E in H. cbn [length ex_fs] in *. lia. }
  eexists _, _. split; vm_compute; reflexivity.
Qed.
