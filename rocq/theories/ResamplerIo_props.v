(* C60: reading and writing through the resampler *)
From Coq Require Import Reals ZArith List Bool Lia.
From Verif Require Import Base Float32 TimeConv_model Resampler_model Resampler_spec Resampler_proof Resampler_hist Resampler_scale Resampler_props ResamplerIo_model ResamplerIo_spec ResamplerIo_proof.
Import ListNotations.
Local Open Scope Z_scope.

(* the scalings asked for are numbers *)
Definition rnumber (ir or : Z) (o : rop) : Prop := match o with RScale m => number (Scale ir or m) | RRead _ => True end.
(* also: the step is not zero (a scaling below 2^-20 is rounded to zero, and the
   writer never returns), and no frame has a negative size *)
Definition wnumber (c : cfg) (ir or : Z) (o : wop) : Prop :=
  match o with
  | WScale m => number (Scale ir or m) /\ forall q, set_scaling c ir or m = Ok (Some q) -> 0 < p_dt q
  | WWrite m => 0 <= m
  end.

Lemma number_scale c ir or m : frame_ok c -> number (Scale ir or m) -> scale_ok c (Scale ir or m).
Proof. intros F N. exact (Forall_inv (number_ok c [Scale ir or m] F (Forall_cons _ N (Forall_nil _)))). Qed.
Lemma rnumber_ok c ir or os : frame_ok c -> Forall (rnumber ir or) os -> Forall (rscale_ok c ir or) os.
Proof. intros F N. eapply Forall_impl; [|exact N]. intros [m|n] H; [apply number_scale; auto|exact I]. Qed.
Lemma wnumber_ok c ir or os : frame_ok c -> Forall (wnumber c ir or) os -> Forall (wscale_ok c ir or) os.
Proof. intros F N. eapply Forall_impl; [|exact N]. intros [m|n] H; [apply number_scale; [auto|apply H]|exact H]. Qed.
Lemma wnumber_moves c ir or os : Forall (wnumber c ir or) os -> Forall (moves c ir or) os.
Proof. intros N. eapply Forall_impl; [|exact N]. intros [m|n] H; [exact (proj2 H)|exact I]. Qed.
Lemma start_ok c ir or m p : frame_ok c -> set_scaling c ir or m = Ok (Some p) -> number (Scale ir or m) -> par_ok c p.
Proof. intros F S N. destruct (scaling_ok c ir or m F N) as (r & E & Q). rewrite S in E. apply (Q p). congruence. Qed.

Lemma needed_nn c l : 0 <= needed c l.
Proof. unfold needed. induction l as [|x l IH]; cbn [map fold_right]; lia. Qed.

(* a new reader or writer: the scaling is 1 at first (resampler_reader.cpp:46-47) *)
Definition reader0 (p : params) : rs := with_par rs_new p.
Definition writer0 (p : params) : wr := mkWr (with_par rs_new p) 0.

(* For every sequence of reads of any sizes and changes of the scaling: as long as
   the input can be read, every read delivers as many samples as asked for, they
   continue exactly where the ones before ended, and no more input is read than the
   last sample needs. *)
Theorem C60_read : forall (c : cfg) (ir or : Z) (m : f32) (p : params) (up up' : list bool) (os : list rop) (got : list (option (list (list term)))) (st : rs),
  frame_ok c -> set_scaling c ir or m = Ok (Some p) -> number (Scale ir or m) -> Forall (rnumber ir or) os -> Forall (eq true) up ->
  reads c ir or (reader0 p) up os = Ok (got, st, up') -> ~ In None got ->
  got = map Some (outs_of c (read_times c ir or (c_frame c * unit) p os)) /\
  Z.of_nat (length up) - Z.of_nat (length up') = needed c (concat (read_times c ir or (c_frame c * unit) p os)).
Proof.
  intros c ir or m p up up' os got st F S N NS U R NN. pose proof (start_ok _ _ _ _ _ F S N) as P. pose proof (frame_cfg c F) as C.
  destruct (reads_ok c ir or os up (reader0 p) (c_frame c * unit) 0 C P (inv_par _ _ _ _ _ (inv_new c)) ltac:(unfold cfg_ok, unit in *; lia) ltac:(lia) U (rnumber_ok _ _ _ _ F NS)) as [_ H].
  cbv zeta in H. change (r_par (reader0 p)) with p in H. destruct (H _ _ _ R NN) as (A & B & _). split; [exact A|].
  pose proof (needed_nn c (concat (read_times c ir or (c_frame c * unit) p os))). lia.
Qed.

(* ... and all reads succeed if there is input for them, unless the window of a
   sample ends where a frame ends (C57_safe) *)
Theorem C60_read_done : forall (c : cfg) (ir or : Z) (m : f32) (p : params) (up : list bool) (os : list rop),
  frame_ok c -> set_scaling c ir or m = Ok (Some p) -> number (Scale ir or m) -> Forall (rnumber ir or) os -> Forall (eq true) up ->
  let l := concat (read_times c ir or (c_frame c * unit) p os) in
  Forall (fun x => ~ at_edge c x) l -> needed c l <= Z.of_nat (length up) ->
  exists got st up', reads c ir or (reader0 p) up os = Ok (got, st, up') /\ ~ In None got.
Proof.
  intros c ir or m p up os F S N NS U l NE LE. pose proof (start_ok _ _ _ _ _ F S N) as P. pose proof (frame_cfg c F) as C.
  destruct (reads_ok c ir or os up (reader0 p) (c_frame c * unit) 0 C P (inv_par _ _ _ _ _ (inv_new c)) ltac:(unfold cfg_ok, unit in *; lia) ltac:(lia) U (rnumber_ok _ _ _ _ F NS)) as [H _].
  cbv zeta in H. change (r_par (reader0 p)) with p in H. destruct (H NE ltac:(fold l; lia)) as ([[got st] up'] & R & X). eauto.
Qed.

(* For every sequence of frames of any sizes written and changes of the scaling:
   what is written on, frame after frame, is one stream of samples without a gap,
   as far as complete input frames allow it. No frame written on is empty or larger
   than the buffer. [fuel] bounds the number of iterations of one write. *)
Theorem C60_write : forall (c : cfg) (ch size ir or : Z) (m : f32) (p : params) (os : list wop) (fuel : nat) (got : list (list (list (list term)))) (w : wr),
  frame_ok c -> 0 < ch -> 0 < size -> size mod ch = 0 ->
  set_scaling c ir or m = Ok (Some p) -> number (Scale ir or m) -> 0 < p_dt p -> Forall (wnumber c ir or) os ->
  writes fuel c ch size ir or (writer0 p) os = Ok (Some (got, w)) ->
  map (@concat _) got = outs_of c (write_times c ir or (c_frame c * unit) 0 p os) /\
  Forall (Forall (fun f => f <> [] /\ ch * Z.of_nat (length f) <= size)) got.
Proof.
  intros c ch size ir or m p os fuel got w F HC HS HM S N D NS R. pose proof (start_ok _ _ _ _ _ F S N) as P. pose proof (frame_cfg c F) as C.
  assert (E : size = ch * (size / ch)) by (pose proof (Z.div_mod size ch ltac:(lia)); lia).
  assert (HS2 : 0 < size / ch) by nia.
  assert (W : winv c (writer0 p) (c_frame c * unit) 0).
  { unfold winv, writer0. cbn [w_fill w_rs]. unfold cfg_ok in C. split; [lia|]. split; [lia|]. split; [intros _; exact (inv_par _ _ _ _ _ (inv_new c))|lia]. }
  destruct (writes_ok c ch (size / ch) ir or C HC HS2 os (writer0 p) (c_frame c * unit) 0 P D W (wnumber_ok _ _ _ _ F NS) (wnumber_moves _ _ _ _ NS)) as [_ H].
  cbv zeta in H. rewrite <- E in H. destruct (H _ _ _ R) as (A & B & _). split; [exact A|].
  eapply Forall_impl; [|exact B]. intros fs X. eapply Forall_impl; [|exact X]. intros f [X1 X2]. split; [exact X1|]. rewrite E. apply Z.mul_le_mono_nonneg_l; lia.
Qed.

(* ... and every write ends *)
Theorem C60_write_done : forall (c : cfg) (ch size ir or : Z) (m : f32) (p : params) (os : list wop),
  frame_ok c -> 0 < ch -> 0 < size -> size mod ch = 0 ->
  set_scaling c ir or m = Ok (Some p) -> number (Scale ir or m) -> 0 < p_dt p -> Forall (wnumber c ir or) os ->
  Forall (fun x => ~ at_edge c x) (concat (write_times c ir or (c_frame c * unit) 0 p os)) ->
  exists fuel got w, writes fuel c ch size ir or (writer0 p) os = Ok (Some (got, w)).
Proof.
  intros c ch size ir or m p os F HC HS HM S N D NS NE. pose proof (start_ok _ _ _ _ _ F S N) as P. pose proof (frame_cfg c F) as C.
  assert (E : size = ch * (size / ch)) by (pose proof (Z.div_mod size ch ltac:(lia)); lia).
  assert (HS2 : 0 < size / ch) by nia.
  assert (W : winv c (writer0 p) (c_frame c * unit) 0).
  { unfold winv, writer0. cbn [w_fill w_rs]. unfold cfg_ok in C. split; [lia|]. split; [lia|]. split; [intros _; exact (inv_par _ _ _ _ _ (inv_new c))|lia]. }
  destruct (writes_ok c ch (size / ch) ir or C HC HS2 os (writer0 p) (c_frame c * unit) 0 P D W (wnumber_ok _ _ _ _ F NS) (wnumber_moves _ _ _ _ NS)) as [H _].
  cbv zeta in H. rewrite <- E in H. destruct (H NE) as (fuel & [got w] & R). eauto.
Qed.

(* How the output is cut into frames has no influence on it. *)
Lemma read_times_sizes c ir or ns : forall t p,
  concat (read_times c ir or t p (map RRead ns)) = consecutive t p (list_sum ns).
Proof.
  induction ns as [|n ns IH]; intros t p; [reflexivity|]. cbn [map read_times concat list_sum]. rewrite IH. symmetry. apply cons_app.
Qed.
Theorem C60_read_sizes : forall (c : cfg) (ir or : Z) (m : f32) (p : params) (up1 up2 : list bool) (ns1 ns2 : list nat) (got1 got2 : list (option (list (list term)))) (s1 s2 : rs * list bool),
  frame_ok c -> set_scaling c ir or m = Ok (Some p) -> number (Scale ir or m) -> Forall (eq true) up1 -> Forall (eq true) up2 ->
  reads c ir or (reader0 p) up1 (map RRead ns1) = Ok (got1, fst s1, snd s1) -> ~ In None got1 ->
  reads c ir or (reader0 p) up2 (map RRead ns2) = Ok (got2, fst s2, snd s2) -> ~ In None got2 ->
  list_sum ns1 = list_sum ns2 ->
  concat (map (fun x => match x with Some l => l | None => [] end) got1) = concat (map (fun x => match x with Some l => l | None => [] end) got2) /\
  (length up1 + length (snd s2) = length up2 + length (snd s1))%nat.
Proof.
  intros c ir or m p up1 up2 ns1 ns2 got1 got2 s1 s2 F S N U1 U2 R1 N1 R2 N2 E.
  assert (NS : forall ns, Forall (rnumber ir or) (map RRead ns)) by (intros ns; induction ns; cbn; constructor; auto; exact I).
  destruct (C60_read _ _ _ _ _ _ _ _ _ _ F S N (NS ns1) U1 R1 N1) as [A1 B1]. destruct (C60_read _ _ _ _ _ _ _ _ _ _ F S N (NS ns2) U2 R2 N2) as [A2 B2].
  rewrite read_times_sizes in B1, B2. rewrite E in B1. split; [|lia].
  assert (G : forall l, concat (map (fun x : option (list (list term)) => match x with Some l => l | None => [] end) (map Some (outs_of c l))) = outputs c (concat l)).
  { intros l. rewrite map_map. induction l as [|a l IH]; [reflexivity|]. cbn [outs_of map concat] in *. unfold outs_of in IH. rewrite IH. symmetry. apply outputs_app. }
  rewrite A1, A2, !G, !read_times_sizes, E. reflexivity.
Qed.

(* Concrete cases: the frame is the one made for these rates *)
Definition rops0 : list rop := [RRead 10; RScale (f32_make 1048000 (-20)); RRead 3; RRead 20].
Example C60_read_case : frame_ok cfg0 /\ set_scaling cfg0 44100 44100 (f32_of_Z 1) = Ok (Some par0) /\ number (Scale 44100 44100 (f32_of_Z 1)) /\
  Forall (rnumber 44100 44100) rops0 /\
  exists got st, reads cfg0 44100 44100 (reader0 par0) (repeat true 6) rops0 = Ok (got, st, repeat true 2) /\ ~ In None got /\ length got = 3%nat.
Proof.
  split; [unfold frame_ok; cbn; lia|]. split; [vm_compute; reflexivity|]. split; [vm_compute; reflexivity|].
  split; [repeat constructor|]. eexists. eexists. split; [vm_compute; reflexivity|]. split; [|reflexivity].
  cbn [In]. intros [H|[H|[H|[]]]]; discriminate H.
Qed.
Example C60_read_safe_case : Forall (fun x => ~ at_edge cfg0 x) (concat (read_times cfg0 44100 44100 (c_frame cfg0 * unit) par0 rops0)) /\
  needed cfg0 (concat (read_times cfg0 44100 44100 (c_frame cfg0 * unit) par0 rops0)) = 4.
Proof. split; [repeat (constructor; [vm_compute; discriminate|]); constructor|]. vm_compute. reflexivity. Qed.

Definition wops0 : list wop := [WWrite 50; WScale (f32_make 1048000 (-20)); WWrite 0; WWrite 31; WWrite 40].
Example C60_write_case : Forall (wnumber cfg0 44100 44100) wops0 /\ 0 < p_dt par0 /\
  exists got w, writes 60 cfg0 2 20 44100 44100 (writer0 par0) wops0 = Ok (Some (got, w)) /\ map (map (@length _)) got = [[]; []; [10; 10; 5]; [10; 10; 10; 10; 8]]%nat.
Proof.
  split.
  { apply Forall_cons; [cbn; lia|]. apply Forall_cons; [|repeat (apply Forall_cons; [cbn; lia|]); constructor].
    split; [vm_compute; reflexivity|]. intros q E.
    assert (X : exists z, set_scaling cfg0 44100 44100 (f32_make 1048000 (-20)) = Ok (Some z) /\ p_dt z = 1048000) by (eexists; split; vm_compute; reflexivity).
    destruct X as (z & Z1 & Z2). rewrite Z1 in E. assert (q = z) by congruence. subst q. lia. }
  split; [cbn; lia|]. eexists. eexists. split; vm_compute; reflexivity.
Qed.
Example C60_write_safe_case : Forall (fun x => ~ at_edge cfg0 x) (concat (write_times cfg0 44100 44100 (c_frame cfg0 * unit) 0 par0 wops0)).
Proof. repeat (constructor; [vm_compute; discriminate|]); constructor. Qed.

(* After a failed read of the input the stream is not continued: the frame played
   next was played before, and the one that should be played is lost. *)
Theorem C60_failed_read_refuted :
  exists a b st, reads cfg0 44100 44100 (reader0 par0) [true; true; true; false; true] [RRead 24; RRead 1; RRead 1] = Ok ([Some a; None; Some b], st, []) /\
  Forall (fun o => exists t, In t o /\ 24 <= t_pos t < 72) a /\
  (exists o, b = [o] /\ Forall (fun t => t_pos t < 24 \/ 48 <= t_pos t < 72) o /\ exists t, In t o /\ t_pos t = 0).
Proof.
  eexists. eexists. eexists. split; [vm_compute; reflexivity|]. split.
  - repeat (constructor; [eexists; split; [do 17 right; left; reflexivity|cbn; lia]|]). constructor.
  - eexists. split; [reflexivity|]. split; [repeat (constructor; [cbn; lia|]); constructor|]. eexists. split; [do 17 right; left; reflexivity|reflexivity].
Qed.

(* With a buffer that does not hold a whole number of samples of all channels the
   writer writes behind its end: 1024 is the default size, six channels are those
   of 5.1 surround sound. *)
Theorem C60_buffer_refuted :
  set_scaling cfg0 44100 44100 (f32_of_Z 1) = Ok (Some par0) /\ 1024 mod 6 <> 0 /\
  writes 40 cfg0 6 1024 44100 44100 (writer0 par0) [WWrite 300] = UB.
Proof. split; [vm_compute; reflexivity|]. split; [discriminate|]. vm_compute. reflexivity. Qed.

Print Assumptions C60_read.
Print Assumptions C60_read_done.
Print Assumptions C60_read_sizes.
Print Assumptions C60_write.
Print Assumptions C60_write_done.
Print Assumptions C60_failed_read_refuted.
Print Assumptions C60_buffer_refuted.
