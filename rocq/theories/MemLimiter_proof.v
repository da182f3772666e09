From Verif Require Import Base Base_lemmas MemLimiter_model MemLimiter_spec.

Lemma p64 : 2 ^ 64 = 18446744073709551616. Proof. reflexivity. Qed.
Lemma u64_small x : 0 <= x < 2 ^ 64 -> u64 x = x.
Proof. intros. unfold u64, wrapu. apply Z.mod_small. auto. Qed.

Definition okt (limit : Z) (x : mt) : Prop :=
  match x with MIdle => True | MWant n => sane limit n | MLoaded n cur => sane limit n /\ 0 <= cur /\ cur + n <= limit end.

Definition minv (limit : Z) (s : ml) (h : Z) : Prop :=
  ml_acquired s = h /\ 0 <= h <= limit /\ forall t, okt limit (ml_threads s t).

Lemma set_ok limit s t x : (forall u, okt limit (ml_threads s u)) -> okt limit x -> forall u, okt limit (ml_threads (set_thread s t x) u).
Proof. intros H Hx u. cbn [set_thread ml_threads]. destruct (Nat.eqb u t); auto. Qed.

Lemma step_inv limit s h l r : 0 < limit < 2 ^ 64 -> minv limit s h -> ml_step limit s l = Some r ->
  match l with LAcquire _ n => sane limit n | LRelease _ n => 0 < n <= h | _ => True end ->
  exists o s', r = Ok (o, s') /\ minv limit s' (h + delta o) /\
    match o with MRefused n => h + n > limit | MAcquired n => 0 < n | _ => True end.
Proof.
  intros HL (EA & HB & HT) E P. rewrite p64 in HL. unfold sane in *.
  destruct l as [t n|t|t|t n]; cbn [ml_step] in E; pose proof (HT t) as Ht; destruct (ml_threads s t) as [|n'|n' cur]; try discriminate E; injection E as <-.
  - destruct (Z.eqb_spec n 0); [lia|]. eexists _, _. split; [reflexivity|]. cbn [delta]. split; [|exact I].
    split; [cbn; lia|]. split; [lia|]. apply set_ok; auto.
  - cbn [okt] in Ht. unfold sane in Ht. rewrite p64 in Ht. rewrite u64_small by (rewrite p64; lia). rewrite EA.
    destruct (Z.ltb_spec 0 limit); [|lia]. cbn [andb]. destruct (Z.ltb_spec limit (h + n')).
    + eexists _, _. split; [reflexivity|]. cbn [delta]. split; [|lia]. split; [cbn; lia|]. split; [lia|]. apply set_ok; cbn; auto.
    + eexists _, _. split; [reflexivity|]. cbn [delta]. split; [|exact I]. split; [cbn; lia|]. split; [lia|]. apply set_ok; [auto|].
      unfold okt, sane. rewrite p64. lia.
  - cbn [okt] in Ht. unfold sane in Ht. rewrite p64 in Ht. rewrite EA. destruct (Z.eqb_spec h cur).
    + eexists _, _. split; [reflexivity|]. cbn [delta]. split; [|lia]. rewrite u64_small by (rewrite p64; lia).
      split; [cbn; lia|]. split; [lia|]. apply set_ok; cbn; auto.
    + eexists _, _. split; [reflexivity|]. cbn [delta]. split; [|exact I]. split; [cbn; lia|]. split; [lia|]. apply set_ok; [auto|].
      unfold okt, sane. rewrite p64. lia.
  - destruct (Z.eqb_spec n 0); [lia|]. rewrite EA.
    rewrite (u64_small (h - n)) by (rewrite p64; lia). rewrite (u64_small (h - n + n)) by (rewrite p64; lia).
    destruct (Z.ltb_spec (h - n + n) (h - n)); [lia|].
    eexists _, _. split; [reflexivity|]. cbn [delta]. split; [|exact I]. split; [cbn; lia|]. split; [lia|]. auto.
Qed.

Lemma run_inv limit : 0 < limit < 2 ^ 64 -> forall ls s h, minv limit s h -> permitted limit s h ls ->
  exists outs s', ml_run limit s ls = Ok (outs, s') /\ minv limit s' (h + held outs).
Proof.
  intros HL. induction ls as [|l ls IH]; intros s h I P; cbn [ml_run].
  - exists [], s. cbn [held fold_right]. rewrite Z.add_0_r. auto.
  - cbn [permitted] in P. destruct (ml_step limit s l) as [r|] eqn:E; [|auto].
    destruct P as (P1 & P2). destruct (step_inv limit s h l r HL I E P1) as (o & s1 & -> & I1 & _).
    destruct (IH s1 _ I1 P2) as (outs & s2 & E2 & I2). cbn [bind snd fst]. rewrite E2. cbn [bind fst snd].
    exists (o :: outs), s2. split; [auto|]. cbn [held fold_right]. fold (held outs). rewrite Z.add_assoc. auto.
Qed.

Lemma find_total p : forall live n l, la_find live p = Some (n, l) -> total live = n + total l /\
  (forall x, In x live <-> x = (p, n) \/ In x l).
Proof.
  induction live as [|(q, k) live IH]; intros n l E; cbn [la_find] in E; [discriminate|].
  destruct (Z.eqb_spec q p) as [->|].
  - injection E as <- <-. split; [reflexivity|]. intros x. cbn [In]. intuition.
  - destruct (la_find live p) as [(m, l')|] eqn:E2; [|discriminate]. injection E as <- <-.
    destruct (IH m l' eq_refl) as (H1 & H2). cbn [total fold_right snd] in *. fold (total live) (total l') in *.
    split; [lia|]. intros x. cbn [In]. rewrite H2. intuition.
Qed.
Lemma find_some p : forall live n, In (p, n) live -> la_find live p <> None.
Proof.
  induction live as [|(q, k) live IH]; intros n H; cbn [la_find]; [inversion H|].
  destruct (Z.eqb_spec q p); [discriminate|]. destruct H as [H|H]; [congruence|].
  specialize (IH n H). destruct (la_find live p) as [(?, ?)|]; congruence.
Qed.
Lemma total_nonneg live : Forall (fun b => 0 < snd b) live -> 0 <= total live.
Proof. induction 1; cbn [total fold_right]; [lia|]. fold (total l). lia. Qed.
