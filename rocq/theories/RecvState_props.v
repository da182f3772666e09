(* C53: the activity state of a receiver and the packets handed to it. *)
From Coq Require Import ZArith List Bool Lia Arith.
From Verif Require Import Base RecvState_model RecvState_spec RecvState_proof.
Import ListNotations.
Local Open Scope Z_scope.

(* Whatever the network threads and the pipeline thread do, and in whatever
   order, the receiver does not abort. *)
Theorem C53_no_panic : forall es os r, exec es os r -> exists s, r = Ok s.
Proof. exact exec_safe. Qed.
Print Assumptions C53_no_panic.

(* What state() answers: Idle when there are no sessions and as many packets
   were routed as were handed to the receiver, Active otherwise. *)
Theorem C53_exact : forall es os s a s' o d,
  exec es os (Ok s) -> step s a = Some (Ok (s', o)) -> In (OState d) o ->
  (d = Idle <-> sessions es = 0 /\ written es = routed os).
Proof. intros. eapply answer; eauto. Qed.
Print Assumptions C53_exact.

(* Idle can be trusted: there is no session, no write() is running, and no
   packet for which write() returned is still waiting. *)
Theorem C53_idle_sound : forall es os s a s' o,
  exec es os (Ok s) -> step s a = Some (Ok (s', o)) -> In (OState Idle) o ->
  sessions es = 0 /\ nothing_waits es os.
Proof.
  intros es os s a s' o X H I. destruct (answer _ _ _ _ _ _ _ X H I) as [F [A _]].
  destruct (A eq_refl) as [S1 W1]. split; auto.
  apply (waits_iff es os s X F). pose proof (accounted _ _ _ X). lia.
Qed.
Print Assumptions C53_idle_sound.

(* Active can be trusted as long as no packet was malformed or destroyed with
   its endpoint: there is a session or a packet that waits. *)
Theorem C53_active_sound : forall es os s a s' o,
  exec es os (Ok s) -> step s a = Some (Ok (s', o)) -> In (OState Active) o ->
  malformed os = 0%nat -> lost os = 0%nat ->
  ~ (sessions es = 0 /\ nothing_waits es os).
Proof.
  intros es os s a s' o X H I M L [S1 N]. destruct (answer _ _ _ _ _ _ _ X H I) as [F [_ A]].
  apply (waits_iff es os s X F) in N. assert (E : Active = Idle) by (apply A; split; auto; lia).
  discriminate E.
Qed.
Print Assumptions C53_active_sound.

(* After one malformed packet, or one packet destroyed with its endpoint, the
   receiver never says Idle again. *)
Theorem C53_stuck_forever : forall es os s a s' o d,
  exec es os (Ok s) -> step s a = Some (Ok (s', o)) -> In (OState d) o ->
  (0 < malformed os + lost os)%nat -> d = Active.
Proof.
  intros es os s a s' o d X H I M. destruct (answer _ _ _ _ _ _ _ X H I) as [F [A _]].
  destruct d; auto. destruct (A eq_refl). pose proof (accounted _ _ _ X). lia.
Qed.
Print Assumptions C53_stuck_forever.

(* Packets of one endpoint are taken in the order in which write() returned;
   none is lost, duplicated or invented. *)
Theorem C53_fifo : forall es os s e,
  exec es os (Ok s) -> exists waiting, accepted e es = left_queue e os ++ waiting.
Proof. exact prefix. Qed.
Print Assumptions C53_fifo.

(* Pulling takes every packet that is in the queue, in order: well-formed ones
   are routed, malformed ones dropped; other endpoints are not touched. *)
Theorem C53_pull : forall es os s e l n,
  exec es os (Ok s) -> ph s = Free -> qs s e = Some l -> 0 <= n ->
  exists s',
    exec (es ++ pull e l n)
         (os ++ map (fun p => if i_ok p then ODone e p else OBad e p) l) (Ok s') /\
    qs s' e = Some [] /\ ph s' = Free /\ (forall x, x <> e -> qs s' x = qs s x).
Proof.
  intros es os s e l n X F Q N.
  destruct (pull_steps l s e n Q F N (queue_small _ _ _ _ _ X Q)) as (s' & S1 & Q1 & F1 & R1 & O1).
  exists s'. split; [|auto]. exact (exec_steps _ _ _ _ _ _ X S1).
Qed.
Print Assumptions C53_pull.

(* A receiver that has got one malformed packet, has dropped it, has no session
   and nothing waiting. *)
Definition bad : item := mkI 7 false.
Definition fine : item := mkI 8 true.
Definition bad_run : list ev := [PNew 0; WAdd 1 0 bad; WPush 1; PPop 0; PParse].

(* Executions without deletion can be computed. *)
Fixpoint play (s : st) (es : list ev) : option (st * list out) :=
  match es with
  | [] => Some (s, [])
  | a :: es => match step s a with
               | Some (Ok (s', o)) => match play s' es with
                                      | Some (t, os) => Some (t, o ++ os)
                                      | None => None
                                      end
               | _ => None
               end
  end.
Lemma play_steps es : forall s s' os,
  Forall (fun a => match a with PDel _ => False | _ => True end) es ->
  play s es = Some (s', os) -> steps s es os s'.
Proof.
  induction es as [|a es IH]; intros s s' os F H; cbn [play] in H.
  - assert (s' = s) by congruence. assert (os = []) by congruence. subst. constructor.
  - inversion F as [|? ? F1 F2]; subst. destruct (step s a) as [[[s1 o]| |]|] eqn:E; try discriminate H.
    destruct (play s1 es) as [[t os']|] eqn:P; [|discriminate H].
    assert (t = s') by congruence. assert (os = o ++ os') by congruence. subst.
    econstructor; eauto. destruct a; cbn; auto.
Qed.

Lemma bad_exec : exists s, exec bad_run [OBad 0 bad] (Ok s) /\ ph s = Free /\ sess s = 0 /\ pend s = 1.
Proof.
  eexists. split; [|split; [|split]].
  - change bad_run with ([] ++ bad_run). change [OBad 0 bad] with ([] ++ [OBad 0 bad]).
    eapply exec_steps; [constructor|]. apply play_steps; [repeat constructor|reflexivity].
  - reflexivity.
  - reflexivity.
  - reflexivity.
Qed.

(* Active cannot be trusted in general: the answer is Active although there is
   no session and nothing waits. *)
Theorem C53_active_refuted :
  exists es os s a s' o,
    exec es os (Ok s) /\ step s a = Some (Ok (s', o)) /\ In (OState Active) o /\
    sessions es = 0 /\ nothing_waits es os.
Proof.
  destruct bad_exec as (s & X & F & S0 & P1).
  exists (bad_run ++ [QSess]), ([OBad 0 bad] ++ []), (mkS (pend s) (sess s) (qs s) (wr s) Asked), QPend.
  eexists. eexists. split; [|split; [|split; [|split]]].
  - eapply ex_step; [exact X|exact I|]. cbn [step]. rewrite F, S0. reflexivity.
  - reflexivity.
  - left. rewrite P1. reflexivity.
  - reflexivity.
  - split.
    + intros w. unfold writing, bad_run. cbn. unfold fupd. now destruct (w =? 1)%nat.
    + intros e. unfold accepted, bad_run. cbn. now destruct e.
Qed.
Print Assumptions C53_active_refuted.

(* A case that meets the hypotheses: a packet is written, seen, routed without a
   session being created; two threads write at the same time. *)
Definition ok_run : list ev :=
  [PNew 0; WAdd 1 0 fine; WAdd 2 0 (mkI 9 true); QSess; WPush 2; QPend; WPush 1;
   PPop 0; PParse; PRoute 0; PDec; PPop 0; PParse; PRoute 1; PDec; QSess; PSess 0; QSess; QPend].
Example ok_case :
  option_map snd (play s_new ok_run) =
  Some [OState Active; ODone 0 (mkI 9 true); ODone 0 fine; OState Active; OState Idle].
Proof. reflexivity. Qed.

Example ok_exec : exists s,
  exec ok_run [OState Active; ODone 0 (mkI 9 true); ODone 0 fine; OState Active; OState Idle] (Ok s).
Proof.
  destruct (play s_new ok_run) as [[s os]|] eqn:E.
  - exists s. assert (O : option_map snd (Some (s, os)) = option_map snd (play s_new ok_run)) by (rewrite E; reflexivity).
    rewrite ok_case in O. cbn [option_map snd] in O. assert (Q : os = [OState Active; ODone 0 (mkI 9 true); ODone 0 fine; OState Active; OState Idle]) by congruence.
    rewrite <- Q. apply (exec_steps [] [] s_new ok_run os s ex_new).
    apply play_steps; [repeat constructor|exact E].
  - exfalso. pose proof ok_case as O. rewrite E in O. discriminate O.
Qed.
