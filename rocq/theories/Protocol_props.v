(** C46: protocol identifiers and scheme names. *)
From Coq Require Import String.
From Verif Require Import Base Protocol_model.

(** The table built by the constructor. *)
Theorem C46_table : proto_table = Ok protos.
Proof. vm_compute. reflexivity. Qed.
Print Assumptions C46_table.

Lemma list_eqb_true a b : list_eqb a b = true <-> a = b.
Proof. unfold list_eqb. destruct (list_eq_dec Z.eq_dec a b); intuition congruence. Qed.

(** Ids 1 to 7 are known, under their own id and a non-empty name; no other
    integer is. *)
Theorem C46_ids p :
  (1 <= p <= 7 /\ exists a n, find_by_id p = Ok (Some a) /\ a_proto a = p /\ a_scheme a = Some n /\ n <> []) \/
  (~ 1 <= p <= 7 /\ find_by_id p = Ok None).
Proof.
  assert (C : p = 1 \/ p = 2 \/ p = 3 \/ p = 4 \/ p = 5 \/ p = 6 \/ p = 7 \/ p = 0 \/ p < 0 \/ 8 <= p) by lia.
  destruct C as [->|[->|[->|[->|[->|[->|[->|[->|[H|H]]]]]]]]].
  1-7: left; split; [lia|]; do 2 eexists; split; [reflexivity|]; split; [reflexivity|]; split; [reflexivity|]; vm_compute; discriminate.
  - right. split; [lia|reflexivity].
  - right. split; [lia|]. unfold find_by_id. replace (p <? 0) with true by lia. reflexivity.
  - right. split; [lia|]. unfold find_by_id. replace (Z.of_nat max_protos <=? p) with true by (cbn; lia).
    rewrite orb_true_r. reflexivity.
Qed.
Print Assumptions C46_ids.

(** Id to name to id, and name to id to name: for every integer and every
    string, the two lookups agree with each other. *)
Theorem C46_inverse p s :
  proto_to_str p = Ok (Some s) <-> exists a, find_by_scheme s = Some a /\ a_proto a = p.
Proof.
  split.
  - destruct (C46_ids p) as [[Hp _]|[_ E]].
    + assert (C : p = 1 \/ p = 2 \/ p = 3 \/ p = 4 \/ p = 5 \/ p = 6 \/ p = 7) by lia.
      intros H. assert (E : exists n, proto_to_str p = Ok (Some n) /\ exists a, find_by_scheme n = Some a /\ a_proto a = p).
      { destruct C as [->|[->|[->|[->|[->|[->| ->]]]]]];
          (eexists; split; [vm_compute; reflexivity|]; eexists; split; vm_compute; reflexivity). }
      destruct E as (n & E1 & E2). rewrite E1 in H. assert (n = s) by congruence. subst. exact E2.
    + unfold proto_to_str. rewrite E. discriminate.
  - intros (a & Ha & Hp). unfold find_by_scheme, protos, all_attrs in Ha.
    change (find_scheme_loop (attrs0 :: ?t) s) with (find_scheme_loop t s) in Ha.
    repeat match type of Ha with
    | find_scheme_loop (?x :: ?t) s = Some a =>
        change (find_scheme_loop (x :: t) s) with
          (match a_scheme x with None => find_scheme_loop t s | Some n => if list_eqb n s then Some x else find_scheme_loop t s end) in Ha;
        cbn [a_scheme] in Ha;
        match type of Ha with (if list_eqb ?n s then _ else _) = _ =>
          destruct (list_eqb n s) eqn:E;
          [apply list_eqb_true in E; subst s; injection Ha; intros; subst a; subst p; reflexivity|clear E] end
    end.
    discriminate.
Qed.
Print Assumptions C46_inverse.

(** Names are accepted exactly if they are one of the seven documented ones. *)
Theorem C46_names s :
  find_by_scheme s <> None <->
  In s [str "rtsp"; str "rtp"; str "rtp+rs8m"; str "rs8m"; str "rtp+ldpc"; str "ldpc"; str "rtcp"].
Proof.
  split.
  - intros H. destruct (find_by_scheme s) as [a|] eqn:E; [|congruence].
    assert (E2 : exists a', find_by_scheme s = Some a' /\ a_proto a' = a_proto a) by eauto.
    apply C46_inverse in E2.
    destruct (C46_ids (a_proto a)) as [[Hp _]|[_ E3]].
    + assert (C : a_proto a = 1 \/ a_proto a = 2 \/ a_proto a = 3 \/ a_proto a = 4 \/ a_proto a = 5 \/ a_proto a = 6 \/ a_proto a = 7) by lia.
      destruct C as [C|[C|[C|[C|[C|[C|C]]]]]]; rewrite C in E2; vm_compute in E2; injection E2; intros <-; cbn; tauto.
    + unfold proto_to_str in E2. rewrite E3 in E2. discriminate.
  - intros [<-|[<-|[<-|[<-|[<-|[<-|[<-|[]]]]]]]]; vm_compute; discriminate.
Qed.
Print Assumptions C46_names.

(** Every known protocol belongs to a supported interface, and conversely. *)
Theorem C46_interfaces i :
  In i supported_interfaces <-> exists p a, find_by_id p = Ok (Some a) /\ a_iface a = i.
Proof.
  split.
  - vm_compute (In i supported_interfaces).
    intros [<-|[<-|[<-|[<-|[]]]]]; [exists 1|exists 2|exists 4|exists 7]; eexists; split; reflexivity.
  - intros (p & a & E & <-). destruct (C46_ids p) as [[Hp _]|[_ E3]]; [|congruence].
    assert (C : p = 1 \/ p = 2 \/ p = 3 \/ p = 4 \/ p = 5 \/ p = 6 \/ p = 7) by lia.
    destruct C as [->|[->|[->|[->|[->|[->| ->]]]]]]; injection E; intros <-; vm_compute; tauto.
Qed.
Print Assumptions C46_interfaces.

Example C46_example :
  proto_to_str 3 = Ok (Some (str "rtp+rs8m")) /\
  option_map a_proto (find_by_scheme (str "ldpc")) = Some 6 /\
  find_by_scheme (str "rtp+") = None.
Proof. vm_compute. auto. Qed.
