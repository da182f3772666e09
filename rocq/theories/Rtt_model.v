(** Model of roc_rtcp/rtt_estimator.cpp and of the parts of roc_rtcp/reporter.cpp
    that feed it: how one side describes the last report it received, and how
    the other side turns this into times. The same code runs in both directions
    (SR / LSR / DLSR / RRTR towards the sender, RR / LRR / DLRR / SR towards the
    receiver); the definitions cite both. *)
From Verif Require Import Base Ntp_model.
Open Scope res_scope.

(** signed 64-bit arithmetic: overflow is undefined *)
Definition int64 (x : Z) : res Z := if (- 2 ^ 63 <=? x) && (x <? 2 ^ 63) then Ok x else UB.

(** rtt_estimator.h:46-66 *)
Record rtt := mkRtt { r_has : bool; r_offset : Z; r_rtt : Z; r_first : Z; r_last : Z }.
(** rtt_estimator.cpp:15-19 *)
Definition rtt_new : rtt := mkRtt false 0 0 0 0.

(** rtt_estimator.cpp:54-92; [t1] local report, [t2] remote report, [t3] remote
    reply, [t4] local reply. Division truncates towards zero. *)
Definition rtt_update (st : rtt) (t1 t2 t3 t4 : Z) : res rtt :=
  if negb (t1 <=? t4) || negb (t2 <=? t3) then Ok st
  else if t1 <=? r_last st then Ok st
  else
    a <- int64 (t2 - t1) ;; b <- int64 (t3 - t4) ;; ab <- int64 (a + b) ;;
    c <- int64 (t4 - t1) ;; d <- int64 (t3 - t2) ;; r <- int64 (c - d) ;;
    if r <? 0 then Ok st
    else Ok (mkRtt true (Z.quot ab 2) r (if r_first st =? 0 then t1 else r_first st) t1).

(** reporter.cpp:724-731 (DLSR), 766-772 (DLRR): the last report of the peer as
    described to it, as the two 32-bit fields. [at_] is when it came (0: never),
    [ntp] the timestamp in it, [now] the time of this report. *)
Definition describe_last (at_ ntp now : Z) : res (Z * Z) :=
  if (0 <? at_) && (at_ <=? now) then
    d <- int64 (now - at_) ;; v <- nanoseconds_2_ntp d ;; Ok (ntp32_set ntp, set_delay v)
  else Ok (0, 0).

(** reporter.cpp:675 (SR), 784 (RRTR): the timestamp of a report *)
Definition report_ntp (now : Z) : res Z := unix_2_ntp now.

(** what the reporter keeps of a stream for this *)
Record link := mkLink { l_last_local : Z; l_delay : Z; l_est : rtt }.
Definition link_new : link := mkLink 0 0 rtt_new.

(** reporter.cpp:292-301 (LSR), 350-359 (LRR); [current] is when we sent our most
    recent report (0: never) *)
Definition process_last (st : link) (current : Z) (blk : Z * Z) : res link :=
  if current =? 0 then Ok st
  else
    base <- unix_2_ntp current ;;
    x <- ntp_extend base (ntp32_get (fst blk)) ;;
    Ok (mkLink (ntp_2_unix x) (ntp_2_nanoseconds (ntp32_get (snd blk))) (l_est st)).

(** reporter.cpp:405-427 (RRTR), 361-377 with 217-243 (DLRR after SR); [ntp] is
    the timestamp of the peer's report, [now] when we got it. *)
Definition process_reply (st : link) (ntp now : Z) : res link :=
  let remote := ntp_2_unix ntp in
  if negb (l_last_local st =? 0) && negb (now =? 0) then
    t2 <- int64 (remote - l_delay st) ;;
    e <- rtt_update (l_est st) (l_last_local st) t2 remote now ;;
    Ok (mkLink (l_last_local st) (l_delay st) e)
  else Ok st.

(** one compound packet of the peer *)
Definition process_report (st : link) (current : Z) (blk : Z * Z) (ntp now : Z) : res link :=
  st <- process_last st current blk ;; process_reply st ntp now.
