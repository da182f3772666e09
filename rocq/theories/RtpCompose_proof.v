From Verif Require Import Base Base_lemmas Slice_model Slice_lemmas FecHeaders_model FecHeaders_proof
  Align_model Align_props Rtp_model Rtp_spec Rtp_proof RtpCompose_spec.
Local Open Scope nat_scope.

Lemma rtp_datagram_inj d a1 a2 a3 a4 a5 h1 p1 q1 b1 b2 b3 b4 b5 h2 p2 q2 :
  rtp_datagram d a1 a2 a3 a4 a5 h1 p1 q1 -> rtp_datagram d b1 b2 b3 b4 b5 h2 p2 q2 ->
  a1 = b1 /\ a2 = b2 /\ a3 = b3 /\ a4 = b4 /\ a5 = b5 /\ h1 = h2 /\ p1 = p2 /\ q1 = q2.
Proof.
  intros H1 H2.
  destruct H1 as (c0 & c1 & c2 & c3 & c4 & c5 & c6 & c7 & c8 & c9 & c10 & c11 & csrc & ext & -> & E & V & LC & LE & LP & M & PT & -> & -> & ->).
  destruct H2 as (d0 & d1 & d2 & d3 & d4 & d5 & d6 & d7 & d8 & d9 & d10 & d11 & csrc' & ext' & -> & E' & V' & LC' & LE' & LP' & M' & PT' & -> & -> & ->).
  rewrite E in E'. cbn [app] in E'. injection E' as <- <- <- <- <- <- <- <- <- <- <- <- E'.
  rewrite <- !app_assoc in E'.
  apply app_inv_len in E'; [|lia]. destruct E' as [<- E'].
  assert (EE : ext = ext' /\ p1 ++ q1 = p2 ++ q2).
  { destruct LE as [[X0 ->]|[X1 (e0 & e1 & e2 & e3 & dt & -> & L1)]], LE' as [[X0' ->]|[X1' (f0 & f1 & f2 & f3 & dt' & -> & L1')]]; try lia.
    - auto.
    - cbn [app] in E'. injection E' as <- <- <- <- E'. apply app_inv_len in E'; [|lia]. destruct E' as [<- E']. auto. }
  destruct EE as [<- EP].
  assert (EQ : p1 = p2 /\ q1 = q2).
  { destruct LP as [[P0 ->]|(P1 & N1 & L1)], LP' as [[P0' ->]|(P1' & N1' & L1')]; try lia.
    - rewrite !app_nil_r in EP. auto.
    - assert (last q1 0%Z = last q2 0%Z).
      { destruct (exists_last N1) as (t & x & ->). destruct (exists_last N1') as (t' & x' & ->).
        rewrite !last_last. rewrite !app_assoc in EP. apply app_inj_tail in EP. tauto. }
      assert (EL : length q1 = length q2) by lia.
      apply app_inv_len in EP; auto. apply (f_equal (@length Z)) in EP. rewrite !app_length in EP. lia. }
  destruct EQ as [<- <-].
  assert (a4 = b4 /\ a5 = b5) as [<- <-] by (destruct a4, b4; lia || (split; [reflexivity|lia])).
  repeat split; reflexivity.
Qed.

Lemma rtp_parse_ok enc p pre d post src seq ts mk pt hdr payload padding :
  bytes_ok d -> flags_ok enc p -> rtp_datagram d src seq ts mk pt hdr payload padding ->
  p_parse enc (PRtp PNone) (pre ++ d ++ post) p (mkSl (length pre) (length d)) =
  Ok (Some (parsed p enc (length pre) src seq ts mk pt (length hdr) (length payload) (length padding))).
Proof.
  intros HB HF HD.
  destruct (rtp_parse_spec enc p pre d post HB HF) as [(s & q & t & m & y & h & pl & pd & HD' & ->)|[_ N]].
  - destruct (rtp_datagram_inj _ _ _ _ _ _ _ _ _ _ _ _ _ _ _ _ _ HD HD') as (-> & -> & -> & -> & -> & -> & -> & ->). reflexivity.
  - exfalso. eapply N. exact HD.
Qed.

(** The header a composer writes. *)
Definition hdr_bytes (f : fields) (pd : bool) : list Z :=
  [ (128 + (if pd then 32 else 0))%Z; ((if f_marker f then 128 else 0) + f_pt f)%Z ] ++
  put16 (f_seq f) ++ put32 (f_ts f) ++ put32 (f_src f).

Lemma mpt_set (m : bool) pt : (0 <= pt < 128)%Z ->
  (Z.land (u8 pt) 127 =? u8 pt)%Z = true /\
  u8 (Z.lor (Z.land (u8 (Z.lor (Z.land 0 (u8 (Z.lnot (Z.shiftl 1 7)))) (Z.shiftl (if m then 1 else 0) 7))) (u8 (Z.lnot 127))) (u8 pt)) = ((if m then 128 else 0) + pt)%Z.
Proof.
  intros H. split.
  - assert (K : all_below 128 (fun pt => Z.land (u8 pt) 127 =? u8 pt)%Z = true) by (vm_compute; reflexivity).
    exact (all_below_spec _ _ K pt H).
  - assert (K : all_below 128 (fun pt => u8 (Z.lor (Z.land (u8 (Z.lor (Z.land 0 (u8 (Z.lnot (Z.shiftl 1 7)))) (Z.shiftl (if m then 1 else 0) 7))) (u8 (Z.lnot 127))) (u8 pt)) =? ((if m then 128 else 0) + pt))%Z = true) by (destruct m; vm_compute; reflexivity).
    apply Z.eqb_eq. exact (all_below_spec _ _ K pt H).
Qed.

Lemma rtp_header_bytes_spec p f pd : rtp_fits f -> rtp_header_bytes (fill p f) pd = Ok (hdr_bytes f pd).
Proof.
  intros (H1 & H2 & H3 & H4). unfold rtp_header_bytes. cbn [fill set_fec_fields set_rtp_fields p_src p_seq p_ts p_marker p_pt].
  destruct (mpt_set (f_marker f) (f_pt f) H4) as [A B].
  unfold h_set_payload_type. cbv zeta. rewrite A.
  unfold h_set_marker, h_set_timestamp, h_set_seqnum, h_set_ssrc, h_set_version, h_clear, rtp_hdr_size.
  unfold put32_at, put16_at. cbn [repeat upd nth Nat.add]. rewrite B.
  unfold u32, u16. rewrite !wrapu_small by lia. cbn [bind].
  unfold hdr_bytes, put16, put32. cbn [app]. destruct pd; unfold h_set_padding; cbn [upd nth]; reflexivity.
Qed.

Lemma hdr_bytes_len f pd : length (hdr_bytes f pd) = 12. Proof. reflexivity. Qed.
Lemma hdr_bytes_ok f pd : rtp_fits f -> bytes_ok (hdr_bytes f pd).
Proof.
  intros (_ & _ & _ & H). unfold bytes_ok, hdr_bytes, put16, put32. cbn [app].
  repeat constructor; try apply byte_of_range; try (destruct pd; cbn; lia); destruct (f_marker f); lia.
Qed.

Definition pad_bytes (k : nat) : list Z := if k =? 0 then [] else repeat 0%Z (k - 1) ++ [Z.of_nat k].
Lemma pad_bytes_len k : length (pad_bytes k) = k.
Proof. unfold pad_bytes. destruct (Nat.eqb_spec k 0); [subst; reflexivity|]. rewrite app_length, repeat_length. cbn. lia. Qed.
Lemma pad_bytes_ok k : k <= 255 -> bytes_ok (pad_bytes k).
Proof.
  intros. unfold pad_bytes. destruct (Nat.eqb_spec k 0); [constructor|]. unfold bytes_ok. apply Forall_app. split.
  - apply Forall_forall. intros x Hx. apply repeat_spec in Hx. subst. unfold byte_ok. lia.
  - repeat constructor; lia.
Qed.

Lemma composed_datagram f k payload : rtp_fits f -> k <= 255 ->
  rtp_datagram (hdr_bytes f (0 <? k) ++ payload ++ pad_bytes k) (f_src f) (f_seq f) (f_ts f) (f_marker f) (f_pt f)
    (hdr_bytes f (0 <? k)) payload (pad_bytes k).
Proof.
  intros (H1 & H2 & H3 & H4) Hk. unfold rtp_datagram, hdr_bytes, put16, put32. cbn [app].
  do 12 eexists. exists [], []. split; [reflexivity|]. split; [reflexivity|].
  split; [destruct (0 <? k); reflexivity|]. split; [destruct (0 <? k); reflexivity|].
  split; [left; split; [destruct (0 <? k); reflexivity|reflexivity]|].
  split.
  - unfold pad_bytes. destruct (Nat.ltb_spec 0 k), (Nat.eqb_spec k 0); try lia.
    + right. split; [reflexivity|]. split; [destruct (repeat 0%Z (k - 1)); discriminate|].
      rewrite last_last, app_length, repeat_length. cbn. lia.
    + left. auto.
  - split; [reflexivity|]. split; [auto|]. rewrite be16_put16, !be32_put32 by auto. auto.
Qed.

(** memory split by lengths *)
Lemma mem_split (mem : list Z) a b : a + b <= length mem ->
  exists A X B, mem = A ++ X ++ B /\ length A = a /\ length X = b.
Proof.
  intros H. exists (firstn a mem), (firstn b (skipn a mem)), (skipn (a + b) mem).
  split; [apply split3; auto|]. rewrite !firstn_length, skipn_length. lia.
Qed.

Lemma compose_rtp_end f p mem A H0 X k Bk : rtp_fits f -> k <= 255 ->
  mem = A ++ H0 ++ X ++ Bk -> length H0 = 12 ->
  N.land (p_flags p) FlagRTP <> 0%N ->
  p_hdr p = mkSl (length A) 12 ->
  (forall pl Y, X = pl ++ Y -> length Y = k -> 
     (p_pad p = None /\ k = 0 \/ p_pad p = Some (mkSl (length A + 12 + length pl) k)) ->
   c_compose (CRtp CNone) mem (fill p f) = Ok (A ++ (hdr_bytes f (0 <? k) ++ pl ++ pad_bytes k) ++ Bk, true)).
Proof.
  intros HR Hk -> L0 HF EH pl Y -> LY HP. unfold c_compose.
  unfold has_flag. change (p_flags (fill p f)) with (p_flags p). change (p_hdr (fill p f)) with (p_hdr p).
  change (p_pad (fill p f)) with (p_pad p).
  destruct (N.eqb_spec (N.land (p_flags p) FlagRTP) 0); [contradiction|]. cbn [negb].
  rewrite EH. cbn [s_size]. unfold rtp_hdr_size. change (12 =? 12) with true. cbn [negb].
  assert (EK : s_size (match p_pad p with Some s => s | None => nosl end) = k).
  { destruct HP as [[-> ->]| ->]; reflexivity. }
  rewrite EK. rewrite rtp_header_bytes_spec by auto. cbn [bind].
  rewrite (sl_put_app A H0 ((pl ++ Y) ++ Bk) (hdr_bytes f (0 <? k))); cbn [s_off s_size]; rewrite ?hdr_bytes_len; auto;
    try (rewrite !app_length; lia).
  cbn [bind].
  destruct (Nat.ltb_spec 255 k); [lia|]. rewrite andb_false_r.
  destruct (Nat.ltb_spec 0 k) as [K|K].
  - destruct HP as [[_ ->]|EP]; [lia|]. rewrite EP.
    rewrite (sl_put_app (A ++ hdr_bytes f true ++ pl) Y Bk); cbn [s_off s_size].
    + cbn [bind]. unfold pad_bytes. destruct (Nat.eqb_spec k 0); [lia|]. rewrite <- !app_assoc. reflexivity.
    + rewrite <- !app_assoc. reflexivity.
    + rewrite !app_length, hdr_bytes_len. lia.
    + rewrite app_length, repeat_length. cbn. lia.
    + rewrite app_length, repeat_length. cbn. lia.
    + rewrite !app_length, hdr_bytes_len. lia.
  - assert (k = 0) by lia. subst k. destruct Y; [|discriminate]. cbn [bind]. unfold pad_bytes. cbn [Nat.eqb].
    rewrite !app_nil_r, <- !app_assoc. reflexivity.
Qed.

Lemma firstn_pre {A} (a b : list A) n : n = length a -> firstn n (a ++ b) = a.
Proof. intros ->. rewrite firstn_app, firstn_all, Nat.sub_diag. apply app_nil_r. Qed.
Lemma skipn_pre {A} (a b : list A) n : n = length a -> skipn n (a ++ b) = b.
Proof. intros ->. rewrite skipn_app, skipn_all, Nat.sub_diag. reflexivity. Qed.

Lemma pad_nat hs al : 0 < al -> (Z.of_nat hs + Z.of_nat al <= 2 ^ 64)%Z ->
  let a := Z.to_nat (pad_as (Z.of_nat hs) (Z.of_nat al)) in a < al /\ (hs + a) mod al = 0.
Proof.
  intros H1 H2. cbv zeta. destruct (C44_pad (Z.of_nat hs) (Z.of_nat al)) as [B [k E]]; try lia.
  split; [lia|].
  assert (hs + Z.to_nat (pad_as (Z.of_nat hs) (Z.of_nat al)) = Z.to_nat k * al) as ->.
  { assert (0 <= k)%Z. { destruct (Z.leb_spec 0 k); auto. assert (k * Z.of_nat al < 0)%Z by (apply Z.mul_neg_pos; lia). lia. }
    rewrite <- (Nat2Z.id al) at 2. rewrite <- Z2Nat.inj_mul by lia. rewrite <- E. rewrite Z2Nat.inj_add, Nat2Z.id by lia. reflexivity. }
  apply Nat.mod_mul. lia.
Qed.

Lemma mod_shift addr a h al : 0 < al -> addr mod al = 0 -> (h + a) mod al = 0 -> (addr + (a + h)) mod al = 0.
Proof.
  intros H0 H1 H2. rewrite Nat.add_mod, H1 by lia. rewrite Nat.add_0_l, Nat.mod_mod by lia.
  rewrite (Nat.add_comm a h). auto.
Qed.

(** RTP and FEC source stacks differ by the footer. *)
Definition source_stack (fec : option pid_kind) : composer :=
  match fec with None => CRtp CNone | Some k => CFec k Source Footer (CRtp CNone) end.
Definition source_parser (fec : option pid_kind) : parser :=
  match fec with None => PRtp PNone | Some k => PFec k Source Footer (PRtp PNone) end.
Definition footer (fec : option pid_kind) : nat := match fec with None => 0 | Some k => pid_size k end.

Lemma fec_pid_bytes_spec k p f : fec_fits k f ->
  exists h, fec_pid_bytes k (fill p f) = Ok h /\ length h = pid_size k /\
    pid_esi k h = f_esi f /\ pid_sbn k h = f_sbn f /\ pid_k k h = f_k f /\
    pid_n k h = (match k with LdpcSource => 0 | LdpcRepair => f_n f | RS8M => 255 end)%Z.
Proof.
  intros (H1 & H2 & H3 & H4). unfold fec_pid_bytes. cbn [fill set_fec_fields set_rtp_fields p_esi p_sbn p_k p_n]. cbv zeta.
  assert (HE : (0 <= f_esi f < 2 ^ 16)%Z) by (destruct k; auto; change (2 ^ 8)%Z with 256%Z in H4; change (2 ^ 16)%Z with 65536%Z; lia).
  rewrite !shiftr_zero by (auto; lia). cbn [Z.eqb negb].
  destruct (set_esi_spec k (pid_clear k) (f_esi f)) as (h1 & E1 & L1 & A1 & A2 & A3 & A4).
  { destruct k; reflexivity. } { destruct k; auto. }
  rewrite E1. cbn [bind].
  destruct (set_sbn_spec k h1 (f_sbn f)) as (h2 & E2 & L2 & B1 & B2 & B3 & B4).
  { auto. } { destruct k; cbn [sbn_fits]; auto. change (2 ^ 16)%Z with 65536%Z in H1; change (2 ^ 24)%Z with 16777216%Z; lia. }
  rewrite E2. cbn [bind].
  destruct (set_k_spec k h2 (f_k f)) as (L3 & C1 & C2 & C3 & C4); auto.
  destruct (set_n_spec k (pid_set_k k h2 (f_k f)) (f_n f)) as (L4 & D1 & D2 & D3 & D4); auto.
  eexists. split; [reflexivity|]. split; [exact L4|]. repeat split; congruence.
Qed.

Lemma set_flags_ok p fl : N.land (p_flags p) fl = 0%N ->
  exists p', add_flags p fl = Ok p' /\ p_flags p' = N.lor (p_flags p) fl /\
    p' = mkPkt (N.lor (p_flags p) fl) (p_src p) (p_seq p) (p_ts p) (p_marker p) (p_pt p)
              (p_hdr p) (p_pay p) (p_pad p) (p_esi p) (p_sbn p) (p_k p) (p_n p) (p_pid p) (p_fpay p).
Proof. intros H. unfold add_flags. rewrite H. cbn. eexists; split; [reflexivity|]. split; reflexivity. Qed.

Ltac proj := cbn [s_off s_size p_flags p_src p_seq p_ts p_marker p_pt p_hdr p_pay p_pad p_esi p_sbn p_k p_n p_pid p_fpay
                  set_rtp_slices set_rtp_fields set_fec_slices set_fec_fields].

Ltac sleq := match goal with |- mkSl ?a ?b = mkSl ?c ?d =>
  let H1 := fresh in let H2 := fresh in
  assert (H1 : a = c) by lia; assert (H2 : b = d) by lia; rewrite H1, H2; reflexivity end.
Lemma mkPkt_eq f a b c d e s1 s2 s3 g h i j s4 s5 f' s1' s2' s4' s5' :
  f = f' -> s1 = s1' -> s2 = s2' -> s4 = s4' -> s5 = s5' ->
  mkPkt f a b c d e s1 s2 s3 g h i j s4 s5 = mkPkt f' a b c d e s1' s2' s3 g h i j s4' s5'.
Proof. intros -> -> -> -> ->. reflexivity. Qed.
Ltac pkteq := match goal with |- Ok (Some (?p, ?b)) = Ok (Some (?p', ?b')) =>
  let H1 := fresh in let H2 := fresh in
  assert (H1 : p = p') by (apply mkPkt_eq; first [reflexivity | sleq]); assert (H2 : b = b') by sleq;
  rewrite H1, H2; reflexivity end.

(** packet after prepare *)
Definition prepared (fec : option pid_kind) (a psize : nat) : pkt :=
  mkPkt (match fec with None => FlagRTP | Some _ => N.lor FlagRTP FlagFEC end) 0 0 0 false 0
        (mkSl a 12) (mkSl (a + 12) psize) None 0 0 0 0
        (match fec with None => nosl | Some k => mkSl (a + 12 + psize) (pid_size k) end)
        (match fec with None => nosl | Some k => mkSl a (12 + psize) end).

Local Open Scope res_scope.
Lemma prepare_fec_eq kind n p buffer psize :
  c_prepare (CFec kind Source Footer (CRtp CNone)) n p buffer psize =
  (pid <- sl_sub buffer 0 0 ;;
   payload <- sl_sub pid (s_size pid) (s_size pid) ;;
   r <- c_prepare (CRtp CNone) n p payload psize ;;
   match r with
   | None => Ok None
   | Some (p, payload) =>
       x <- sl_sub payload (s_size payload) (s_size payload) ;;
       pid <- (if sl_cap n x <? pid_size kind then Ok None
               else y <- sl_reslice n x 0 (pid_size kind) ;; Ok (Some y)) ;;
       match pid with
       | None => Ok None
       | Some pid =>
           p <- add_flags p FlagFEC ;;
           b <- sl_reslice n buffer 0 (s_size pid + s_size payload) ;;
           Ok (Some (set_fec_slices p pid payload, b))
       end
   end).
Proof.
  cbn [c_prepare]. destruct (sl_sub buffer 0 0) as [pid| |]; cbn [bind]; auto.
  destruct (sl_sub pid (s_size pid) (s_size pid)) as [pl| |]; cbn [bind]; auto.
  match goal with |- bind ?a _ = bind ?b _ => change b with a; destruct a as [[[p1 pl1]|]| |] end; cbn [bind]; auto.
  destruct (sl_sub pl1 (s_size pl1) (s_size pl1)); cbn [bind]; auto.
Qed.

Lemma prepare_source fec n a psize : a + 12 + psize + footer fec <= n ->
  c_prepare (source_stack fec) n pkt_new (mkSl a 0) psize =
  Ok (Some (prepared fec a psize, mkSl a (12 + psize + footer fec))).
Proof.
  intros H.
  assert (HR : forall b, s_off b = a -> s_size b = 0 -> c_prepare (CRtp CNone) n pkt_new b psize =
     Ok (Some (prepared None a psize, mkSl a (12 + psize)))).
  { intros [o sz] Eo Es; cbn in Eo, Es; subst o sz. unfold c_prepare. proj. rewrite sl_sub_ok by (cbn; lia). cbn [bind]. proj.
    unfold sl_cap, rtp_hdr_size. proj. destruct (Nat.ltb_spec (n - (a + 0)) 12); [lia|].
    rewrite sl_reslice_ok by (cbn; lia). cbn [bind]. rewrite sl_sub_ok by (cbn; lia). cbn [bind]. proj.
    destruct (Nat.ltb_spec (n - (a + 0 + 0 + (12 - 0))) psize); [lia|].
    rewrite sl_reslice_ok by (proj; lia). cbn [bind].
    unfold add_flags. change (N.land (p_flags pkt_new) FlagRTP =? 0)%N with true. cbn [bind]. proj.
    rewrite sl_reslice_ok by (proj; lia). cbn [bind]. unfold prepared. unfold set_rtp_slices. proj.
    pkteq. }
  destruct fec as [k|]; cbn [footer source_stack] in *.
  - rewrite prepare_fec_eq. rewrite sl_sub_ok by (cbn; lia). cbn [bind]. proj.
    rewrite sl_sub_ok by (cbn; lia). cbn [bind].
    rewrite HR by (proj; lia). cbn [bind]. proj.
    rewrite sl_sub_ok by (proj; lia). cbn [bind]. proj. unfold sl_cap. proj.
    destruct (Nat.ltb_spec (n - (a + (12 + psize))) (pid_size k)); [lia|].
    rewrite sl_reslice_ok by (proj; lia). cbn [bind].
    unfold add_flags. change (N.land (p_flags (prepared None a psize)) FlagFEC =? 0)%N with true. cbn [bind]. proj.
    rewrite sl_reslice_ok by (proj; lia). cbn [bind]. unfold prepared, set_fec_slices. proj. pkteq.
  - rewrite HR by reflexivity. rewrite Nat.add_0_r. reflexivity.
Qed.

Lemma align_source fec addr n al : 0 < al -> addr mod al = 0 ->
  Z.to_nat (pad_as 12 (Z.of_nat al)) <= n ->
  c_align (source_stack fec) addr n (sl_full n) 0 al = Ok (Some (mkSl (Z.to_nat (pad_as 12 (Z.of_nat al))) 0)).
Proof.
  intros H0 H1 H2.
  assert (HR : c_align (CRtp CNone) addr n (sl_full n) 0 al = Ok (Some (mkSl (Z.to_nat (pad_as 12 (Z.of_nat al))) 0))).
  { unfold c_align, sl_full. proj. rewrite Nat.add_0_r. destruct (Nat.eqb_spec al 0); [lia|].
    rewrite H1. change (negb (0 =? 0)) with false. cbv iota.
    change (Z.of_nat (0 + rtp_hdr_size)) with 12%Z. unfold sl_cap. proj. rewrite Nat.sub_0_r.
    destruct (Nat.ltb_spec n (Z.to_nat (pad_as 12 (Z.of_nat al)))); [lia|].
    rewrite sl_reslice_ok by (proj; lia). cbn [bind]. proj. f_equal. f_equal. f_equal; lia. }
  destruct fec as [k|]; cbn [source_stack]; auto.
  change (c_align (CFec k Source Footer (CRtp CNone)) addr n (sl_full n) 0 al) with
    (if al =? 0 then UB else if negb ((addr + 0) mod al =? 0) then Panic else c_align (CRtp CNone) addr n (sl_full n) 0 al).
  rewrite Nat.add_0_r. destruct (Nat.eqb_spec al 0); [lia|]. rewrite H1. exact HR.
Qed.

Lemma compose_fec_eq k mem p :
  c_compose (CFec k Source Footer (CRtp CNone)) mem p =
  (if negb (has_flag p FlagFEC) then Panic else
   if negb (s_size (p_pid p) =? pid_size k) then Panic else
   h <- fec_pid_bytes k p ;; mem <- sl_put mem (p_pid p) 0 h ;; c_compose (CRtp CNone) mem p).
Proof. reflexivity. Qed.

Lemma pad_eq fec p k : c_pad (source_stack fec) p k = c_pad (CRtp CNone) p k.
Proof. destruct fec; reflexivity. Qed.

Lemma parse_fec_eq enc k mem p buffer :
  p_parse enc (PFec k Source Footer (PRtp PNone)) mem p buffer =
  (if s_size buffer <? pid_size k then Ok None else
   h <- sl_read mem buffer (s_size buffer - pid_size k) (pid_size k) ;;
   p <- add_flags p FlagFEC ;;
   pl <- sl_sub buffer 0 (s_size buffer - pid_size k) ;;
   p_parse enc (PRtp PNone) mem
     (set_fec_slices (set_fec_fields p (pid_esi k h) (u16 (pid_sbn k h)) (pid_k k h) (pid_n k h)) (p_pid p) pl) pl).
Proof.
  cbn [p_parse]. destruct (s_size buffer <? pid_size k); [reflexivity|].
  destruct (sl_read _ _ _ _); cbn [bind]; auto.
Qed.

(** flags an encoding may add *)
Definition enc_ok (enc : Z -> option N) : Prop :=
  forall pt fl, enc pt = Some fl -> N.land (N.lor FlagRTP FlagFEC) fl = 0%N.

Lemma enc_ok_rtp enc pt fl : enc_ok enc -> enc pt = Some fl -> N.land FlagRTP fl = 0%N.
Proof.
  intros H E. specialize (H _ _ E). apply N.bits_inj. intros i. rewrite N.land_spec, N.bits_0.
  apply (f_equal (fun x => N.testbit x i)) in H. rewrite N.land_spec, N.lor_spec, N.bits_0 in H.
  destruct (N.testbit FlagRTP i), (N.testbit FlagFEC i), (N.testbit fl i); cbn in *; congruence.
Qed.

Definition src_fits (fec : option pid_kind) (f : fields) : Prop :=
  match fec with None => True | Some k => fec_fits k f end.

(** FEC fields read back by the parser *)
Definition fec_back (fec : option pid_kind) (f : fields) (q : pkt) : Prop :=
  match fec with
  | None => True
  | Some k => p_esi q = f_esi f /\ p_sbn q = f_sbn f /\ p_k q = f_k f /\
              p_n q = (match k with LdpcSource => 0 | LdpcRepair => f_n f | RS8M => 255 end)%Z
  end.

Lemma send_source fec addr mem al data pad f enc :
  0 < al -> (Z.of_nat al <= 2 ^ 63)%Z -> addr mod al = 0 ->
  Z.to_nat (pad_as 12 (Z.of_nat al)) + 12 + length data + footer fec <= length mem ->
  bytes_ok data -> pad_len pad <= length data -> pad_len pad <= 255 ->
  rtp_fits f -> src_fits fec f -> enc_ok enc ->
  exists b mem' payload_addr q,
    send (source_stack fec) addr mem al data pad f = Ok (Some (b, mem', payload_addr)) /\
    payload_addr mod al = 0 /\
    s_size b = 12 + length data + footer fec /\ same_outside mem mem' b /\
    p_parse enc (source_parser fec) mem' pkt_new b = Ok (Some q) /\
    p_src q = f_src f /\ p_seq q = f_seq f /\ p_ts q = f_ts f /\ p_marker q = f_marker f /\ p_pt q = f_pt f /\
    sl_bytes mem' (p_pay q) = firstn (length data - pad_len pad) data /\
    length (opt_bytes mem' (p_pad q)) = pad_len pad /\
    fec_back fec f q.
Proof.
  intros Hal Hal2 Haddr Hsz HB Hp1 Hp2 HR HFf HE.
  set (a := Z.to_nat (pad_as 12 (Z.of_nat al))) in *.
  set (k := pad_len pad) in *.
  destruct (pad_nat 12 al Hal) as [_ Ha].
  { change (2 ^ 63)%Z with 9223372036854775808%Z in *. change (2 ^ 64)%Z with 18446744073709551616%Z. lia. }
  change (Z.to_nat (pad_as (Z.of_nat 12) (Z.of_nat al))) with a in Ha.
  (* memory layout *)
  destruct (mem_split mem a 12) as (A & H0 & R1 & E1 & LA & LH); [lia|].
  assert (LR1 : length mem = a + 12 + length R1) by (rewrite E1, !app_length; lia).
  destruct (mem_split R1 0 (length data)) as (X0 & D0 & R2 & E2 & LX & LD); [lia|].
  destruct X0; [|discriminate]. cbn [app] in E2.
  assert (LR2 : length R1 = length data + length R2) by (rewrite E2, app_length; lia).
  destruct (mem_split R2 0 (footer fec)) as (X0 & F0 & B & E3 & LX3 & LF); [lia|].
  destruct X0; [|discriminate]. cbn [app] in E3. clear LX LX3. subst R2. subst R1.
  set (pl := firstn (length data - k) data). set (Y := skipn (length data - k) data).
  assert (ED : data = pl ++ Y) by (symmetry; apply firstn_skipn).
  assert (LY : length Y = k) by (unfold Y; rewrite skipn_length; lia).
  assert (Lpl : length pl = length data - k) by (unfold pl; rewrite firstn_length; lia).
  assert (HBpl : bytes_ok pl). { unfold bytes_ok in *. rewrite ED in HB. apply Forall_app in HB. tauto. }
  set (p1 := prepared fec a (length data)).
  set (p2 := set_rtp_slices p1 (p_hdr p1) (mkSl (a + 12) (length data - k))
               (match pad with None => None | Some _ => Some (mkSl (a + 12 + (length data - k)) k) end)).
  set (mem1 := A ++ H0 ++ data ++ F0 ++ B).
  assert (Emem1 : sl_put mem (pkt_payload p1) 0 data = Ok mem1).
  { assert (EP : pkt_payload p1 = mkSl (a + 12) (length data)) by (destruct fec; reflexivity). rewrite EP.
    unfold mem1. rewrite (app_assoc A H0). apply (sl_put_app _ D0 (F0 ++ B)); proj; try lia.
    - rewrite E1. rewrite <- app_assoc. reflexivity.
    - rewrite app_length. lia. }
  assert (Epad : match pad with None => Ok (Some p1) | Some k => c_pad (source_stack fec) p1 k end = Ok (Some p2)).
  { destruct pad as [k'|]; cbn [pad_len] in k.
    - subst k. rewrite pad_eq. unfold c_pad.
      assert (has_flag p1 FlagRTP = true) as -> by (destruct fec; reflexivity). cbn [negb].
      assert (p_pad p1 = None) as -> by reflexivity. assert (p_pay p1 = mkSl (a + 12) (length data)) as -> by reflexivity. proj.
      destruct (Nat.ltb_spec (length data) k'); [lia|].
      rewrite sl_sub_ok by (proj; lia). cbn [bind]. rewrite sl_sub_ok by (proj; lia). cbn [bind]. proj.
      unfold p2, set_rtp_slices. proj.
      replace (length data - (length data - k')) with k' by lia. replace (a + 12 + 0) with (a + 12) by lia.
      replace (length data - k' - 0) with (length data - k') by lia. reflexivity.
    - subst k. unfold p2, p1. rewrite Nat.sub_0_r. reflexivity. }
  (* composing *)
  assert (EC : exists F, length F = footer fec /\
     c_compose (source_stack fec) mem1 (fill p2 f) = Ok (A ++ (hdr_bytes f (0 <? k) ++ pl ++ pad_bytes k) ++ F ++ B, true) /\
     match fec with None => True | Some kd => pid_esi kd F = f_esi f /\ pid_sbn kd F = f_sbn f /\ pid_k kd F = f_k f /\
       pid_n kd F = (match kd with LdpcSource => 0 | LdpcRepair => f_n f | RS8M => 255 end)%Z end).
  { assert (EH : p_hdr p2 = mkSl (length A) 12) by (rewrite LA; reflexivity).
    assert (EP : p_pad p2 = None /\ k = 0 \/ p_pad p2 = Some (mkSl (length A + 12 + length pl) k)).
    { rewrite LA, Lpl. destruct pad; [right; reflexivity|left; split; reflexivity]. }
    destruct fec as [kd|]; cbn [source_stack footer] in *.
    - rewrite compose_fec_eq. assert (has_flag (fill p2 f) FlagFEC = true) as -> by reflexivity. cbn [negb].
      assert (p_pid (fill p2 f) = mkSl (a + 12 + length data) (pid_size kd)) as -> by reflexivity. proj.
      rewrite Nat.eqb_refl. cbn [negb].
      destruct (fec_pid_bytes_spec kd p2 f HFf) as (h & Eh & Lh & A1 & A2 & A3 & A4). rewrite Eh. cbn [bind].
      unfold mem1. rewrite (sl_put_app (A ++ H0 ++ data) F0 B h); proj; try lia.
      2:{ rewrite <- !app_assoc. reflexivity. } 2:{ rewrite !app_length. lia. } 2:{ rewrite !app_length. lia. }
      cbn [bind]. exists h. split; [auto|]. split; [|auto].
      apply (compose_rtp_end f p2 _ A H0 data k (h ++ B) HR Hp2) with (Y := Y); auto.
      + rewrite <- !app_assoc. reflexivity.
      + discriminate.
    - exists []. split; [reflexivity|]. destruct F0; [|discriminate]. split; [|auto]. cbn [app].
      apply (compose_rtp_end f p2 _ A H0 data k B HR Hp2) with (Y := Y); auto. discriminate. }
  destruct EC as (F & LF' & EC & EF).
  set (d := hdr_bytes f (0 <? k) ++ pl ++ pad_bytes k) in *.
  assert (Ld : length d = 12 + length data). { unfold d. rewrite !app_length, hdr_bytes_len, pad_bytes_len. lia. }
  set (mem2 := A ++ d ++ F ++ B) in *.
  assert (HBd : bytes_ok d).
  { unfold d, bytes_ok. apply Forall_app. split; [apply hdr_bytes_ok; auto|]. apply Forall_app. split; [auto|apply pad_bytes_ok; auto]. }
  exists (mkSl a (12 + length data + footer fec)), mem2, (addr + (a + 12)).
  assert (ES : send (source_stack fec) addr mem al data pad f = Ok (Some (mkSl a (12 + length data + footer fec), mem2, addr + (a + 12)))).
  { unfold send. rewrite align_source by (auto; fold a; lia). cbn [bind]. fold a.
    rewrite prepare_source by lia. cbn [bind]. fold p1. rewrite Emem1. cbn [bind]. rewrite Epad. cbn [bind].
    rewrite EC. cbn [bind].
    assert (pkt_payload p2 = mkSl (a + 12) (length data - k)) as -> by (destruct fec; reflexivity). reflexivity. }
  assert (HPR : forall p, flags_ok enc p -> p_pad p = None ->
      p_parse enc (PRtp PNone) mem2 p (mkSl a (12 + length data)) =
      Ok (Some (parsed p enc a (f_src f) (f_seq f) (f_ts f) (f_marker f) (f_pt f) 12 (length pl) k))).
  { intros p HFl _. unfold mem2. rewrite <- LA, <- Ld.
    rewrite (rtp_parse_ok enc p A d (F ++ B) _ _ _ _ _ _ _ _ HBd HFl (composed_datagram f k pl HR Hp2)).
    rewrite hdr_bytes_len, pad_bytes_len. reflexivity. }
  assert (HQ : exists p, p_parse enc (source_parser fec) mem2 pkt_new (mkSl a (12 + length data + footer fec)) =
      Ok (Some (parsed p enc a (f_src f) (f_seq f) (f_ts f) (f_marker f) (f_pt f) 12 (length pl) k)) /\ p_pad p = None /\
      fec_back fec f (parsed p enc a (f_src f) (f_seq f) (f_ts f) (f_marker f) (f_pt f) 12 (length pl) k)).
  { destruct fec as [kd|]; cbn [source_parser footer] in *.
    - rewrite parse_fec_eq. proj. destruct (Nat.ltb_spec (12 + length data + pid_size kd) (pid_size kd)); [lia|].
      replace (12 + length data + pid_size kd - pid_size kd) with (12 + length data) by lia.
      assert (ERd : sl_read mem2 (mkSl a (12 + length data + pid_size kd)) (12 + length data) (pid_size kd) = Ok F).
      { unfold mem2. rewrite app_assoc with (l := d). replace (A ++ (d ++ F) ++ B) with (A ++ (d ++ F) ++ B) by auto.
        rewrite <- LA. replace (12 + length data + pid_size kd) with (length (d ++ F)) by (rewrite app_length; lia).
        rewrite sl_read_app by (rewrite app_length; lia). rewrite skipn_pre by lia.
        rewrite <- LF'. rewrite firstn_all. reflexivity. }
      rewrite ERd. cbn [bind].
      unfold add_flags. change (N.land (p_flags pkt_new) FlagFEC =? 0)%N with true. cbn [bind].
      rewrite sl_sub_ok by (proj; lia). cbn [bind]. proj. rewrite Nat.add_0_r, Nat.sub_0_r.
      destruct EF as (A1 & A2 & A3 & A4). destruct HFf as (G1 & G2 & G3 & G4).
      rewrite A2, u16_id by (change (2 ^ 16)%Z with 65536%Z in G1; lia).
      eexists. split; [apply HPR|split].
      + split; [reflexivity|]. proj. intros pt fl E. apply (HE pt fl E).
      + reflexivity.
      + reflexivity.
      + unfold fec_back. cbn [parsed]. proj. unfold parsed. proj. auto.
    - rewrite Nat.add_0_r. exists pkt_new. split; [apply HPR|split; [reflexivity|exact I]].
      + split; [reflexivity|]. intros pt fl E. apply (enc_ok_rtp enc pt fl HE E).
      + reflexivity. }
  destruct HQ as (p & EQ & EPad & EB).
  exists (parsed p enc a (f_src f) (f_seq f) (f_ts f) (f_marker f) (f_pt f) 12 (length pl) k).
  split; [exact ES|]. split; [apply mod_shift; auto|]. split; [reflexivity|].
  split. { unfold same_outside. proj. unfold mem2. split; [rewrite E1, !app_length; lia|]. split.
    - rewrite E1. rewrite !firstn_pre by lia. reflexivity.
    - rewrite E1. rewrite !app_assoc. rewrite !skipn_pre by (rewrite !app_length; lia). reflexivity. }
  split; [exact EQ|]. unfold parsed. proj. do 5 (split; [reflexivity|]).
  split. { unfold mem2, d. apply (sl_bytes_app' (A ++ hdr_bytes f (0 <? k)) pl (pad_bytes k ++ F ++ B)).
    - rewrite <- !app_assoc. reflexivity.
    - rewrite app_length, hdr_bytes_len. lia.
    - reflexivity. }
  split; [|exact EB].
  destruct (Nat.eqb_spec k 0) as [K0|K0]; [rewrite EPad; cbn; lia|].
  cbn [opt_bytes]. unfold mem2, d. rewrite (sl_bytes_app' (A ++ hdr_bytes f (0 <? k) ++ pl) (pad_bytes k) (F ++ B)).
  - apply pad_bytes_len.
  - rewrite <- !app_assoc. reflexivity.
  - rewrite !app_length, hdr_bytes_len. lia.
  - symmetry; apply pad_bytes_len.
Qed.

(** FEC repair stack *)
Lemma send_repair kd addr mem al data f enc :
  0 < al -> (Z.of_nat al <= 2 ^ 63)%Z -> addr mod al = 0 ->
  Z.to_nat (pad_as (Z.of_nat (pid_size kd)) (Z.of_nat al)) + pid_size kd + length data <= length mem ->
  fec_fits kd f ->
  exists b mem' payload_addr q,
    send (CFec kd Repair Header CNone) addr mem al data None f = Ok (Some (b, mem', payload_addr)) /\
    payload_addr mod al = 0 /\
    s_size b = pid_size kd + length data /\ same_outside mem mem' b /\
    p_parse enc (PFec kd Repair Header PNone) mem' pkt_new b = Ok (Some q) /\
    sl_bytes mem' (p_fpay q) = data /\ fec_back (Some kd) f q.
Proof.
  intros Hal Hal2 Haddr Hsz HFf.
  set (a := Z.to_nat (pad_as (Z.of_nat (pid_size kd)) (Z.of_nat al))) in *.
  assert (HS : pid_size kd <= 8) by (destruct kd; cbn; lia).
  destruct (pad_nat (pid_size kd) al Hal) as [_ Ha].
  { change (2 ^ 63)%Z with 9223372036854775808%Z in *. change (2 ^ 64)%Z with 18446744073709551616%Z. lia. }
  fold a in Ha.
  destruct (mem_split mem a (pid_size kd)) as (A & H0 & R1 & E1 & LA & LH); [lia|].
  assert (LR1 : length mem = a + pid_size kd + length R1) by (rewrite E1, !app_length; lia).
  destruct (mem_split R1 0 (length data)) as (X0 & D0 & B & E2 & LX & LD); [lia|].
  destruct X0; [|discriminate]. cbn [app] in E2. subst R1. clear LX. rewrite app_length in LR1.
  destruct (fec_pid_bytes_spec kd (mkPkt (N.lor FlagRepair FlagFEC) 0 0 0 false 0 nosl nosl None 0 0 0 0 (mkSl a (pid_size kd)) (mkSl (a + pid_size kd) (length data))) f HFf) as (h & Eh & Lh & A1 & A2 & A3 & A4).
  set (p1 := mkPkt _ _ _ _ _ _ _ _ _ _ _ _ _ _ _) in Eh.
  set (mem2 := A ++ (h ++ data) ++ B).
  exists (mkSl a (pid_size kd + length data)), mem2, (addr + (a + pid_size kd)).
  assert (ES : send (CFec kd Repair Header CNone) addr mem al data None f = Ok (Some (mkSl a (pid_size kd + length data), mem2, addr + (a + pid_size kd)))).
  { unfold send.
    assert (EA : c_align (CFec kd Repair Header CNone) addr (length mem) (sl_full (length mem)) 0 al = Ok (Some (mkSl a 0))).
    { unfold c_align, sl_full. proj. rewrite Nat.add_0_r. destruct (Nat.eqb_spec al 0); [lia|]. rewrite Haddr.
      change (negb (0 =? 0)) with false. cbv iota. rewrite Nat.add_0_l. fold a. unfold sl_cap. proj. rewrite Nat.sub_0_r.
      destruct (Nat.ltb_spec (length mem) a); [lia|]. rewrite sl_reslice_ok by (proj; lia). cbn [bind]. proj. f_equal. f_equal. sleq. }
    rewrite EA. cbn [bind].
    assert (EP : c_prepare (CFec kd Repair Header CNone) (length mem) pkt_new (mkSl a 0) (length data) = Ok (Some (p1, mkSl a (pid_size kd + length data)))).
    { unfold c_prepare. rewrite sl_sub_ok by (proj; lia). cbn [bind]. proj. unfold sl_cap. proj.
      destruct (Nat.ltb_spec (length mem - (a + 0)) (pid_size kd)); [lia|].
      rewrite sl_reslice_ok by (proj; lia). cbn [bind]. rewrite sl_sub_ok by (proj; lia). cbn [bind]. proj.
      rewrite sl_reslice_ok by (proj; lia). cbn [bind].
      unfold add_flags at 1. change (N.land (p_flags pkt_new) FlagRepair =? 0)%N with true. cbn [bind].
      unfold add_flags. proj. change (N.land (N.lor (p_flags pkt_new) FlagRepair) FlagFEC =? 0)%N with true. cbn [bind]. proj.
      rewrite sl_reslice_ok by (proj; lia). cbn [bind]. unfold p1, set_fec_slices. proj. pkteq. }
    rewrite EP. cbn [bind].
    assert (EL : pkt_payload p1 = mkSl (a + pid_size kd) (length data)) by reflexivity. rewrite EL.
    rewrite (sl_put_app (A ++ H0) D0 B data); proj.
    2:{ rewrite E1, <- app_assoc. reflexivity. } 2:{ rewrite app_length. lia. } 2-4: lia.
    cbn [bind]. unfold c_compose. assert (has_flag (fill p1 f) FlagFEC = true) as -> by reflexivity. cbn [negb].
    assert (p_pid (fill p1 f) = mkSl a (pid_size kd)) as -> by reflexivity. proj. rewrite Nat.eqb_refl. cbn [negb].
    rewrite Eh. cbn [bind]. rewrite (sl_put_app A H0 (data ++ B) h); proj.
    2:{ rewrite <- app_assoc. reflexivity. } 2,3,4: lia. 2:{ rewrite !app_length. lia. }
    cbn [bind]. proj. unfold mem2. rewrite <- app_assoc. reflexivity. }
  assert (EQ : p_parse enc (PFec kd Repair Header PNone) mem2 pkt_new (mkSl a (pid_size kd + length data)) =
     Ok (Some (mkPkt (N.lor FlagRepair FlagFEC) 0 0 0 false 0 nosl nosl None (pid_esi kd h) (u16 (pid_sbn kd h)) (pid_k kd h) (pid_n kd h) nosl (mkSl (a + pid_size kd) (length data))))).
  { unfold p_parse. proj. destruct (Nat.ltb_spec (pid_size kd + length data) (pid_size kd)); [lia|].
    unfold mem2. rewrite <- LA. replace (pid_size kd + length data) with (length (h ++ data)) by (rewrite app_length; lia).
    rewrite sl_read_app by (rewrite app_length; lia). cbn [skipn]. rewrite firstn_pre by lia. cbn [bind].
    unfold add_flags at 1. change (N.land (p_flags pkt_new) FlagRepair =? 0)%N with true. cbn [bind].
    unfold add_flags. proj. change (N.land (N.lor (p_flags pkt_new) FlagRepair) FlagFEC =? 0)%N with true. cbn [bind]. proj.
    rewrite sl_sub_ok by (proj; rewrite ?app_length; lia). cbn [bind]. proj.
    replace (length (h ++ data) - pid_size kd) with (length data) by (rewrite app_length; lia). reflexivity. }
  eexists. split; [exact ES|]. split; [apply mod_shift; auto|]. split; [reflexivity|].
  split. { unfold same_outside. proj. unfold mem2. split; [rewrite E1, !app_length; lia|]. split.
    - rewrite E1. rewrite !firstn_pre by lia. reflexivity.
    - rewrite E1. rewrite !app_assoc. rewrite !skipn_pre by (rewrite !app_length; lia). reflexivity. }
  split; [exact EQ|]. proj. split.
  - unfold mem2. rewrite <- app_assoc. apply (sl_bytes_app' (A ++ h) data B); [rewrite <- app_assoc; auto|rewrite app_length; lia|auto].
  - unfold fec_back. proj. rewrite A2. destruct HFf as (G1 & _). rewrite u16_id by (change (2 ^ 16)%Z with 65536%Z in G1; lia). auto.
Qed.

Lemma fec_prep_false kd n a psize : n < a + 12 + psize + pid_size kd -> a <= n ->
  c_prepare (CFec kd Source Footer (CRtp CNone)) n pkt_new (mkSl a 0) psize = Ok None.
Proof.
  intros H Ha. rewrite prepare_fec_eq. rewrite sl_sub_ok by (proj; lia). cbn [bind]. proj.
  rewrite sl_sub_ok by (proj; lia). cbn [bind]. proj.
  match goal with |- context [c_prepare (CRtp CNone) n pkt_new ?b psize] => assert (Eb : b = mkSl a 0) by sleq; rewrite Eb end.
  destruct (Nat.leb_spec (a + 12 + psize) n) as [L|L].
  - pose proof (prepare_source None n a psize ltac:(cbn; lia)) as E. cbn [source_stack footer] in E. rewrite E. cbn [bind]. proj.
    rewrite sl_sub_ok by (proj; lia). cbn [bind]. proj. unfold sl_cap. proj.
    destruct (Nat.ltb_spec (n - (a + (12 + psize + 0))) (pid_size kd)); [|lia]. reflexivity.
  - assert (E : c_prepare (CRtp CNone) n pkt_new (mkSl a 0) psize = Ok None).
    { unfold c_prepare. rewrite sl_sub_ok by (proj; lia). cbn [bind]. proj. unfold sl_cap, rtp_hdr_size. proj.
      destruct (Nat.ltb_spec (n - (a + 0)) 12); [reflexivity|].
      rewrite sl_reslice_ok by (proj; lia). cbn [bind]. rewrite sl_sub_ok by (proj; lia). cbn [bind]. proj.
      destruct (Nat.ltb_spec (n - (a + 0 + 0 + (12 - 0))) psize); [reflexivity|lia]. }
    rewrite E. reflexivity.
Qed.

Lemma send_small fec addr mem al data pad f :
  0 < al -> addr mod al = 0 ->
  length mem < Z.to_nat (pad_as 12 (Z.of_nat al)) + 12 + length data + footer fec ->
  send (source_stack fec) addr mem al data pad f = Ok None.
Proof.
  intros Hal Haddr Hsz. set (a := Z.to_nat (pad_as 12 (Z.of_nat al))) in *. unfold send.
  destruct (Nat.leb_spec a (length mem)) as [L|L].
  - rewrite align_source by (auto; lia). cbn [bind]. fold a.
    assert (E : c_prepare (source_stack fec) (length mem) pkt_new (mkSl a 0) (length data) = Ok None); [|rewrite E; reflexivity].
    destruct fec as [kd|]; cbn [footer source_stack] in *; [apply fec_prep_false; auto|].
    unfold c_prepare. rewrite sl_sub_ok by (proj; lia). cbn [bind]. proj. unfold sl_cap, rtp_hdr_size. proj.
    destruct (Nat.ltb_spec (length mem - (a + 0)) 12); [reflexivity|].
    rewrite sl_reslice_ok by (proj; lia). cbn [bind]. rewrite sl_sub_ok by (proj; lia). cbn [bind]. proj.
    destruct (Nat.ltb_spec (length mem - (a + 0 + 0 + (12 - 0))) (length data)); [reflexivity|lia].
  - assert (HR : c_align (CRtp CNone) addr (length mem) (sl_full (length mem)) 0 al = Ok None).
    { unfold c_align, sl_full. proj. rewrite Nat.add_0_r. destruct (Nat.eqb_spec al 0); [lia|]. rewrite Haddr.
      change (negb (0 =? 0)) with false. cbv iota. change (Z.of_nat (0 + rtp_hdr_size)) with 12%Z. fold a.
      unfold sl_cap. proj. rewrite Nat.sub_0_r. destruct (Nat.ltb_spec (length mem) a); [reflexivity|lia]. }
    destruct fec as [kd|]; cbn [source_stack]; [|rewrite HR; reflexivity].
    change (c_align (CFec kd Source Footer (CRtp CNone)) addr (length mem) (sl_full (length mem)) 0 al) with
    (if al =? 0 then UB else if negb ((addr + 0) mod al =? 0) then Panic else c_align (CRtp CNone) addr (length mem) (sl_full (length mem)) 0 al).
    rewrite Nat.add_0_r. destruct (Nat.eqb_spec al 0); [lia|]. rewrite Haddr. rewrite HR. reflexivity.
Qed.

(** Parsing arbitrary datagrams: FEC stacks. *)
Definition inside (b s : slice) : Prop := s_off b <= s_off s /\ s_off s + s_size s <= s_off b + s_size b.

Lemma sl_read_ok mem b i k : i + k <= s_size b -> s_off b + s_size b <= length mem -> exists l, sl_read mem b i k = Ok l /\ length l = k.
Proof.
  intros H1 H2. revert i H1. induction k as [|k IH]; intros i H1; cbn [sl_read]; [eexists; split; reflexivity|].
  destruct (rd_ok mem (s_off b + i)) as [x Ex]; [lia|]. unfold sl_rd. destruct (Nat.ltb_spec i (s_size b)); [|lia].
  rewrite Ex. cbn [bind]. destruct (IH (S i)) as (l & -> & L); [lia|]. cbn [bind]. eexists. split; [reflexivity|]. cbn. lia.
Qed.

Lemma mem_window (mem : list Z) b : s_off b + s_size b <= length mem ->
  exists pre d post, mem = pre ++ d ++ post /\ b = mkSl (length pre) (length d) /\ d = sl_bytes mem b.
Proof.
  intros H. destruct (mem_split mem (s_off b) (s_size b) H) as (A & X & B & E & LA & LX).
  exists A, X, B. split; [auto|]. assert (b = mkSl (length A) (length X)) by (rewrite LA, LX; destruct b; auto).
  split; [auto|]. rewrite H0. rewrite E. rewrite sl_bytes_app. reflexivity.
Qed.

Lemma parsed_inside d enc p o src seq ts mk pt hdr payload padding (b : slice) :
  rtp_datagram d src seq ts mk pt hdr payload padding -> b = mkSl o (length d) -> p_pad p = None ->
  let q := parsed p enc o src seq ts mk pt (length hdr) (length payload) (length padding) in
  inside b (p_hdr q) /\ inside b (p_pay q) /\ (forall s, p_pad q = Some s -> inside b s).
Proof.
  intros H -> HP. destruct H as (? & ? & ? & ? & ? & ? & ? & ? & ? & ? & ? & ? & ? & ? & _ & E & _).
  apply (f_equal (@length Z)) in E. rewrite !app_length in E. cbv zeta. unfold inside, parsed. proj.
  split; [lia|]. split; [lia|]. destruct (Nat.eqb_spec (length padding) 0); [rewrite HP; discriminate|].
  intros s Es. inversion Es; subst s. proj. lia.
Qed.

Definition deployed (pr : parser) : Prop :=
  pr = PRtp PNone \/ (exists k, pr = PFec k Source Footer (PRtp PNone)) \/ (exists k, pr = PFec k Repair Header PNone).

Lemma no_fec fl : N.land (N.lor FlagRTP FlagFEC) fl = 0%N -> N.land fl FlagFEC = 0%N.
Proof.
  intros H. apply N.bits_inj. intros i. rewrite N.land_spec, N.bits_0.
  apply (f_equal (fun x => N.testbit x i)) in H. rewrite N.land_spec, N.lor_spec, N.bits_0 in H.
  destruct (N.testbit FlagRTP i), (N.testbit FlagFEC i), (N.testbit fl i); cbn in *; congruence.
Qed.

Lemma parse_safe enc pr mem b : deployed pr -> enc_ok enc -> bytes_ok mem -> s_off b + s_size b <= length mem ->
  p_parse enc pr mem pkt_new b = Ok None \/
  exists q, p_parse enc pr mem pkt_new b = Ok (Some q) /\
    (has_flag q FlagRTP = true -> inside b (p_hdr q) /\ inside b (p_pay q) /\ (forall s, p_pad q = Some s -> inside b s)) /\
    (has_flag q FlagFEC = true -> inside b (p_fpay q)).
Proof.
  intros HD HE HB Hm.
  assert (HRtp : forall p b', s_off b' + s_size b' <= length mem -> flags_ok enc p -> p_pad p = None -> p_fpay p = mkSl (s_off b') (s_size b') \/ has_flag p FlagFEC = false ->
     p_parse enc (PRtp PNone) mem p b' = Ok None \/
     exists q, p_parse enc (PRtp PNone) mem p b' = Ok (Some q) /\ (inside b' (p_hdr q) /\ inside b' (p_pay q) /\ (forall s, p_pad q = Some s -> inside b' s)) /\ p_fpay q = p_fpay p /\
       exists fl, p_flags q = N.lor (N.lor (p_flags p) FlagRTP) fl /\ N.land (N.lor FlagRTP FlagFEC) fl = 0%N).
  { intros p b' Hm' HF HP HX. destruct (mem_window mem b' Hm') as (pre & d & post & E & Eb & Ed).
    assert (HBd : bytes_ok d). { unfold bytes_ok in *. rewrite E in HB. rewrite !Forall_app in HB. tauto. }
    rewrite E. clear Ed HX. rewrite Eb. destruct (rtp_parse_spec enc p pre d post HBd HF) as [(s & q & t & m & y & h & pl & pd & HD' & ->)|[-> _]]; auto.
    right. eexists. split; [reflexivity|]. split; [apply (parsed_inside d _ _ _ _ _ _ _ _ _ _ _ _ HD'); auto|].
    split; [reflexivity|]. eexists. split; [reflexivity|].
    destruct (enc y) eqn:EE; [apply (HE _ _ EE)|apply N.land_0_r]. }
  destruct HD as [->|[[k ->]|[k ->]]].
  - assert (F0 : flags_ok enc pkt_new).
    { split; [reflexivity|]. intros pt fl E. exact (enc_ok_rtp enc pt fl HE E). }
    destruct (HRtp pkt_new b Hm F0 eq_refl (or_intror eq_refl)) as [->|(q & -> & HI & HFP & fl & EF & HN)]; auto.
    right. exists q. split; [auto|]. split; [auto|]. intros HX. exfalso.
    unfold has_flag in HX. rewrite EF, !N.land_lor_distr_l in HX. rewrite (no_fec fl) in HX by auto. discriminate.
  - rewrite parse_fec_eq. destruct (Nat.ltb_spec (s_size b) (pid_size k)); [left; reflexivity|].
    destruct (sl_read_ok mem b (s_size b - pid_size k) (pid_size k)) as (h & Eh & _); [lia|auto|]. rewrite Eh. cbn [bind].
    unfold add_flags. change (N.land (p_flags pkt_new) FlagFEC =? 0)%N with true. cbn [bind]. proj.
    rewrite sl_sub_ok by lia. cbn [bind].
    set (b' := mkSl (s_off b + 0) (s_size b - pid_size k - 0)). set (p := set_fec_slices _ _ _).
    destruct (HRtp p b') as [->|(q & -> & HI & HFP & _)]; auto.
    + unfold b'. proj. lia.
    + split; [reflexivity|]. intros pt fl E. exact (HE pt fl E).
    + right. exists q. split; [auto|]. rewrite HFP.
      assert (HS : forall s, inside b' s -> inside b s) by (unfold inside, b'; proj; intros; lia).
      destruct HI as (I1 & I2 & I3). split; [auto 6|]. intros _. apply HS. unfold inside. cbn. lia.
  - unfold p_parse. destruct (Nat.ltb_spec (s_size b) (pid_size k)); [left; reflexivity|].
    destruct (sl_read_ok mem b 0 (pid_size k)) as (h & Eh & _); [lia|auto|]. rewrite Eh. cbn [bind].
    unfold add_flags at 1. change (N.land (p_flags pkt_new) FlagRepair =? 0)%N with true. cbn [bind].
    unfold add_flags. proj. change (N.land (N.lor (p_flags pkt_new) FlagRepair) FlagFEC =? 0)%N with true. cbn [bind]. proj.
    rewrite sl_sub_ok by lia. cbn [bind].
    right. eexists. split; [reflexivity|]. split; [discriminate|]. intros _. unfold inside. proj. lia.
Qed.
