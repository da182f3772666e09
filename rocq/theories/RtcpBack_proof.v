From Coq Require Import Lia.
From Verif Require Import Base Base_lemmas Ntp_model Ntp_proof RtcpTrav_model RtcpTrav_spec RtcpTrav_proof RtcpCompound_proof RtcpTrav_props RtcpBuild_model RtcpBuild_spec RtcpBuild_proof RtcpRead_proof.
Open Scope res_scope.
Local Open Scope nat_scope.

Definition padn (pad : option nat) : nat := match pad with Some n => n | None => 0 end.
Definition padb (pad : option nat) : list Z := match pad with Some n => zeros (n - 1) ++ [Z.of_nat n] | None => [] end.
Definition padf (pad : option nat) : bool := match pad with Some _ => true | None => false end.
Definition hbyte (p : pk) (pad : option nat) : Z := (128 + Z.of_nat (cnt_of p) + if padf pad then 32 else 0)%Z.
Definition phead (p : pk) (pad : option nat) : list Z := hd4 (hbyte p pad) (ty_of p) (length (body_of p) + padn pad).
Definition penc (p : pk) (pad : option nat) : list Z := (phead p pad ++ body_of p) ++ padb pad.

Lemma penc_none p : penc p None = enc_pk p.
Proof. unfold penc, phead, enc_pk, pkt, hbyte. cbn [padn padb padf]. rewrite app_nil_r, Nat.add_0_r, Z.add_0_r. reflexivity. Qed.
Lemma len_padb pad : pad_ok pad -> length (padb pad) = padn pad.
Proof. destruct pad as [n|]; cbn [pad_ok padb padn]; intros H; [|reflexivity]. rewrite app_length. unfold zeros. rewrite repeat_length. cbn. lia. Qed.
Lemma len_penc p pad : pad_ok pad -> length (penc p pad) = size p + padn pad.
Proof. intros H. unfold penc. rewrite app_length, len_padb by exact H. f_equal. rewrite <- len_pk. reflexivity. Qed.
Lemma pad_mod pad : pad_ok pad -> padn pad mod 4 = 0. Proof. destruct pad; cbn; [tauto|reflexivity]. Qed.
Lemma len_body p : size p = 4 + length (body_of p). Proof. rewrite <- len_pk. reflexivity. Qed.
Lemma body_mod p : length (body_of p) mod 4 = 0.
Proof. pose proof (size_mod p) as H. rewrite len_body, Nat.add_comm in H. change 4 with (1 * 4) in H at 1. rewrite Nat.mod_add in H by lia. exact H. Qed.
Lemma cnt_le p : pk_ok p -> cnt_of p <= 31.
Proof. destruct p; cbn [pk_ok cnt_of]; intros H; try lia; tauto. Qed.

Lemma padb_true pad : padf pad = true -> pad_ok pad -> padb pad = zeros (padn pad - 1) ++ [Z.of_nat (padn pad)] /\ 1 <= padn pad <= 255.
Proof. destruct pad as [n|]; [|discriminate]. intros _ H. split; [reflexivity|apply H]. Qed.
Lemma padb_false pad : padf pad = false -> padb pad = []. Proof. destruct pad; [discriminate|reflexivity]. Qed.
Section One.
  Variables (p : pk) (pad : option nat).
  Hypotheses (Op : pk_ok p) (Opad : pad_ok pad) (Sz : size p + padn pad <= limit).
  Let q := penc p pad.
  Let l' := phead p pad ++ body_of p.
  Let plen : Z.of_nat (size p + padn pad) = Z.of_nat (4 + (length (body_of p) + padn pad)). Proof. rewrite len_body. f_equal. Qed.
  Let small : (Z.of_nat (length (body_of p) + padn pad) + 4 <= 65535)%Z.
  Proof. assert (Z.of_nat (size p + padn pad) <= 65532)%Z by (unfold limit in Sz; lia). lia. Qed.
  Let modn : (length (body_of p) + padn pad) mod 4 = 0. Proof. apply mod4_add; [apply body_mod|apply pad_mod, Opad]. Qed.
  Let b0 := hbyte p pad.
  Lemma b0_facts : counter b0 = cnt_of p /\ version b0 = 2%Z /\ has_padding b0 = padf pad /\ byte_ok b0.
  Proof. apply (head_byte (cnt_of p) (padf pad)), cnt_le, Op. Qed.
  Lemma q_rd0 : rd q 0 = Ok b0. Proof. reflexivity. Qed.
  Lemma q_rd1 : rd q 1 = Ok (ty_of p). Proof. reflexivity. Qed.
  Lemma q_len : length q = 4 + (length (body_of p) + padn pad).
  Proof. unfold q. rewrite len_penc by exact Opad. rewrite len_body. lia. Qed.
  Lemma q_r16 : exists w, r16 q 2 = Ok w /\ len_bytes w = length q.
  Proof.
    destruct (len_field _ modn small) as [R E]. exists (Z.of_nat (length (body_of p) + padn pad) / 4)%Z. split; [|rewrite E, q_len; reflexivity].
    apply r16_bytes; [|lia]. exists [b0; ty_of p], (body_of p ++ padb pad). split; [|reflexivity]. unfold q, penc, phead, hd4. rewrite <- !app_assoc. reflexivity.
  Qed.
  Lemma q_len' : length l' = length q - padn pad. Proof. rewrite q_len. unfold l'. rewrite app_length. cbn [phead hd4 length]. lia. Qed.
  Lemma q_cut : sub q 0 (length q - padn pad) = Ok l'.
  Proof. rewrite <- q_len'. apply (at_sub q 0 l'). apply at_here. Qed.
  Lemma q_whole : sub q 0 (length q) = Ok q.
  Proof. rewrite sub_in by lia. rewrite Nat.sub_0_r. cbn [skipn]. rewrite firstn_all. reflexivity. Qed.
  Lemma q_pad : padf pad = true -> idx q (length q - 1) = Ok (Z.of_nat (padn pad)) /\ 1 <= padn pad <= 255.
  Proof.
    intros H. destruct (padb_true pad H Opad) as [E R]. split; [|exact R]. pose proof q_len' as H1. pose proof q_len as H2.
    apply at_idx with (r := []). exists (l' ++ zeros (padn pad - 1)), []. split; [unfold q, penc; rewrite E, <- !app_assoc; reflexivity|].
    rewrite app_length. unfold zeros. rewrite repeat_length. lia.
  Qed.
  (** removing the padding, as each reader does *)
  Lemma q_strip (A : Type) (bad : A) (k : list Z -> res A) m : m <= 4 \/ (m = 8 /\ 4 <= length (body_of p)) ->
    (if has_padding b0 then
       pd <- idx q (length q - 1) ;;
       (if (Z.to_nat pd <? 1) || (length q - m <? Z.to_nat pd) then Ok bad else (s <- sub q 0 (length q - Z.to_nat pd) ;; k s))
     else k q) = k l'.
  Proof.
    intros Hm. destruct b0_facts as (_ & _ & -> & _). destruct (padf pad) eqn:Ef.
    - destruct (q_pad Ef) as [-> Rn]. cbn [bind]. rewrite Nat2Z.id. destruct (Nat.ltb_spec (padn pad) 1); [lia|]. pose proof q_len.
      destruct (Nat.ltb_spec (length q - m) (padn pad)); [lia|]. cbn [orb]. rewrite q_cut. reflexivity.
    - assert (E : q = l'); [|rewrite E at 1; reflexivity]. unfold q, penc, l'. rewrite padb_false by exact Ef. apply app_nil_r.
  Qed.
  Lemma l_bytes_len : 4 <= length l'. Proof. unfold l'. rewrite app_length. cbn [phead hd4 length]. lia. Qed.

  Lemma q_packet : is_packet q.
  Proof.
    destruct (len_field _ modn small) as [R E]. destruct b0_facts as (_ & V & _ & Bb). rewrite version_div in V by exact Bb.
    exists b0, (ty_of p), (byte_of (Z.of_nat (length (body_of p) + padn pad) / 4) 1), (byte_of (Z.of_nat (length (body_of p) + padn pad) / 4) 0), (body_of p ++ padb pad).
    split; [unfold q, penc, phead, hd4; rewrite <- !app_assoc; reflexivity|]. split; [exact V|]. rewrite q_len.
    pose proof (be16_put16 (Z.of_nat (length (body_of p) + padn pad) / 4)) as Eb. unfold be16 in Eb. rewrite (Z.mul_comm 256), Eb by lia.
    unfold len_bytes in E. lia.
  Qed.
End One.
Lemma one_enc p pad : pk_ok p -> pad_ok pad -> size p + padn pad <= limit -> bytes_ok (phead p pad ++ body_of p) ->
  one (penc p pad) 0 (length (penc p pad)) (hbyte p pad) (ty_of p) = Ok (Some (see p), false).
Proof.
  intros Op Opad Sz Bl. unfold one. cbn [Nat.add]. rewrite q_whole by assumption. cbn [bind]. destruct (b0_facts p pad Op) as (Cn & Vs & Hp & _). destruct (q_r16 p pad Opad Sz) as (w & Ew & Elw).
  pose proof (q_len p pad Opad Sz) as Lq. pose proof (q_len' p pad Opad Sz) as Ll'. pose proof (q_strip p pad Op Opad Sz) as q_strip. pose proof (q_pad p pad Opad Sz) as q_pad. pose proof (q_rd0 p pad) as q_rd0. pose proof (q_rd1 p pad) as q_rd1.
  set (q := penc p pad) in *. set (l' := phead p pad ++ body_of p) in *. set (b0 := hbyte p pad) in *.
  destruct p as [s rs|s rs|cs|ss r|s bs]; cbn [ty_of].
  - change ((RTCP_SR =? RTCP_SR)%Z || (RTCP_SR =? RTCP_RR)%Z) with true. cbn iota. unfold remove_padding.
    pose proof (q_strip (option (list Z)) None (fun s => Ok (Some s)) 4 (or_introl (le_n 4))) as St. rewrite St. cbn [bind].
    change ((RTCP_SR =? RTCP_SR)%Z) with true. cbn iota. destruct (sr_core b0 (byte_of (Z.of_nat (length (body_of (PSr s rs)) + padn pad) / 4) 1) (byte_of (Z.of_nat (length (body_of (PSr s rs)) + padn pad) / 4) 0) s rs) as [E1 E2].
    { exact Op. } { exact Cn. }
    change ([b0; RTCP_SR; byte_of (Z.of_nat (length (body_of (PSr s rs)) + padn pad) / 4) 1; byte_of (Z.of_nat (length (body_of (PSr s rs)) + padn pad) / 4) 0] ++ body_of (PSr s rs)) with l' in E1, E2.
    rewrite E2. cbn [bind read_packet]. rewrite E1. reflexivity.
  - change ((RTCP_RR =? RTCP_SR)%Z || (RTCP_RR =? RTCP_RR)%Z) with true. cbn iota. unfold remove_padding.
    pose proof (q_strip (option (list Z)) None (fun s => Ok (Some s)) 4 (or_introl (le_n 4))) as St. rewrite St. cbn [bind].
    change ((RTCP_RR =? RTCP_SR)%Z) with false. cbn iota. destruct (rr_core b0 (byte_of (Z.of_nat (length (body_of (PRr s rs)) + padn pad) / 4) 1) (byte_of (Z.of_nat (length (body_of (PRr s rs)) + padn pad) / 4) 0) s rs) as [E1 E2].
    { exact Op. } { exact Cn. }
    change ([b0; RTCP_RR; byte_of (Z.of_nat (length (body_of (PRr s rs)) + padn pad) / 4) 1; byte_of (Z.of_nat (length (body_of (PRr s rs)) + padn pad) / 4) 0] ++ body_of (PRr s rs)) with l' in E1, E2.
    rewrite E2. cbn [bind read_packet]. rewrite E1. reflexivity.
  - change ((RTCP_SDES =? RTCP_SR)%Z || (RTCP_SDES =? RTCP_RR)%Z) with false. change ((RTCP_SDES =? RTCP_SDES)%Z) with true. cbn iota. cbn [read_packet].
    unfold read_sdes, sdes_parse. destruct (Nat.ltb_spec (length q) 4); [lia|]. rewrite q_rd0. cbn [bind]. rewrite q_rd1. cbn [bind ty_of]. rewrite Ew. cbn [bind].
    change (negb (RTCP_SDES =? RTCP_SDES)%Z) with false. cbn iota. cbv zeta. rewrite Elw. destruct (Nat.ltb_spec (length q) (length q)); [lia|]. rewrite Cn. destruct Op as [Fc Lc]. cbn [cnt_of] in *.
    destruct (Nat.ltb_spec 31 (length cs)); [lia|].
    pose proof (q_strip (option (list Z * nat)) None (fun s => Ok (Some (s, length cs))) 4 (or_introl (le_n 4))) as St. rewrite St. cbn [bind].
    pose proof (sdes_core b0 RTCP_SDES (byte_of (Z.of_nat (length (body_of (PSdes cs)) + padn pad) / 4) 1) (byte_of (Z.of_nat (length (body_of (PSdes cs)) + padn pad) / 4) 0) cs Fc) as Sc. cbv zeta in Sc.
    change ([b0; RTCP_SDES; byte_of (Z.of_nat (length (body_of (PSdes cs)) + padn pad) / 4) 1; byte_of (Z.of_nat (length (body_of (PSdes cs)) + padn pad) / 4) 0] ++ body_of (PSdes cs)) with l' in Sc.
    rewrite Sc. reflexivity.
  - change ((RTCP_BYE =? RTCP_SR)%Z || (RTCP_BYE =? RTCP_RR)%Z) with false. change ((RTCP_BYE =? RTCP_SDES)%Z) with false. change ((RTCP_BYE =? RTCP_BYE)%Z) with true. cbn iota. cbn [read_packet].
    unfold read_bye, bye_parse. destruct (Nat.ltb_spec (length q) 4); [lia|]. rewrite q_rd0. cbn [bind]. rewrite q_rd1. cbn [bind ty_of]. rewrite Ew. cbn [bind].
    change (negb (RTCP_BYE =? RTCP_BYE)%Z) with false. cbn iota. cbv zeta. rewrite Elw. destruct (Nat.ltb_spec (length q) (length q)); [lia|]. rewrite Cn. cbn [cnt_of] in *.
    pose proof Op as (Fs & Ls & Or). destruct (Nat.ltb_spec 31 (length ss)); [lia|].
    pose proof (q_strip (option (list Z * nat)) None (fun s => Ok (Some (s, length ss))) 4 (or_introl (le_n 4))) as St. rewrite St. cbn [bind].
    pose proof (bye_core b0 RTCP_BYE (byte_of (Z.of_nat (length (body_of (PBye ss r)) + padn pad) / 4) 1) (byte_of (Z.of_nat (length (body_of (PBye ss r)) + padn pad) / 4) 0) ss r Op) as Sc. cbv zeta in Sc.
    change ([b0; RTCP_BYE; byte_of (Z.of_nat (length (body_of (PBye ss r)) + padn pad) / 4) 1; byte_of (Z.of_nat (length (body_of (PBye ss r)) + padn pad) / 4) 0] ++ body_of (PBye ss r)) with l' in Sc.
    rewrite Sc. reflexivity.
  - change ((RTCP_XR =? RTCP_SR)%Z || (RTCP_XR =? RTCP_RR)%Z) with false. change ((RTCP_XR =? RTCP_SDES)%Z) with false. change ((RTCP_XR =? RTCP_BYE)%Z) with false. change ((RTCP_XR =? RTCP_XR)%Z) with true. cbn iota. cbn [read_packet].
    assert (L4 : 4 <= length (body_of (PXr s bs))) by (cbn [body_of]; rewrite app_length, len_put32; lia).
    unfold read_xr, xr_parse. destruct (Nat.ltb_spec (length q) 8); [lia|]. rewrite q_rd0. cbn [bind]. rewrite q_rd1. cbn [bind ty_of]. rewrite Ew. cbn [bind].
    change (negb (RTCP_XR =? RTCP_XR)%Z) with false. cbn iota. cbv zeta. rewrite Elw. destruct (Nat.ltb_spec (length q) (length q)); [lia|].
    match goal with |- context [bind (if has_padding b0 then ?A else ?B) _] => assert (St : (if has_padding b0 then A else B) = Ok (Some l')) end.
    { pose proof (q_strip (option (list Z)) None (fun s => Ok (Some s)) 8 (or_intror (conj eq_refl L4))) as St. rewrite Hp in St |- *. destruct (padf pad) eqn:Ef; [|exact St].
      destruct (q_pad eq_refl) as [Ei Rn]. rewrite Ei in St |- *. cbn [bind] in St |- *. rewrite Nat2Z.id in *. destruct (Nat.ltb_spec (padn pad) 1); [lia|]. destruct (Nat.leb_spec 8 (length q)); [|lia]. cbn [orb andb] in *.
      destruct (Nat.ltb_spec (length q - 8) (padn pad)); [lia|]. destruct (Nat.ltb_spec (length q) (padn pad)); [lia|]. exact St. }
    rewrite St. cbn [bind]. clear St.
    assert (L8 : 8 <= length l') by (unfold l'; rewrite app_length; cbn [phead hd4 length]; lia).
    destruct (x_count_ok l' (S (length l')) x_begin Bl L8 eq_refl) as [m ->]; [cbn; lia|cbn; lia|]. cbn [bind].
    assert (Sx : (Z.of_nat (size (PXr s bs)) <= 65535)%Z) by (unfold limit in Sz; lia).
    pose proof (xr_core b0 RTCP_XR (byte_of (Z.of_nat (length (body_of (PXr s bs)) + padn pad) / 4) 1) (byte_of (Z.of_nat (length (body_of (PXr s bs)) + padn pad) / 4) 0) s bs Op Sx) as [S1 S2].
    change ([b0; RTCP_XR; byte_of (Z.of_nat (length (body_of (PXr s bs)) + padn pad) / 4) 1; byte_of (Z.of_nat (length (body_of (PXr s bs)) + padn pad) / 4) 0] ++ body_of (PXr s bs)) with l' in S1, S2.
    rewrite S1. cbn [bind]. rewrite S2. reflexivity.
Qed.

(** *** All bytes are bytes *)
Lemma by_app a b : bytes_ok a -> bytes_ok b -> bytes_ok (a ++ b). Proof. intros. apply Forall_app. split; assumption. Qed.
Lemma by_put32 x : bytes_ok (put32 x). Proof. repeat constructor; apply byte_of_range. Qed.
Lemma by_put16 x : bytes_ok (put16 x). Proof. repeat constructor; apply byte_of_range. Qed.
Lemma by_cat {A} (f : A -> list Z) l : (forall x, In x l -> bytes_ok (f x)) -> bytes_ok (concat (map f l)).
Proof. induction l as [|x l IH]; intros H; cbn [map concat]; [constructor|]. apply by_app; [apply H; left; reflexivity|apply IH; intros y Y; apply H; right; exact Y]. Qed.
Lemma by_zeros n : bytes_ok (zeros n). Proof. unfold zeros. induction n; cbn; constructor; [unfold byte_ok; lia|assumption]. Qed.
Lemma by_u8 x : byte_ok (u8 x). Proof. unfold byte_ok, u8, wrapu. apply Z.mod_pos_bound. lia. Qed.
Lemma by_text t : text_ok t -> bytes_ok t. Proof. intros [_ H]. eapply Forall_impl; [|exact H]. unfold byte_ok. intros; lia. Qed.
Lemma by_flag f : is_u 2 f -> byte_ok (set_flag f).
Proof. unfold is_u. intros H. assert (E : (f = 0 \/ f = 1 \/ f = 2 \/ f = 3)%Z) by lia. destruct E as [-> | [-> | [-> | ->]]]; vm_compute; split; congruence. Qed.
Lemma by_hd a b n : byte_ok a -> byte_ok b -> bytes_ok (hd4 a b n).
Proof. intros. unfold hd4. repeat (constructor; [first [assumption|apply byte_of_range]|]). constructor. Qed.
Lemma by_rin r : bytes_ok (enc_rin r). Proof. unfold enc_rin. repeat apply by_app; apply by_put32. Qed.
Lemma by_din r : bytes_ok (enc_din r). Proof. unfold enc_din. repeat apply by_app; apply by_put32. Qed.
Lemma by_ntp n : bytes_ok (put_ntp64 n). Proof. apply by_app; apply by_put32. Qed.
Lemma by_xin x : xin_ok x -> bytes_ok (enc_xin x).
Proof.
  intros O. destruct x as [n|l|m|d|q]; cbn [enc_xin]; unfold pkt; apply by_app; try (apply by_hd; unfold byte_ok; vm_compute; split; congruence).
  - apply by_ntp.
  - apply by_cat. intros; apply by_din.
  - change (skipn 4 (enc_meas m)) with (put32 (mi_ssrc m) ++ put16 0 ++ put16 (mi_first m) ++ put32 (mi_ifirst m) ++ put32 (mi_ilast m) ++ put_ntp32 (set_delay (mi_idur m)) ++ put_ntp64 (mi_cdur m)).
    repeat apply by_app; first [apply by_put32|apply by_put16].
  - apply by_hd; [vm_compute; split; congruence|]. apply by_flag, O.
  - change (skipn 4 (enc_delay d)) with (put32 (yi_ssrc d) ++ put_ntp32 (metric32 (yi_mean d)) ++ put_ntp32 (metric32 (yi_min d)) ++
      put_ntp32 (metric32 (yi_max d)) ++ put32 (fst (metric64 (yi_e2e d))) ++ put32 (snd (metric64 (yi_e2e d)))). repeat apply by_app; apply by_put32.
  - apply by_hd; [vm_compute; split; congruence|]. apply by_flag, O.
  - change (skipn 4 (enc_queue q)) with (put32 (qi_ssrc q) ++ put_ntp32 (metric32 (qi_lat q)) ++ put_ntp32 (metric32 (qi_stall q))). repeat apply by_app; apply by_put32.
Qed.
Lemma by_items l : Forall item_ok l -> bytes_ok (enc_items l).
Proof.
  intros F. apply by_cat. intros x I. rewrite Forall_forall in F. destruct (F x I) as [_ T]. unfold enc_item. cbn [app]. constructor; [apply by_u8|]. constructor; [apply by_u8|]. apply by_text, T.
Qed.
Lemma by_body p : pk_ok p -> bytes_ok (body_of p).
Proof.
  destruct p as [s rs|s rs|cs|ss r|s bs]; cbn [pk_ok body_of]; intros O.
  - apply by_app; [|apply by_cat; intros; apply by_rin].
    change (skipn 4 (enc_sr s)) with (put32 (si_ssrc s) ++ put_ntp64 (si_ntp s) ++ put32 (si_rtp s) ++ put32 (si_packets s) ++ put32 (si_octets s)). repeat apply by_app; apply by_put32.
  - apply by_app; [apply by_put32|apply by_cat; intros; apply by_rin].
  - apply by_cat. intros c I. destruct O as [F _]. rewrite Forall_forall in F. destruct (F c I) as (_ & Fi & _). unfold enc_chunk.
    apply by_app; [apply by_put32|]. apply by_app; [apply by_items, Fi|apply by_zeros].
  - apply by_app; [apply by_cat; intros; apply by_put32|]. destruct O as (_ & _ & Ot). destruct r as [t|]; [|constructor]. unfold enc_reason. cbn [app]. constructor; [apply by_u8|].
    apply by_app; [apply by_text, Ot|apply by_zeros].
  - apply by_app; [apply by_put32|]. apply by_cat. intros x I. destruct O as [_ F]. rewrite Forall_forall in F. apply by_xin, F, I.
Qed.
Lemma by_head p pad : pk_ok p -> bytes_ok (phead p pad ++ body_of p).
Proof.
  intros O. apply by_app; [|apply by_body, O]. apply by_hd; [apply (b0_facts p pad O)|]. destruct p; vm_compute; split; congruence.
Qed.
Lemma by_penc p pad : pk_ok p -> pad_ok pad -> bytes_ok (penc p pad).
Proof.
  intros O P. unfold penc. apply by_app; [apply by_head, O|]. destruct pad as [n|]; cbn [padb]; [|constructor]. apply by_app; [apply by_zeros|]. constructor; [unfold byte_ok; cbn in P; lia|constructor].
Qed.
Lemma penc_walk p pad : pk_ok p -> pad_ok pad -> size p + padn pad <= limit -> walk (penc p pad) = Ok (Some ([see p], false)).
Proof.
  intros O P Sz. pose proof (by_penc p pad O P) as B. destruct (walk_ok (penc p pad) B) as (r & Er & _).
  destruct r as [[vs e]|].
  - pose proof (walk_runs _ _ _ Er) as R. destruct (single_runs _ _ _ B (q_packet p pad O P Sz) R) as (b0 & ty & ov & E0 & E1 & E2 & ->).
    rewrite q_rd0 in E0. rewrite q_rd1 in E1. assert (b0 = hbyte p pad) by congruence. assert (ty = ty_of p) by congruence. subst.
    rewrite (one_enc p pad O P Sz (by_head p pad O)) in E2. assert (ov = Some (see p)) by congruence. assert (e = false) by congruence. subst. exact Er.
  - unfold walk in Er. pose proof (q_len p pad P Sz). destruct (Nat.ltb_spec (length (penc p pad)) 4); [lia|]. destruct (t_walk (S (length (penc p pad))) (penc p pad) t_begin); discriminate.
Qed.
Lemma penc_unpadded p : pk_ok p -> ~ padded_report (penc p None).
Proof.
  intros O (b0 & ty & r & E & _ & Pb). assert (b0 = hbyte p None) by (unfold penc, phead, hd4 in E; cbn [app] in E; congruence). subst b0.
  destruct (b0_facts p None O) as (_ & _ & H & _). rewrite padding_div, Pb in H. discriminate.
Qed.
Lemma penc_other p pad : pk_ok p -> is_report p = false -> ~ padded_report (penc p pad).
Proof.
  intros O Ir (b0 & ty & r & E & T & _). assert (ty = ty_of p) by (unfold penc, phead, hd4 in E; cbn [app] in E; congruence). subst ty. destruct p; try discriminate; destruct T as [T|T]; discriminate.
Qed.

(** *** Compound packets *)
Fixpoint cenc (ps : list pk) (pad : option nat) : list (list Z) :=
  match ps with [] => [] | [p] => [penc p pad] | p :: r => penc p None :: cenc r pad end.
Lemma cenc_len ps pad : length (cenc ps pad) = length ps.
Proof. induction ps as [|p [|p' ps] IH]; try reflexivity. change (S (length (cenc (p' :: ps) pad)) = S (length (p' :: ps))). rewrite IH. reflexivity. Qed.
Lemma cenc_size ps pad : ps <> [] -> pad_ok pad -> length (concat (cenc ps pad)) = size_all ps pad.
Proof.
  intros N P. unfold size_all. fold (padn pad). induction ps as [|p ps IH]; [contradiction|]. destruct ps as [|p' ps].
  - cbn [cenc concat map]. rewrite app_nil_r, len_penc by exact P. unfold total. cbn [fold_right]. lia.
  - change (cenc (p :: p' :: ps) pad) with (penc p None :: cenc (p' :: ps) pad). cbn [concat]. rewrite app_length, IH by discriminate. rewrite len_penc by exact I. cbn [padn]. change (map size (p :: p' :: ps)) with (size p :: map size (p' :: ps)). rewrite total_cons. lia.
Qed.
Lemma sizes_cons p p' ps n : sizes_ok (p :: p' :: ps) n -> size p <= limit /\ sizes_ok (p' :: ps) n. Proof. exact (fun H => H). Qed.
Lemma compound_walk ps pad : ps <> [] -> Forall pk_ok ps -> pad_ok pad -> sizes_ok ps (padn pad) ->
  bytes_ok (concat (cenc ps pad)) /\ layout (concat (cenc ps pad)) (cenc ps pad) false /\
  Forall2 (fun p r => walk p = Ok (Some r)) (cenc ps pad) (map (fun p => ([see p], false)) ps).
Proof.
  intros N F P S. induction ps as [|p ps IH]; [contradiction|]. inversion F; subst. destruct ps as [|p' ps].
  - cbn [cenc concat map]. cbn [sizes_ok] in S. rewrite app_nil_r. split; [apply by_penc; assumption|]. split.
    + rewrite <- (app_nil_r (penc p pad)) at 1. constructor; [apply q_packet; assumption|constructor].
    + constructor; [apply penc_walk; assumption|constructor].
  - apply sizes_cons in S. destruct S as [S1 S2]. destruct (IH ltac:(discriminate) H2 S2) as (I1 & I2 & I3).
    change (cenc (p :: p' :: ps) pad) with (penc p None :: cenc (p' :: ps) pad). cbn [concat map]. assert (S1' : size p + padn None <= limit) by (cbn [padn]; rewrite Nat.add_0_r; exact S1).
    split; [apply by_app; [apply by_penc; [assumption|exact I]|exact I1]|]. split.
    + constructor; [apply q_packet; [assumption|exact I|exact S1']|exact I2].
    + constructor; [apply penc_walk; [assumption|exact I|exact S1']|exact I3].
Qed.
Lemma tail_unpadded ps pad : Forall pk_ok ps -> (pad = None \/ is_report (last ps (PRr 0 [])) = false \/ length ps = 1) -> Forall (fun p => ~ padded_report p) (tl (cenc ps pad)).
Proof.
  intros F H. destruct ps as [|p [|p' ps]]; [constructor|constructor|]. change (tl (cenc (p :: p' :: ps) pad)) with (cenc (p' :: ps) pad).
  inversion F as [|? ? _ F']; subst. clear F. assert (H' : pad = None \/ is_report (last (p' :: ps) (PRr 0 [])) = false) by (destruct H as [H|[H|H]]; [left; exact H|right; exact H|discriminate]).
  clear H p. revert p' F' H'. induction ps as [|p ps IH]; intros p' F H.
  - cbn [cenc]. inversion F; subst. constructor; [|constructor]. destruct H as [-> |H]; [apply penc_unpadded; assumption|apply penc_other; assumption].
  - change (cenc (p' :: p :: ps) pad) with (penc p' None :: cenc (p :: ps) pad). inversion F; subst. constructor; [apply penc_unpadded; assumption|apply IH; assumption].
Qed.
Lemma compound_read ps pad : ps <> [] -> Forall pk_ok ps -> pad_ok pad -> sizes_ok ps (padn pad) ->
  (pad = None \/ is_report (last ps (PRr 0 [])) = false \/ length ps = 1) -> walk (concat (cenc ps pad)) = Ok (Some (map see ps, false)).
Proof.
  intros N F P S H. destruct (compound_walk ps pad N F P S) as (B & Ly & W).
  assert (L4 : 4 <= length (concat (cenc ps pad))). { rewrite cenc_size by assumption. destruct ps as [|p ps]; [contradiction|]. unfold size_all. cbn [map]. rewrite total_cons, len_body. lia. }
  destruct (C15_compound _ _ _ B Ly L4 (tail_unpadded ps pad F H)) as (rs & W' & ->).
  assert (rs = map (fun p => ([see p], false)) ps).
  { clear - W W'. revert rs W'. generalize dependent (map (fun p : pk => ([see p], false)) ps). induction 1; intros rs W'; inversion W'; subst; [reflexivity|]. f_equal; [congruence|apply IHW; assumption]. }
  subst rs. do 4 f_equal; clear.
  - induction ps as [|p ps IH]; cbn; [reflexivity|]. f_equal. exact IH.
  - induction ps as [|p ps IH]; cbn; [reflexivity|exact IH].
Qed.
