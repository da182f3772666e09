(** C16: RTCP compound packets as the client of the builder describes them, the calls that describe
    them, and what a reader is to be told. *)
From Verif Require Import Base RtcpTrav_model RtcpBuild_model.
Local Open Scope Z_scope.

Inductive xin :=
| IRrtr (ntp : Z) | IDlrr (l : list din) | IMeas (m : min_) | IDelay (d : yin) | IQueue (q : qin).
Inductive pk :=
| PSr (s : srin) (reports : list rin)
| PRr (ssrc : Z) (reports : list rin)
| PSdes (chunks : list (Z * list (Z * list Z)))
| PBye (ssrcs : list Z) (reason : option (list Z))
| PXr (ssrc : Z) (blocks : list xin).

(** *** The calls *)
Definition calls_xin (x : xin) : list op :=
  match x with
  | IRrtr n => [ORrtr n]
  | IDlrr l => [OBeginDlrr] ++ map ODlrrReport l ++ [OEndDlrr]
  | IMeas m => [OMeas m] | IDelay d => [ODelay d] | IQueue q => [OQueue q]
  end.
Definition calls_chunk (c : Z * list (Z * list Z)) : list op :=
  [OBeginChunk (fst c)] ++ map (fun i => OItem (fst i) (snd i)) (snd c) ++ [OEndChunk].
Definition calls_pk (p : pk) : list op :=
  match p with
  | PSr s rs => [OBeginSr s] ++ map OSrReport rs ++ [OEndSr]
  | PRr s rs => [OBeginRr s] ++ map ORrReport rs ++ [OEndRr]
  | PSdes cs => [OBeginSdes] ++ concat (map calls_chunk cs) ++ [OEndSdes]
  | PBye ss r => [OBeginBye] ++ map OByeSsrc ss ++ match r with Some t => [OByeReason t] | None => [] end ++ [OEndBye]
  | PXr s bs => [OBeginXr s] ++ concat (map calls_xin bs) ++ [OEndXr]
  end.
Definition calls (ps : list pk) (pad : option nat) : list op :=
  concat (map calls_pk ps) ++ match pad with Some n => [OPadding n] | None => [] end.

(** *** What is read: times lose precision as the formats demand *)
(** the middle 32 bits of an NTP time *)
Definition middle (x : Z) : Z := (x / 2 ^ 16) mod 2 ^ 32 * 2 ^ 16.
(** a duration rounded to 1/65536 s, at most [top] units *)
Definition rounded (top x : Z) : Z := Z.min top ((x + 2 ^ 15) / 2 ^ 16) * 2 ^ 16.
Definition delay (x : Z) : Z := rounded (2 ^ 32 - 1) x.
(** the largest code means that there is no value *)
Definition metric (o : option Z) : Z := match o with Some x => rounded (2 ^ 32 - 2) x | None => (2 ^ 32 - 1) * 2 ^ 16 end.
Definition latency (o : option Z) : Z := match o with Some x => Z.min (2 ^ 64 - 2) x | None => 2 ^ 64 - 1 end.
Definition see_rin (r : rin) : rblock :=
  mkRb (ri_ssrc r) (ri_fract r) (Z.max (- 2 ^ 23) (Z.min (2 ^ 23 - 1) (ri_cum r))) (ri_seq r) (ri_jitter r) (middle (ri_lsr r)) (delay (ri_dlsr r)).
Definition see_din (d : din) : dblock := mkDb (di_ssrc d) (middle (di_lrr d)) (delay (di_dlrr d)).
Definition see_xin (x : xin) : xview :=
  match x with
  | IRrtr n => XRrtr n
  | IDlrr l => XDlrr (map see_din l)
  | IMeas m => XMeas (mi_ssrc m) (mi_first m) (mi_ifirst m) (mi_ilast m) (delay (mi_idur m)) (mi_cdur m)
  | IDelay d => XDelay (yi_flag d) (yi_ssrc d) (metric (yi_mean d)) (metric (yi_min d)) (metric (yi_max d)) (latency (yi_e2e d))
  | IQueue q => XQueue (qi_flag q) (qi_ssrc q) (metric (qi_lat q)) (metric (qi_stall q))
  end.
Definition see_chunk (c : Z * list (Z * list Z)) : list sview := SChunkV (fst c) :: map (fun i => SItemV (fst i) (snd i)) (snd c).
Definition see (p : pk) : view :=
  match p with
  | PSr s rs => VSR (si_ssrc s) (si_ntp s) (si_rtp s) (si_packets s) (si_octets s) (map see_rin rs)
  | PRr s rs => VRR s (map see_rin rs)
  | PSdes cs => VSDES (Some (length cs, concat (map see_chunk cs), false))
  | PBye ss r => VBYE (Some (length ss, map BSsrcV ss ++ match r with Some t => [BReasonV t] | None => [] end, false))
  | PXr s bs => VXR (Some (s, map see_xin bs, false))
  end.

(** *** Sizes, RFC 3550 6.4, 6.5, 6.6 and RFC 3611 *)
Definition up4 (n : nat) : nat := Z.to_nat ((Z.of_nat n + 3) / 4 * 4).
Definition size_xin (x : xin) : nat :=
  match x with IRrtr _ => 12 | IDlrr l => 4 + 12 * length l | IMeas _ => 32 | IDelay _ => 28 | IQueue _ => 16 end.
Definition total (l : list nat) : nat := fold_right plus 0%nat l.
(** at least one zero byte ends the items *)
Definition size_chunk (c : Z * list (Z * list Z)) : nat := up4 (4 + total (map (fun i => 2 + length (snd i))%nat (snd c)) + 1).
Definition size (p : pk) : nat :=
  match p with
  | PSr _ rs => 28 + 24 * length rs
  | PRr _ rs => 8 + 24 * length rs
  | PSdes cs => 4 + total (map size_chunk cs)
  | PBye ss r => 4 + 4 * length ss + match r with Some t => up4 (1 + length t) | None => 0 end
  | PXr _ bs => 8 + total (map size_xin bs)
  end.
Definition size_all (ps : list pk) (pad : option nat) : nat := total (map size ps) + match pad with Some n => n | None => 0 end.

(** *** What the client may ask for *)
Definition is_u (n x : Z) : Prop := 0 <= x < 2 ^ n.
(** durations: the rounding must not overflow 64 bits *)
Definition is_dur (x : Z) : Prop := 0 <= x < 2 ^ 64 - 2 ^ 15.
Definition is_odur (o : option Z) : Prop := match o with Some x => is_dur x | None => True end.
Definition rin_ok (r : rin) : Prop :=
  is_u 32 (ri_ssrc r) /\ is_u 8 (ri_fract r) /\ is_u 32 (ri_seq r) /\ is_u 32 (ri_jitter r) /\ is_u 64 (ri_lsr r) /\ is_dur (ri_dlsr r).
Definition din_ok (d : din) : Prop := is_u 32 (di_ssrc d) /\ is_u 64 (di_lrr d) /\ is_dur (di_dlrr d).
Definition xin_ok (x : xin) : Prop :=
  match x with
  | IRrtr n => is_u 64 n
  | IDlrr l => Forall din_ok l
  | IMeas m => is_u 32 (mi_ssrc m) /\ is_u 16 (mi_first m) /\ is_u 32 (mi_ifirst m) /\ is_u 32 (mi_ilast m) /\ is_dur (mi_idur m) /\ is_u 64 (mi_cdur m)
  | IDelay d => is_u 2 (yi_flag d) /\ is_u 32 (yi_ssrc d) /\ is_odur (yi_mean d) /\ is_odur (yi_min d) /\ is_odur (yi_max d) /\
                match yi_e2e d with Some x => is_u 64 x | None => True end
  | IQueue q => is_u 2 (qi_flag q) /\ is_u 32 (qi_ssrc q) /\ is_odur (qi_lat q) /\ is_odur (qi_stall q)
  end.
(** a C string of at most 255 characters *)
Definition text_ok (t : list Z) : Prop := (length t <= 255)%nat /\ Forall (fun c => 1 <= c < 256) t.
Definition item_ok (i : Z * list Z) : Prop := 1 <= fst i < 256 /\ text_ok (snd i).
(** exactly one canonical name, not empty *)
Definition chunk_ok (c : Z * list (Z * list Z)) : Prop :=
  is_u 32 (fst c) /\ Forall item_ok (snd c) /\ exists n, filter (fun i => fst i =? 1) (snd c) = [(1, n)] /\ n <> [].
Definition pk_ok (p : pk) : Prop :=
  match p with
  | PSr s rs => (is_u 32 (si_ssrc s) /\ is_u 64 (si_ntp s) /\ is_u 32 (si_rtp s) /\ is_u 32 (si_packets s) /\ is_u 32 (si_octets s)) /\
                Forall rin_ok rs /\ (length rs <= 31)%nat
  | PRr s rs => is_u 32 s /\ Forall rin_ok rs /\ (length rs <= 31)%nat
  | PSdes cs => Forall chunk_ok cs /\ (length cs <= 31)%nat
  | PBye ss r => Forall (is_u 32) ss /\ (1 <= length ss <= 31)%nat /\ match r with Some t => text_ok t | None => True end
  | PXr s bs => is_u 32 s /\ Forall xin_ok bs
  end.
(** the largest packet the builder supports *)
Definition limit : nat := Z.to_nat 65532.
Fixpoint sizes_ok (ps : list pk) (pad : nat) : Prop :=
  match ps with
  | [] => True
  | [p] => (size p + pad <= limit)%nat
  | p :: r => (size p <= limit)%nat /\ sizes_ok r pad
  end.
Definition is_report (p : pk) : bool := match p with PSr _ _ | PRr _ _ => true | _ => false end.
(** which packets the configuration allows, reports first *)
Definition allowed (cfg : wcfg) (ps : list pk) : Prop :=
  (c_srrr cfg = true -> match ps with [] => True | p :: _ => is_report p = true end) /\
  (c_srrr cfg = false -> Forall (fun p => is_report p = false) ps) /\
  (c_sdes cfg = false -> Forall (fun p => match p with PSdes _ => False | _ => True end) ps) /\
  (c_xr cfg = false -> Forall (fun p => match p with PXr _ _ => False | _ => True end) ps).
Definition named (cfg : wcfg) (ps : list pk) : Prop :=
  c_sdes cfg = true -> Exists (fun p => match p with PSdes (_ :: _) => True | _ => False end) ps.
Definition pad_ok (pad : option nat) : Prop := match pad with Some n => (n mod 4 = 0 /\ 1 <= n <= 255)%nat | None => True end.
Definition valid (cfg : wcfg) (ps : list pk) (pad : option nat) : Prop :=
  ps <> [] /\ Forall pk_ok ps /\ sizes_ok ps (match pad with Some n => n | None => 0 end) /\ allowed cfg ps /\ pad_ok pad.

(** *** What the order of the calls ensures: texts fit, a chunk has exactly one canonical name, BYE has a source *)
Definition texts_ok (items : list (Z * list Z)) : Prop := Forall (fun i => (List.length (snd i) <= 255)%nat) items.
Definition one_name (c : Z * list (Z * list Z)) : Prop := texts_ok (snd c) /\ exists n, filter (fun i => fst i =? 1) (snd c) = [(1, n)] /\ n <> [].
Definition shape_ok (p : pk) : Prop :=
  match p with PSdes cs => Forall one_name cs | PBye ss r => ss <> [] /\ match r with Some t => (List.length t <= 255)%nat | None => True end | _ => True end.
