From Coq Require Import Reals ZArith List Bool Lia Lra.
From Flocq Require Import Core.Core IEEE754.BinarySingleNaN.
From Verif Require Import Base Float32 Ntp_proof TimeConv_model TimeConv_proof Resampler_model Resampler_spec.
Import ListNotations.
Local Open Scope Z_scope.
Local Open Scope res_scope.

Lemma one_eq : qt_one = 1048576. Proof. reflexivity. Qed.
Lemma u32_small x : 0 <= x < 4294967296 -> Base.u32 x = x.
Proof. intros. unfold Base.u32, wrapu. apply Z.mod_small. exact H. Qed.
Lemma u64_small x : 0 <= x < 18446744073709551616 -> u64 x = x.
Proof. intros. unfold u64, wrapu. apply Z.mod_small. exact H. Qed.
Lemma land_fr x : Z.land x fract_mask = x mod 1048576.
Proof. unfold fract_mask. change 0xFFFFF with (Z.ones 20). rewrite Z.land_ones by lia. reflexivity. Qed.
Lemma land_int x : 0 <= x < 4294967296 -> Z.land x int_mask = x / 1048576 * 1048576.
Proof.
  intros H. unfold int_mask. change 0xFFF00000 with (Z.shiftl (Z.ones 12) 20). rewrite land_mid by lia.
  change (2 ^ 20) with 1048576. change (2 ^ 12) with 4096. f_equal. apply Z.mod_small. clear - H. lia.
Qed.
Lemma fixed_size_eq x : fixed_size x = x / 1048576.
Proof. unfold fixed_size, fract_bits. rewrite Z.shiftr_div_pow2 by lia. reflexivity. Qed.
Lemma qfloor_eq x : 0 <= x < 4294967296 -> qfloor x = x / 1048576 * 1048576.
Proof. apply land_int. Qed.
Lemma qceil_eq x : 0 <= x <= 4294967296 - 1048576 -> qceil x = (x + 1048575) / 1048576 * 1048576.
Proof.
  intros H. unfold qceil. rewrite land_fr, land_int by lia. rewrite one_eq. destruct (Z.eqb_spec (x mod 1048576) 0) as [E|E].
  - clear - E. lia.
  - rewrite u32_small; [clear - E; lia|]. clear - H E. lia.
Qed.
Lemma qt_frame_eq c : 0 <= c_frame c < 4096 -> qt_frame c = c_frame c * 1048576.
Proof. intros H. unfold qt_frame, fract_bits. rewrite Z.shiftl_mul_pow2 by lia. change (2 ^ 20) with 1048576. apply u32_small. lia. Qed.

(* consecutive integers *)
Definition zr (i : Z) (n : nat) : list Z := map (fun k => i + Z.of_nat k) (seq 0 n).
Lemma zr_S i n : zr i (S n) = i :: zr (i + 1) n.
Proof.
  unfold zr. cbn [seq map]. f_equal; [lia|]. rewrite <- seq_shift, map_map. apply map_ext. intros k. lia.
Qed.
Lemma zr_app n m : forall i, zr i (n + m) = zr i n ++ zr (i + Z.of_nat n) m.
Proof.
  induction n as [|n IH]; intros i; cbn [Nat.add].
  - cbn. f_equal. lia.
  - rewrite !zr_S, IH. cbn [app]. f_equal. f_equal. f_equal. lia.
Qed.
Lemma zr_in i n x : In x (zr i n) -> i <= x < i + Z.of_nat n.
Proof. unfold zr. rewrite in_map_iff. intros (k & <- & K). apply in_seq in K. lia. Qed.

Lemma map_zr {A} (f g : Z -> A) n : forall i j, (forall d, 0 <= d < Z.of_nat n -> f (i + d) = g (j + d)) -> map f (zr i n) = map g (zr j n).
Proof.
  intros i j H. unfold zr. rewrite !map_map. apply map_ext_in. intros k K. apply in_seq in K. apply H. lia.
Qed.

(* greatest argument of the table *)
Definition arg_max (c : cfg) : Z := c_window c * 1048576 + 2 ^ (20 - window_interp_bits (c_prof c)).
Lemma arg_max_bound c : arg_max c < 100000000.
Proof. unfold arg_max, c_window. destruct (c_prof c); vm_compute; reflexivity. Qed.

Lemma access_ok c b i a f : 0 <= i < c_frame c -> 0 <= a < arg_max c -> access c b i a f = Ok (mkTerm (b * c_frame c + i) a f).
Proof.
  intros Hi Ha. unfold access, table_size, arg_max, fract_bits in *.
  destruct (Z.leb_spec 0 i); [|lia]. destruct (Z.ltb_spec i (c_frame c)); [|lia]. cbn [andb negb].
  set (w := window_interp_bits (c_prof c)) in *. assert (W : 0 <= w <= 9) by (unfold w; destruct (c_prof c); cbn; lia).
  rewrite Z.shiftr_div_pow2 by lia. rewrite Z.shiftl_mul_pow2 by lia. rewrite Z.mul_1_l.
  assert (P : 0 < 2 ^ (20 - w)) by (apply Z.pow_pos_nonneg; lia).
  assert (E : 2 ^ w * 2 ^ (20 - w) = 1048576) by (rewrite <- Z.pow_add_r by lia; replace (w + (20 - w)) with 20 by lia; reflexivity).
  assert (L : 0 <= a / 2 ^ (20 - w)) by (apply Z.div_pos; lia).
  assert (U : a / 2 ^ (20 - w) < c_window c * 2 ^ w + 1).
  { apply Z.div_lt_upper_bound; [lia|]. set (x := 2 ^ (20 - w)) in *. set (y := 2 ^ w) in *. clearbody x y w.
    replace (x * (c_window c * y + 1)) with (c_window c * (y * x) + x) by ring. rewrite E. lia. }
  destruct (Z.leb_spec 0 (a / 2 ^ (20 - w))); [|lia]. destruct (Z.ltb_spec (a / 2 ^ (20 - w) + 1) (c_window c * 2 ^ w + 2)); [|lia].
  reflexivity.
Qed.

Lemma run_frame_ok c b inc f n : forall i a, 0 <= i -> i + Z.of_nat n <= c_frame c ->
  (forall k, 0 <= k <= Z.of_nat n -> 0 <= a + k * inc < 4294967296) ->
  (forall k, 0 <= k < Z.of_nat n -> a + k * inc < arg_max c) ->
  run_frame c n b i a inc f = Ok (map (fun j => mkTerm (b * c_frame c + j) (a + (j - i) * inc) f) (zr i n), a + Z.of_nat n * inc).
Proof.
  induction n as [|n IH]; intros i a Hi Hn H1 H2.
  - cbn. f_equal. f_equal. lia.
  - cbn [run_frame]. pose proof (H1 0 ltac:(lia)) as B0. pose proof (H2 0 ltac:(lia)) as C0. pose proof (H1 1 ltac:(lia)) as B1.
    rewrite access_ok by lia. cbn [bind]. rewrite u32_small by lia.
    rewrite IH; [| lia | lia | |].
    + cbn [bind fst snd]. rewrite zr_S. cbn [map]. f_equal. f_equal; [|lia]. f_equal; [f_equal; lia|].
      apply map_ext. intros j. f_equal. lia.
    + intros k Hk. specialize (H1 (k + 1) ltac:(lia)). lia.
    + intros k Hk. specialize (H2 (k + 1) ltac:(lia)). lia.
Qed.

Lemma div_step x s : (x - 1048576) * s / 1048576 = x * s / 1048576 - s.
Proof. replace ((x - 1048576) * s) with (x * s + (- s) * 1048576) by ring. rewrite Z.div_add by lia. lia. Qed.
Lemma div_steps x s k : (x - k * 1048576) * s / 1048576 = x * s / 1048576 - k * s.
Proof. replace ((x - k * 1048576) * s) with (x * s + (- (k * s)) * 1048576) by ring. rewrite Z.div_add by lia. lia. Qed.
Lemma div_mono x y s : 0 <= s -> x <= y -> x * s / 1048576 <= y * s / 1048576.
Proof. intros. apply Z.div_le_mono; nia. Qed.

Lemma div_nn x s : 0 <= x -> 0 <= s -> 0 <= x * s / 1048576.
Proof. intros. apply Z.div_pos; [nia|lia]. Qed.
Lemma fuel_enough x s : 0 <= x -> 0 < s -> (Z.to_nat (x / 1048576) <= Z.to_nat (x * s / 1048576 / s))%nat.
Proof.
  intros Hx Hs. apply Z2Nat.inj_le; [apply Z.div_pos; lia| apply Z.div_pos; [apply div_nn; lia|lia] |].
  apply Z.div_le_lower_bound; [lia|]. apply Z.div_le_lower_bound; [lia|]. pose proof (Z.mul_div_le x 1048576 ltac:(lia)). nia.
Qed.

Lemma run_left_ok c b s f m : forall fuel i x, 0 <= i -> i + Z.of_nat m < c_frame c -> 0 < s ->
  Z.of_nat m * 1048576 <= x < (Z.of_nat m + 1) * 1048576 -> x * s / 1048576 < arg_max c -> (m <= fuel)%nat ->
  run_left c fuel b i (x * s / 1048576) s f =
    Ok (map (fun j => mkTerm (b * c_frame c + j) (x * s / 1048576 - (j - i) * s) f) (zr (i + 1) m), i + Z.of_nat m, x * s / 1048576 - Z.of_nat m * s).
Proof.
  induction m as [|m IH]; intros fuel i x Hi Hm Hs Hx Ha Hf.
  - assert (L : x * s / 1048576 < s) by (apply Z.div_lt_upper_bound; [lia|]; clear - Hx Hs; nia).
    change (Z.of_nat 0) with 0. rewrite Z.add_0_r, Z.mul_0_l, Z.sub_0_r.
    destruct fuel; cbn [run_left]; (destruct (Z.ltb_spec (x * s / 1048576) s); [|lia]); reflexivity.
  - assert (L : s <= x * s / 1048576) by (apply Z.div_le_lower_bound; [lia|]; clear - Hx Hs; nia).
    destruct fuel as [|fuel]; [lia|]. cbn [run_left]. destruct (Z.ltb_spec (x * s / 1048576) s); [lia|].
    pose proof (arg_max_bound c). rewrite u32_small by lia. rewrite access_ok by lia. cbn [bind].
    replace (x * s / 1048576 - s) with ((x - 1048576) * s / 1048576) by apply div_step.
    rewrite IH; [| lia | lia | lia | lia | rewrite div_step; lia | lia].
    cbn [bind fst snd]. rewrite div_step. rewrite zr_S. cbn [map]. f_equal. f_equal; [|lia]. f_equal; [|lia]. f_equal.
    + f_equal; lia.
    + apply map_ext. intros j. f_equal. lia.
Qed.

(* parameters under which nothing goes out of bounds *)
Definition par_ok (c : cfg) (p : params) : Prop :=
  1048576 <= p_half p /\ p_half p / 1048576 + 1 <= c_frame c /\ 0 < p_step p < 1048577 /\
  (p_half p * p_step p + 1048575) / 1048576 < arg_max c /\ 0 <= p_dt p <= c_frame c * 65536.
Definition cfg_ok (c : cfg) : Prop := 0 < c_frame c <= 2048.

Definition state_at (c : cfg) (st : rs) (k : Z) : Prop := r_prev st = k - 1 /\ r_cur st = k /\ r_next st = k + 1.

(* linear arithmetic without the divisions *)
Ltac sm :=
  try match goal with F := c_frame ?c |- _ => change (c_frame c) with F in * end;
  repeat match goal with x := _ |- _ => clearbody x end;
  repeat match goal with H : context [_ / _] |- _ => clear H end; lia.
Ltac sl := first [ solve [sm] | lia ].

Lemma resample_ok c st k : cfg_ok c -> par_ok c (r_par st) -> state_at c st k ->
  0 <= r_sample st < c_frame c * 1048576 -> r_sample st + p_half (r_par st) <> c_frame c * 1048576 ->
  resample c st = Ok (output_at c (k * c_frame c * 1048576 + r_sample st) (r_par st)).
Proof.
  intros C (P1 & P2 & P3 & P4 & _) (S1 & S2 & S3) HQ NE. unfold cfg_ok in C.
  unfold resample. rewrite qt_frame_eq by lia. rewrite S1, S2, S3. clear S1 S2 S3.
  set (F := c_frame c) in *. set (Q := r_sample st) in *. set (H := p_half (r_par st)) in *. set (s := p_step (r_par st)) in *.
  pose proof (arg_max_bound c) as AM.
  assert (HF : H < F * 1048576) by (clear - P2; lia).
  destruct (Z.eqb_spec s 0); [lia|].
  (* position of the first sample, counted from the start of the previous frame *)
  set (B := (F * 1048576 + Q - H + 1048575) / 1048576).
  set (x0 := F * 1048576 + Q - B * 1048576).
  assert (X0 : H - 1048576 < x0 <= H) by (unfold x0, B; clear; lia).
  assert (HB : 0 <= B) by (unfold B; apply Z.div_pos; lia).
  set (q := Q / 1048576). assert (Hq : 0 <= q < F) by (unfold q; clear - HQ; lia).
  set (hi := (Q + H) / 1048576). assert (Hhi : q + 1 <= hi) by (unfold hi, q; clear - P1; lia).
  (* begin_prev, begin_cur *)
  assert (BP : (if H <=? Q then F else fixed_size (qceil (Base.u32 (Q + Base.u32 (F * 1048576 - H))))) = Z.min F B /\
               (if H <=? Q then fixed_size (qceil (Base.u32 (Q - H))) else 0) = Z.max 0 (B - F)).
  { destruct (Z.leb_spec H Q).
    - assert (F <= B) by (unfold B; clear - H0; lia). split; [lia|]. rewrite u32_small by lia. rewrite qceil_eq by lia. rewrite fixed_size_eq, Z.div_mul by lia.
      unfold B. replace (F * 1048576 + Q - H + 1048575) with (Q - H + 1048575 + F * 1048576) by ring. rewrite Z.div_add by lia. lia.
    - assert (B <= F) by (unfold B; clear - H0; lia). split; [|lia]. rewrite (u32_small (F * 1048576 - H)) by lia. rewrite u32_small by lia. rewrite qceil_eq by lia.
      rewrite fixed_size_eq, Z.div_mul by lia. rewrite Z.min_r by lia. unfold B. f_equal. ring. }
  destruct BP as [-> ->].
  assert (BF : B - F <= q) by (unfold B, q; clear - P1; lia).
  destruct (Z.ltb_spec F (Z.min F B)); [lia|]. destruct (Z.ltb_spec F (Z.max 0 (B - F))); [lia|].
  rewrite (u32_small (Q + H)) by lia.
  (* end_cur, end_next *)
  assert (EC : (if F * 1048576 <? Q + H then F - 1 else fixed_size (qfloor (Q + H))) = Z.min (F - 1) hi /\
               (if F * 1048576 <? Q + H then fixed_size (qfloor (Base.u32 (Q + H - F * 1048576))) + 1 else 0) = Z.max 0 (hi - F + 1)).
  { destruct (Z.ltb_spec (F * 1048576) (Q + H)).
    - assert (F <= hi) by (unfold hi; clear - H2; lia). split; [lia|]. rewrite u32_small by lia. rewrite qfloor_eq by lia.
      rewrite fixed_size_eq, Z.div_mul by lia. unfold hi. replace (Q + H - F * 1048576) with (Q + H + (- F) * 1048576) by ring.
      rewrite Z.div_add by lia. fold hi. lia.
    - assert (hi <= F - 1) by (unfold hi; clear - H2 NE; lia). split; [|lia]. rewrite qfloor_eq by lia. rewrite fixed_size_eq, Z.div_mul by lia. fold hi. lia. }
  destruct EC as [-> ->].
  assert (HN : hi - F + 1 <= F) by (unfold hi; clear - HQ P2; lia).
  destruct (Z.ltb_spec F (Z.min (F - 1) hi)); [lia|]. destruct (Z.ltb_spec F (Z.max 0 (hi - F + 1))); [lia|].
  (* the first argument *)
  rewrite (u32_small (F * 1048576 + Q)) by lia. rewrite (u32_small (F * 1048576 + Q - H)) by lia. rewrite qceil_eq by lia. fold B. fold x0.
  rewrite (u32_small x0) by lia. rewrite (u64_small (x0 * s)) by (clear - X0 P1 P3 HF C; nia).
  assert (SH : forall x, Z.shiftr x fract_bits = x / 1048576) by (intros; apply fixed_size_eq). rewrite !SH.
  assert (AH : H * s / 1048576 < arg_max c).
  { apply Z.le_lt_trans with (2 := P4). apply Z.div_le_mono; lia. }
  assert (A0 : 0 <= x0 * s / 1048576 < arg_max c).
  { split; [apply div_nn; lia|]. apply Z.le_lt_trans with (2 := AH). apply div_mono; lia. }
  rewrite (u32_small (x0 * s / 1048576)) by lia.
  set (a0 := x0 * s / 1048576) in *. set (fl := fractional c a0).
  (* previous frame *)
  assert (AL : forall j, 0 <= j -> j * 1048576 <= x0 -> 0 <= a0 - j * s < arg_max c).
  { intros j K1 K2. unfold a0. rewrite <- div_steps. split; [apply div_nn; lia|]. apply Z.le_lt_trans with (2 := AH). apply div_mono; lia. }
  rewrite run_frame_ok.
  2: lia. 2: lia.
  2:{ intros j Hk. assert (K : j * 1048576 <= x0) by (clear - Hk HQ HB X0 P1; destruct (Z.le_gt_cases F B); unfold x0 in *; lia). pose proof (AL j ltac:(lia) K). lia. }
  2:{ intros j Hk. assert (K : j * 1048576 <= x0) by (clear - Hk HQ HB X0 P1; destruct (Z.le_gt_cases F B); unfold x0 in *; lia). pose proof (AL j ltac:(lia) K). lia. }
  cbn [bind fst snd].
  set (n1 := Z.to_nat (F - Z.min F B)). assert (N1 : Z.of_nat n1 = F - Z.min F B) by (unfold n1; clear; lia).
  (* distance of the first sample in the current frame *)
  set (x1 := Q - Z.max 0 (B - F) * 1048576).
  assert (X1 : a0 + Z.of_nat n1 * - s = x1 * s / 1048576).
  { replace x1 with (x0 - Z.of_nat n1 * 1048576) by (unfold x1, x0, n1; clear - HB; lia). rewrite div_steps. fold a0. lia. }
  rewrite X1.
  assert (X1b : 0 <= x1 <= H).
  { split; [unfold x1; unfold q in BF; clear - BF HQ; lia|]. unfold x1, x0 in *. clear - X0 HQ. destruct (Z.max_spec 0 (B - F)) as [[? ->]|[? ->]]; lia. }
  rewrite access_ok; [| sl |]. 2:{ split; [apply div_nn; sl|]. apply Z.le_lt_trans with (2 := AH). apply div_mono; sl. }
  cbn [bind].
  set (m := Z.to_nat (x1 / 1048576)).
  assert (Em : Z.of_nat m = x1 / 1048576) by (unfold m; rewrite Z2Nat.id; [reflexivity|]; apply Z.div_pos; sl).
  assert (Eq : Z.max 0 (B - F) + Z.of_nat m = q).
  { rewrite Em. unfold x1, q. replace (Q - Z.max 0 (B - F) * 1048576) with (Q + - Z.max 0 (B - F) * 1048576) by ring. rewrite Z.div_add by sl. sl. }
  rewrite run_left_ok with (m := m).
  2: sl. 2: sl. 2: sl. 2: (rewrite Em; clear; lia).
  2:{ apply Z.le_lt_trans with (2 := AH). apply div_mono; sl. }
  2:{ unfold m. apply fuel_enough; sl. }
  cbn [bind fst snd]. rewrite Eq.
  destruct (Z.ltb_spec F (q + 1)); [sl|].
  set (r := Q - q * 1048576). assert (Hr : 0 <= r < 1048576) by (unfold r, q; clear; lia).
  assert (Er : x1 * s / 1048576 - Z.of_nat m * s = r * s / 1048576).
  { rewrite <- div_steps. f_equal. f_equal. unfold r, x1. sl. }
  rewrite Er.
  assert (Rb : 0 <= r * s / 1048576 < s).
  { split; [apply div_nn; sl|]. apply Z.div_lt_upper_bound; [sl|]. clear - Hr P3; nia. }
  rewrite (u32_small (s - r * s / 1048576)) by sl.
  set (a1 := s - r * s / 1048576) in *. assert (A1 : 0 < a1 <= s) by (unfold a1; sl). set (fr := fractional c a1).
  assert (AR : forall j, q + 1 <= j <= hi -> a1 + (j - q - 1) * s < arg_max c).
  { intros j Hj. apply Z.le_lt_trans with (2 := P4). unfold a1.
    replace (s - r * s / 1048576 + (j - q - 1) * s) with (- (r * s / 1048576 - (j - q) * s)) by ring. rewrite <- div_steps.
    set (y := (j - q) * 1048576 - r). assert (Hy : 0 <= y <= H) by (unfold y, r, hi in *; clear - Hj Hr; lia).
    replace (r - (j - q) * 1048576) with (- y) by (unfold y; ring).
    assert (G : y * s <= H * s) by (clear - Hy P3; nia). replace (- y * s) with (- (y * s)) by ring. set (ys := y * s) in *. set (hs := H * s) in *. clearbody ys hs. clear - G. lia. }
  assert (BH : B - F <= q <= F - 1) by sl.
  assert (n2E : Z.of_nat (Z.to_nat (Z.min (F - 1) hi - (q + 1) + 1)) = Z.min (F - 1) hi - q) by sl.
  rewrite run_frame_ok.
  2: sl. 2: sl.
  2:{ intros j Hj. destruct (Z.eq_dec j 0) as [->|J]; [sl|]. pose proof (AR (q + j) ltac:(sl)) as Z1. clear - Z1 A1 P3 Hj AM. nia. }
  2:{ intros j Hj. pose proof (AR (q + 1 + j) ltac:(sl)) as Z1. clear - Z1. nia. }
  cbn [bind fst snd]. set (n2 := Z.to_nat (Z.min (F - 1) hi - (q + 1) + 1)) in *.
  rewrite run_frame_ok.
  2: sl. 2: sl.
  2:{ intros j Hj. destruct (Z.eq_dec j 0) as [->|J].
      - rewrite n2E. destruct (Z.eq_dec (Z.min (F - 1) hi) q) as [e|e]; [rewrite e; clear - A1 P3; nia|].
        pose proof (AR (Z.min (F - 1) hi) ltac:(sl)) as Z1. assert (Z2 : q + 1 <= Z.min (F - 1) hi) by sl. set (e1 := Z.min (F - 1) hi) in *. clearbody e1. clear - Z1 Z2 A1 P3 AM. nia.
      - rewrite n2E. pose proof (AR (F + j - 1) ltac:(sl)) as Z1. assert (Z.min (F - 1) hi = F - 1) as -> by sl. assert (Z2 : q + 1 <= F + j - 1) by sl. clear - Z1 Z2 A1 P3 AM. nia. }
  2:{ intros j Hj. rewrite n2E. pose proof (AR (F + j) ltac:(sl)) as Z1. assert (Z.min (F - 1) hi = F - 1) as -> by sl. clear - Z1. nia. }
  cbn [bind fst snd]. rewrite n2E. set (n3 := Z.to_nat (Z.max 0 (hi - F + 1))) in *. assert (N3 : Z.of_nat n3 = Z.max 0 (hi - F + 1)) by (unfold n3; clear; lia).
  (* all together *)
  f_equal. unfold output_at, range, unit. fold F. set (T := k * F * 1048576 + Q).
  assert (FI : first_in T H = k * F + (B - F)).
  { unfold first_in, unit, T, B. generalize (k * F); intros kf. clear. lia. }
  assert (LI : last_in T H = k * F + hi).
  { unfold last_in, unit, T, hi. generalize (k * F); intros kf. clear. lia. }
  assert (TI : T / unit = k * F + q).
  { unfold unit, T, q. generalize (k * F); intros kf. clear. lia. }
  assert (AO : forall j, arg_of T s (k * F + j) = Z.abs ((Q - j * 1048576) * s / 1048576)).
  { intros j. unfold arg_of, unit, T. f_equal. f_equal. f_equal. ring. }
  assert (AOL : forall j, j <= q -> B - F <= j -> arg_of T s (k * F + j) = a0 - (j - (B - F)) * s).
  { intros j J1 J2. rewrite AO. replace (Q - j * 1048576) with (x0 - (j - (B - F)) * 1048576) by (unfold x0; ring). rewrite div_steps. fold a0.
    apply Z.abs_eq. apply AL; [sl|]. unfold x0. unfold q in J1. clear - J1. lia. }
  assert (AOR : forall j, q + 1 <= j -> arg_of T s (k * F + j) = a1 + (j - q - 1) * s).
  { intros j J1. rewrite AO. replace (Q - j * 1048576) with (r - (j - q) * 1048576) by (unfold r; ring). rewrite div_steps. unfold a1.
    rewrite Z.abs_neq; [ring|]. clear - J1 Rb P3. nia. }
  assert (TL : forall j, j <= q -> B - F <= j -> term_of c T (r_par st) (k * F + j) = mkTerm (k * F + j) (a0 - (j - (B - F)) * s) fl).
  { intros j J1 J2. unfold term_of. fold H s. rewrite TI, FI, AOL by sl. destruct (Z.leb_spec (k * F + j) (k * F + q)); [|sl].
    rewrite AOL by sl. unfold fl. f_equal. f_equal. ring. }
  assert (TR : forall j, q + 1 <= j -> term_of c T (r_par st) (k * F + j) = mkTerm (k * F + j) (a1 + (j - q - 1) * s) fr).
  { intros j J1. unfold term_of. fold H s. rewrite TI, AOR by sl. destruct (Z.leb_spec (k * F + j) (k * F + q)); [sl|].
    replace (k * F + q + 1) with (k * F + (q + 1)) by ring. rewrite AOR by sl. unfold fr. f_equal. f_equal. ring. }
  fold H. rewrite FI, LI.
  change (map (term_of c T (r_par st)) (map (fun x : nat => k * F + (B - F) + Z.of_nat x) (seq 0 (Z.to_nat (k * F + hi - (k * F + (B - F)) + 1)))))
    with (map (term_of c T (r_par st)) (zr (k * F + (B - F)) (Z.to_nat (k * F + hi - (k * F + (B - F)) + 1)))).
  replace (Z.to_nat (k * F + hi - (k * F + (B - F)) + 1)) with (n1 + (S m + (n2 + n3)))%nat.
  2:{ apply Nat2Z.inj. rewrite !Nat2Z.inj_add, Nat2Z.inj_succ. sl. }
  rewrite !zr_app, !map_app. f_equal; [|f_equal; [|f_equal]].
  - apply map_zr. intros d Hd. replace (k * F + (B - F) + d) with (k * F + (B - F + d)) by ring. rewrite TL by sl.
    assert (Z.min F B = B) as -> by sl. f_equal; ring.
  - rewrite zr_S. cbn [map]. assert (M : k * F + (B - F) + Z.of_nat n1 = k * F + Z.max 0 (B - F)) by sl. rewrite M. f_equal.
    + rewrite TL by sl. f_equal. rewrite <- X1. replace (Z.of_nat n1) with (Z.max 0 (B - F) - (B - F)) by sl. ring.
    + apply map_zr. intros d Hd. replace (k * F + Z.max 0 (B - F) + 1 + d) with (k * F + (Z.max 0 (B - F) + 1 + d)) by ring. rewrite TL by sl. f_equal.
      rewrite <- X1. replace (Z.of_nat n1) with (Z.max 0 (B - F) - (B - F)) by sl. ring.
  - apply map_zr. intros d Hd. replace (k * F + (B - F) + Z.of_nat n1 + Z.of_nat (S m) + d) with (k * F + (q + 1 + d)) by sl. rewrite TR by sl. f_equal; ring.
  - apply map_zr. intros d Hd. replace (k * F + (B - F) + Z.of_nat n1 + Z.of_nat (S m) + Z.of_nat n2 + d) with (k * F + (F + d)) by sl. rewrite TR by sl.
    assert (Z.min (F - 1) hi = F - 1) as -> by sl. f_equal; ring.
Qed.
