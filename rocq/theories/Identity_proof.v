(** Facts about the identity of a participant. *)
From Coq Require Import Lia.
From Verif Require Import Base Base_lemmas Random_model Random_proof Identity_model Identity_spec.
Local Open Scope Z_scope.
Local Open Scope res_scope.

Definition good (g : gen) : Prop := 0 <= fst g < 2 ^ 32.
Definition state_of (clk : nat -> Z) (g : gen) : Z := if fst g =? 0 then u32 (clk (snd g)) else fst g.
Lemma state_range clk g : good g -> 0 <= state_of clk g < 2 ^ 32.
Proof. intros G. unfold state_of. destruct (fst g =? 0); [apply u32_range|exact G]. Qed.
Definition after_draw (clk : nat -> Z) (g : gen) : gen := (u32 (state_of clk g + 0x9E3779B9), Datatypes.S (snd g)).
Lemma draw_eq clk g : draw clk g = (after_draw clk g, mix (state_of clk g)).
Proof. unfold draw, fast_random, after_draw, state_of. destruct (fst g =? 0); reflexivity. Qed.
Lemma after_good clk g : good (after_draw clk g).
Proof. apply u32_range. Qed.
Lemma ranged_eq clk from to g : good g -> 0 <= from <= to -> to < 2 ^ 32 ->
  ranged clk from to g = Ok (after_draw clk g, from + mix (state_of clk g) mod (to - from + 1)).
Proof.
  intros G F T. unfold ranged. rewrite draw_eq. rewrite frr_spec; [reflexivity|lia|exact T|].
  apply mix_range, state_range, G.
Qed.

(** The results of the next [n] calls of the generator, and the generator after them. *)
Fixpoint outputs (clk : nat -> Z) (n : nat) (g : gen) : list Z :=
  match n with O => [] | Datatypes.S m => mix (state_of clk g) :: outputs clk m (after_draw clk g) end.
Fixpoint skip (clk : nat -> Z) (n : nat) (g : gen) : gen :=
  match n with O => g | Datatypes.S m => skip clk m (after_draw clk g) end.
Lemma skip_good clk n g : good g -> good (skip clk n g).
Proof. revert g. induction n as [|n IH]; intros g G; [exact G|]. apply IH, after_good. Qed.

Lemma bytes_eq clk n g : good g -> random_bytes clk n g = Ok (skip clk n g, map (fun z => z mod 256) (outputs clk n g)).
Proof.
  revert g. induction n as [|n IH]; intros g G; [reflexivity|]. cbn [random_bytes outputs skip map].
  rewrite ranged_eq by (exact G || lia). cbn [bind]. rewrite IH by apply after_good. cbn [bind].
  do 3 f_equal. unfold u8, wrapu. change (255 - 0 + 1) with 256. change (2 ^ 8) with 256. rewrite Z.add_0_l. apply Z.mod_mod. lia.
Qed.
Lemma outputs_len clk n g : length (outputs clk n g) = n.
Proof. revert g. induction n as [|n IH]; intros g; cbn [outputs length]; [reflexivity|]. rewrite IH. reflexivity. Qed.

Lemma wr_ok (l : list Z) i x : (i < length l)%nat -> wr l i x = Ok (upd l i x).
Proof. intros H. unfold wr. apply Nat.ltb_lt in H. rewrite H. reflexivity. Qed.
Lemma upd_len (l : list Z) i x : length (upd l i x) = length l.
Proof. revert i. induction l as [|h t IH]; intros [|i]; cbn [upd length]; auto. Qed.

Lemma forall_byte (n : nat) (P : Z -> bool) : forallb P (map Z.of_nat (seq 0 n)) = true -> forall b, 0 <= b < Z.of_nat n -> P b = true.
Proof.
  intros H b B. rewrite forallb_forall in H. apply H. rewrite <- (Z2Nat.id b) by lia. apply in_map. apply in_seq. lia.
Qed.
Definition hx (i : Z) : Z := if i <? 10 then 48 + i else 87 + i.
Lemma hex_char_eq i : 0 <= i < 16 -> hex_char i = Ok (hx i).
Proof.
  intros H. pose proof (forall_byte 16 (fun i => match hex_char i with Ok c => c =? hx i | _ => false end) eq_refl i H) as E. cbv beta in E.
  destruct (hex_char i); try discriminate. apply Z.eqb_eq in E. rewrite E. reflexivity.
Qed.
Lemma hx_char i : 0 <= i < 16 -> lower_hex (hx i).
Proof. intros H. unfold hx, lower_hex. destruct (Z.ltb_spec i 10); lia. Qed.
Lemma hx_keep i : 0 <= i < 16 -> negb (hx i =? 45) = true.
Proof. intros H. unfold hx. destruct (Z.ltb_spec i 10); lia. Qed.
Lemma hx_val i : 0 <= i < 16 -> hex_val (hx i) = i.
Proof. intros H. unfold hx, hex_val. destruct (Z.ltb_spec i 10); [destruct (Z.leb_spec (48 + i) 57)|destruct (Z.leb_spec (87 + i) 57)]; lia. Qed.
Lemma high b : Z.shiftr b 4 = b / 16.
Proof. rewrite Z.shiftr_div_pow2 by lia. reflexivity. Qed.
Lemma low b : Z.land b 0xF = b mod 16.
Proof. change 0xF with (Z.ones 4). rewrite Z.land_ones by lia. reflexivity. Qed.
Lemma fix8 b : 0 <= b < 256 -> Z.lor (Z.land b 0x3F) 0x80 = 128 + b mod 64.
Proof. intros H. pose proof (forall_byte 256 (fun b => Z.lor (Z.land b 0x3F) 0x80 =? 128 + b mod 64)) as E. apply Z.eqb_eq. apply E; [vm_compute; reflexivity|exact H]. Qed.
Lemma fix6 b : 0 <= b < 256 -> Z.lor (Z.land b 0x0F) 0x40 = 64 + b mod 16.
Proof. intros H. pose proof (forall_byte 256 (fun b => Z.lor (Z.land b 0x0F) 0x40 =? 64 + b mod 16)) as E. apply Z.eqb_eq. apply E; [vm_compute; reflexivity|exact H]. Qed.

Definition hh (b : Z) := hx (b / 16).
Definition ll (b : Z) := hx (b mod 16).
Definition two (bs : list Z) : list Z := flat_map (fun b => [hh b; ll b]) bs.
(** The text of 16 bytes. *)
Definition txt (bs : list Z) : list Z :=
  two (firstn 4 bs) ++ [45] ++ two (firstn 2 (skipn 4 bs)) ++ [45] ++ two (firstn 2 (skipn 6 bs)) ++ [45] ++ two (firstn 2 (skipn 8 bs)) ++ [45] ++ two (skipn 10 bs).
Definition byte (b : Z) : Prop := 0 <= b < 256.

Lemma sixteen (bs : list Z) : length bs = 16%nat -> exists a b c d e f g h i j k l m n o p, bs = [a; b; c; d; e; f; g; h; i; j; k; l; m; n; o; p].
Proof. intros H. do 17 (destruct bs as [|? bs]; try discriminate H). repeat eexists. Qed.
Lemma long_buf (buf : list Z) n : (n <= length buf)%nat -> exists a b, buf = a ++ b /\ length a = n /\ b = skipn n buf.
Proof. intros H. exists (firstn n buf), (skipn n buf). split; [symmetry; apply firstn_skipn|]. split; [apply firstn_length_le, H|reflexivity]. Qed.

Lemma step_hex f buf bs cp bp b cp' bp' : nth_error bs bp = Some b -> byte b -> (cp + 1 < length buf)%nat ->
  (cp <? 36)%nat = true -> ((cp =? 8)%nat || (cp =? 13)%nat || (cp =? 18)%nat || (cp =? 23)%nat) = false -> cp' = (cp + 2)%nat -> bp' = (bp + 1)%nat ->
  print_loop (Datatypes.S f) buf bs cp bp = print_loop f (upd (upd buf cp (hh b)) (cp + 1) (ll b)) bs cp' bp'.
Proof.
  intros N B L C D -> ->. unfold byte in B. cbn [print_loop]. rewrite C, D. unfold rd. rewrite N. cbn [bind]. rewrite high, low.
  rewrite hex_char_eq by lia. cbn [bind]. rewrite wr_ok by lia. cbn [bind]. rewrite hex_char_eq by lia. cbn [bind].
  rewrite wr_ok by (rewrite upd_len; lia). reflexivity.
Qed.
Lemma step_dash f buf bs cp bp cp' : (cp < length buf)%nat ->
  (cp <? 36)%nat = true -> ((cp =? 8)%nat || (cp =? 13)%nat || (cp =? 18)%nat || (cp =? 23)%nat) = true -> cp' = (cp + 1)%nat ->
  print_loop (Datatypes.S f) buf bs cp bp = print_loop f (upd buf cp 45) bs cp' bp.
Proof. intros L C D ->. cbn [print_loop]. rewrite C, D. rewrite wr_ok by lia. reflexivity. Qed.

Lemma print_done f buf bs bp : print_loop (Datatypes.S f) buf bs 36 bp = Ok (buf, 36%nat, bp).
Proof. reflexivity. Qed.

Lemma print_eq bs buf : length bs = 16%nat -> Forall byte bs -> (37 <= length buf)%nat ->
  exists buf', print_loop 37 buf bs 0 0 = Ok (buf', 36%nat, 16%nat) /\ length buf' = length buf /\ upd buf' 36 0 = txt bs ++ 0 :: skipn 37 buf.
Proof.
  intros L B H. destruct (sixteen bs L) as (a & b & c & d & e & f & g & h & i & j & k & l & m & n & o & p & ->).
  repeat (apply Forall_cons_iff in B; destruct B as [? B]).
  eexists. split; [|split].
  - do 4 (erewrite step_hex; [|reflexivity|assumption|rewrite ?upd_len; lia|reflexivity|reflexivity|reflexivity|reflexivity]; cbn [Nat.add]).
    do 3 (erewrite step_dash; [|rewrite ?upd_len; lia|reflexivity|reflexivity|reflexivity]; cbn [Nat.add];
      do 2 (erewrite step_hex; [|reflexivity|assumption|rewrite ?upd_len; lia|reflexivity|reflexivity|reflexivity|reflexivity]; cbn [Nat.add])).
    erewrite step_dash; [|rewrite ?upd_len; lia|reflexivity|reflexivity|reflexivity]; cbn [Nat.add].
    do 6 (erewrite step_hex; [|reflexivity|assumption|rewrite ?upd_len; lia|reflexivity|reflexivity|reflexivity|reflexivity]; cbn [Nat.add]).
    apply print_done.
  - rewrite !upd_len. reflexivity.
  - destruct (long_buf buf 37 H) as (x & y & E & Lx & Ey). rewrite <- Ey. rewrite E. clear E Ey H L.
    do 38 (destruct x as [|? x]; try discriminate Lx).
    cbv [upd app txt two flat_map firstn skipn]. reflexivity.
Qed.

(** The bytes with version and variant. *)
Fixpoint versioned (i : nat) (zs : list Z) : list Z :=
  match zs with
  | [] => []
  | z :: t => (if (i =? 6)%nat then 64 + z mod 16 else if (i =? 8)%nat then 128 + z mod 64 else z mod 256) :: versioned (Datatypes.S i) t
  end.
Lemma version_eq zs : length zs = 16%nat -> set_version (map (fun z => z mod 256) zs) = Ok (versioned 0 zs).
Proof.
  intros L. destruct (sixteen zs L) as (a & b & c & d & e & f & g & h & i & j & k & l & m & n & o & p & ->).
  unfold set_version, rd, wr. cbn [map nth_error bind length Nat.ltb Nat.leb upd versioned Nat.eqb].
  rewrite fix8, fix6 by lia.
  replace ((i mod 256) mod 64) with (i mod 64) by lia. replace ((g mod 256) mod 16) with (g mod 16) by lia. reflexivity.
Qed.
Lemma versioned_bytes zs i : Forall byte (versioned i zs).
Proof.
  revert i. induction zs as [|z t IH]; intros i; cbn [versioned]; constructor; [|apply IH]. unfold byte.
  destruct (i =? 6)%nat; [lia|]. destruct (i =? 8)%nat; lia.
Qed.
Lemma versioned_len zs i : length (versioned i zs) = length zs.
Proof. revert i. induction zs as [|z t IH]; intros i; cbn [versioned length]; [reflexivity|]. rewrite IH. reflexivity. Qed.

Lemma uuid_eq clk g buf : good g -> (37 <= length buf)%nat ->
  uuid_generate clk g buf = Ok (skip clk 16 g, txt (versioned 0 (outputs clk 16 g)) ++ 0 :: skipn 37 buf).
Proof.
  intros G H. unfold uuid_generate. assert (E : (length buf <? 36 + 1)%nat = false) by (apply Nat.ltb_ge; exact H). rewrite E.
  rewrite bytes_eq by exact G. remember (outputs clk 16 g) as zs eqn:Z. assert (L : length zs = 16%nat) by (subst; apply outputs_len). clear Z.
  remember (skip clk 16 g) as g' eqn:X. clear X. cbn [bind]. rewrite version_eq by exact L. cbn [bind].
  destruct (print_eq (versioned 0 zs) buf) as (buf' & P & L' & U); [rewrite versioned_len; exact L|apply versioned_bytes|exact H|].
  rewrite P. cbn [bind Nat.eqb negb]. rewrite wr_ok by lia. cbn [bind]. rewrite U. reflexivity.
Qed.

Lemma keep_hx i t : 0 <= i < 16 -> filter (fun c => negb (c =? 45)) (hx i :: t) = hx i :: filter (fun c => negb (c =? 45)) t.
Proof. intros H. cbn [filter]. rewrite hx_keep by exact H. reflexivity. Qed.
Lemma keep_dash t : filter (fun c => negb (c =? 45)) (45 :: t) = filter (fun c => negb (c =? 45)) t.
Proof. reflexivity. Qed.
Lemma txt_bytes bs : length bs = 16%nat -> Forall byte bs -> uuid_bytes (txt bs) = bs.
Proof.
  intros L B. destruct (sixteen bs L) as (a & b & c & d & e & f & g & h & i & j & k & l & m & n & o & p & ->). unfold byte in B.
  repeat (apply Forall_cons_iff in B; destruct B as [? B]).
  unfold uuid_bytes, txt. cbn [firstn skipn two flat_map app]. unfold hh, ll.
  repeat (first [rewrite keep_dash | rewrite keep_hx by lia]).
  assert (N : filter (fun c => negb (c =? 45)) [] = []) by reflexivity. rewrite N. clear N. cbn [pairs].
  repeat (rewrite hx_val by lia). repeat f_equal; lia.
Qed.
Lemma txt_form zs : length zs = 16%nat -> uuid4 (txt (versioned 0 zs)).
Proof.
  intros L. destruct (sixteen zs L) as (a & b & c & d & e & f & g & h & i & j & k & l & m & n & o & p & ->).
  cbn [versioned Nat.eqb]. unfold txt. cbn [firstn skipn two flat_map app]. unfold hh, ll. split; [reflexivity|]. split; [|split].
  - intros q x Q. do 36 (destruct q as [|q]; [cbn [nth_error] in Q;
      match type of Q with Some ?v = Some _ => assert (V : v = x) by congruence end; cbn [existsb Nat.eqb orb]; rewrite <- V;
      first [reflexivity|apply hx_char; lia]|]). cbn [nth_error] in Q. destruct q; discriminate.
  - cbn [nth_error]. replace ((64 + g mod 16) / 16) with 4 by lia. reflexivity.
  - cbn [nth_error]. eexists. split; [reflexivity|]. assert (V : (128 + i mod 64) / 16 = 8 \/ (128 + i mod 64) / 16 = 9 \/ (128 + i mod 64) / 16 = 10 \/ (128 + i mod 64) / 16 = 11) by lia.
    destruct V as [-> | [-> | [-> | ->]]]; cbn; auto.
Qed.
