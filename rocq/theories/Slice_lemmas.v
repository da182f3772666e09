(** Lemmas about slices. *)
From Verif Require Import Base Base_lemmas Slice_model.
Local Open Scope nat_scope.

Lemma sl_sub_ok s a b : a <= b -> b <= s_size s -> sl_sub s a b = Ok (mkSl (s_off s + a) (b - a)).
Proof.
  intros. unfold sl_sub.
  destruct (Nat.ltb_spec b a); [lia|]. destruct (Nat.ltb_spec (s_size s) b); [lia|]. reflexivity.
Qed.

Lemma sl_reslice_ok n s a b : a <= b -> b <= n - s_off s -> sl_reslice n s a b = Ok (mkSl (s_off s + a) (b - a)).
Proof.
  intros. unfold sl_reslice, sl_cap.
  destruct (Nat.ltb_spec b a); [lia|]. destruct (Nat.ltb_spec (n - s_off s) b); [lia|]. reflexivity.
Qed.

Lemma sl_rd_app {A} (pre d post : list A) i x :
  nth_error d i = Some x -> sl_rd (pre ++ d ++ post) (mkSl (length pre) (length d)) i = Ok x.
Proof.
  intros H. assert (i < length d) by (apply nth_error_Some; congruence).
  unfold sl_rd, rd. cbn [s_size s_off]. destruct (Nat.ltb_spec i (length d)); [|lia].
  rewrite nth_error_app2 by lia. replace (length pre + i - length pre) with i by lia.
  rewrite nth_error_app1 by lia. rewrite H. reflexivity.
Qed.

Lemma sl_bytes_app {A} (pre d post : list A) :
  sl_bytes (pre ++ d ++ post) (mkSl (length pre) (length d)) = d.
Proof.
  unfold sl_bytes. cbn [s_size s_off]. rewrite skipn_app, skipn_all, Nat.sub_diag. cbn.
  rewrite firstn_app, firstn_all, Nat.sub_diag. cbn. apply app_nil_r.
Qed.

Lemma sl_bytes_app' {A} (pre d post : list A) mem o n :
  mem = pre ++ d ++ post -> o = length pre -> n = length d -> sl_bytes mem (mkSl o n) = d.
Proof. intros -> -> ->. apply sl_bytes_app. Qed.

Lemma sl_put_app {A} (pre x post bs : list A) mem s i :
  mem = pre ++ x ++ post -> s_off s + i = length pre -> length x = length bs ->
  i + length bs <= s_size s -> s_off s + s_size s <= length mem ->
  sl_put mem s i bs = Ok (pre ++ bs ++ post).
Proof.
  intros -> Ho Hx Hi Hm. unfold sl_put.
  destruct (Nat.leb_spec (i + length bs) (s_size s)); [|lia].
  destruct (Nat.leb_spec (s_off s + s_size s) (length (pre ++ x ++ post))); [|lia]. cbn [andb].
  rewrite Ho. rewrite firstn_app, firstn_all, Nat.sub_diag. cbn [firstn]. rewrite app_nil_r.
  f_equal. f_equal. f_equal. rewrite <- Hx, app_assoc, <- app_length, skipn_app, skipn_all, Nat.sub_diag. reflexivity.
Qed.
