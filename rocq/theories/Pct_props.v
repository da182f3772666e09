(** C35: percent encoding. *)
From Coq Require Import String.
From Verif Require Import Base Base_lemmas Rtp_proof Pct_model Pct_spec Pct_proof.
Open Scope string_scope.
Open Scope list_scope.
Open Scope Z_scope.

(** The characters each mode leaves as they are, as an explicit set. *)
Definition allowed (m : pct_mode) : list Z :=
  match m with PctNonUnreserved => unreserved | PctNonHost => host_chars | PctNonPath => path_chars end.

Lemma skip_allowed m c : 0 <= c < 256 -> skip_encoding m c = true -> In c (allowed m).
Proof.
  intros Hc. 
  assert (G : forall c, 0 <= c < 256 -> (negb (skip_encoding m c) || existsb (Z.eqb c) (allowed m)) = true).
  { intros c0 H0. apply (all_below_spec 256 (fun c => negb (skip_encoding m c) || existsb (Z.eqb c) (allowed m))); [destruct m; vm_compute; reflexivity|exact H0]. }
  specialize (G c Hc). intros E. rewrite E in G. cbn in G. apply existsb_exists in G. destruct G as (x & Hin & Ex).
  apply Z.eqb_eq in Ex. subst. exact Hin.
Qed.

(** Encoding any NUL-free text succeeds in every mode and decoding the result
    gives the text back. *)
Theorem C35_round_trip m s :
  Forall (fun c => 0 < c < 256) s ->
  exists e, pct_encode m s = Some e /\ pct_decode e = Some s.
Proof.
  intros F. destruct (encode_spec m s F) as (e & E & He & _). exists e. split; [exact E|apply decode_complete, He].
Qed.
Print Assumptions C35_round_trip.

(** The encoded text contains only characters permitted in the component, '%'
    and upper-case hexadecimal digits, and is at most three times as long. *)
Theorem C35_alphabet m s e :
  Forall (fun c => 0 < c < 256) s -> pct_encode m s = Some e ->
  Forall (fun c => In c (allowed m) \/ In c (chars "%0123456789ABCDEF")) e /\
  (List.length s <= List.length e <= 3 * List.length s)%nat.
Proof.
  intros F E. destruct (encode_spec m s F) as (e' & E' & _ & Hf & Hl). rewrite E in E'. injection E' as <-.
  split; [|exact Hl].
  eapply Forall_impl; [|exact Hf]. cbn beta. intros c [H|H].
  - left. destruct (Z_lt_le_dec c 0) as [Hn|Hn]; [|destruct (Z_lt_le_dec c 256) as [Hu|Hu]; [apply skip_allowed; [lia|exact H]|]];
      exfalso; destruct m; cbn [skip_encoding] in H;
      unfold is_unreserved, is_host_char, is_segment_char, is_pchar, is_unreserved, is_subdelim, is_ip_literal_char, is_regname_char,
        is_unreserved, is_subdelim, isalnum, isalpha, isxdigit, isdigit, mem, existsb in H; lia.
  - right. cbn. lia.
Qed.
Print Assumptions C35_alphabet.

(** Decoding accepts exactly the well-formed texts (every '%' followed by two
    hexadecimal digits, no NUL, plain or escaped) and gives what they encode. *)
Theorem C35_decode_exact s t : pct_decode s = Some t <-> encodes s t.
Proof. split; [apply (decode_sound (List.length s)); lia|apply decode_complete]. Qed.
Print Assumptions C35_decode_exact.

(** Decoding never expands, and never produces a NUL. *)
Theorem C35_decode_shrinks s t :
  pct_decode s = Some t -> (List.length t <= List.length s)%nat /\ ~ In 0 t.
Proof.
  intros E. apply C35_decode_exact in E. induction E; cbn [length In]; [split; [lia|tauto]| |];
    destruct IHE; split; try lia; intros [X|X]; try tauto; lia.
Qed.
Print Assumptions C35_decode_shrinks.

(** A text with an embedded NUL is refused by the encoder. *)
Theorem C35_encode_nul m s : In 0 s -> pct_encode m s = None.
Proof.
  induction s as [|c s IH]; cbn [In pct_encode]; [tauto|]. intros [-> | H]; [reflexivity|].
  destruct (c =? 0); [reflexivity|]. rewrite (IH H). destruct (skip_encoding m c); reflexivity.
Qed.
Print Assumptions C35_encode_nul.

Example C35_example :
  pct_encode PctNonPath (chars "/a b?" ++ [200]) = Some (chars "/a%20b%3F%C8") /\
  pct_decode (chars "/a%20b%3f%C8") = Some (chars "/a b?" ++ [200]) /\
  pct_decode (chars "a%2") = None /\ pct_decode (chars "a%00") = None /\ pct_decode (chars "a%g0") = None.
Proof. vm_compute. auto 10. Qed.

(** A single character is left as it is exactly if the component permits it. *)
Theorem C35_literal m c : 0 < c < 256 -> pct_encode m [c] = Some [c] <-> In c (allowed m).
Proof.
  intros Hc. assert (E : skip_encoding m c = existsb (Z.eqb c) (allowed m)).
  { apply Bool.eqb_prop.
    apply (all_below_spec 256 (fun c => Bool.eqb (skip_encoding m c) (existsb (Z.eqb c) (allowed m)))); [destruct m; vm_compute; reflexivity|lia]. }
  cbn [pct_encode]. destruct (Z.eqb_spec c 0); [lia|]. split.
  - intros H. destruct (skip_encoding m c) eqn:S; [|discriminate H]. symmetry in E. apply existsb_exists in E. destruct E as (x & I & X).
    apply Z.eqb_eq in X. subst. exact I.
  - intros H. rewrite E. replace (existsb (Z.eqb c) (allowed m)) with true; [reflexivity|].
    symmetry. apply existsb_exists. exists c. split; [exact H|apply Z.eqb_refl].
Qed.
Print Assumptions C35_literal.
Example C35_literal_ex : In 47 (allowed PctNonPath) /\ ~ In 47 (allowed PctNonHost) /\ pct_encode PctNonHost [47] = Some [37; 50; 70].
Proof. split; [cbn; tauto|]. split; [cbn; lia|reflexivity]. Qed.
