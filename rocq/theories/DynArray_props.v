(** C68: dynamic arrays. *)
From Verif Require Import Base DynArray_model DynArray_spec DynArray_proof DynArray_step
  DynArray_run.

(** Every program that asks for sizes that can be expressed, uses only elements that
    are there and pushes no element of the array itself while it is full runs without
    undefined behaviour and without aborting, whatever the arena answers; what it sees
    is exactly what a plain list with a capacity shows: appended elements come last,
    a failed call changes nothing, resizing keeps the beginning and adds default
    elements, the capacity follows the documented sequence. *)
Theorem C68_calls : forall (V : Type) (dflt : V) (E : nat) (sz : Z) (cs : list (call V)),
  0 < sz <= 2 ^ 32 -> Z.of_nat E * sz <= 2 ^ 62 ->
  allowed dflt E sz [] 0 cs ->
  exists answers s l c,
    run dflt E sz (fresh V E) cs = Ok (answers, s) /\
    steps dflt E sz [] 0 cs answers l c.
Proof.
  intros V dflt E sz cs SZ ES AL.
  destruct (run_ok SZ ES (INV_fresh V E sz) AL) as (a & s & l & c & R1 & R2 & R3).
  exists a, s, l, c. auto.
Qed.
Print Assumptions C68_calls.

(** The specification leaves no choice: a program and the arena's answers determine
    all that is seen. *)
Theorem C68_determined : forall (V : Type) (dflt : V) (E : nat) (sz : Z)
  (cs : list (call V)) l c a1 a2 l1 l2 c1 c2,
  steps dflt E sz l c cs a1 l1 c1 -> steps dflt E sz l c cs a2 l2 c2 ->
  a1 = a2 /\ l1 = l2 /\ c1 = c2.
Proof. intros. eapply steps_det; eauto. Qed.
Print Assumptions C68_determined.

(** Taking, removing or overwriting an element that is not there aborts the program
    in a controlled way, after any such history. *)
Theorem C68_panics : forall (V : Type) (dflt : V) (E : nat) (sz : Z)
  (cs : list (call V)) answers l c x,
  0 < sz <= 2 ^ 32 -> Z.of_nat E * sz <= 2 ^ 62 ->
  allowed dflt E sz [] 0 cs -> steps dflt E sz [] 0 cs answers l c ->
  misuse l x ->
  run dflt E sz (fresh V E) (cs ++ [x]) = Panic.
Proof.
  intros V dflt E sz cs answers l c x SZ ES AL ST M.
  destruct (run_ok SZ ES (INV_fresh V E sz) AL) as (a & s & l' & c' & R1 & R2 & R3).
  destruct (steps_det ST R2) as (-> & -> & ->).
  eapply run_app; eauto. eapply misuse_ok; eauto.
Qed.
Print Assumptions C68_panics.

(** Destroying the array at any moment destroys every element that was constructed,
    each once, and gives back every block of memory. *)
Theorem C68_no_leak : forall (V : Type) (dflt : V) (E : nat) (sz : Z)
  (cs : list (call V)) answers s,
  0 < sz <= 2 ^ 32 -> Z.of_nat E * sz <= 2 ^ 62 ->
  allowed dflt E sz [] 0 cs ->
  run dflt E sz (fresh V E) cs = Ok (answers, s) ->
  exists s', destroy dflt E sz s = Ok s' /\
    made s' = gone s' /\
    Forall (fun cell => cell = None) (emb s') /\
    Forall (fun blk => blk = None) (hp s').
Proof.
  intros V dflt E sz cs answers s SZ ES AL R.
  destruct (run_ok SZ ES (INV_fresh V E sz) AL) as (a & s1 & l & c & R1 & R2 & R3).
  assert (s1 = s) by congruence. subst s1.
  destruct (destroy_ok dflt SZ ES R3) as (s' & D1 & D2 & D3 & D4).
  exists s'. split; auto. split; auto. split; auto. rewrite D2.
  clear. induction E; cbn; auto.
Qed.
Print Assumptions C68_no_leak.

(** At every moment the elements alive are the elements in the array, the arena is
    not used while the capacity fits into the object, and otherwise exactly one block
    is held, with room for exactly the capacity. *)
Theorem C68_memory : forall (V : Type) (dflt : V) (E : nat) (sz : Z)
  (cs : list (call V)) answers s l c,
  0 < sz <= 2 ^ 32 -> Z.of_nat E * sz <= 2 ^ 62 ->
  allowed dflt E sz [] 0 cs ->
  run dflt E sz (fresh V E) cs = Ok (answers, s) ->
  steps dflt E sz [] 0 cs answers l c ->
  made s - gone s = Z.of_nat (length l) /\ Z.of_nat (length l) <= c /\
  (c <= Z.of_nat E -> hp s = []) /\
  (Z.of_nat E < c -> exists n cells,
     hp s = repeat None n ++ [Some cells] /\ Z.of_nat (length cells) = c).
Proof.
  intros V dflt E sz cs answers s l c SZ ES AL R ST.
  destruct (run_ok SZ ES (INV_fresh V E sz) AL) as (a & s1 & l1 & c1 & R1 & R2 & R3).
  assert (X : s1 = s /\ a = answers) by (split; congruence). destruct X as [-> ->].
  destruct (steps_det R2 ST) as (_ & -> & ->).
  destruct R3 as (A & B & C & G & D). split; auto. split; auto.
  destruct (data s) as [[|n]|].
  - destruct D as (D1 & D2 & D3). split; auto. lia.
  - destruct D as (D1 & D2 & D3 & D4). split; [lia|]. intros _.
    exists n, (filled l (Z.to_nat c)). split; auto. rewrite len_filled; lia.
  - destruct D as (D1 & D2 & D3). split; auto. lia.
Qed.
Print Assumptions C68_memory.

(** Appending has constant cost on average: a program that only appends, removes,
    empties, reads and writes makes at most ten copies of existing elements per
    append, whatever the order and the number of calls. *)
Theorem C68_amortized : forall (V : Type) (dflt : V) (E : nat) (sz : Z)
  (cs : list (call V)) answers s,
  0 < sz <= 2 ^ 32 -> Z.of_nat E * sz <= 2 ^ 62 ->
  allowed dflt E sz [] 0 cs -> Forall (@appending V) cs ->
  run dflt E sz (fresh V E) cs = Ok (answers, s) ->
  copies s <= 10 * appends cs.
Proof.
  intros V dflt E sz cs answers s SZ ES AL AP R.
  assert (I : CI E sz (fresh V E) [] 0 0).
  { split; [apply INV_fresh|]. cbn. lia. }
  destruct (run_CI SZ ES I AL AP) as (a & s' & l & c & R1 & R2 & R3 & R4 & R5).
  assert (s' = s) by congruence. subst s'. lia.
Qed.
Print Assumptions C68_amortized.

(** Elements stay where they are in memory for as long as the capacity stays the
    same, and the capacity never decreases: pointers to elements survive every call
    that does not exceed the capacity.  For every array and any calls. *)
Theorem C68_stable : forall (V : Type) (dflt : V) (E : nat) (sz : Z) s
  (cs : list (call V)) answers s',
  run dflt E sz s cs = Ok (answers, s') ->
  cap s <= cap s' /\
  (cap s' = cap s -> size s <> 0 -> size s' <> 0 -> data_ptr s' = data_ptr s).
Proof.
  intros V dflt E sz s cs answers s' R. destruct (@run_still V dflt E sz cs s answers s' R) as [A B]. split; auto.
  intros C N N'. unfold data_ptr.
  destruct (Z.eqb_spec (size s) 0); [lia|]. destruct (Z.eqb_spec (size s') 0); [lia|].
  rewrite B; auto.
Qed.
Print Assumptions C68_stable.

(** An array cannot safely append one of its own elements: when the append makes it
    move, the element is read after it was destroyed.  Both for arrays in arena memory
    and for arrays leaving the embedded storage. *)
Theorem C68_self_push_refuted :
  (exists cs : list (call Z), Forall (sane 8) cs /\
     run 0 0 8 (fresh Z 0) (cs ++ [Size; Get 0]) = Ok ([ABool true; ABool true; ANum 2; AVal 7], snd
       (match run 0 0 8 (fresh Z 0) (cs ++ [Size; Get 0]) with Ok r => r | _ => ([], fresh Z 0) end)) /\
     run 0 0 8 (fresh Z 0) (cs ++ [PushElem 0 true]) = UB) /\
  (exists cs : list (call Z), Forall (sane 8) cs /\
     is_ok (run 0 2 8 (fresh Z 2) (cs ++ [Get 0])) /\
     run 0 2 8 (fresh Z 2) (cs ++ [PushElem 0 true]) = UB).
Proof.
  split.
  - exists [Push 7 true; Push 8 true]. split; [repeat constructor|].
    split; vm_compute; reflexivity.
  - exists [Push 7 true; Push 8 true]. split; [repeat constructor|].
    split; [|vm_compute; reflexivity].
    exists (match run 0 2 8 (fresh Z 2) ([Push 7 true; Push 8 true] ++ [Get 0]) with
            | Ok r => r | _ => ([], fresh Z 0) end).
    vm_compute. reflexivity.
Qed.
Print Assumptions C68_self_push_refuted.

(** Asking for more elements than [size_t] can count bytes for is not refused: room
    for 2^61+1 elements of 8 bytes is granted, with memory for a single one, and the
    second append writes outside of it. *)
Theorem C68_huge_refuted :
  exists s, run 0 0 8 (fresh Z 0) [Grow (2 ^ 61 + 1) true; Capacity; Push 1 true] =
    Ok ([ABool true; ANum (2 ^ 61 + 1); ABool true], s) /\
  run 0 0 8 (fresh Z 0) [Grow (2 ^ 61 + 1) true; Capacity; Push 1 true; Push 2 true] = UB.
Proof.
  exists (snd (match run 0 0 8 (fresh Z 0) [Grow (2 ^ 61 + 1) true; Capacity; Push 1 true]
               with Ok r => r | _ => ([], fresh Z 0) end)).
  split; vm_compute; reflexivity.
Qed.
Print Assumptions C68_huge_refuted.

(** Asking for exponential growth beyond 2^63 elements never returns: no number of
    turns of the loop is enough. *)
Theorem C68_endless_refuted : forall turns,
  next_capacity turns 0 (2 ^ 63 + 1) 0 = None.
Proof. intros. apply endless. auto. Qed.
Print Assumptions C68_endless_refuted.

(** The pointer to the first element of an empty array is documented as NULL; asking
    for it aborts. *)
Theorem C68_data_refuted : forall (V : Type) (E : nat), data_ptr (fresh V E) = Panic.
Proof. reflexivity. Qed.
Print Assumptions C68_data_refuted.



(** Embedded room for two elements of 8 bytes; the third push moves to the arena. *)
Definition demo3 : list (call Z) := [Push 1 true; Push 2 true; Push 3 true; PushElem 0 true].

Example ex_run :
  match run 0 2 8 (fresh Z 2) demo3 with
  | Ok (a, s) => a = [ABool true; ABool true; ABool true; ABool true] /\
      size s = 4 /\ cap s = 4 /\ copies s = 2 /\ made s - gone s = 4 /\
      hp s = [Some [Some 1; Some 2; Some 3; Some 1]]
  | _ => False
  end.
Proof. vm_compute. repeat split. Qed.

(** Failing arena. *)
Example ex_fail :
  match run 0 2 8 (fresh Z 2)
    [Push 1 true; Push 2 true; Push 3 false; Size; Back; Resize 5 false; Capacity;
     GrowExp 5 true; Capacity; Resize 5 true; Get 4] with
  | Ok (a, _) => a = [ABool true; ABool true; ABool false; ANum 2; AVal 2; ABool false;
      ANum 2; ABool true; ANum 8; ABool true; AVal 0]
  | _ => False
  end.
Proof. vm_compute. reflexivity. Qed.

(** The hypotheses are met by a program with appends, a move and an element pushed
    again. *)
Example ex_allowed : allowed 0 2 8 [] 0 demo3.
Proof.
  assert (C : forall m, m <= 100 -> can_have 2 8 true m) by (right; lia).
  assert (K : forall l c v l' c' a, step 0 2 8 l c (Push v true) a l' c' ->
    Z.of_nat (length l) <= c <= 4 ->
    a = ABool true /\ l' = l ++ [v] /\
    c' = (if c <=? Z.of_nat (length l) then Z.max 2 (2 * c) else c)).
  { intros l c v l' c' a S L. 
    assert (FF : forall w, first_fit c (Z.of_nat (length l) + 1) c w ->
      w = (if c <=? Z.of_nat (length l) then Z.max 2 (2 * c) else c)).
    { intros w F. destruct (Z.leb_spec c (Z.of_nat (length l))).
      - assert (EQ : Z.of_nat (length l) = c) by lia. rewrite EQ in F.
        assert (c0 : 0 <= c) by lia. rewrite (ff_one c0 F). unfold next_size.
        destruct (Z.ltb_spec c 1024); lia.
      - inversion F; subst; auto. lia. }
    inversion S; subst;
    match goal with F : first_fit _ _ _ ?w |- _ => apply FF in F; subst w end;
    match goal with R : room _ _ _ _ _ _ _ _ |- _ => inversion R; subst end.
    - split; auto. split; auto. destruct (Z.leb_spec c' (Z.of_nat (length l))); lia.
    - split; auto.
    - exfalso. match goal with N : ~ can_have _ _ _ _ |- _ => apply N end. apply C.
      destruct (Z.leb_spec c' (Z.of_nat (length l'))); lia. }
  unfold demo3. constructor; cbn [sane misuse moves_itself]; auto.
  intros a l c S. apply K in S; [|cbn; lia]. destruct S as (-> & -> & ->).
  constructor; cbn [sane misuse moves_itself]; auto.
  intros a' l c S. apply K in S; [|cbn; lia]. destruct S as (-> & -> & ->).
  constructor; cbn [sane misuse moves_itself]; auto.
  intros a'' l c S. apply K in S; [|cbn; lia]. destruct S as (-> & -> & ->).
  constructor; cbn [sane misuse moves_itself]; try lia; cbn; try lia.
  intros. constructor.
Qed.

Example ex_appending : Forall (@appending Z) demo3 /\ appends demo3 = 4.
Proof. split; [repeat constructor|reflexivity]. Qed.

Example ex_misuse : exists answers l c,
  steps 0 2 8 [] 0 [Push 5 true; Pop] answers l c /\ misuse l (@Back Z) /\
  run 0 2 8 (fresh Z 2) [Push 5 true; Pop; Back] = Panic.
Proof.
  exists [ABool true; ADone], [], 2. split; [|split; reflexivity].
  econstructor; [|econstructor; [|constructor]].
  - eapply S_push with (w := 2).
    + apply FF_next; [cbn; lia|]. apply FF_here. cbn. lia.
    + apply Room_more; [cbn; lia|]. left. cbn. lia.
  - apply S_pop with (v := 5). reflexivity.
Qed.

Example ex_endless : next_capacity 100 0 (2 ^ 62) 0 = Some (2 ^ 62).
Proof. vm_compute. reflexivity. Qed.
