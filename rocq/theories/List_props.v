(** C23: the intrusive list behaves as a sequence. *)
From Verif Require Import Base List_model List_spec List_proof.
Open Scope res_scope.

(** For every history of operations on any number of lists: either the history
    is legal for mathematical sequences, and then walking each list forwards and
    backwards, its size and its membership test give exactly the sequence; or
    it contains an illegal operation, and then the code panics. In no case is
    memory misused. (insert_after is called with an element of the list.) *)
Theorem C23_sequence n ops :
  Forall (fun o => (on o < n)%nat) ops -> after_ok (repeat [] n) ops ->
  match spec_run (repeat [] n) ops with
  | Some s =>
      exists h, lrun heap0 ops = Ok h /\
        forall k, (k < n)%nat ->
          forward h k = Ok (content s k) /\ backward h k = Ok (rev (content s k)) /\
          sz h k = length (content s k) /\
          forall e, impl_contains h k (Node e) = true <-> In e (content s k)
  | None => lrun heap0 ops = Panic
  end.
Proof.
  intros Ho Ha. pose proof (lrun_sound ops heap0 (repeat [] n) (inv0 n)) as L. rewrite repeat_length in L. specialize (L Ho Ha).
  destruct (spec_run _ _) as [s|]; [|exact L]. destruct L as (h & Er & I & El). rewrite <- El. exists h. split; [exact Er|]. intros k Hk.
  split; [apply forward_ok; assumption|]. split; [apply backward_ok; assumption|]. split; [apply inv_size; assumption|].
  intros e. unfold impl_contains. pose proof (inv_own h s I e k) as O. destruct (ow h (Node e)) as [j|] eqn:E.
  - destruct (Nat.eqb_spec j k) as [->|N]; [split; [intros _; apply O; reflexivity|reflexivity]|].
    split; [discriminate|]. intros Hin. assert (Some j = Some k) by (apply O; auto). congruence.
  - split; [discriminate|]. intros Hin. assert (None = Some k) by (apply O; auto). discriminate.
Qed.
Print Assumptions C23_sequence.

(** In particular a double insertion, a removal of an element of another list
    and a pop from an empty list are detected after every legal history. *)
Theorem C23_misuse_detected n ops s h k e :
  Forall (fun o => (on o < n)%nat) ops -> after_ok (repeat [] n) ops ->
  spec_run (repeat [] n) ops = Some s -> lrun heap0 ops = Ok h -> (k < n)%nat ->
  ((exists j, In e (content s j)) ->
     lstep h (PushFront k e) = Panic /\ lstep h (PushBack k e) = Panic /\ forall b, lstep h (InsertBefore k e b) = Panic) /\
  (~ In e (content s k) -> lstep h (Remove k e) = Panic /\ forall x, (forall j, ~ In x (content s j)) -> lstep h (InsertBefore k x e) = Panic) /\
  (content s k = [] -> lstep h (PopFront k) = Panic /\ lstep h (PopBack k) = Panic).
Proof.
  intros Ho Ha Es Er Hk. pose proof (lrun_sound ops heap0 (repeat [] n) (inv0 n)) as L. rewrite repeat_length in L. specialize (L Ho Ha).
  rewrite Es in L. destruct L as (h' & Er' & I & El). assert (h' = h) by congruence. subst h'. rewrite <- El in Hk.
  split; [|split].
  - intros Hm. apply member_spec in Hm.
    pose proof (lstep_sound h s (PushFront k e) I Hk Logic.I) as A. pose proof (lstep_sound h s (PushBack k e) I Hk Logic.I) as B.
    cbn [spec_step] in A, B. rewrite Hm in A, B. split; [exact A|]. split; [exact B|]. intros b.
    pose proof (lstep_sound h s (InsertBefore k e b) I Hk Logic.I) as C. cbn [spec_step] in C. rewrite Hm in C. exact C.
  - intros Hn. assert (Hf : in_list e (content s k) = false).
    { destruct (in_list e (content s k)) eqn:E; [|reflexivity]. apply in_list_spec in E. contradiction. }
    pose proof (lstep_sound h s (Remove k e) I Hk Logic.I) as A. cbn [spec_step] in A. rewrite Hf in A. split; [exact A|]. intros x Hx.
    pose proof (lstep_sound h s (InsertBefore k x e) I Hk Logic.I) as C. cbn [spec_step] in C. rewrite Hf, orb_true_r in C. exact C.
  - intros Hc. pose proof (lstep_sound h s (PopFront k) I Hk Logic.I) as A. pose proof (lstep_sound h s (PopBack k) I Hk Logic.I) as B.
    cbn [spec_step] in A, B. rewrite Hc in A, B. auto.
Qed.
Print Assumptions C23_misuse_detected.

(** The condition on insert_after is needed: remove leaves the links of the
    removed node in place, so inserting "after" an element that is no longer in
    the list is not detected but inserts before its former successor. *)
Theorem C23_insert_after_removed_refuted :
  let ops := [PushBack 0 1; PushBack 0 2; Remove 0 1] in
  spec_run [[]] ops = Some [[2%nat]] /\ spec_step [[2%nat]] (InsertAfter 0 3 1) = None /\
  (h <- lrun heap0 ops ;; h' <- lstep h (InsertAfter 0 3 1) ;; c <- forward h' 0 ;;
   Ok (impl_contains h 0 (Node 1), c)) = Ok (false, [3; 2]%nat).
Proof. cbn zeta. split; [reflexivity|]. split; [reflexivity|]. vm_compute. reflexivity. Qed.
Print Assumptions C23_insert_after_removed_refuted.

(** A non-trivial history. *)
Example C23_history :
  let ops := [PushBack 0 1; PushFront 0 2; InsertAfter 0 3 2; InsertBefore 0 4 1; PushBack 1 5; PopFront 0; Remove 0 4; PopBack 0; PushFront 1 1] in
  Forall (fun o => (on o < 2)%nat) ops /\ after_ok (repeat [] 2) ops /\
  spec_run (repeat [] 2) ops = Some [[3]; [1; 5]]%nat /\ spec_run (repeat [] 2) (ops ++ [PushFront 0 5]) = None.
Proof. cbn zeta. split; [repeat constructor|]. split; [cbn; auto 20|]. split; reflexivity. Qed.
