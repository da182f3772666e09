(** Model of roc_core/hashmap_impl.cpp and hashmap.h.
    Bucket rings and the list of all nodes are represented by the sequences
    they denote (a ring from its head; insertion at its end). A node is a
    number; [keyof] is the key of the element and [hash] the user's key_hash();
    key_equal() is equality of keys. A bucket array is identified by a number
    (never reused: the address range of the array); -1 stands for the arrays of
    other hashmaps. size_t overflow is not modelled. *)
From Verif Require Import Base.
Open Scope res_scope.

(** hashmap_node.h:25-54 (links omitted) *)
Record hnode := mkHn { hn_hash : Z; hn_bucket : option (Z * nat) }.

Record hm := mkHm {
  hm_prealloc : Z;                      (* num_preallocated_buckets_ *)
  hm_curr : list (list nat);            (* curr_buckets_, n_curr_buckets_ *)
  hm_cid : Z;
  hm_prev : list (list nat);            (* prev_buckets_, n_prev_buckets_: [] when zero *)
  hm_pid : Z;
  hm_next_id : Z;
  hm_all : list nat;                    (* all_head_ ring; size_ is its length *)
  hm_size : Z;
  hm_pos : nat;                         (* rehash_pos_ *)
  hm_remain : Z;                        (* rehash_remain_nodes_ *)
  hm_nodes : nat -> hnode }.

Section H.
Variable keyof : nat -> Z.
Variable hash : Z -> Z.

(** hashmap_impl.cpp:14-29; [nodes0]: the nodes before. *)
Definition hm_new (prealloc : Z) (nodes0 : nat -> hnode) : hm :=
  mkHm prealloc [] 0 [] 0 0 [] 0 0 0 nodes0.

Definition nbuckets (b : list (list nat)) : Z := Z.of_nat (length b).

(** hashmap_impl.cpp:212-214 *)
Definition hm_capacity_of (n : Z) : Z := n * 13 / 2.
(** hashmap_impl.cpp:38-44 *)
Definition hm_capacity (s : hm) : Z := hm_capacity_of (nbuckets (hm_curr s)).

(** hashmap_impl.cpp:264-274 *)
Definition hm_member_of (id : Z) (b : list (list nat)) (d : hnode) : bool :=
  match hn_bucket d with
  | None => false
  | Some (i, j) => (i =? id) && (j <? length b)%nat
  end.
(** hashmap_impl.cpp:46-56 *)
Definition hm_contains (s : hm) (n : nat) : bool :=
  hm_member_of (hm_cid s) (hm_curr s) (hm_nodes s n) || hm_member_of (hm_pid s) (hm_prev s) (hm_nodes s n).

(** Bucket of a hash; the arrays are non-empty where this is used. *)
Definition slot (b : list (list nat)) (h : Z) : nat := Z.to_nat (h mod nbuckets b).

(** hashmap_impl.cpp:191-210 *)
Definition find_in_bucket (s : hm) (b : list nat) (h key : Z) : option nat :=
  List.find (fun n => (hn_hash (hm_nodes s n) =? h) && (keyof n =? key)) b.
(** hashmap_impl.cpp:58-78 *)
Definition hm_find_node (s : hm) (h key : Z) : option nat :=
  let in_array b := if nbuckets b =? 0 then None else find_in_bucket s (nth (slot b h) b []) h key in
  match in_array (hm_curr s) with
  | Some n => Some n
  | None => in_array (hm_prev s)
  end.
(** hashmap.h:150-159 *)
Definition hm_find (s : hm) (key : Z) : option nat := hm_find_node s (hash key) key.

(** hashmap_impl.cpp:80-92 *)
Definition hm_front (s : hm) : option nat := if hm_size s =? 0 then None else hd_error (hm_all s).
Definition hm_back (s : hm) : option nat := if hm_size s =? 0 then None else hd_error (rev (hm_all s)).

(** Successor of a node in a sequence. *)
Fixpoint after (n : nat) (l : list nat) : option nat :=
  match l with
  | [] => None
  | x :: t => if (x =? n)%nat then hd_error t else after n t
  end.
(** hashmap_impl.cpp:94-120 *)
Definition hm_nextof (s : hm) (n : nat) : res (option nat) :=
  if hm_contains s n then Ok (after n (hm_all s)) else Panic.
Definition hm_prevof (s : hm) (n : nat) : res (option nat) :=
  if hm_contains s n then Ok (after n (rev (hm_all s))) else Panic.

Definition nupd (f : nat -> hnode) (n : nat) (d : hnode) : nat -> hnode :=
  fun m => if (m =? n)%nat then d else f m.

Definition set_curr (s : hm) b := mkHm (hm_prealloc s) b (hm_cid s) (hm_prev s) (hm_pid s) (hm_next_id s) (hm_all s) (hm_size s) (hm_pos s) (hm_remain s) (hm_nodes s).
Definition set_prev (s : hm) b := mkHm (hm_prealloc s) (hm_curr s) (hm_cid s) b (hm_pid s) (hm_next_id s) (hm_all s) (hm_size s) (hm_pos s) (hm_remain s) (hm_nodes s).
Definition set_all (s : hm) l z := mkHm (hm_prealloc s) (hm_curr s) (hm_cid s) (hm_prev s) (hm_pid s) (hm_next_id s) l z (hm_pos s) (hm_remain s) (hm_nodes s).
Definition set_pos (s : hm) p := mkHm (hm_prealloc s) (hm_curr s) (hm_cid s) (hm_prev s) (hm_pid s) (hm_next_id s) (hm_all s) (hm_size s) p (hm_remain s) (hm_nodes s).
Definition set_remain (s : hm) r := mkHm (hm_prealloc s) (hm_curr s) (hm_cid s) (hm_prev s) (hm_pid s) (hm_next_id s) (hm_all s) (hm_size s) (hm_pos s) r (hm_nodes s).
Definition set_nodes (s : hm) f := mkHm (hm_prealloc s) (hm_curr s) (hm_cid s) (hm_prev s) (hm_pid s) (hm_next_id s) (hm_all s) (hm_size s) (hm_pos s) (hm_remain s) f.

(** hashmap_impl.cpp:276-297: select_bucket_ and bucket_insert_ *)
Definition hm_bucket_insert (s : hm) (n : nat) : res hm :=
  if nbuckets (hm_curr s) =? 0 then Panic
  else
    let h := hn_hash (hm_nodes s n) in
    let j := slot (hm_curr s) h in
    b <- rd (hm_curr s) j ;;
    curr <- wr (hm_curr s) j (b ++ [n]) ;;
    Ok (set_nodes (set_curr s curr) (nupd (hm_nodes s) n (mkHn h (Some (hm_cid s, j))))).

Definition rem (n : nat) (l : list nat) : list nat := filter (fun m => negb (m =? n)%nat) l.

(** hashmap_impl.cpp:299-319; the node belongs to one of the arrays. *)
Definition hm_bucket_remove (s : hm) (n : nat) : res hm :=
  match hn_bucket (hm_nodes s n) with
  | None => UB
  | Some (i, j) =>
      let clear s := set_nodes s (nupd (hm_nodes s) n (mkHn (hn_hash (hm_nodes s n)) None)) in
      if hm_member_of (hm_pid s) (hm_prev s) (hm_nodes s n) then
        b <- rd (hm_prev s) j ;;
        prev <- wr (hm_prev s) j (rem n b) ;;
        if hm_remain s <=? 0 then Panic
        else Ok (clear (set_remain (set_prev s prev) (hm_remain s - 1)))
      else
        b <- rd (hm_curr s) j ;;
        curr <- wr (hm_curr s) j (rem n b) ;;
        Ok (clear (set_curr s curr))
  end.

(** hashmap_impl.cpp:382-388 *)
Definition hm_migrate (s : hm) (n : nat) : res hm := s' <- hm_bucket_remove s n ;; hm_bucket_insert s' n.

(** hashmap_impl.cpp:354-379; every iteration advances rehash_pos_ or migrates
    a node, so the fuel given below is never used up. *)
Fixpoint hm_rehash_loop (fuel : nat) (s : hm) (num : Z) : res hm :=
  match fuel with
  | O => Ok s
  | S fuel' =>
      if (length (hm_prev s) <=? hm_pos s)%nat then Panic
      else
        b <- rd (hm_prev s) (hm_pos s) ;;
        match b with
        | [] =>
            let pos := S (hm_pos s) in
            if (pos =? length (hm_prev s))%nat then
              if negb (hm_remain s =? 0) then Panic else Ok (set_prev (set_pos s 0) [])
            else hm_rehash_loop fuel' (set_pos s pos) num
        | n :: _ =>
            if num =? 0 then Ok s
            else s' <- hm_migrate s n ;; hm_rehash_loop fuel' s' (num - 1)
        end
  end.

(** hashmap_impl.cpp:334-380 *)
Definition hm_proceed (s : hm) (in_insert : bool) : res hm :=
  if hm_remain s =? 0 then Ok s
  else
    let num :=
      if in_insert then
        let until := hm_capacity s - hm_size s in
        if until =? 0 then hm_remain s else (hm_remain s + until - 1) / until
      else 1 in
    hm_rehash_loop (length (hm_prev s) + Z.to_nat num + 1) s num.

(** hashmap_impl.cpp:392-395 *)
Definition prime_counts : list Z :=
  [5; 11; 23; 53; 97; 193; 389; 769; 1543; 3079; 6151; 12289; 24593; 49157; 98317; 196613; 393241; 786433].

(** hashmap_impl.cpp:403-411 *)
Fixpoint embedded_count (ps : list Z) (curr prealloc : Z) : option Z :=
  match ps with
  | [] => None
  | p :: t =>
      match t with
      | [] => None
      | q :: _ =>
          if prealloc <? p then None
          else if (curr <? p) && (prealloc <? q) then Some p
          else embedded_count t curr prealloc
      end
  end.
(** hashmap_impl.cpp:416-424 *)
Definition arena_count (curr : Z) : option Z :=
  List.find (fun p => negb (p <? 23) && (curr <? p)) prime_counts.
(** hashmap_impl.cpp:390-429 *)
Definition hm_next_count (prealloc curr : Z) : Z :=
  match (if curr <? prealloc then embedded_count prime_counts curr prealloc else None) with
  | Some p => p
  | None => match arena_count curr with Some p => p | None => curr * 3 end
  end.

(** hashmap_impl.cpp:216-252; [ok]: whether the arena has memory, if asked. *)
Definition hm_realloc (s : hm) (n : Z) (ok : bool) : res (bool * hm) :=
  if n <=? 0 then Panic
  else if negb (hm_pos s =? 0)%nat then Panic
  else if negb (hm_remain s =? 0) then Panic
  else
    let embedded := (n <=? hm_prealloc s) && (nbuckets (hm_curr s) =? 0) in
    if negb embedded && negb ok then Ok (false, s)
    else
      let buckets := repeat [] (Z.to_nat n) in
      if nbuckets (hm_curr s) =? 0 then
        Ok (true, mkHm (hm_prealloc s) buckets (hm_next_id s) (hm_prev s) (hm_pid s) (hm_next_id s + 1)
                    (hm_all s) (hm_size s) (hm_pos s) (hm_remain s) (hm_nodes s))
      else
        Ok (true, mkHm (hm_prealloc s) buckets (hm_next_id s) (hm_curr s) (hm_cid s) (hm_next_id s + 1)
                    (hm_all s) (hm_size s) 0 (hm_size s) (hm_nodes s)).

(** The loop hashmap_impl.cpp:176-178. *)
Fixpoint hm_grow_loop (fuel : nat) (prealloc n size : Z) : Z :=
  match fuel with
  | O => n
  | S fuel' =>
      let n' := hm_next_count prealloc n in
      if hm_capacity_of n' <=? size then hm_grow_loop fuel' prealloc n' size else n'
  end.

(** hashmap_impl.cpp:170-189 *)
Definition hm_grow (s : hm) (ok : bool) : res (bool * hm) :=
  let cap := hm_capacity s in
  if cap <? hm_size s then Panic
  else if hm_size s =? cap then
    let n := hm_grow_loop (S (Z.to_nat (hm_size s))) (hm_prealloc s) (nbuckets (hm_curr s)) (hm_size s) in
    bs <- hm_realloc s n ok ;;
    if fst bs then
      if hm_capacity (snd bs) <=? hm_size s then Panic else Ok bs
    else Ok bs
  else Ok (true, s).

(** hashmap_impl.cpp:122-152, hashmap.h:243-250 and 316-321 *)
Definition hm_insert (s : hm) (n : nat) (ok : bool) : res (bool * hm) :=
  bs <- (if hm_capacity s <=? hm_size s then hm_grow s ok else Ok (true, s)) ;;
  if negb (fst bs) then Ok (false, snd bs)
  else
    let s := snd bs in
    match hn_bucket (hm_nodes s n) with
    | Some _ => Panic
    | None =>
        let h := hash (keyof n) in
        match hm_find_node s h (keyof n) with
        | Some _ => Panic
        | None =>
            let s := set_nodes s (nupd (hm_nodes s) n (mkHn h None)) in
            s <- hm_bucket_insert s n ;;
            let s := set_all s (hm_all s ++ [n]) (hm_size s + 1) in
            s <- hm_proceed s true ;; Ok (true, s)
        end
    end.

(** hashmap_impl.cpp:154-168, hashmap.h:265-269 *)
Definition hm_remove (s : hm) (n : nat) : res hm :=
  if hm_contains s n then
    s <- hm_bucket_remove s n ;;
    let s := set_all s (rem n (hm_all s)) (hm_size s - 1) in
    hm_proceed s false
  else Panic.

Inductive hop := HInsert (n : nat) (ok : bool) | HRemove (n : nat) | HGrow (ok : bool).
Definition hm_step (s : hm) (o : hop) : res (bool * hm) :=
  match o with
  | HInsert n ok => hm_insert s n ok
  | HRemove n => s <- hm_remove s n ;; Ok (true, s)
  | HGrow ok => hm_grow s ok
  end.
Fixpoint hm_run (s : hm) (ops : list hop) : res (list bool * hm) :=
  match ops with
  | [] => Ok ([], s)
  | o :: ops' => bs <- hm_step s o ;; r <- hm_run (snd bs) ops' ;; Ok (fst bs :: fst r, snd r)
  end.
End H.
