(** Vocabulary of the slab pool properties. A history lists calls and their
    results, the newest first. *)
From Verif Require Import Base SlabPool_model.

Definition history := list (sop * sout).

(** Pointers obtained and not returned yet. *)
Fixpoint outstanding (h : history) : list Z :=
  match h with
  | [] => []
  | (SAlloc _, OPtr (Some p)) :: h' => p :: outstanding h'
  | (SFree p, _) :: h' => remove Z.eq_dec p (outstanding h')
  | _ :: h' => outstanding h'
  end.

(** The byte at address [x] of the guard zone around object [p]: the last one
    users stored there since [p] was allocated, else the guard byte. *)
Fixpoint guard_content (h : history) (p x : Z) : Z :=
  match h with
  | [] => 0x7b
  | (SWrite y b, _) :: h' => if y =? x then b else guard_content h' p x
  | (SAlloc _, OPtr (Some q)) :: h' => if q =? p then 0x7b else guard_content h' p x
  | _ :: h' => guard_content h' p x
  end.

(** The 8 bytes on each side of an object, rounded up to the slot end. *)
Definition guard_end (obj : Z) : Z := obj + 8 + (- obj) mod 8.
Definition in_guard (obj p x : Z) : Prop := p - 8 <= x < p \/ p + obj <= x < p + guard_end obj.

(** What users may do: return what they hold, and store in their objects or
    overrun them by no more than the guard zone. *)
Definition permitted (obj : Z) (h : history) (o : sop) : Prop :=
  match o with
  | SFree p => In p (outstanding h)
  | SWrite x _ => exists p, In p (outstanding h) /\ p - 8 <= x < p + guard_end obj
  | _ => True
  end.

(** Memory blocks: [lo, lo + n). *)
Definition apart (b1 b2 : Z * Z) : Prop := fst b1 + snd b1 <= fst b2 \/ fst b2 + snd b2 <= fst b1.
Definition within (b1 b2 : Z * Z) : Prop := fst b2 <= fst b1 /\ fst b1 + snd b1 <= fst b2 + snd b2.

(** An arena answers with fresh aligned memory. *)
Definition fresh (blocks : list (Z * Z)) (b : Z * Z) : Prop :=
  0 < fst b /\ fst b mod 8 = 0 /\ Forall (apart b) blocks.

Fixpoint honest_answers (c : sp_conf) (pre : Z * Z) (s : sp) (anss : list (option Z)) : Prop :=
  match anss with
  | [] => True
  | ans :: anss' =>
      match ans with Some a => fresh (pre :: sp_slabs s) (a, slab_bytes c s) | None => True end
      /\ honest_answers c pre (snd (allocate_new_slab c s ans)) anss'
  end.
Definition honest (c : sp_conf) (pre : Z * Z) (s : sp) (o : sop) : Prop :=
  match o with
  | SAlloc ans => honest_answers c pre s [ans]
  | SReserve n anss =>
      honest_answers c pre
        (mkSp (sp_free s) (sp_used s) (sp_slabs s) (increase_slab_size c (sp_cur s) (n - nfree s)) (sp_fails s) (sp_owner s) (sp_bytes s))
        anss
  | _ => True
  end.

(** States reached from a freshly built pool by permitted calls. *)
Inductive reach (c : sp_conf) (pre : Z * Z) (min_bytes : Z) : history -> sp -> Prop :=
| reach_new : forall s, sp_new c min_bytes (fst pre) (snd pre) = Ok s -> reach c pre min_bytes [] s
| reach_step : forall h s o r s',
    reach c pre min_bytes h s -> permitted (sc_obj c) h o -> honest c pre s o ->
    sp_step c s o = Ok (r, s') -> reach c pre min_bytes ((o, r) :: h) s'.

(** Sensible configurations. *)
Definition good_conf (c : sp_conf) (pre : Z * Z) : Prop :=
  0 <= sc_obj c < 2 ^ 32 /\ 0 <= sc_max_bytes c /\ 0 <= snd pre /\ fst pre mod 8 = 0 /\ (0 < snd pre -> 0 < fst pre).
