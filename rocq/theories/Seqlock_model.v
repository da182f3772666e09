(** Model of roc_core/seqlock_impl.cpp (behind seqlock.h): any number of
    threads interleaving at their accesses to the version and to each byte of
    the value. Memory is sequentially consistent: the fences in the code are
    what makes the relaxed accesses behave so; they are not modelled. Values
    are lists of bytes of a fixed length. try_load_repeat makes up to three
    load attempts and wait_load any number; the model has single attempts. *)
From Verif Require Import Base.

(** Inside try_store after loading an even version; inside exclusive_store
    after loading the version; copying byte [i] of the new value; inside
    try_load_ having copied [buf] *)
Inductive sth := TIdle | TTry (v : list Z) (ver0 : Z) | TExcl (v : list Z) (ver0 : Z) | TCopy (v : list Z) (ver0 : Z) (i : nat) | TLoad (ver0 : Z) (buf : list Z).
Record sl := mkSl { sl_ver : Z; sl_val : list Z; sl_th : nat -> sth }.
Definition sl_new (v : list Z) : sl := mkSl 0 v (fun _ => TIdle).

Definition sput (s : sl) (t : nat) (x : sth) : sl := mkSl (sl_ver s) (sl_val s) (fun u => if Nat.eqb u t then x else sl_th s u).

Inductive sllabel := LTry (t : nat) (v : list Z) | LExcl (t : nat) (v : list Z) | LBegin (t : nat) | LStep (t : nat).
Inductive slout := SNone | SStored (t : nat) (v : list Z) (ver : Z) | SStoreFailed (t : nat) | SLoaded (t : nat) (v : list Z) (ver : Z) | SLoadFailed (t : nat).

(** seqlock_impl.cpp:41-77 and 107-119; [None]: the thread is not at this
    step. *)
Definition sl_step (s : sl) (l : sllabel) : option (slout * sl) :=
  match l with
  | LTry t v =>
      match sl_th s t with
      | TIdle =>
          if (length v =? length (sl_val s))%nat then
            Some (if Z.odd (sl_ver s) then (SStoreFailed t, s) else (SNone, sput s t (TTry v (sl_ver s))))
          else None
      | _ => None
      end
  | LExcl t v =>
      match sl_th s t with
      | TIdle => if (length v =? length (sl_val s))%nat then Some (SNone, sput s t (TExcl v (sl_ver s))) else None
      | _ => None
      end
  | LBegin t => match sl_th s t with TIdle => Some (SNone, sput s t (TLoad (sl_ver s) [])) | _ => None end
  | LStep t =>
      match sl_th s t with
      | TIdle => None
      | TTry v ver0 =>
          Some (if sl_ver s =? ver0 then (SNone, sput (mkSl (u32 (ver0 + 1)) (sl_val s) (sl_th s)) t (TCopy v ver0 0))
                else (SStoreFailed t, sput s t TIdle))
      | TExcl v ver0 => Some (SNone, sput (mkSl (u32 (ver0 + 1)) (sl_val s) (sl_th s)) t (TCopy v ver0 0))
      | TCopy v ver0 i =>
          Some match nth_error v i with
               | Some b => (SNone, sput (mkSl (sl_ver s) (upd (sl_val s) i b) (sl_th s)) t (TCopy v ver0 (S i)))
               | None => (SStored t v (u32 (ver0 + 2)), sput (mkSl (u32 (ver0 + 2)) (sl_val s) (sl_th s)) t TIdle)
               end
      | TLoad ver0 buf =>
          Some match nth_error (sl_val s) (length buf) with
               | Some b => (SNone, sput s t (TLoad ver0 (buf ++ [b])))
               | None =>
                   (if Z.even ver0 && (ver0 =? sl_ver s) then SLoaded t buf (sl_ver s) else SLoadFailed t, sput s t TIdle)
               end
      end
  end.

Fixpoint sl_run (s : sl) (ls : list sllabel) : list slout * sl :=
  match ls with
  | [] => ([], s)
  | l :: ls' =>
      match sl_step s l with
      | None => sl_run s ls'
      | Some (o, s1) => let '(outs, s2) := sl_run s1 ls' in (o :: outs, s2)
      end
  end.
