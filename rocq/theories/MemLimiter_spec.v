(** What users hold, from the results of their calls. *)
From Verif Require Import Base MemLimiter_model.

Definition delta (o : mout) : Z := match o with MAcquired n => n | MReleased n => - n | _ => 0 end.
Definition held (outs : list mout) : Z := fold_right (fun o acc => delta o + acc) 0 outs.

(** Threads together never release more than they hold at that moment, and
    ask for amounts that do not overflow the counter. *)
Definition sane (limit n : Z) : Prop := 0 < n /\ limit + n < 2 ^ 64.
Fixpoint permitted (limit : Z) (s : ml) (h : Z) (ls : list mlabel) : Prop :=
  match ls with
  | [] => True
  | l :: ls' =>
      match ml_step limit s l with
      | None => permitted limit s h ls'
      | Some r =>
          match l with LAcquire _ n => sane limit n | LRelease _ n => 0 < n <= h | _ => True end /\
          match r with Ok (o, s') => permitted limit s' (h + delta o) ls' | _ => True end
      end
  end.

Definition total (live : list (Z * Z)) : Z := fold_right (fun b acc => snd b + acc) 0 live.
