(* What callers of the session router may expect, stated on its observable
   answers only: the session found for an SSRC, the session found for a source
   address, and whether a session is known.  Nothing here refers to routes. *)
From Coq Require Import ZArith List Bool.
From Verif Require Import Base SessRouter_model.
Import ListNotations.
Local Open Scope Z_scope.

(* ---- Polite callers ---- *)

(* The CNAME an SSRC was last linked to and not unlinked from since; the history
   is given newest call first. *)
Fixpoint linked (h : list rop) (s : Z) : option (list Z) :=
  match h with
  | [] => None
  | RLink t c :: h' => if t =? s then Some c else linked h' s
  | RUnlink t :: h' => if t =? s then None else linked h' s
  | _ :: h' => linked h' s
  end.

(* A polite call gives a session a source address, never links an SSRC to the
   empty CNAME, and does not link an SSRC to a second CNAME before unlinking it
   from the first. *)
Definition polite (h : list rop) (o : rop) : Prop :=
  match o with
  | RAdd _ _ a => a <> None
  | RLink s c => c <> [] /\ (linked h s = None \/ linked h s = Some c)
  | _ => True
  end.

Fixpoint all_polite (h : list rop) (ops : list rop) : Prop :=
  match ops with
  | [] => True
  | o :: ops' => polite h o /\ all_polite (o :: h) ops'
  end.

(* A whole history of calls, with the codes they returned. *)
Fixpoint rrun (st : rstate) (ops : list rop) : res (list code * rstate) :=
  match ops with
  | [] => Ok ([], st)
  | o :: ops' =>
      bind (rstep st o) (fun p =>
      bind (rrun (snd p) ops') (fun q => Ok (fst p :: fst q, snd q)))
  end.

(* ---- The reference table ---- *)

(* [vs]: session of an SSRC; [va]: session of a source address; [vl]: the
   session is known; [vc]: CNAME of an SSRC. *)
Record view := mkView {
  vs : Z -> option nat;
  va : Z -> option nat;
  vl : nat -> bool;
  vc : Z -> option (list Z)
}.

Definition v_empty : view :=
  mkView (fun _ => None) (fun _ => None) (fun _ => false) (fun _ => None).

Definition same_view (v w : view) : Prop :=
  (forall s, vs v s = vs w s) /\ (forall a, va v a = va w a) /\
  (forall x, vl v x = vl w x) /\ (forall s, vc v s = vc w s).

(* No address and no query answers session [x] any more. *)
Definition v_forget_keys (x : nat) (v : view) : view :=
  mkView (vs v) (fun a => if keyn (va v a) (Some x) then None else va v a)
         (fun y => if Nat.eqb y x then false else vl v y) (vc v).

(* Session [x] and everything that led to it is gone. *)
Definition v_forget (x : nat) (v : view) : view :=
  let w := v_forget_keys x v in
  mkView (fun s => if keyn (vs v s) (Some x) then None else vs v s) (va w) (vl w)
         (fun s => if keyn (vs v s) (Some x) then None else vc v s).

(* SSRC [s] alone is gone. *)
Definition v_detach (s : Z) (v : view) : view :=
  mkView (fun t => if t =? s then None else vs v t) (va v) (vl v)
         (fun t => if t =? s then None else vc v t).

(* [s] is the last SSRC that leads to session [x]. *)
Definition last_of (v : view) (s : Z) (x : nat) : Prop :=
  vs v s = Some x /\ forall t, t <> s -> vs v t <> Some x.

(* [s] disappears; its session goes with it when nothing else leads there. *)
Definition v_unlink (v : view) (s : Z) (w : view) : Prop :=
  (forall x, last_of v s x -> same_view w (v_forget x (v_detach s v))) /\
  ((forall x, ~ last_of v s x) -> same_view w (v_detach s v)).

(* Two SSRCs with the same CNAME. *)
Definition same_cname (v : view) (s t : Z) : bool :=
  match vc v s, vc v t with Some c, Some d => keys c d | _, _ => false end.

(* [s], and the SSRCs sharing its CNAME, now lead to session [x]; so does the
   address [a]. *)
Definition v_assign (x : nat) (s a : Z) (v : view) : view :=
  mkView (fun t => if (t =? s) || same_cname v s t then Some x else vs v t)
         (fun b => if b =? a then Some x else va v b)
         (fun y => if Nat.eqb y x then true else vl v y) (vc v).

(* The session of the SSRCs with CNAME [c]. *)
Definition session_of (v : view) (c : list Z) (t : option nat) : Prop :=
  (forall s, vc v s = Some c -> vs v s = t) /\
  ((forall s, vc v s <> Some c) -> t = None).

(* What a call does to the table. *)
Definition spec_step (v : view) (o : rop) (r : code) (w : view) : Prop :=
  match o with
  | RAdd x s None => False
  | RAdd x s (Some a) =>
      (* Neither a session nor an address can be registered twice. *)
      (va v a <> None \/ vl v x = true -> r = StConflict /\ same_view w v) /\
      (* Otherwise [s] leads to [x].  If it led to another session, it is first
         taken away from there. *)
      (va v a = None -> vl v x = false ->
       r = StOK /\
       exists u,
         match vs v s with
         | Some _ => v_unlink v s u
         | None => same_view u v
         end /\ same_view w (v_assign x s a u))
  | RRemove x => r = StOK /\ same_view w (v_forget x v)
  | RUnlink s => r = StOK /\ v_unlink v s w
  | RLink s c =>
      r = StOK /\
      (vc v s = Some c -> same_view w v) /\
      (vc v s <> Some c ->
       exists t, session_of v c t /\
       match vs v s with
       (* An SSRC without a session joins the session of its CNAME. *)
       | None => same_view w
                   (mkView (fun u => if u =? s then t else vs v u) (va v) (vl v)
                           (fun u => if u =? s then Some c else vc v u))
       (* An SSRC with a session takes its CNAME's other SSRCs along; their
          previous session is replaced. *)
       | Some x =>
           let v' := match t with Some y => v_forget_keys y v | None => v end in
           same_view w
             (mkView (fun u => if (u =? s) || same_cname (mkView (vs v) (va v) (vl v)
                                   (fun z => if z =? s then Some c else vc v z)) s u
                               then Some x else vs v u)
                     (va v') (vl v') (fun u => if u =? s then Some c else vc v u))
       end)
  end.

Inductive spec_run : view -> list rop -> list code -> view -> Prop :=
| SR_nil v w : same_view v w -> spec_run v [] [] w
| SR_cons v o r w ops rs z :
    spec_step v o r w -> spec_run w ops rs z -> spec_run v (o :: ops) (r :: rs) z.

(* What the router answers. *)
Definition answers (st : rstate) (v : view) : Prop :=
  (forall s, find_by_source st s = vs v s) /\
  (forall a, find_by_address st a = va v a) /\
  (forall x, has_session st x = vl v x).
