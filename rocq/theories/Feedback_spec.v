(** Words for the statements about the feedback monitor. *)
From Verif Require Import Base Feedback_model.

(** The time of a call. *)
Definition time_of (e : event) : option Z :=
  match e with Start => None | Report t _ _ _ => Some t | WriteFrame t _ => Some t end.

(** Time does not run backwards. *)
Fixpoint in_order (from : Z) (evs : list event) : Prop :=
  match evs with
  | [] => True
  | e :: t => match time_of e with
              | None => in_order from t
              | Some x => from <= x /\ in_order x t
              end
  end.

(** In the history [evs] a receiver [src] reports [m] at [t0], while the sender's count is
    [sent], after the monitor was started; [pre] is before that and [rest] after it. *)
Definition reported_in (pre : list event) (rest : list event) (t0 src : Z) (m : metrics) (sent : Z)
  (evs : list event) : Prop :=
  evs = pre ++ Report t0 src m sent :: rest /\ In Start pre.

(** What is shown of a report: everything as reported, except that the packet count may
    be the sender's. *)
Definition stands_for (x m : metrics) (sent : Z) : Prop :=
  m_lat x = m_lat m /\ m_rest x = m_rest m /\ (m_total x = m_total m \/ m_total x = sent).

(** Moments at which a change of the source was noted. *)
Fixpoint switches (es : list effect) : list Z :=
  match es with
  | [] => []
  | ESwitch t _ _ :: r => t :: switches r
  | _ :: r => switches r
  end.

Fixpoint frames (es : list effect) : list Z :=
  match es with
  | [] => []
  | EFrame d :: r => d :: frames r
  | _ :: r => frames r
  end.

Fixpoint written (evs : list event) : list Z :=
  match evs with
  | [] => []
  | WriteFrame _ d :: r => d :: written r
  | _ :: r => written r
  end.
