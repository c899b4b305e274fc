(** Vocabulary for C117: two executions of the program in which the same is reported about a trace, by other clocks. *)
From Verif Require Import Base SpanModel TreeModel TreeSpec ForwardModel OrderSpec ClockSpec.

(** [b] are the spans of [a] by other clocks (C116), in any order and any number of times (C96). *)
Definition retold (outer inner : Z -> Z) (a b : list span) : Prop :=
  exists mid, Forall2 (reclocked outer inner) a mid /\ orderly mid /\ same_reports mid b.

(** What the converter makes of a span does not depend on what the two sides measured. *)
Definition overlooks (g : span -> span * bool) : Prop := forall x y, alike x y -> (g y).2 = (g x).2 /\ alike (g x).1 (g y).1.

(** Every span with an id of its own, or below another one (C96). *)
Definition settled (l : list span) : Prop := Forall (fun x => alone l x \/ attached l x) l.
Definition retold_settled (outer inner : Z -> Z) (a b : list span) : Prop :=
  exists mid, Forall2 (reclocked outer inner) a mid /\ orderly mid /\ settled mid /\ same_reports mid b.
