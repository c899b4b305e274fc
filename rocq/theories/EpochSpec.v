(** Vocabulary for C120: the same reports about another time. *)
From Verif Require Import Base SpanModel ForwardModel ShiftSpec.

(** What the converter makes of a span does not depend on when it was. *)
Definition timeless (d : Z) (g : span -> span * bool) : Prop := forall x, g (moved d x) = (moved d (g x).1, (g x).2).
