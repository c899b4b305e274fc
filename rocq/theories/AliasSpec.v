(** Vocabulary for C119: the same reports with other identifiers. *)
From Verif Require Import Base SpanModel ForwardModel RenameSpec.

(** The converter takes identifiers for names: what it makes of a span with other identifiers is what it makes of the span,
    with the other identifiers. *)
Definition by_name (f : Z -> Z) (g : span -> span * bool) : Prop := forall x, g (renamed f x) = (renamed f (g x).1, (g x).2).
