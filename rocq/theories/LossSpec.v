(** Vocabulary for C121: reports that never arrive. *)
From Verif Require Import Base SpanModel TreeModel TreeSpec.

(** What is left without the spans whose ids are [lost]. *)
Definition spared (lost : list Z) (l : list span) : list span := filter (fun s => s_id s ∉ lost) l.

(** With a span, everything below it is lost. *)
Definition with_all_below (lost : list Z) (out : list span) : Prop :=
  forall x y, x ∈ out -> child out x y -> s_id x ∈ lost -> s_id y ∈ lost.
