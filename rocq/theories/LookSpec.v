(** Vocabulary for C86 and C87. *)
From Coq Require Import Sorted.
From Verif Require Import Base SpanModel TreeModel LruModel.

(** [l] are the places of the spans in [spans] with the property [P], in order. *)
Definition places (spans : list span) (P : span -> Prop) (l : list nat) : Prop :=
  StronglySorted lt l /\ forall i, i ∈ l <-> exists s, spans !! i = Some s /\ P s.

(** [l] are the strings met when one goes from [p] through the list by [next]. *)
Inductive met (next : node -> option nat) (h : gmap nat node) : option nat -> list gostring -> Prop :=
  | met_end : met next h None []
  | met_node p n l : h !! p = Some n -> met next h (next n) l -> met next h (Some p) (g_val (n_val n) :: l).
