(** Traces as trees, for C77. *)
From Verif Require Import Base SpanModel TreeSpec ForwardModel.

(** [s] is, or descends from, a span that is its own ancestor. *)
Definition circular (spans : list span) (s : span) : Prop :=
  exists x l, x ∈ spans /\ l <> [] /\ descends spans x l /\ List.last l x = x /\ connected spans x s.

(** Exactly one root candidate. *)
Definition one_root (spans : list span) (root : span) : Prop :=
  root_candidate spans root /\ forall r, root_candidate spans r -> r = root.

(** A converter that fails for no span and leaves the three ids alone. *)
Definition keeps_ids {S} (conv : converter S) : Prop :=
  forall s x, exists s' c, conv s x = (s', (c, false)) /\ s_id c = s_id x /\ s_parent c = s_parent x /\ s_trace c = s_trace x.
