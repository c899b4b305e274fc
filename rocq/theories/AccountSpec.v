(** Vocabulary for C95: the books of the corrector. *)
From Verif Require Import Base SpanModel TreeModel FinishModel FinishSpec MetricsSpec.

(** The spans received with a trace id and an id. *)
Definition proper (before : list entry) (e : entry) : list Z :=
  match e with LSpan _ _ s => if decide (s_trace s <> 0 /\ s_id s <> 0) then [1] else [] | _ => [] end.
(** The traces that left, each with one. *)
Definition left_ (before : list entry) (e : entry) : list Z := match e with LOut _ _ => [1] | _ => [] end.
(** The spans that found no trace of their id waiting, and were not refused. *)
Definition opened (before : list entry) (e : entry) : list Z :=
  match e with
  | LSpan _ _ s => if decide (s_trace s <> 0 /\ s_id s <> 0 /\ (status before (s_trace s)).1 = false /\ pending before (s_trace s) = []) then [1] else []
  | _ => []
  end.
(** No trace ever waits with more spans than the 16 bit counter can hold. *)
Definition countable (log : list entry) : Prop :=
  forall l1 l2 t, log = l1 ++ l2 -> Z.of_nat (length (merged_spans t (pending l1 t))) < 2^16.
