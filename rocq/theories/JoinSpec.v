(** Vocabulary for C70: a trace whose spans came in through several proxies. *)
From Verif Require Import Base SpanModel TreeModel FinishModel FinishSpec ClusterModel ClusterSpec.

(** What a corrector was fed, according to its record. *)
Definition fed (log : list entry) : list span := omap (fun e => match e with LSpan _ _ s => Some s | _ => None end) log.

(** The spans of trace [t] with an id (others are ignored by the corrector). *)
Definition proper (t : Z) (l : list span) : list span := List.filter (fun s => negb (s_id s =? 0)) (of_trace t l).

(** None of the spans that are on their way to Kafka or did not get there belongs to trace [t]. *)
Definition arrived (st : kstate) (rec : list kentry) (t : Z) : Prop :=
  (forall s, s ∈ outgoing_spans st ++ lost_spans rec -> s_trace s <> t) /\
  (forall m s, m ∈ outgoing_msgs st ++ lost_msgs rec -> carries m s -> s_trace s <> t).
