(** Vocabulary for C96: in which order, and how often, the spans of a trace arrive. *)
From Verif Require Import Base SpanModel TreeModel TreeSpec FinishSpec ConnectSpec.

(** The reports of the client and of the server about one request: the same ids, as far as both know them, and either
    all four times (then start and duration follow from these) or the same start and duration. *)
Definition two_halves (c s : span) : Prop :=
  s_id c = s_id s /\ s_trace c = s_trace s /\ (s_parent c = s_parent s \/ s_parent c = 0 \/ s_parent s = 0) /\
  client_half c /\ server_half s /\
  ((tCS (s_timings c) <> 0 /\ tCR (s_timings c) <> 0 /\ tSS (s_timings s) <> 0 /\ tSR (s_timings s) <> 0) \/
   (s_ts c = s_ts s /\ s_dur c = s_dur s)).

(** Two reports with the same id are the same or such halves. *)
Definition orderly (l : list span) : Prop :=
  forall x y, x ∈ l -> y ∈ l -> s_id x = s_id y -> x = y \/ two_halves x y \/ two_halves y x.

(** The same reports, in any order and any number of times. *)
Definition same_reports (a b : list span) : Prop := forall s, s ∈ a <-> s ∈ b.

(** The reports that a trace waits with. *)
Definition reports (a : list addition) : list span := map snd a.

(** The only report with its id. *)
Definition alone (l : list span) (x : span) : Prop := forall y, y ∈ l -> s_id y = s_id x -> y = x.
(** Some report with its id names a parent that is in the trace and is not the span itself. *)
Definition attached (l : list span) (x : span) : Prop :=
  exists y, y ∈ l /\ s_id y = s_id x /\ s_parent y ∈ ids l /\ s_parent y <> s_id y.
