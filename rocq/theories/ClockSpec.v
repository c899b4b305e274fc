(** Vocabulary for C116: hosts whose clocks are wrong. *)
From Verif Require Import Base SpanModel TreeModel TreeSpec.

(** A time by a clock that is ahead by [d] (0: not known); between 1970 and 2116. *)
Definition dated (d a b : Z) : Prop := a = 0 /\ b = 0 \/ 0 < a < 2^62 /\ 0 < b < 2^62 /\ b = a + d.

(** [y] says what [x] says, by other clocks.  The clock of the host that causes the span with id [i] is ahead by [outer i],
    that of the host where it runs by [inner i].  The start is by either of them. *)
Definition reclocked (outer inner : Z -> Z) (x y : span) : Prop :=
  y = Span (s_id x) (s_parent x) (s_trace x) (s_name x) (s_service x) (s_ts y) (s_dur x) (s_tags x) (s_timings y) /\
  (s_ts y = s_ts x + outer (s_id x) \/ s_ts y = s_ts x + inner (s_id x)) /\
  dated (outer (s_id x)) (tCS (s_timings x)) (tCS (s_timings y)) /\ dated (outer (s_id x)) (tCR (s_timings x)) (tCR (s_timings y)) /\
  dated (inner (s_id x)) (tSS (s_timings x)) (tSS (s_timings y)) /\ dated (inner (s_id x)) (tSR (s_timings x)) (tSR (s_timings y)).

(** One clock for every host: what causes a span runs where its parent runs, and a span whose two sides are not both
    known runs where it was caused.  The clock by which the trace is told is right. *)
Definition by_host (outer inner : Z -> Z) (spans : list span) (root : span) : Prop :=
  outer (s_id root) = 0 /\ (forall p c, p ∈ spans -> child spans p c -> outer (s_id c) = inner (s_id p)) /\
  (forall x, x ∈ spans -> ~ four_timings x -> inner (s_id x) = outer (s_id x)).

(** Equal, except for the recorded times of the two sides. *)
Definition alike (a b : span) : Prop :=
  b = Span (s_id a) (s_parent a) (s_trace a) (s_name a) (s_service a) (s_ts a) (s_dur a) (s_tags a) (s_timings b).
