(** Vocabulary for C123: reports that come after their trace has left. *)
From Verif Require Import Base SpanModel TreeModel TreeSpec.

(** A span by itself: start and duration are the client's if all four times are known. *)
Definition by_itself (s o : span) : Prop :=
  exists start dur, o = retimed s start dur /\
  (four_timings s -> start = wrap64 (tCS (s_timings s)) /\ dur = wrap64 (tCR (s_timings s) - tCS (s_timings s))) /\
  (~ four_timings s -> start = s_ts s /\ dur = s_dur s).

(** The span that is put above [l]: it is named by the parent that all of them name, and lasts from the first start to the last end. *)
Definition put_above (t p : Z) (l : list span) (f : span) : Prop :=
  exists first last, f = Span p t t (str "fake-root") (str "fake-root") first (wrap64 (last - first)) ∅ (Timings 0 0 0 0) /\ hull l first last.
