(** Model of proxy/span.go, proxy/timestamp.go and proxy/trace.go. *)
From Verif Require Import Base.

(** proxy/span.go:23-28 [Timings]; each field is a [Timestamp] (int64 nanoseconds, proxy/timestamp.go:6). *)
Record timings := Timings { tCS : Z; tCR : Z; tSS : Z; tSR : Z }.

(** proxy/span.go:7-21 [Span].  [Tags] is a Go map: [gmap]; a nil map is the empty map (simplification: the
    JSON omitempty of the admin endpoint leaves out both, and [AddTag] makes a map before it writes to a nil one). *)
Record span := Span {
  s_id : Z; s_parent : Z; s_trace : Z;
  s_name : gostring; s_service : gostring;
  s_ts : Z; s_dur : Z;
  s_tags : gmap gostring gostring;
  s_timings : timings }.

(** proxy/trace.go:3 [Trace]. *)
Notation trace := (list span) (only parsing).

(** The zero value of [Timings] and [Span] in Go. *)
Definition zero_timings : timings := Timings 0 0 0 0.
Definition zero_span : span := Span 0 0 0 [] [] 0 0 ∅ zero_timings.

(** Assignments to single fields of a span through a pointer. *)
Definition set_parent (p : Z) (s : span) : span :=
  Span (s_id s) p (s_trace s) (s_name s) (s_service s) (s_ts s) (s_dur s) (s_tags s) (s_timings s).
Definition set_name (n : gostring) (s : span) : span :=
  Span (s_id s) (s_parent s) (s_trace s) n (s_service s) (s_ts s) (s_dur s) (s_tags s) (s_timings s).
Definition set_service (v : gostring) (s : span) : span :=
  Span (s_id s) (s_parent s) (s_trace s) (s_name s) v (s_ts s) (s_dur s) (s_tags s) (s_timings s).
Definition set_ts (t : Z) (s : span) : span :=
  Span (s_id s) (s_parent s) (s_trace s) (s_name s) (s_service s) t (s_dur s) (s_tags s) (s_timings s).
Definition set_dur (d : Z) (s : span) : span :=
  Span (s_id s) (s_parent s) (s_trace s) (s_name s) (s_service s) (s_ts s) d (s_tags s) (s_timings s).
Definition set_tags (m : gmap gostring gostring) (s : span) : span :=
  Span (s_id s) (s_parent s) (s_trace s) (s_name s) (s_service s) (s_ts s) (s_dur s) m (s_timings s).
Definition set_timings (t : timings) (s : span) : span :=
  Span (s_id s) (s_parent s) (s_trace s) (s_name s) (s_service s) (s_ts s) (s_dur s) (s_tags s) t.
Definition set_cs (z : Z) (t : timings) : timings := Timings z (tCR t) (tSS t) (tSR t).
Definition set_cr (z : Z) (t : timings) : timings := Timings (tCS t) z (tSS t) (tSR t).
Definition set_ss (z : Z) (t : timings) : timings := Timings (tCS t) (tCR t) z (tSR t).
Definition set_sr (z : Z) (t : timings) : timings := Timings (tCS t) (tCR t) (tSS t) z.

(** proxy/span.go:30-37 [NewSpan]. *)
Definition new_span (name : gostring) (trace id parent : Z) : span :=
  Span id parent trace name [] 0 0 ∅ zero_timings.

(** proxy/span.go:39-41 [NewRootSpan]: the parent argument is the trace id. *)
Definition new_root_span (name : gostring) (trace id : Z) : span := new_span name trace id trace.

(** proxy/span.go:47-49 [Span.IsRoot]. *)
Definition is_root (s : span) : bool := s_parent s =? s_id s.

(** proxy/span.go:51-57 [Span.AddTag]. *)
Definition add_tag (k v : gostring) (s : span) : span := set_tags (<[k := v]> (s_tags s)) s.

(** proxy/span.go:59-70 [Span.AddTiming]: a switch over the four keys; any other key is ignored. *)
Definition add_timing (key : gostring) (ns : Z) (s : span) : span :=
  if decide (key = str "cs") then set_timings (set_cs ns (s_timings s)) s
  else if decide (key = str "cr") then set_timings (set_cr ns (s_timings s)) s
  else if decide (key = str "sr") then set_timings (set_sr ns (s_timings s)) s
  else if decide (key = str "ss") then set_timings (set_ss ns (s_timings s)) s
  else s.

(** Constants of Go's package time, in nanoseconds. *)
Definition microsecond : Z := 1000.
Definition millisecond : Z := 1000000.
Definition second : Z := 1000000000.

(** proxy/timestamp.go:8-10 [Microseconds]: int64 multiplication wraps. *)
Definition microseconds (us : Z) : Z := wrap64 (us * microsecond).

(** proxy/timestamp.go:12-14 [Timestamp.ToMillis]: Go division truncates toward zero. *)
Definition to_millis (ts : Z) : Z := Z.quot ts millisecond.

(** proxy/timestamp.go:16-18 [Timestamp.ToMicros]. *)
Definition to_micros (ts : Z) : Z := Z.quot ts microsecond.

(** proxy/timestamp.go:28-30 [Timestamp.Add]. *)
Definition ts_add (ts d : Z) : Z := wrap64 (ts + d).

(** proxy/timestamp.go:32-34 [Timestamp.IsValid]. *)
Definition ts_valid (ts : Z) : bool := 0 <? ts.

(** All int64 fields of a span are in range (true of every Go value). *)
Definition timings_ok (t : timings) : Prop :=
  int64_ok (tCS t) /\ int64_ok (tCR t) /\ int64_ok (tSS t) /\ int64_ok (tSR t).
Definition span_ok (s : span) : Prop :=
  int64_ok (s_id s) /\ int64_ok (s_parent s) /\ int64_ok (s_trace s) /\
  int64_ok (s_ts s) /\ int64_ok (s_dur s) /\ timings_ok (s_timings s).
