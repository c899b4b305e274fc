(** Vocabulary for the properties of traces (C28-C35). *)
From Coq Require Import Sorted.
From Verif Require Import Base SpanModel TreeModel.

(** Iteration over a Go map: every entry once, in some order. *)
Definition map_order (ord : gmap gostring gostring -> list (gostring * gostring)) : Prop :=
  forall m, ord m ≡ₚ map_to_list m.

Definition ids (spans : list span) : list Z := map s_id spans.
Definition descending (l : list Z) : Prop := StronglySorted (fun a b => b < a) l.

(** The trace after spans were added at given times; the first pair is the creation. *)
Definition add_all (ord : gmap gostring gostring -> list (gostring * gostring)) (adds : list (Z * span)) (t : tree) : tree :=
  foldl (fun t a => add_span ord a.1 a.2 t) t adds.

(** The additions with a given id. *)
Definition with_id (id : Z) (adds : list (Z * span)) : list (Z * span) := List.filter (fun a => s_id a.2 =? id) adds.

(** A span reported by a server. *)
Definition from_server (s : span) : Prop := 0 < tSR (s_timings s) \/ 0 < tSS (s_timings s).
(** The two halves of a shared span. *)
Definition client_half (s : span) : Prop :=
  tSR (s_timings s) = 0 /\ tSS (s_timings s) = 0 /\ 0 <= tCS (s_timings s) /\ 0 <= tCR (s_timings s).
Definition server_half (s : span) : Prop :=
  tCS (s_timings s) = 0 /\ tCR (s_timings s) = 0 /\ 0 <= tSR (s_timings s) /\ 0 <= tSS (s_timings s) /\ from_server s.

Definition first_nonempty (a b : gostring) : gostring := if decide (a = []) then b else a.

(** A span whose parent is itself or is not in the trace. *)
Definition root_candidate (spans : list span) (s : span) : Prop :=
  s ∈ spans /\ (s_parent s = s_id s \/ s_parent s ∉ ids spans).

(** [c] is a child of [p] in the trace. *)
Definition child (spans : list span) (p c : span) : Prop := c ∈ spans /\ s_parent c = s_id p /\ s_parent c <> s_id c.

(** [l] leads from [p] downwards, child by child. *)
Fixpoint descends (spans : list span) (p : span) (l : list span) : Prop :=
  match l with [] => True | c :: l' => child spans p c /\ descends spans c l' end.

(** [s] can be reached from [root]. *)
Definition connected (spans : list span) (root s : span) : Prop := exists l, descends spans root l /\ List.last l root = s.

(** The offset between the two clocks of a shared span: the distance of the middles of the two intervals; 0 if not
    all four times are known.  Go's arithmetic: 64 bit, division truncates. *)
Definition four_timings (s : span) : Prop :=
  tCS (s_timings s) <> 0 /\ tCR (s_timings s) <> 0 /\ tSS (s_timings s) <> 0 /\ tSR (s_timings s) <> 0.
Global Instance four_timings_dec s : Decision (four_timings s).
Proof. unfold four_timings. apply _. Defined.
Definition middle (a b : Z) : Z := Z.quot (wrap64 (a + b)) 2.
Definition skew (s : span) : Z :=
  if decide (four_timings s)
  then wrap64 (middle (tCS (s_timings s)) (tCR (s_timings s)) - middle (tSR (s_timings s)) (tSS (s_timings s)))
  else 0.

(** Where a span starts when the clock offset [off] is added. *)
Definition own_start (s : span) (off : Z) : Z :=
  wrap64 ((if decide (four_timings s) then tCS (s_timings s) else s_ts s) + off).
Definition own_duration (s : span) : Z :=
  if decide (four_timings s) then wrap64 (tCR (s_timings s) - tCS (s_timings s)) else s_dur s.
(** Nanoseconds up to the first of January 2020, UTC (the program compares milliseconds, rounded towards zero). *)
Definition before_2020 (ts : Z) : Prop := ts < 1577836800 * 1000000000.
Global Instance before_2020_dec ts : Decision (before_2020 ts).
Proof. unfold before_2020. apply _. Defined.

(** The corrected start of the last span of a path: [st] is the corrected start of its first span's parent, [off]
    the sum of the offsets of all spans above. *)
Fixpoint path_start (st off : Z) (l : list span) : Z :=
  match l with
  | [] => st
  | c :: l' => path_start (if decide (before_2020 (own_start c off)) then st else own_start c off) (off + skew c) l'
  end.
Definition corrected_start (root : span) (l : list span) : Z := path_start (own_start root 0) (skew root) l.

(** The offset between the clocks of the first and the last host of a path. *)
Definition total_skew (l : list span) : Z := foldr Z.add 0 (map skew l).

(** [s] with another start and duration. *)
Definition retimed (s : span) (start dur : Z) : span :=
  Span (s_id s) (s_parent s) (s_trace s) (s_name s) (s_service s) start dur (s_tags s) (s_timings s).

(** The smallest interval that contains the intervals of all spans: from the earliest start to the latest end. *)
Definition span_end (s : span) : Z := wrap64 (s_ts s + s_dur s).
Definition hull (l : list span) (first last : Z) : Prop :=
  (exists s, s ∈ l /\ s_ts s = first) /\ (exists s, s ∈ l /\ span_end s = last) /\
  forall s, s ∈ l -> first <= s_ts s /\ span_end s <= last.

(** Equal except for start and duration, and equal if these will not be derived from the four timings. *)
Definition same_but_time (a b : span) : Prop := a = b \/ (four_timings a /\ exists st du, b = retimed a st du).
