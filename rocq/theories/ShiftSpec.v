(** Moving the clocks, for C109. *)
From Verif Require Import Base SpanModel TreeModel TreeSpec FinishModel.

(** A time, [d] nanoseconds later; 0 stands for "not known". *)
Definition later (d t : Z) : Z := if decide (t = 0) then 0 else t + d.
(** The same span, [d] nanoseconds later; it lasts as long. *)
Definition moved (d : Z) (s : span) : span :=
  Span (s_id s) (s_parent s) (s_trace s) (s_name s) (s_service s) (s_ts s + d) (s_dur s) (s_tags s)
    (Timings (later d (tCS (s_timings s))) (later d (tCR (s_timings s))) (later d (tSS (s_timings s))) (later d (tSR (s_timings s)))).

(** Traces in the buffer: the clock of the program is [c] nanoseconds ahead, the times in the spans are [d] nanoseconds later. *)
Definition moved_tree (c d : Z) (t : tree) : tree := Tree (t_id t) (map (moved d) (t_spans t)) (t_started t + c) (t_updated t + c) (t_count t).
Definition moved_pair (c d : Z) (p : Z * tree) : Z * tree := (p.1, moved_tree c d p.2).
Definition moved_traces (c d : Z) (ts : gmap Z tree) : gmap Z tree := moved_tree c d <$> ts.

(** The record of a run. *)
Definition moved_outcome (d : Z) (o : outcome) : outcome := match o with Emitted spans => Emitted (map (moved d) spans) | o => o end.
Definition moved_entry (c d : Z) (e : entry) : entry :=
  match e with
  | LSpan n0 n1 s => LSpan (n0 + c) (n1 + c) (moved d s)
  | LTick n1 n2 load => LTick (n1 + c) (n2 + c) load
  | LOut t o => LOut t (moved_outcome d o)
  | e => e
  end.

(** The same happens, by other clocks.  The orders in which maps are iterated, and in which [sort.Slice] leaves what it takes for
    equal, are the same. *)
Definition moved_tick (c d : Z) (k k' : tick) : Prop :=
  k_now1 k' = k_now1 k + c /\ k_now2 k' = k_now2 k + c /\ (forall t, k_fake k' t = k_fake k t + c) /\ map_order (k_ord k) /\ map_order (k_ord k') /\
  (forall i ts, k_range k' i (moved_traces c d ts) = map (moved_pair c d) (k_range k i ts)) /\
  (forall b, k_range_black k' b = k_range_black k b) /\
  (forall l, k_sort k' (map (moved_pair c d) l) = map (moved_pair c d) (k_sort k l)).
Definition moved_event (c d : Z) (e e' : event) : Prop :=
  match e, e' with
  | ESpan ord n0 n1 s, ESpan ord' n0' n1' s' => map_order ord /\ map_order ord' /\ n0' = n0 + c /\ n1' = n1 + c /\ s' = moved d s
  | ETick k, ETick k' => moved_tick c d k k'
  | EClose, EClose => True
  | _, _ => False
  end.

(** Everything a span tells happened between [lo] and [hi]. *)
Definition at_between (lo hi t : Z) : Prop := t = 0 \/ lo <= t <= hi.
Definition between (lo hi : Z) (s : span) : Prop :=
  lo <= s_ts s /\ 0 <= s_dur s /\ s_ts s + s_dur s <= hi /\
  at_between lo hi (tCS (s_timings s)) /\ at_between lo hi (tCR (s_timings s)) /\ at_between lo hi (tSS (s_timings s)) /\ at_between lo hi (tSR (s_timings s)).
Definition event_between (lo hi : Z) (e : event) : Prop := match e with ESpan _ _ _ s => between lo hi s | _ => True end.

(** Corrections of [n] spans on top of each other do not lead before 2020 and not into the 22nd century. *)
Definition roomy (n : nat) (lo hi : Z) : Prop :=
  lo <= hi /\ 1577836800 * 1000000000 + Z.of_nat n * (hi - lo) <= lo /\ hi + Z.of_nat n * (hi - lo) < 2^62.
