(** Vocabulary for C118: all that a span says is its place in the trace. *)
From Verif Require Import Base SpanModel TreeModel TreeSpec FinishModel FinishSpec OrderSpec.

(** A span with its ids only. *)
Definition shape (s : span) : span := Span (s_id s) (s_parent s) (s_trace s) [] [] 0 0 ∅ (Timings 0 0 0 0).
Definition shape_tree (t : tree) : tree := Tree (t_id t) (map shape (t_spans t)) (t_started t) (t_updated t) (t_count t).
Definition shape_pair (p : Z * tree) : Z * tree := (p.1, shape_tree p.2).
Definition shape_traces (ts : gmap Z tree) : gmap Z tree := shape_tree <$> ts.

(** The record of a run. *)
Definition shape_outcome (o : outcome) : outcome := match o with Emitted spans => Emitted (map shape spans) | o => o end.
Definition shape_entry (e : entry) : entry :=
  match e with
  | LSpan n0 n1 s => LSpan n0 n1 (shape s)
  | LOut t o => LOut t (shape_outcome o)
  | e => e
  end.

(** Two ticks at the same times; the orders of iteration are the same as long as the maps have the same shape. *)
Definition same_shape_tick (k k' : tick) : Prop :=
  k_now1 k = k_now1 k' /\ k_now2 k = k_now2 k' /\ (forall t, k_fake k t = k_fake k' t) /\ map_order (k_ord k) /\ map_order (k_ord k') /\
  (forall i ts ts', shape_traces ts = shape_traces ts' -> map shape_pair (k_range k i ts) = map shape_pair (k_range k' i ts')) /\
  (forall b, k_range_black k b = k_range_black k' b) /\
  (forall l l', map shape_pair l = map shape_pair l' -> map shape_pair (k_sort k l) = map shape_pair (k_sort k' l')).

(** Two events: spans with the same ids at the same time. *)
Definition same_shape (e e' : event) : Prop :=
  match e, e' with
  | ESpan ord n0 n1 s, ESpan ord' n0' n1' s' => map_order ord /\ map_order ord' /\ n0 = n0' /\ n1 = n1' /\ shape s = shape s'
  | ETick k, ETick k' => same_shape_tick k k'
  | EClose, EClose => True
  | _, _ => False
  end.
