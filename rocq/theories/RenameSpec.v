(** Other identifiers, for C110. *)
From Verif Require Import Base SpanModel TreeModel TreeSpec FinishModel.

(** A renaming of identifiers and its inverse; 0 stands for "none". *)
Definition renaming (f g : Z -> Z) : Prop := (forall x, g (f x) = x) /\ (forall x, f (g x) = x) /\ f 0 = 0.

(** The same span with other identifiers. *)
Definition renamed (f : Z -> Z) (s : span) : span :=
  Span (f (s_id s)) (f (s_parent s)) (f (s_trace s)) (s_name s) (s_service s) (s_ts s) (s_dur s) (s_tags s) (s_timings s).

(** The same trace with other identifiers: its spans are kept in another order. *)
Definition renamed_tree (f : Z -> Z) (t t' : tree) : Prop :=
  t_spans t' ≡ₚ map (renamed f) (t_spans t) /\ t_started t' = t_started t /\ t_updated t' = t_updated t /\ t_count t' = t_count t.
Definition renamed_pair (f : Z -> Z) (p p' : Z * tree) : Prop := p'.1 = f p.1 /\ renamed_tree f p.2 p'.2.
(** The same traces in the buffer. *)
Definition renamed_traces (f : Z -> Z) (ts ts' : gmap Z tree) : Prop := forall id, option_Forall2 (renamed_tree f) (ts !! id) (ts' !! f id).
Definition renamed_set (f : Z -> Z) (b b' : gset Z) : Prop := forall id, id ∈ b <-> f id ∈ b'.

(** The record of a run: emitted traces have the same spans, in another order. *)
Definition renamed_outcome (f : Z -> Z) (o o' : outcome) : Prop :=
  match o, o' with
  | Emitted spans, Emitted spans' => spans' ≡ₚ map (renamed f) spans
  | Emitted _, _ | _, Emitted _ => False
  | _, _ => o' = o
  end.
Definition renamed_entry (f : Z -> Z) (e e' : entry) : Prop :=
  match e, e' with
  | LSpan n0 n1 s, LSpan n0' n1' s' => n0' = n0 /\ n1' = n1 /\ s' = renamed f s
  | LTick n1 n2 load, LTick n1' n2' load' => n1' = n1 /\ n2' = n2 /\ load' = load
  | LOut t o, LOut t' o' => t' = f t /\ renamed_outcome f o o'
  | LEvict t, LEvict t' => t' = f t
  | LClose, LClose => True
  | _, _ => False
  end.

(** The same happens to spans with other identifiers; maps are iterated, and what [sort.Slice] takes for equal is left, in
    corresponding orders. *)
Definition renamed_tick (f : Z -> Z) (k k' : tick) : Prop :=
  k_now1 k' = k_now1 k /\ k_now2 k' = k_now2 k /\
  (forall i ts ts', renamed_traces f ts ts' -> Forall2 (renamed_pair f) (k_range k i ts) (k_range k' i ts')) /\
  (forall b b', renamed_set f b b' -> k_range_black k' b' = map f (k_range_black k b)) /\
  (forall l l', Forall2 (renamed_pair f) l l' -> Forall2 (renamed_pair f) (k_sort k l) (k_sort k' l')).
Definition renamed_event (f : Z -> Z) (e e' : event) : Prop :=
  match e, e' with
  | ESpan ord n0 n1 s, ESpan ord' n0' n1' s' => n0' = n0 /\ n1' = n1 /\ s' = renamed f s
  | ETick k, ETick k' => renamed_tick f k k'
  | EClose, EClose => True
  | _, _ => False
  end.
