(** Looking at spans through a mask, for C99. *)
From Verif Require Import Base SpanModel TreeModel TreeSpec FinishModel.

(** What is left of the name, the service and the tags of a span. *)
Record mask := Mask {
  m_name : gostring -> gostring; m_service : gostring -> gostring;
  m_tags : gmap gostring gostring -> gmap gostring gostring }.

(** Names and services do not vanish behind the mask or appear from nothing; the name the program itself gives stays; of tags
    it is not seen from which of two maps they come. *)
Definition honest (m : mask) : Prop :=
  (forall n, m_name m n = [] <-> n = []) /\ (forall n, m_service m n = [] <-> n = []) /\
  m_name m (str "fake-root") = str "fake-root" /\ m_service m (str "fake-root") = str "fake-root" /\
  m_tags m ∅ = ∅ /\ forall a b, m_tags m (a ∪ b) = m_tags m a ∪ m_tags m b.

Definition masked (m : mask) (s : span) : span :=
  Span (s_id s) (s_parent s) (s_trace s) (m_name m (s_name s)) (m_service m (s_service s)) (s_ts s) (s_dur s) (m_tags m (s_tags s)) (s_timings s).
Definition masked_tree (m : mask) (t : tree) : tree := Tree (t_id t) (map (masked m) (t_spans t)) (t_started t) (t_updated t) (t_count t).
Definition masked_pair (m : mask) (p : Z * tree) : Z * tree := (p.1, masked_tree m p.2).
Definition masked_traces (m : mask) (ts : gmap Z tree) : gmap Z tree := masked_tree m <$> ts.

(** The record of a run. *)
Definition masked_outcome (m : mask) (o : outcome) : outcome := match o with Emitted spans => Emitted (map (masked m) spans) | o => o end.
Definition masked_entry (m : mask) (e : entry) : entry :=
  match e with
  | LSpan n0 n1 s => LSpan n0 n1 (masked m s)
  | LOut t o => LOut t (masked_outcome m o)
  | e => e
  end.

(** Two ticks at the same times; the orders of iteration are the same as long as the maps look the same. *)
Definition same_tick (m : mask) (k k' : tick) : Prop :=
  k_now1 k = k_now1 k' /\ k_now2 k = k_now2 k' /\ (forall t, k_fake k t = k_fake k' t) /\ map_order (k_ord k) /\ map_order (k_ord k') /\
  (forall i ts ts', masked_traces m ts = masked_traces m ts' -> map (masked_pair m) (k_range k i ts) = map (masked_pair m) (k_range k' i ts')) /\
  (forall b, k_range_black k b = k_range_black k' b) /\
  (forall l l', map (masked_pair m) l = map (masked_pair m) l' -> map (masked_pair m) (k_sort k l) = map (masked_pair m) (k_sort k' l')).

(** Two events that look the same. *)
Definition same_event (m : mask) (e e' : event) : Prop :=
  match e, e' with
  | ESpan ord n0 n1 s, ESpan ord' n0' n1' s' => map_order ord /\ map_order ord' /\ n0 = n0' /\ n1 = n1' /\ masked m s = masked m s'
  | ETick k, ETick k' => same_tick m k k'
  | EClose, EClose => True
  | _, _ => False
  end.

(** A mask that hides the tags whose keys satisfy [K]. *)
Definition without (K : gostring -> bool) : mask := Mask (fun n => n) (fun n => n) (filter (fun kv => K kv.1 = false)).
(** A mask that hides everything but whether there is a name, and a service. *)
Definition faceless : mask :=
  Mask (fun n => match n with [] => [] | _ => str "fake-root" end) (fun n => match n with [] => [] | _ => str "fake-root" end) (fun _ => ∅).
