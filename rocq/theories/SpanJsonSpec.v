(** What the JSON text of spans says. *)
From Coq Require Import Sorted.
From Verif Require Import Base IdSpec SpanModel JsonSpec DocSpec StdJsonModel StdJsonSpec TimeSpec.

(** Offsets from UTC are less than a day and whole minutes. *)
Definition zone_minutes (zone : Z -> Z) : Prop := forall s, - 86400 < zone s < 86400 /\ Z.rem (zone s) 60 = 0.

(** Sixteen lower-case hexadecimal digits that are [id]. *)
Definition id_digits (id : Z) (l : bytes) : Prop := length l = 16%nat /\ Forall lower_hex l /\ id_text l = Some id.
(** Decimal numbers. *)
Definition decimal (x : Z) (l : bytes) : Prop :=
  0 <= x /\ int_text l /\ dec_value 0 l = x \/ x < 0 /\ exists l', l = 45 :: l' /\ int_text l' /\ dec_value 0 l' = - x.
(** The order of strings by their bytes. *)
Definition precedes (a b : bytes) : Prop :=
  (exists c r, b = a ++ c :: r) \/ exists p x y ra rb, a = p ++ x :: ra /\ b = p ++ y :: rb /\ x < y.

(** A point in time that is left out if it is zero. *)
Definition timing_value (name : gostring) (ts : Z) (ms : list (bytes * json)) : Prop :=
  ts = 0 /\ ms = [] \/ ts <> 0 /\ exists l, rfc3339 l ts /\ ms = [(name, JStr l)].
(** Tags, ordered by name; left out if there are none. *)
Definition tags_value (m : gmap gostring gostring) (ms : list (bytes * json)) : Prop :=
  m = ∅ /\ ms = [] \/
  m <> ∅ /\ exists l, ms = [(str "tags", JObj (map (fun kv => (kv.1, JStr kv.2)) l))] /\
    (forall k v, m !! k = Some v <-> (k, v) ∈ l) /\ StronglySorted precedes (map fst l).
Definition span_value (s : span) (v : json) : Prop :=
  exists ti tp tt tl td tags cs cr ss sr,
    v = JObj ([(str "id", JStr ti); (str "parent", JStr tp); (str "trace", JStr tt); (str "name", JStr (s_name s)); (str "service", JStr (s_service s));
               (str "timestamp", JStr tl); (str "duration", JNum td)] ++ tags ++ [(str "timings", JObj (cs ++ cr ++ ss ++ sr))]) /\
    id_digits (s_id s) ti /\ id_digits (s_parent s) tp /\ id_digits (s_trace s) tt /\ rfc3339 tl (s_ts s) /\ decimal (s_dur s) td /\
    tags_value (s_tags s) tags /\
    timing_value (str "cs") (tCS (s_timings s)) cs /\ timing_value (str "cr") (tCR (s_timings s)) cr /\
    timing_value (str "ss") (tSS (s_timings s)) ss /\ timing_value (str "sr") (tSR (s_timings s)) sr.
(** An array of spans; null if there are none. *)
Definition spans_value (l : list span) (v : json) : Prop := l = [] /\ v = JNull \/ l <> [] /\ exists vs, v = JArr vs /\ Forall2 span_value l vs.

(** Each byte at which no character begins is replaced by U+FFFD. *)
Definition begins_char (l : bytes) : Prop := exists cp r, l = utf8 cp ++ r /\ 0 <= cp <= 1114111 /\ ~ surrogate cp.
Inductive repaired : bytes -> bytes -> Prop :=
  | rp_nil : repaired [] []
  | rp_char cp l v : 0 <= cp <= 1114111 -> ~ surrogate cp -> repaired l v -> repaired (utf8 cp ++ l) (utf8 cp ++ v)
  | rp_byte x l v : ~ begins_char (x :: l) -> repaired l v -> repaired (x :: l) (utf8 65533 ++ v).
(** A span with its strings repaired; tags whose names become equal are one tag, with the value of one of them. *)
Definition repaired_span (s s' : span) : Prop :=
  s_id s' = s_id s /\ s_parent s' = s_parent s /\ s_trace s' = s_trace s /\ repaired (s_name s) (s_name s') /\ repaired (s_service s) (s_service s') /\
  s_ts s' = s_ts s /\ s_dur s' = s_dur s /\ s_timings s' = s_timings s /\
  (forall k v, s_tags s !! k = Some v -> exists k', repaired k k' /\ is_Some (s_tags s' !! k')) /\
  (forall k' v', s_tags s' !! k' = Some v' -> exists k v, s_tags s !! k = Some v /\ repaired k k' /\ repaired v v').
