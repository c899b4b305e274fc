(** One report in three formats, for C100. *)
From Verif Require Import Base SpanModel JsonSpec DocSpec TreeModel TreeSpec FinishModel MaskSpec.

(** What an application reports: a call it makes, a call it answers, or something it does; start and duration in microseconds. *)
Inductive side := Client | Server | Local.
Record report := Report {
  r_id : Z; r_trace : Z; r_parent : option Z; r_name : gostring; r_service : gostring; r_side : side;
  r_start : Z; r_dur : Z; r_tags : list (gostring * gostring) }.

(** Times after 1970 and before 2262; something is reported to have taken a while. *)
Definition reasonable (r : report) : Prop := 0 < r_start r /\ 0 < r_dur r /\ (r_start r + r_dur r) * 1000 < 2^63.

(** Of tags with the same key the last one counts. *)
Definition tag_map (l : list (gostring * gostring)) : gmap gostring gostring := foldl (fun m kv => <[kv.1 := kv.2]> m) ∅ l.

(** The span that is reported.  [root] is the parent of a span without parent. *)
Definition span_of (root : Z) (format : gostring) (r : report) : span :=
  let start := r_start r * 1000 in
  let stop := (r_start r + r_dur r) * 1000 in
  Span (r_id r) (default root (r_parent r)) (r_trace r) (r_name r) (r_service r) start (r_dur r * 1000)
    (<[str "protocolVersion" := format]> (tag_map (r_tags r)))
    (match r_side r with Client => Timings start stop 0 0 | Server => Timings 0 0 stop start | Local => Timings 0 0 0 0 end).

(* ---------- writing ---------- *)

Definition writes_id (n : Z) (v : json) : Prop := exists s, v = JStr s /\ id_text s = Some n.
Definition writes (n : Z) (v : json) : Prop := exists l, v = JNum l /\ digits l /\ dec_value 0 l = n.

(** An object with these members in any order, and others whose names mean nothing; [fold] is applied to names before they are
    compared. *)
Definition object_with (fold : gostring -> gostring) (known : list gostring) (listed : list (bytes * json)) (v : json) : Prop :=
  exists ms extra, v = JObj ms /\ ms ≡ₚ listed ++ extra /\ Forall (fun m => fold m.1 ∉ known) extra.
Definition exactly (s : gostring) : gostring := s.

(** Zipkin: an endpoint. *)
Definition endpoint_of (service : gostring) (v : json) : Prop :=
  object_with exactly [str "serviceName"] [(str "serviceName", JStr service)] v.
Definition parent_member (r : report) (l : list (bytes * json)) : Prop :=
  match r_parent r with None => l = [] | Some p => exists v, writes_id p v /\ l = [(str "parentId", v)] end.

(** Zipkin version 2. *)
Definition v2_known : list gostring :=
  [str "id"; str "traceId"; str "parentId"; str "timestamp"; str "duration"; str "name"; str "kind"; str "tags"; str "localEndpoint"].
Definition v2_report (r : report) (v : json) : Prop :=
  exists id trace parent start dur endpoint,
    writes_id (r_id r) id /\ writes_id (r_trace r) trace /\ parent_member r parent /\ writes (r_start r) start /\ writes (r_dur r) dur /\
    endpoint_of (r_service r) endpoint /\
    object_with exactly v2_known
      (parent ++ match r_side r with Client => [(str "kind", JStr (str "CLIENT"))] | Server => [(str "kind", JStr (str "SERVER"))] | Local => [] end ++
       [(str "id", id); (str "traceId", trace); (str "name", JStr (r_name r)); (str "timestamp", start); (str "duration", dur);
        (str "localEndpoint", endpoint); (str "tags", JObj (map (fun kv => (kv.1, JStr kv.2)) (r_tags r)))]) v.
Definition v2_reports (rs : list report) (v : json) : Prop := exists vs, v = JArr vs /\ Forall2 v2_report rs vs.

(** Zipkin version 1. *)
Definition v1_known : list gostring :=
  [str "id"; str "traceId"; str "parentId"; str "timestamp"; str "duration"; str "name"; str "annotations"; str "binaryAnnotations"].
Definition v1_annotation (r : report) (t : Z) (what : gostring) (v : json) : Prop :=
  exists time endpoint, writes t time /\ endpoint_of (r_service r) endpoint /\
  object_with exactly [str "timestamp"; str "value"; str "endpoint"] [(str "timestamp", time); (str "value", JStr what); (str "endpoint", endpoint)] v.
Definition v1_binary (r : report) (kv : gostring * gostring) (v : json) : Prop :=
  exists endpoint, endpoint_of (r_service r) endpoint /\
  object_with exactly [str "key"; str "value"; str "endpoint"] [(str "key", JStr kv.1); (str "value", JStr kv.2); (str "endpoint", endpoint)] v.
Definition v1_report (r : report) (v : json) : Prop :=
  exists id trace parent start dur anns bas,
    writes_id (r_id r) id /\ writes_id (r_trace r) trace /\ parent_member r parent /\ writes (r_start r) start /\ writes (r_dur r) dur /\
    match r_side r with
    | Client => exists a b, anns = [a; b] /\ v1_annotation r (r_start r) (str "cs") a /\ v1_annotation r (r_start r + r_dur r) (str "cr") b
    | Server => exists a b, anns = [a; b] /\ v1_annotation r (r_start r) (str "sr") a /\ v1_annotation r (r_start r + r_dur r) (str "ss") b
    | Local => anns = []
    end /\
    Forall2 (v1_binary r) (r_tags r) bas /\
    object_with exactly v1_known
      (parent ++ [(str "id", id); (str "traceId", trace); (str "name", JStr (r_name r)); (str "timestamp", start); (str "duration", dur);
        (str "annotations", JArr anns); (str "binaryAnnotations", JArr bas)]) v.
Definition v1_reports (rs : list report) (v : json) : Prop := exists vs, v = JArr vs /\ Forall2 v1_report rs vs.
(** Version 1 has the service only in annotations: what has neither a side nor tags cannot name it. *)
Definition v1_can_tell (r : report) : Prop := r_side r = Local -> r_tags r = [] -> r_service r = [].

(** Jaeger. *)
Definition jaeger_ref (p : Z) (v : json) : Prop :=
  exists id, writes_id p id /\
  object_with fold_case [str "reftype"; str "spanid"] [(str "refType", JStr (str "CHILD_OF")); (str "spanID", id)] v.
Definition jaeger_tag (kv : gostring * gostring) (v : json) : Prop :=
  object_with fold_case [str "key"; str "value"] [(str "key", JStr kv.1); (str "value", JStr kv.2)] v.
Definition jaeger_known : list gostring :=
  [str "traceid"; str "spanid"; str "operationname"; str "references"; str "starttime"; str "duration"; str "processid"; str "tags"].
Definition jaeger_report (procs : gmap gostring gostring) (r : report) (v : json) : Prop :=
  exists id trace refs start dur p tags,
    writes_id (r_id r) id /\ writes_id (r_trace r) trace /\ writes (r_start r) start /\ writes (r_dur r) dur /\ procs !! p = Some (r_service r) /\
    match r_parent r with None => refs = [] | Some p => exists v, refs = [v] /\ jaeger_ref p v end /\
    Forall2 jaeger_tag (match r_side r with Client => [(str "span.kind", str "client")] | Server => [(str "span.kind", str "server")] | Local => [] end ++ r_tags r) tags /\
    object_with fold_case jaeger_known
      [(str "traceID", trace); (str "spanID", id); (str "operationName", JStr (r_name r)); (str "references", JArr refs);
       (str "startTime", start); (str "duration", dur); (str "processID", JStr p); (str "tags", JArr tags)] v.
Definition jaeger_process (m : bytes * json) (kv : gostring * gostring) : Prop :=
  m.1 = kv.1 /\ object_with fold_case [str "servicename"] [(str "serviceName", JStr kv.2)] m.2.
Definition jaeger_reports (rs : list report) (v : json) : Prop :=
  exists data spans procs names,
    Forall2 jaeger_process procs names /\ Forall2 (jaeger_report (tag_map names)) rs spans /\
    object_with fold_case [str "spans"; str "processes"] [(str "spans", JArr spans); (str "processes", JObj procs)] data /\
    object_with fold_case [str "data"] [(str "data", JArr [data])] v.
(** Tags that Jaeger uses itself. *)
Definition jaeger_can_tell (r : report) : Prop :=
  Forall (fun kv => kv.1 <> str "component" /\ kv.1 <> str "internal.span.format" /\ kv.1 <> str "span.kind") (r_tags r).

(* ---------- afterwards ---------- *)

(** The tag that tells the format. *)
Definition version_key (k : gostring) : bool := bool_decide (k = str "protocolVersion").
(** The same report at the same time, whatever its format. *)
Definition same_report (e e' : event) : Prop :=
  match e, e' with
  | ESpan ord n0 n1 s, ESpan ord' n0' n1' s' => map_order ord /\ map_order ord' /\ n0 = n0' /\ n1 = n1' /\ exists root f f' r, s = span_of root f r /\ s' = span_of root f' r
  | ETick k, ETick k' => same_tick (without version_key) k k'
  | EClose, EClose => True
  | _, _ => False
  end.
