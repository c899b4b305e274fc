(** What a Jaeger span describes. *)
From Verif Require Import Base SpanModel DocSpec JaegerModel.

(** The string values of the tags with the given key. *)
Definition tag_values (k : gostring) (tags : list jtag) : list gostring :=
  omap (fun t => if decide (jt_key t = k) then match jt_value t with JVString v => Some v | JVOther => None end else None) tags.
(** The tag [t] is the last one of those that satisfy [P]. *)
Definition last_with {A} (P : A -> Prop) (l : list A) (a : A) : Prop :=
  exists l1 l2, l = l1 ++ a :: l2 /\ P a /\ Forall (fun b => ~ P b) l2.

(** A tag that carries the value [v] for the key [k] of the result. *)
Definition carries (k : gostring) (t : jtag) : Prop :=
  (jt_key t = k \/ (k = str "lc" /\ jt_key t = str "component")) /\ exists v, jt_value t = JVString v.
Definition internal_key (k : gostring) : Prop :=
  k = str "component" \/ k = str "internal.span.format" \/ k = str "span.kind".

Definition jaeger_tags (tags : list jtag) (m : gmap gostring gostring) : Prop :=
  m !! str "protocolVersion" = Some (str "jaeger") /\
  (forall k, internal_key k -> m !! k = None) /\
  (forall k v, ~ internal_key k -> k <> str "protocolVersion" ->
     (m !! k = Some v <-> exists t, last_with (carries k) tags t /\ jt_value t = JVString v)).

Definition jaeger_parent_of (js : jspan) (p : Z) : Prop :=
  (exists r, last_with (fun r => jr_type r = str "CHILD_OF") (js_refs js) r /\ p = jr_span r) \/
  (Forall (fun r => jr_type r <> str "CHILD_OF") (js_refs js) /\ p = js_id js).

Definition jaeger_kind (js : jspan) : gostring := List.last (tag_values (str "span.kind") (js_tags js)) [].

Definition jaeger_duration (js : jspan) : Z := if nanos (js_dur js) =? 0 then 1000000 else nanos (js_dur js).

Definition jaeger_timings (js : jspan) : timings :=
  let start := nanos (js_ts js) in
  let stop := wrap64 (start + jaeger_duration js) in
  if decide (fold_case (jaeger_kind js) = str "client") then Timings start stop 0 0
  else if decide (fold_case (jaeger_kind js) = str "server") then Timings 0 0 stop start
  else Timings 0 0 0 0.

Definition jaeger_describes (procs : gmap gostring gostring) (js : jspan) (s : span) : Prop :=
  s_id s = js_id js /\ s_trace s = js_trace js /\ jaeger_parent_of js (s_parent s) /\
  s_name s = js_operation js /\ s_service s = default [] (procs !! js_process js) /\
  s_ts s = nanos (js_ts js) /\ s_dur s = jaeger_duration js /\
  jaeger_tags (js_tags js) (s_tags s) /\ s_timings s = jaeger_timings js.
