(** Model of codec/jaeger.go after the body has been decoded by encoding/json (for which see [StdJsonModel]). *)
From Verif Require Import Base SpanModel CodecModel.

(** The dynamic type of [jaegerTag.Value] after decoding into an interface: a string or something else. *)
Inductive jvalue := JVString (s : gostring) | JVOther.

(** jaeger.go:12-15 [jaegerTag], 23-26 references, 17-33 [jaegerSpan], 35-44 [jaegerObject] and [jaegerProcess]
    (a process is its service name). *)
Record jtag := JTag { jt_key : gostring; jt_value : jvalue }.
Record jref := JRef { jr_type : gostring; jr_span : Z }.
Record jspan := JSpan {
  js_trace : Z; js_id : Z; js_operation : gostring; js_refs : list jref;
  js_ts : Z; js_dur : Z; js_process : gostring; js_tags : list jtag }.
Record jdata := JData { jd_spans : list jspan; jd_procs : gmap gostring gostring }.

(** jaeger.go:67-73. *)
Definition jaeger_parent (js : jspan) : Z :=
  foldl (fun p r => if decide (jr_type r = str "CHILD_OF") then jr_span r else p) (js_id js) (js_refs js).

(** jaeger.go:80-101: one round of the loop over the tags, on the span and [spanKind]. *)
Definition jaeger_tag (acc : span * gostring) (t : jtag) : span * gostring :=
  match jt_value t with
  | JVOther => acc
  | JVString value =>
      let key := if decide (jt_key t = str "component") then str "lc" else jt_key t in
      if decide (key = str "internal.span.format") then acc
      else if decide (key = str "span.kind") then (acc.1, value)
      else (add_tag key value acc.1, acc.2)
  end.

(** jaeger.go:65-123 [jaegerSpan.ToSpan]; a missing process gives the empty service. *)
Definition jaeger_to_span (procs : gmap gostring gostring) (js : jspan) : span :=
  let s := new_span (js_operation js) (js_trace js) (js_id js) (jaeger_parent js) in
  let s := set_service (default [] (procs !! js_process js)) s in
  let '(s, kind) := foldl jaeger_tag (s, []) (js_tags js) in
  let s := add_tag tag_protocol_version (str "jaeger") s in
  let s := set_ts (microseconds (wrap64 (js_ts js))) s in
  let s := set_dur (wrap64 (wrap64 (js_dur js) * microsecond)) s in
  let s := if s_dur s =? 0 then set_dur millisecond s else s in
  let s := if equal_fold kind (str "client")
           then set_timings (set_cr (ts_add (s_ts s) (s_dur s)) (set_cs (s_ts s) (s_timings s))) s else s in
  let s := if equal_fold kind (str "server")
           then set_timings (set_ss (ts_add (s_ts s) (s_dur s)) (set_sr (s_ts s) (s_timings s))) s else s in
  s.

(** jaeger.go:46-63 [ParseJaeger]; [None] is a body that encoding/json rejects. *)
Definition ParseJaeger (decoded : option (list jdata)) : option (list span) :=
  option_map (fun data => foldl (fun acc d => foldl (fun acc js => acc ++ [jaeger_to_span (jd_procs d) js]) acc (jd_spans d)) [] data) decoded.
