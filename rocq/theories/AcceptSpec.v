(** What C73 refers to: the memory that the parsers get, lengths of strings, decoded Jaeger bodies. *)
From Verif Require Import Base SpanModel JsonModel CodecModel JaegerModel HandlerModel HandlerSpec BinarySpec.

(** codec/json.go:11 [pooledBufferSliceLength]. *)
Definition parse_buffer : nat := Z.to_nat 8192.

(** Entries of the v1 pool after any history of requests parsed with buffers of that length. *)
Inductive pooled_small : list spanV1 -> Prop :=
  | small_new : pooled_small new_pool_entry
  | small_put fuel buf entry src r entry' : pooled_small entry -> length buf = parse_buffer ->
      ParseJsonV1 fuel buf entry src = XDone (r, entry') -> pooled_small entry'.

(** What the pools hand to a handler (codec/json.go:13-17, codec/json-v1.go:44-48). *)
Definition pooled_memory (env : environment) : Prop := length (n_buf env) = parse_buffer /\ pooled_small (n_pool env).

(** No string of the span is longer than [n] bytes. *)
Definition strings_within (n : nat) (s : span) : Prop :=
  (length (s_name s) <= n)%nat /\ (length (s_service s) <= n)%nat /\
  forall k v, s_tags s !! k = Some v -> (length k <= n)%nat /\ (length v <= n)%nat.

(** Values that Go's encoding/json can produce from a body shorter than 2^31 bytes: identifiers of 64 bits, shorter strings. *)
Definition jspan_ok (js : jspan) : Prop :=
  int64_ok (js_trace js) /\ int64_ok (js_id js) /\ Forall (fun r => int64_ok (jr_span r)) (js_refs js) /\ wire_string (js_operation js) /\
  Forall (fun t => wire_string (jt_key t) /\ match jt_value t with JVString v => wire_string v | JVOther => True end) (js_tags js).
Definition jdata_ok (d : jdata) : Prop :=
  Forall jspan_ok (jd_spans d) /\ forall k v, jd_procs d !! k = Some v -> wire_string v.
(** The body of the request, if it is decoded, is decoded to such values. *)
Definition jaeger_ok (env : environment) (q : request) : Prop :=
  forall body data, reads env q body -> n_jaeger env body = Some data -> Forall jdata_ok data.
