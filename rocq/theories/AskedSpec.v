(** What of a document is asked for, for C114. *)
From Verif Require Import Base SpanModel JsonModel CodecModel JsonSpec DocSpec ParseSpec JaegerModel HandlerModel HandlerSpec StdJsonModel StdJsonSpec FormatSpec SwapSpec.

(** A value as it is; of an object the members with these names; of a list all elements or the first [n]; of a table all entries. *)
Inductive shape := SValue | SObject (fields : list (gostring * shape)) | SList (element : shape) | SFirst (n : nat) (element : shape) | STable (entry : shape).

(** The values of the members that are called [k]. *)
Definition given (fold : gostring -> gostring) (k : gostring) (ms : list (bytes * json)) : list json := map snd (members_named fold k ms).
(** Two values agree in what is asked for. *)
Inductive same_for (fold : gostring -> gostring) : shape -> json -> json -> Prop :=
  | sf_same s v : same_for fold s v v
  | sf_object fields ms ms' :
      (forall k s, (k, s) ∈ fields -> Forall2 (same_for fold s) (given fold k ms) (given fold k ms')) ->
      same_for fold (SObject fields) (JObj ms) (JObj ms')
  | sf_list s l l' : Forall2 (same_for fold s) l l' -> same_for fold (SList s) (JArr l) (JArr l')
  | sf_first n s l l' : Forall2 (same_for fold s) (take n l) (take n l') -> same_for fold (SFirst n s) (JArr l) (JArr l')
  | sf_table s ms ms' : Forall2 (fun m m' => m.1 = m'.1 /\ same_for fold s m.2 m'.2) ms ms' -> same_for fold (STable s) (JObj ms) (JObj ms').

Definition values (l : list gostring) : list (gostring * shape) := map (fun k => (k, SValue)) l.
Definition endpoint_shape : shape := SObject (values [str "serviceName"]).
Definition v2_shape : shape :=
  SList (SObject (values [str "id"; str "traceId"; str "parentId"; str "timestamp"; str "duration"; str "name"; str "kind"; str "tags"] ++ [(str "localEndpoint", endpoint_shape)])).
Definition annotation_shape : shape := SObject (values [str "timestamp"; str "value"] ++ [(str "endpoint", endpoint_shape)]).
Definition binary_shape : shape := SObject (values [str "key"; str "value"] ++ [(str "endpoint", endpoint_shape)]).
Definition v1_shape : shape :=
  SList (SObject (values [str "id"; str "traceId"; str "parentId"; str "timestamp"; str "duration"; str "name"] ++
    [(str "annotations", SFirst 4 annotation_shape); (str "binaryAnnotations", SList binary_shape)])).
Definition jaeger_span_shape : shape :=
  SObject (values [str "traceid"; str "spanid"; str "operationname"; str "starttime"; str "duration"; str "processid"] ++
    [(str "references", SList (SObject (values [str "reftype"; str "spanid"]))); (str "tags", SList (SObject (values [str "key"; str "value"])))]).
Definition jaeger_shape : shape :=
  SObject [(str "data", SList (SObject [(str "spans", SList jaeger_span_shape); (str "processes", STable (SObject (values [str "servicename"])))]))].

(** As [jaeger_request] in SwapSpec.v, for documents that may give members several times. *)
Definition jaeger_request_any (env : environment) (q : request) (v : json) : Prop :=
  n_jaeger env = jaeger_body /\ q_endpoint q = EJaeger /\ exists chunks e t rest, reads env q (Src chunks e) /\
  begins_with (concat chunks) t rest /\ ended t rest /\ end_visible t rest e /\ means plain_ids t v /\ doubles v.
