(** Version 1 documents that say everything about their binary annotations, for C112. *)
From Verif Require Import Base SpanModel JsonSpec DocSpec ParseSpec JaegerModel HandlerModel HandlerSpec SwapSpec LayerSpec.

(** A binary annotation with a key, a value and a service. *)
Definition whole (v : json) : Prop :=
  match v with
  | JObj ms => all_values (str "key") ms <> [] /\ all_values (str "value") ms <> [] /\
      exists o, JObj o ∈ all_values (str "endpoint") ms /\ all_values (str "serviceName") o <> []
  | _ => True
  end.
(** All binary annotations of a span. *)
Definition whole_span (v : json) : Prop :=
  match v with JObj ms => forall l, JArr l ∈ all_values (str "binaryAnnotations") ms -> Forall whole l | _ => True end.
(** A version 1 request with any document; nothing is said of the pooled memory. *)
Definition v1_request_any_memory (env : environment) (q : request) (v : json) : Prop :=
  q_endpoint q = EV1 /\ declared_json (q_type q) /\ zipkin_body env q v.
