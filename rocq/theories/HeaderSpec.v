(** What C107 says about headers. *)
From Verif Require Import Base SpanModel JsonModel HandlerModel TextModel HeaderModel.

(** Names are compared without regard to case (RFC 7230, 3.2). *)
Definition same_name (a b : gostring) : Prop := map lower_byte a = map lower_byte b.
Global Instance same_name_dec a b : Decision (same_name a b) := decide (map lower_byte a = map lower_byte b).

(** The values of the fields with a name, in the order sent. *)
Definition values_of (name : gostring) (fields : list (gostring * gostring)) : list gostring :=
  map snd (filter (fun f => same_name f.1 name) fields).

(** The first field with the name says that the body is compressed. *)
Definition says_gzip (fields : list (gostring * gostring)) : Prop :=
  head (values_of (str "content-encoding") fields) = Some (str "gzip").

(** [q] is the request sent with the fields, a method, a path and a body. *)
Definition sent (method path : gostring) (fields : list (gostring * gostring)) (body : rsrc) : hrequest :=
  HRequest method path (read_fields fields) body.

(** The fields that a handler still sees. *)
Definition without (names : list gostring) (fields : list (gostring * gostring)) : list (gostring * gostring) :=
  filter (fun f => ~ Exists (fun n => same_name f.1 n) names) fields.

(** Request and answer as [TextModel] has them: without the other fields. *)
Definition plain_reply (r : hreply) : reply := Reply (hr_puts r) (hr_status r) (hr_body r).
Definition plain_request (ep : endpoint) (q : hrequest) : request :=
  Request ep (header_get (str "Content-Type") (hq_header q)) (header_get (str "Content-Encoding") (hq_header q)) (hq_body q).

(** The fields that go with a text. *)
Definition text_fields : list (gostring * list gostring) :=
  [(str "Content-Type", [str "text/plain; charset=utf-8"]); (str "X-Content-Type-Options", [str "nosniff"])].

(** Which endpoint a request asks for. *)
Definition path_of (ep : endpoint) : gostring :=
  match ep with EV1 => str "/api/v1/spans" | EV2 => str "/api/v2/spans" | EJaeger => str "/api/jaeger/spans" end.
Definition asks (q : hrequest) (ep : endpoint) : Prop := hq_method q = str "POST" /\ hq_path q = path_of ep.
