(** Property C82: Jaeger bodies.  [jaeger_body] is the model of Go's encoding/json as codec/jaeger.go:48-49 uses it, so these
    statements are about the environments in which [n_jaeger] is [jaeger_body]. *)
From Verif Require Import Base SpanModel JsonModel CodecModel JsonSpec DocSpec JaegerModel JaegerSpec HandlerModel HandlerSpec BinaryModel BinarySpec AcceptSpec
  StdJsonModel StdJsonSpec StdHttpProofs StdWitness.

(** C82: the body begins with the text of a JSON value (by the grammar of RFC 8259) with the meaning [v]: the spans that the
    document [v] describes are put on the input and the answer is 202; if [v] is not a Jaeger document, the answer is 400. *)
Theorem C82_document :
  forall env q chunks e t rest v, n_jaeger env = jaeger_body -> q_endpoint q = EJaeger -> reads env q (Src chunks e) ->
  begins_with (concat chunks) t rest -> ended t rest -> end_visible t rest e -> means plain_ids t v -> given_once v -> doubles v ->
  exists acts, handle env q = XDone acts /\
  match jaeger_document v with
  | Some data => exists groups, accepts (concat groups) acts /\ Forall2 (fun d g => Forall2 (jaeger_describes (jd_procs d)) (jd_spans d) g) data groups
  | None => rejects acts
  end.
Proof. exact http_document. Qed.
Print Assumptions C82_document.

(** C82: a body that does not begin with JSON is answered 400 and nothing is put on the input. *)
Theorem C82_not_json :
  forall env q body, n_jaeger env = jaeger_body -> q_endpoint q = EJaeger -> reads env q body ->
  (forall t rest, ~ begins_with (concat (r_chunks body)) t rest) -> exists acts, handle env q = XDone acts /\ rejects acts.
Proof. exact http_not_json. Qed.
Print Assumptions C82_not_json.

(** C82: if the reader fails where the end of a number, string or word cannot be seen yet, the answer is 400. *)
Theorem C82_cut :
  forall env q chunks e t rest, n_jaeger env = jaeger_body -> q_endpoint q = EJaeger -> reads env q (Src chunks e) ->
  begins_with (concat chunks) t rest -> ended t rest -> ~ end_visible t rest e -> exists acts, handle env q = XDone acts /\ rejects acts.
Proof. exact http_cut. Qed.
Print Assumptions C82_cut.
Example C82_cut_instance :
  begins_with (concat [str " nu"; str "ll"]) TNil [] /\ ended TNil [] /\ ~ end_visible TNil [] (EndErr true) /\
  jaeger_body (Src [str " nu"; str "ll"] (EndErr true)) = None /\ jaeger_body (Src [str " nu"; str "ll"] (EndEOF true)) = Some [].
Proof. exact cut_null. Qed.

(** C82: all strings of accepted spans are valid UTF-8, whatever the bytes of the body are. *)
Theorem C82_utf8 :
  forall env q acts s, n_jaeger env = jaeger_body -> q_endpoint q = EJaeger -> handle env q = XDone acts -> Put s ∈ acts -> span_strings utf8_text s.
Proof. exact http_utf8. Qed.
Print Assumptions C82_utf8.

(** C82: with bodies below 683 MB nothing has to be assumed about decoded values: accepted spans survive Kafka. *)
Theorem C82_survives :
  forall env q body acts s order, pooled_memory env -> n_jaeger env = jaeger_body -> reads env q body ->
  Z.of_nat (length (concat (r_chunks body))) < 715827882 -> handle env q = XDone acts -> Put s ∈ acts ->
  Z.of_nat (size (s_tags s)) < 2^63 -> iteration_order order (s_tags s) ->
  exists bs, binary_encode order s = Some bs /\ forall rest, binary_decode (bs ++ rest) = DOk s rest.
Proof. exact http_survives. Qed.
Print Assumptions C82_survives.

(** C82 does not hold for all texts of a value: an identifier that is written with an escape is an error, although it is the
    same string. *)
Theorem C82_escapes_refuted :
  exists l1 l2 t1 t2 v data, begins_with l1 t1 [] /\ begins_with l2 t2 [] /\ means (fun _ _ => True) t1 v /\ means (fun _ _ => True) t2 v /\
  given_once v /\ doubles v /\ jaeger_document v = Some data /\ jaeger_body (Src [l1] (EndEOF true)) = Some data /\ jaeger_body (Src [l2] (EndEOF true)) = None.
Proof. exact escapes_matter. Qed.
Print Assumptions C82_escapes_refuted.

(** C82 does not hold if a list is given twice: the value of a tag of the first list appears under the key of a tag of the second. *)
Theorem C82_twice_refuted :
  exists l t v, begins_with l t [] /\ means plain_ids t v /\ doubles v /\
  jaeger_document v = Some [JData [JSpan 0 0 [] [] 0 0 [] [JTag (str "b") JVOther]] ∅] /\
  jaeger_body (Src [l] (EndEOF true)) = Some [JData [JSpan 0 0 [] [] 0 0 [] [JTag (str "b") (JVString (str "x"))]] ∅].
Proof. exact repeated_members_mix. Qed.
Print Assumptions C82_twice_refuted.

(** C82 does not hold if a tag has a number beyond double precision: all spans of the body are lost. *)
Theorem C82_numbers_refuted :
  exists l t v, begins_with l t [] /\ means plain_ids t v /\ given_once v /\
  jaeger_document v = Some [JData [JSpan 0 10 [] [] 0 0 [] [JTag (str "n") JVOther]] ∅] /\ jaeger_body (Src [l] (EndEOF true)) = None.
Proof. exact large_number_rejected. Qed.
Print Assumptions C82_numbers_refuted.

(** The document of codec/jaeger_test.go, in pieces, followed by something else and an error of the reader. *)
Example C82_instance :
  let env := Env 300 (replicate 40 0) new_pool_entry (fun _ => None) jaeger_body in
  let q := Request EJaeger [] [] (Src [take 100 sample; drop 100 sample] (EndErr true)) in
  (exists t v, begins_with sample t (str " trailing") /\ ended t (str " trailing") /\ end_visible t (str " trailing") (EndErr true) /\
    means plain_ids t v /\ given_once v /\ doubles v) /\
  handle env q = XDone [Put (Span 48815 43690 57005 (str "getconnection") (str "core-services") 1560276970000000000 1000000000
     (<[str "protocolVersion" := str "jaeger"]> {[str "lc" := str "postgres"]}) (Timings 1560276970000000000 1560276971000000000 0 0)); Status 202].
Proof.
  split; [|by vm_compute]. destruct sample_document as (t & v & H1 & H2 & H3 & H4 & H5 & H6 & _). by exists t, v.
Qed.
(** Not JSON: a comma too many; not a Jaeger document: a list where an object is expected. *)
Example C82_instance_rejected :
  let env := Env 300 (replicate 40 0) new_pool_entry (fun _ => None) jaeger_body in
  handle env (Request EJaeger [] [] (Src [str "{""data"":[],}"] (EndEOF true))) = XDone [Status 400] /\
  handle env (Request EJaeger [] [] (Src [str "{""data"":[[]]}"] (EndEOF true))) = XDone [Status 400] /\
  handle env (Request EJaeger [] [] (Src [str "{""other"":[[]]}"] (EndEOF true))) = XDone [Status 202].
Proof. by vm_compute. Qed.
