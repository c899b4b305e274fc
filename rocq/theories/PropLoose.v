(** Property C76: exactly which bodies are accepted. *)
From Verif Require Import Base SpanModel JsonModel CodecModel JsonSpec DocSpec ParseSpec HandlerModel HandlerSpec LooseSpec LooseTheorems EagerTheorems.

(** C76: whatever the body, if version 2 spans come out of it then it begins with a document that describes them; and
    every such document is accepted.  Together: nothing else is accepted. *)
Theorem C76_v2 :
  forall fuel buf chunks e, (5 <= length buf)%nat -> no_eager_error e ->
  (length chunks + length (concat chunks) < fuel)%nat -> (2 * length (concat chunks) + 2 < fuel)%nat ->
  forall spans, ParseJsonV2 fuel buf (Src chunks e) = XDone (Some spans) <->
    exists v rest, document (length buf) (concat chunks) v rest /\ v2_spans v = Some spans.
Proof. exact v2_exact. Qed.
Print Assumptions C76_v2.

(** C76 for version 1, in two parts; what the spans of a document with repeated members are is left open (C25). *)
Theorem C76_v1_accepted :
  forall fuel buf pool chunks e spans pool', (5 <= length buf)%nat -> pooled_once pool ->
  ParseJsonV1 fuel buf pool (Src chunks e) = XDone (Some spans, pool') ->
  exists v rest, document (length buf) (concat chunks) v rest /\ (unrepeated v -> v1_spans v = Some spans).
Proof. exact v1_accepted_any. Qed.
Print Assumptions C76_v1_accepted.

Theorem C76_v1_document :
  forall fuel buf pool chunks e v rest, (5 <= length buf)%nat -> no_eager_error e -> pooled_once pool ->
  (length chunks + length (concat chunks) < fuel)%nat -> (2 * length (concat chunks) + 2 < fuel)%nat ->
  document (length buf) (concat chunks) v rest -> unrepeated v ->
  exists pool', ParseJsonV1 fuel buf pool (Src chunks e) = XDone (v1_spans v, pool').
Proof. exact v1_exact. Qed.
Print Assumptions C76_v1_document.

(** C76: a value can be skipped, leaving [rest], exactly if it is a document with [rest] after it. *)
Theorem C76_skip :
  forall fuel buf chunks e, (5 <= length buf)%nat -> no_eager_error e ->
  (length chunks + length (concat chunks) < fuel)%nat -> (2 * length (concat chunks) + 2 < fuel)%nat ->
  forall rest, (exists st, Skip fuel (new_parser (Src chunks e) buf) = POk tt st /\ unread st = rest) <->
    exists v, document (length buf) (concat chunks) v rest.
Proof. exact skip_exact. Qed.
Print Assumptions C76_skip.

(** C76 over HTTP: the answer is 202, after these spans, exactly for the documents that describe them ... *)
Theorem C76_http_v2 :
  forall env q chunks e, q_endpoint q = EV2 -> reads env q (Src chunks e) -> (5 <= length (n_buf env))%nat -> no_eager_error e ->
  (length chunks + length (concat chunks) < n_fuel env)%nat -> (2 * length (concat chunks) + 2 < n_fuel env)%nat ->
  forall spans, (exists acts, handle env q = XDone acts /\ accepts spans acts) <->
    exists v rest, document (length (n_buf env)) (concat chunks) v rest /\ v2_spans v = Some spans.
Proof. exact handler_v2_exact. Qed.
Print Assumptions C76_http_v2.

Theorem C76_http_v1 :
  forall env q chunks e spans acts, q_endpoint q = EV1 -> reads env q (Src chunks e) -> (5 <= length (n_buf env))%nat ->
  pooled_once (n_pool env) -> handle env q = XDone acts -> accepts spans acts ->
  declared_json (q_type q) /\ exists v rest, document (length (n_buf env)) (concat chunks) v rest /\ (unrepeated v -> v1_spans v = Some spans).
Proof. exact handler_v1_accepted_any. Qed.
Print Assumptions C76_http_v1.

(** (only these, whatever the reader does at its end) *)
Theorem C76_http_v2_only :
  forall env q chunks e spans acts, q_endpoint q = EV2 -> reads env q (Src chunks e) -> (5 <= length (n_buf env))%nat ->
  handle env q = XDone acts -> accepts spans acts ->
  exists v rest, document (length (n_buf env)) (concat chunks) v rest /\ v2_spans v = Some spans.
Proof. exact handler_v2_accepted_any. Qed.
Print Assumptions C76_http_v2_only.

(** ... and 400 for everything else, as long as no string or number is too long for the buffer (C18). *)
Theorem C76_http_v2_rejected :
  forall env q chunks e, q_endpoint q = EV2 -> reads env q (Src chunks e) -> (5 <= length (n_buf env))%nat ->
  (length chunks + length (concat chunks) < n_fuel env)%nat -> (2 * length (concat chunks) + 2 < n_fuel env)%nat -> short_tokens (length (n_buf env)) (concat chunks) ->
  (forall v rest, document (length (n_buf env)) (concat chunks) v rest -> v2_spans v = None) ->
  exists acts, handle env q = XDone acts /\ rejects acts.
Proof. exact handler_v2_rejected_any. Qed.
Print Assumptions C76_http_v2_rejected.

Theorem C76_http_v1_rejected :
  forall env q chunks e, q_endpoint q = EV1 -> reads env q (Src chunks e) -> (5 <= length (n_buf env))%nat ->
  pooled_once (n_pool env) ->
  (length chunks + length (concat chunks) < n_fuel env)%nat -> (2 * length (concat chunks) + 2 < n_fuel env)%nat -> short_tokens (length (n_buf env)) (concat chunks) ->
  (forall v rest, ~ document (length (n_buf env)) (concat chunks) v rest) ->
  exists acts, handle env q = XDone acts /\ rejects acts.
Proof. exact handler_v1_rejected_any. Qed.
Print Assumptions C76_http_v1_rejected.

(** A body without separators, with words and a number unknown to JSON; the same body with a byte 14 as separator. *)
Example C76_instance :
  document 20 odd_body odd_value (str "junk") /\
  v2_spans odd_value = Some [Span 0 0 0 [] [] 7000 1000000 {[str "protocolVersion" := str "json v2"]} (Timings 0 0 0 0);
                             Span 0 0 0 [] [] 0 1000000 {[str "protocolVersion" := str "json v2"]} (Timings 0 0 0 0)] /\
  ParseJsonV2 200 (replicate 20 0) (Src [odd_body] (EndEOF true)) = XDone (v2_spans odd_value) /\
  ParseJsonV2 200 (replicate 20 0) (Src [take 1 odd_body; [14]; drop 1 odd_body] (EndEOF true)) = XDone None.
Proof. split; [exact odd_document|]. by vm_compute. Qed.
