(** Property C111: Zipkin v1 spans that repeat a list. *)
From Verif Require Import Base SpanModel JsonModel CodecModel JsonSpec DocSpec ParseSpec JaegerModel HandlerModel HandlerSpec SwapSpec SwapWitness
  LayerSpec LayerProofs LayerWitness.

(** C111: what any version 1 document means, whatever it repeats (C24 and C52 leave out those that repeat a list). *)
Theorem C111_documents :
  forall env q v, v1_request_any env q v -> exists acts, handle env q = XDone acts /\ answers (v1_spans_layered v) acts.
Proof. exact request_any. Qed.
Print Assumptions C111_documents.

(** C111: with lists given once it is what C24 says. *)
Theorem C111_once :
  forall v, at_most_once (str "annotations") v -> at_most_once (str "binaryAnnotations") v -> v1_span_layered v = v1_span v.
Proof. exact layered_once. Qed.
Print Assumptions C111_once.

(** C111: the last list does not count alone: it shows values that were given for other keys and other events. *)
Theorem C111_last_refuted :
  exists env q v q' v' s s', v1_request_any env q v /\ v1_request_any env q' v' /\
  handle env q = XDone [Put s; Status 202] /\ handle env q' = XDone [Put s'; Status 202] /\
  v = twice_v /\ v' = last_only_v /\ s_tags s !! str "user" = Some (str "secret") /\ s_tags s' !! str "user" = Some [] /\
  tCS (s_timings s) = 1005000 /\ tCS (s_timings s') = 0.
Proof. exact last_not_alone. Qed.
Print Assumptions C111_last_refuted.

(** C111: the lists are not joined either ([v1_spans] joins them). *)
Theorem C111_joined_refuted :
  exists env q v s s', v1_request_any env q v /\ handle env q = XDone [Put s; Status 202] /\ v1_spans v = Some [s'] /\
  s_tags s !! str "password" = None /\ s_tags s' !! str "password" = Some (str "secret").
Proof. exact lists_not_joined. Qed.
Print Assumptions C111_joined_refuted.

(** A span with three lists of binary annotations and two lists of annotations. *)
Example C111_instance :
  v1_request_any order_env (order_ask EV1 twice_v) twice_v /\ v1_spans_layered twice_v = Some [twice_span] /\
  handle order_env (order_ask EV1 twice_v) = XDone [Put twice_span; Status 202].
Proof. exact twice_read. Qed.
