(** Property C114: what of a document is asked for. *)
From Verif Require Import Base SpanModel JsonModel CodecModel JsonSpec DocSpec ParseSpec JaegerModel HandlerModel HandlerSpec StdJsonModel StdJsonSpec FormatSpec SwapSpec SwapWitness
  LayerSpec AskedSpec AskedProofs AskedWitness.

(** C114: a member with a name that is not asked for may be added to or taken from an object. *)
Theorem C114_extra :
  forall fold fields ms1 ms2 n v, (forall k s, (k, s) ∈ fields -> fold n <> k) -> same_for fold (SObject fields) (JObj (ms1 ++ ms2)) (JObj (ms1 ++ (n, v) :: ms2)).
Proof. exact extra_member. Qed.
Print Assumptions C114_extra.
Example C114_extra_instance : forall k s, (k, s) ∈ values [str "key"; str "value"] -> fold_case (str "Type") <> k.
Proof. intros k s H. cbn [values map] in H. repeat (apply elem_of_cons in H as [[= -> ->]|H]; [by vm_compute|]). by apply elem_of_nil in H. Qed.

(** C114: version 2: requests whose documents agree in what is asked for are treated alike. *)
Theorem C114_v2 :
  forall env q v env' q' v', v2_request env q v -> v2_request env' q' v' -> same_for exactly v2_shape v v' -> treated_alike env q env' q'.
Proof. exact asked_v2. Qed.
Print Assumptions C114_v2.
Example C114_v2_instance :
  v2_request order_env (order_ask EV2 lean_v2) lean_v2 /\ v2_request order_env (order_ask EV2 rich_v2) rich_v2 /\ same_for exactly v2_shape lean_v2 rich_v2 /\
  handle order_env (order_ask EV2 rich_v2) = XDone [Put (lean_span (str "json v2")); Status 202].
Proof. exact v2_asked. Qed.

(** C114: version 1; lists may be given several times. *)
Theorem C114_v1 :
  forall env q v env' q' v', v1_request_any env q v -> v1_request_any env' q' v' -> same_for exactly v1_shape v v' -> treated_alike env q env' q'.
Proof. exact asked_v1. Qed.
Print Assumptions C114_v1.
Example C114_v1_instance :
  v1_request_any order_env (order_ask EV1 lean_v1) lean_v1 /\ v1_request_any order_env (order_ask EV1 rich_v1) rich_v1 /\ same_for exactly v1_shape lean_v1 rich_v1 /\
  handle order_env (order_ask EV1 rich_v1) =
    XDone [Put (Span 31 0 7 [] (str "shop") 0 1000000 (<[str "protocolVersion" := str "json v1"]> {[str "k" := str "x"]}) (Timings 0 0 0 0)); Status 202].
Proof. exact v1_asked. Qed.

(** C114: Jaeger; names in any case, lists may be given several times. *)
Theorem C114_jaeger :
  forall env q v env' q' v', jaeger_request_any env q v -> jaeger_request_any env' q' v' -> same_for fold_case jaeger_shape v v' -> treated_alike env q env' q'.
Proof. exact asked_jaeger. Qed.
Print Assumptions C114_jaeger.
Example C114_jaeger_instance :
  jaeger_request_any order_env (order_ask EJaeger lean_jaeger) lean_jaeger /\ jaeger_request_any order_env (order_ask EJaeger rich_jaeger) rich_jaeger /\
  same_for fold_case jaeger_shape lean_jaeger rich_jaeger /\ handle order_env (order_ask EJaeger rich_jaeger) = XDone [Put (jaeger_span_k 31); Status 202].
Proof. exact jaeger_asked. Qed.

(** In Jaeger documents names in other letters are asked for too: [louder_jaeger] has the member "SPANID" in addition. *)
Theorem C114_letters_refuted :
  jaeger_request_any order_env (order_ask EJaeger lean_jaeger) lean_jaeger /\ jaeger_request_any order_env (order_ask EJaeger louder_jaeger) louder_jaeger /\
  handle order_env (order_ask EJaeger lean_jaeger) = XDone [Put (jaeger_span_k 31); Status 202] /\
  handle order_env (order_ask EJaeger louder_jaeger) = XDone [Put (jaeger_span_k 44); Status 202].
Proof. exact louder_heard. Qed.
Print Assumptions C114_letters_refuted.
