(** Property C112: documents that earlier requests cannot influence. *)
From Verif Require Import Base SpanModel JsonModel CodecModel JsonSpec DocSpec ParseSpec JaegerModel HandlerModel HandlerSpec SwapSpec SwapWitness
  LayerSpec SaidSpec SaidProofs SaidWitness.

(** C112: a version 1 document in which every binary annotation has a key, a value and a service means the same with any pooled memory. *)
Theorem C112_whole :
  forall env q v, v1_request_any_memory env q v -> (forall vs, v = JArr vs -> Forall whole_span vs) ->
  exists acts, handle env q = XDone acts /\ answers (v1_spans_layered v) acts.
Proof. exact whole_request. Qed.
Print Assumptions C112_whole.

(** C112: each of the three is needed: what is missing is filled in from an earlier request. *)
Theorem C112_parts_refuted :
  pooled (n_pool used_env) /\
  (v1_request_any_memory used_env (order_ask EV1 no_key) no_key /\
   handle used_env (order_ask EV1 no_key) = XDone [Put (told [] {[str "password" := str "x"; str "k" := str "v"]}); Status 202]) /\
  (v1_request_any_memory used_env (order_ask EV1 no_value) no_value /\
   handle used_env (order_ask EV1 no_value) = XDone [Put (told [] {[str "a" := str "secret"; str "k" := str "v"]}); Status 202]) /\
  (v1_request_any_memory used_env (order_ask EV1 no_service) no_service /\
   handle used_env (order_ask EV1 no_service) = XDone [Put (told (str "bank") {[str "a" := str "x"; str "k" := str "v"]}); Status 202]).
Proof. exact parts_leak. Qed.
Print Assumptions C112_parts_refuted.

(** A document with all three, in the same memory, which is not one that C25 and C111 speak of. *)
Example C112_instance :
  v1_request_any_memory used_env (order_ask EV1 all_three) all_three /\ (forall vs, all_three = JArr vs -> Forall whole_span vs) /\
  pooled (n_pool used_env) /\ ~ pooled_once (n_pool used_env) /\
  handle used_env (order_ask EV1 all_three) = XDone [Put (told (str "shop") {[str "a" := str "x"; str "k" := str "v"]}); Status 202].
Proof. exact whole_reads. Qed.
