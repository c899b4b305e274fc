(** Property C108: what may change places in a document. *)
From Verif Require Import Base SpanModel JsonModel CodecModel JsonSpec DocSpec JaegerModel HandlerModel HandlerSpec StdJsonModel StdJsonSpec
  FormatSpec FormatWitness SwapSpec SwapProofs SwapJaeger SwapWitness.

(** C108: objects with the same members are alike if no name is repeated. *)
Theorem C108_names :
  forall fold ms ms', ms ≡ₚ ms' -> NoDup (map (fun m => fold m.1) ms) -> alike fold (JObj ms) (JObj ms').
Proof. exact names_alike. Qed.
Print Assumptions C108_names.

(** C108: version 2: two requests whose documents differ in the order of members are treated alike. *)
Theorem C108_v2 :
  forall env q v env' q' v', v2_request env q v -> v2_request env' q' v' -> alike exactly v v' -> treated_alike env q env' q'.
Proof. exact order_v2. Qed.
Print Assumptions C108_v2.

(** C108: version 1: the same, and annotations may be given in another order too. *)
Theorem C108_v1 :
  forall env q vs env' q' vs', v1_request env q (JArr vs) -> v1_request env' q' (JArr vs') -> Forall2 v1_alike vs vs' -> treated_alike env q env' q'.
Proof. exact order_v1. Qed.
Print Assumptions C108_v1.

(** C108: Jaeger: members, processes, tags and references may be given in another order. *)
Theorem C108_jaeger :
  forall env q v env' q' v', jaeger_request env q v -> jaeger_request env' q' v' -> jaeger_docs v v' -> treated_alike env q env' q'.
Proof. exact order_jaeger. Qed.
Print Assumptions C108_jaeger.

(** C108 fails for more than four annotations of version 1: the end of the call is lost if it is the fifth. *)
Theorem C108_fifth_refuted :
  exists a a' v v' l s s', other_list exactly (str "annotations") a a' v v' /\ a ≡ₚ a' /\
  traverse annotation a = Some l /\ NoDup (map (fun x => x.1.2) (List.filter timed l)) /\ one_name (map snd (List.filter timed l)) /\
  v1_span v = Some s /\ v1_span v' = Some s' /\ tCR (s_timings s) = 1070000 /\ tCR (s_timings s') = 0.
Proof. exact fifth_lost. Qed.
Print Assumptions C108_fifth_refuted.

(** C108 fails for annotations of two services: the first one names the service. *)
Theorem C108_service_refuted :
  exists a a' v v' l s s', other_list exactly (str "annotations") a a' v v' /\ a ≡ₚ a' /\ (length a <= 4)%nat /\
  traverse annotation a = Some l /\ NoDup (map (fun x => x.1.2) (List.filter timed l)) /\
  v1_span v = Some s /\ v1_span v' = Some s' /\ s_service s = str "shop" /\ s_service s' = str "stock".
Proof. exact service_first. Qed.
Print Assumptions C108_service_refuted.

(** C108 fails for Jaeger spans with two parents: the last one counts. *)
Theorem C108_parent_refuted :
  exists a a' v v' j j', other_list fold_case (str "references") a a' v v' /\ a ≡ₚ a' /\
  jaeger_span_of v = Some j /\ jaeger_span_of v' = Some j' /\ s_parent (jaeger_to_span ∅ j) = 6 /\ s_parent (jaeger_to_span ∅ j') = 5.
Proof. exact parent_last. Qed.
Print Assumptions C108_parent_refuted.

(** Documents written in two ways, in each format. *)
Example C108_instance_v2 :
  v2_request order_env (order_ask EV2 v2_one_way) v2_one_way /\ v2_request order_env (order_ask EV2 v2_other_way) v2_other_way /\ alike exactly v2_one_way v2_other_way /\
  handle order_env (order_ask EV2 v2_other_way) = XDone [
    Put (Span 31 0 7 (str "buy") (str "shop") 1000000 70000 (<[str "protocolVersion" := str "json v2"]> {[str "b" := str "x"; str "a" := str "GET"]}) (Timings 1000000 1070000 0 0));
    Put (Span 44 0 0 [] [] 0 1000000 {[str "protocolVersion" := str "json v2"]} (Timings 0 0 0 0)); Status 202].
Proof. exact v2_pair. Qed.
Example C108_instance_v1 :
  v1_request order_env (order_ask EV1 (JArr v1_one_way)) (JArr v1_one_way) /\ v1_request order_env (order_ask EV1 (JArr v1_other_way)) (JArr v1_other_way) /\
  Forall2 v1_alike v1_one_way v1_other_way /\
  handle order_env (order_ask EV1 (JArr v1_other_way)) = XDone [
    Put (Span 31 0 7 (str "buy") (str "shop") 1000000 70000 (<[str "protocolVersion" := str "json v1"]> {[str "a" := str "GET"; str "b" := str "x"]}) (Timings 1000000 1070000 0 0));
    Put (Span 44 0 0 [] [] 0 1000000 {[str "protocolVersion" := str "json v1"]} (Timings 0 0 0 0)); Status 202].
Proof. exact v1_pair. Qed.
Example C108_instance_jaeger :
  jaeger_request order_env (order_ask EJaeger jaeger_one_way) jaeger_one_way /\ jaeger_request order_env (order_ask EJaeger jaeger_other_way) jaeger_other_way /\
  jaeger_docs jaeger_one_way jaeger_other_way /\
  handle order_env (order_ask EJaeger jaeger_other_way) = XDone [
    Put (Span 31 5 7 [] [] 0 1000000 (<[str "protocolVersion" := str "jaeger"]> {[str "lc" := str "net"]}) (Timings 0 1000000 0 0)); Status 202].
Proof. exact jaeger_pair. Qed.
