(** Property C100: one report in three formats. *)
From Verif Require Import Base SpanModel JsonModel CodecModel JsonSpec DocSpec JaegerModel ParseSpec HandlerModel HandlerSpec StdJsonModel StdJsonSpec StdWitness
  TreeModel TreeSpec FinishModel FinishSpec FinishWitness MaskSpec MaskWitness FormatSpec FormatProofs FormatHttp FormatWitness.

(** C100: reports written as Zipkin version 2, with members in any order among others that mean nothing, are accepted as the spans
    they report. *)
Theorem C100_v2 :
  forall env q rs m v l w rest chunks e, q_endpoint q = EV2 -> reads env q (Src chunks e) ->
  v2_reports rs v -> Forall reasonable rs -> text m v l -> ws w -> concat chunks = w ++ l ++ rest ->
  (m <= length (n_buf env))%nat -> (5 <= length (n_buf env))%nat -> no_eager_error e ->
  (length chunks + length (concat chunks) < n_fuel env)%nat -> (2 * length l + 2 < n_fuel env)%nat ->
  exists acts, handle env q = XDone acts /\ accepts (map (span_of 0 (str "json v2")) rs) acts.
Proof. exact format_v2. Qed.
Print Assumptions C100_v2.

(** C100: written as version 1, they are accepted as the same spans, if version 1 can tell. *)
Theorem C100_v1 :
  forall env q rs m v l w rest chunks e, q_endpoint q = EV1 -> declared_json (q_type q) -> reads env q (Src chunks e) ->
  v1_reports rs v -> Forall reasonable rs -> Forall v1_can_tell rs -> text m v l -> ws w -> concat chunks = w ++ l ++ rest ->
  (m <= length (n_buf env))%nat -> (5 <= length (n_buf env))%nat -> no_eager_error e ->
  (length chunks + length (concat chunks) < n_fuel env)%nat -> (2 * length l + 2 < n_fuel env)%nat -> pooled_once (n_pool env) ->
  exists acts, handle env q = XDone acts /\ accepts (map (span_of 0 (str "json v1")) rs) acts.
Proof. exact format_v1. Qed.
Print Assumptions C100_v1.

(** C100: written as a Jaeger document, they are accepted as the same spans, if Jaeger can tell, except that spans without parent
    are their own parent. *)
Theorem C100_jaeger :
  forall env q rs v t rest chunks e, n_jaeger env = jaeger_body -> q_endpoint q = EJaeger -> reads env q (Src chunks e) ->
  jaeger_reports rs v -> Forall reasonable rs -> Forall jaeger_can_tell rs ->
  begins_with (concat chunks) t rest -> ended t rest -> end_visible t rest e -> means plain_ids t v -> given_once v -> doubles v ->
  exists acts, handle env q = XDone acts /\ accepts (map (fun r => span_of (r_id r) (str "jaeger") r) rs) acts.
Proof. exact format_jaeger. Qed.
Print Assumptions C100_jaeger.

(** C100: the corrector does the same with them, up to the tag that tells the format. *)
Theorem C100_corrector :
  forall evs evs', Forall2 same_report evs evs' ->
  map (masked_entry (without version_key)) (run evs).2 = map (masked_entry (without version_key)) (run evs').2.
Proof. exact format_run. Qed.
Print Assumptions C100_corrector.

(** C100 fails for what took no time: version 2 makes a millisecond of it, version 1 does not. *)
Theorem C100_instant_refuted :
  exists r v1 v2 s1 s2, r_dur r = 0 /\ v1_report r v1 /\ v2_report r v2 /\ v1_span v1 = Some s1 /\ v2_span v2 = Some s2 /\
  tCR (s_timings s1) = 1000000 /\ tCR (s_timings s2) = 2000000.
Proof. exact instant_differs. Qed.
Print Assumptions C100_instant_refuted.

(** C100 fails for what version 1 cannot tell: the service is lost. *)
Theorem C100_service_refuted :
  exists r v1 v2 s1 s2, reasonable r /\ v1_report r v1 /\ v2_report r v2 /\ v1_span v1 = Some s1 /\ v2_span v2 = Some s2 /\
  s_service s1 = [] /\ s_service s2 = str "shop".
Proof. exact service_lost. Qed.
Print Assumptions C100_service_refuted.

(** C100 fails between Zipkin and Jaeger for traces with two spans without parent: Zipkin gets a root with the id 0, Jaeger loses
    the trace. *)
Theorem C100_roots_refuted :
  exists a b k out, reasonable a /\ reasonable b /\ r_trace a = r_trace b /\ r_parent a = None /\ r_parent b = None /\
  let evs f := [ESpan map_to_list 0 0 (f a); ESpan map_to_list 0 0 (f b); ETick k] in
  let zipkin := evs (span_of 0 (str "json v2")) in
  let jaeger := evs (fun r => span_of (r_id r) (str "jaeger") r) in
  Forall valid_event zipkin /\ Forall valid_event jaeger /\
  LOut (r_trace a) (Emitted out) ∈ (run zipkin).2 /\ map s_id out = [44; 31; 0] /\ LOut (r_trace a) NoRoot ∈ (run jaeger).2.
Proof. exact roots_differ. Qed.
Print Assumptions C100_roots_refuted.

(** Two reports in the three formats. *)
Example C100_instance :
  Forall reasonable [buy; sell] /\ Forall v1_can_tell [buy; sell] /\ Forall jaeger_can_tell [buy; sell] /\
  v2_reports [buy; sell] v2_doc /\ text 20 v2_doc (render v2_doc) /\ v1_reports [buy; sell] v1_doc /\ text 20 v1_doc (render v1_doc) /\
  jaeger_reports [buy; sell] jaeger_doc.
Proof. exact both_reports. Qed.
Example C100_instance_answers :
  let env := Env 3000 (replicate 20 0) new_pool_entry (fun _ => None) jaeger_body in
  let ask ep body := handle env (Request ep (str "application/json") [] (Src [take 50 body; drop 50 body] (EndEOF true))) in
  ask EV2 (render v2_doc) = XDone [Put (span_of 0 (str "json v2") buy); Put (span_of 0 (str "json v2") sell); Status 202] /\
  ask EV1 (render v1_doc) = XDone [Put (span_of 0 (str "json v1") buy); Put (span_of 0 (str "json v1") sell); Status 202] /\
  ask EJaeger (render jaeger_doc) = XDone [Put (span_of 31 (str "jaeger") buy); Put (span_of 44 (str "jaeger") sell); Status 202] /\
  span_of 0 (str "json v2") buy = Span 31 5 7 (str "buy") (str "shop") 1000000 70000
    (<[str "protocolVersion" := str "json v2"]> {[str "http.method" := str "GET"]}) (Timings 1000000 1070000 0 0).
Proof. by vm_compute. Qed.
Example C100_instance_jaeger :
  exists t, begins_with (render jaeger_doc) t [] /\ ended t [] /\ end_visible t [] (EndEOF true) /\ means plain_ids t jaeger_doc /\ given_once jaeger_doc /\ doubles jaeger_doc.
Proof. exact jaeger_doc_good. Qed.
Example C100_instance_corrector :
  let evs f := [ESpan map_to_list 0 0 (span_of 0 f sell); ESpan map_to_list 0 0 (span_of 0 f buy); ETick (keys_tick 20000000000); EClose] in
  Forall2 same_report (evs (str "json v1")) (evs (str "json v2")).
Proof. exact formats_same. Qed.
