(** Property C52: HTTP ingestion. *)
From Verif Require Import Base SpanModel JsonModel CodecModel JaegerModel JaegerSpec JsonSpec DocSpec ParseSpec HandlerModel HandlerSpec HandlerProofs.

(** C52: whatever the request, an answer is either 202 after all the parsed spans were put on the input in order, or 400
    and nothing was put there; no handler panics. *)
Theorem C52_all_or_nothing :
  forall env q acts, handle env q = XDone acts ->
  (exists spans body, reads env q body /\ parser env (q_endpoint q) body = XDone (Some spans) /\ (q_endpoint q = EV1 -> declared_json (q_type q)) /\ accepts spans acts) \/
  rejects acts.
Proof. exact handle_shape. Qed.
Print Assumptions C52_all_or_nothing.

Theorem C52_no_panic : forall env q, handle env q <> XPanic.
Proof. exact handle_no_panic. Qed.
Print Assumptions C52_no_panic.

(** C52: version 1 bodies not declared as JSON, and bodies falsely declared as gzip, are rejected. *)
Theorem C52_not_json :
  forall env q, q_endpoint q = EV1 -> ~ declared_json (q_type q) -> exists acts, handle env q = XDone acts /\ rejects acts.
Proof. exact handle_not_json. Qed.
Print Assumptions C52_not_json.

Theorem C52_bad_gzip :
  forall env q, q_encoding q = str "gzip" -> n_gunzip env (q_body q) = None -> exists acts, handle env q = XDone acts /\ rejects acts.
Proof. exact handle_bad_gzip. Qed.
Print Assumptions C52_bad_gzip.

(** C52: a JSON document gets the answer that follows from its meaning (C23, C24, C27). *)
Theorem C52_v2 :
  forall env q m v l w rest chunks e, q_endpoint q = EV2 -> reads env q (Src chunks e) ->
  text m v l -> ws w -> delimited v rest -> concat chunks = w ++ l ++ rest ->
  (m <= length (n_buf env))%nat -> (5 <= length (n_buf env))%nat -> no_eager_error e ->
  (length chunks + length (concat chunks) < n_fuel env)%nat -> (2 * length l + 2 < n_fuel env)%nat ->
  exists acts, handle env q = XDone acts /\ answers (v2_spans v) acts.
Proof. exact handle_v2. Qed.
Print Assumptions C52_v2.

Theorem C52_v1 :
  forall env q m v l w rest chunks e, q_endpoint q = EV1 -> declared_json (q_type q) -> reads env q (Src chunks e) ->
  text m v l -> ws w -> delimited v rest -> concat chunks = w ++ l ++ rest ->
  (m <= length (n_buf env))%nat -> (5 <= length (n_buf env))%nat -> no_eager_error e ->
  (length chunks + length (concat chunks) < n_fuel env)%nat -> (2 * length l + 2 < n_fuel env)%nat ->
  pooled_once (n_pool env) ->
  (forall vs, v = JArr vs -> Forall (fun v => at_most_once (str "annotations") v /\ at_most_once (str "binaryAnnotations") v) vs) ->
  exists acts, handle env q = XDone acts /\ answers (v1_spans v) acts.
Proof. exact handle_v1. Qed.
Print Assumptions C52_v1.

Theorem C52_jaeger :
  forall env q body data, q_endpoint q = EJaeger -> reads env q body -> n_jaeger env body = Some data ->
  exists groups acts, handle env q = XDone acts /\ accepts (concat groups) acts /\
  Forall2 (fun d g => Forall2 (jaeger_describes (jd_procs d)) (jd_spans d) g) data groups.
Proof. exact handle_jaeger. Qed.
Print Assumptions C52_jaeger.

Theorem C52_jaeger_rejected :
  forall env q body, q_endpoint q = EJaeger -> reads env q body -> n_jaeger env body = None ->
  exists acts, handle env q = XDone acts /\ rejects acts.
Proof. exact handle_jaeger_bad. Qed.
Print Assumptions C52_jaeger_rejected.

(** Two spans of which the second is broken: nothing is put on the input. *)
Example C52_instance :
  let env := Env 300 (replicate 40 0) new_pool_entry (fun src => match r_chunks src with [31; 139] :: cs => Some (Src cs (r_end src)) | _ => None end) (fun _ => None) in
  let good := str "[{""id"":""1"",""traceId"":""7""},{""id"":""2"",""traceId"":""7""}]" in
  let bad := str "[{""id"":""1"",""traceId"":""7""},{""id"":2,""traceId"":""7""}]" in
  let ids r := match r with XDone acts => map (fun a => match a with Put s => s_id s | Status c => c end) acts | _ => [] end in
  ids (handle env (Request EV2 [] [] (Src [good] (EndEOF true)))) = [1; 2; 202] /\
  ids (handle env (Request EV2 [] [] (Src [bad] (EndEOF true)))) = [400] /\
  ids (handle env (Request EV1 (str "application/json; charset=utf-8") [] (Src [good] (EndEOF true)))) = [1; 2; 202] /\
  ids (handle env (Request EV1 (str "application/x-thrift") [] (Src [good] (EndEOF true)))) = [400] /\
  ids (handle env (Request EV2 [] (str "gzip") (Src [[31; 139]; good] (EndEOF true)))) = [1; 2; 202] /\
  ids (handle env (Request EV2 [] (str "gzip") (Src [good] (EndEOF true)))) = [400] /\
  ids (handle env (Request EJaeger [] [] (Src [good] (EndEOF true)))) = [400].
Proof. by vm_compute. Qed.
