(** Properties C23-C25: Zipkin v1 and v2 documents, pooled memory. *)
From Verif Require Import Base SpanModel JsonModel CodecModel JsonSpec DocSpec ParseSpec PoolProofs DocTheorems.

(** C23: every layout of every JSON value, in any reads, with anything after it, decodes to the spans it describes;
    [v2_spans] is [None] (rejected) for values that are not arrays of objects with members of the right types. *)
Theorem C23_v2_documents :
  forall m v l w rest chunks e buf fuel, text m v l -> ws w -> delimited v rest -> concat chunks = w ++ l ++ rest ->
  (m <= length buf)%nat -> (5 <= length buf)%nat -> no_eager_error e ->
  (length chunks + length (concat chunks) < fuel)%nat -> (2 * length l + 2 < fuel)%nat ->
  ParseJsonV2 fuel buf (Src chunks e) = XDone (v2_spans v).
Proof. exact v2_document. Qed.
Print Assumptions C23_v2_documents.

Example C23_instance :
  let v := JArr [JObj [(str "id", JStr (str "1f")); (str "x", JArr [JNum (str "1"); JObj []]); (str "kind", JStr (str "Server"));
                       (str "timestamp", JNum (str "5")); (str "tags", JObj [(str "a", JStr (str "b"))])]] in
  text 20 v (str "[{ ""id"":""1f"",""x"":[1, {}],""kind"" :""Server"",""timestamp"":5,""tags"":{""a"":""b""}}]") /\
  v2_spans v = Some [Span 31 0 0 [] [] 5000 1000000 (<[str "protocolVersion" := str "json v2"]> {[str "a" := str "b"]}) (Timings 0 0 1005000 5000)] /\
  ParseJsonV2 300 (replicate 20 0) (Src [str " [{ ""id"":""1f"",""x"":[1, {}],""ki"; str "nd"" :""Server"",""timestamp"":5,""tags"":{""a"":""b""}}]..."] (EndEOF true)) = XDone (v2_spans v).
Proof. split; [exact sample_text|]. by vm_compute. Qed.

(** C24: the same for version 1, with any pooled memory that earlier requests left (see C25); the members
    "annotations" and "binaryAnnotations" must not be repeated in one object. *)
Theorem C24_v1_documents :
  forall m v l w rest chunks e buf fuel pool, text m v l -> ws w -> delimited v rest -> concat chunks = w ++ l ++ rest ->
  (m <= length buf)%nat -> (5 <= length buf)%nat -> no_eager_error e ->
  (length chunks + length (concat chunks) < fuel)%nat -> (2 * length l + 2 < fuel)%nat ->
  pooled_once pool ->
  (forall vs, v = JArr vs -> Forall (fun v => at_most_once (str "annotations") v /\ at_most_once (str "binaryAnnotations") v) vs) ->
  exists pool', ParseJsonV1 fuel buf pool (Src chunks e) = XDone (v1_spans v, pool').
Proof. exact v1_document. Qed.
Print Assumptions C24_v1_documents.

Example C24_instance :
  let v := JArr [JObj [(str "id", JStr (str "2")); (str "traceId", JStr (str "1"));
      (str "annotations", JArr [JObj [(str "timestamp", JNum (str "10")); (str "value", JStr (str "cs"))];
                                JObj [(str "timestamp", JNum (str "17")); (str "value", JStr (str "cr")); (str "endpoint", JObj [(str "serviceName", JStr (str "svc"))])]]);
      (str "binaryAnnotations", JArr [JObj [(str "key", JStr (str "k")); (str "value", JTrue)]])]; JObj []] in
  v1_spans v = Some [Span 2 0 1 [] (str "svc") 10000 7000 (<[str "protocolVersion" := str "json v1"]> {[str "k" := str "true"]}) (Timings 10000 17000 0 0);
                     Span 0 0 0 [] [] 0 1000000 {[str "protocolVersion" := str "json v1"]} (Timings 0 0 0 0)] /\
  match ParseJsonV1 300 (replicate 20 0) new_pool_entry (Src [str "[{""id"":""2"",""traceId"":""1"",""annotations"":[{""timestamp"":10,""value"":""cs""},{""timestamp"":17,""value"":""cr"",";
      str """endpoint"":{""serviceName"":""svc""}}],""binaryAnnotations"":[{""key"":""k"",""value"":true}]},{}]"] (EndEOF true)) with
  | XDone (r, _) => r = v1_spans v
  | _ => False
  end.
Proof. by vm_compute. Qed.

(** C25 is false: two requests later a third party reads what the first one sent.  The first body repeats the member
    "binaryAnnotations" with fewer elements; the second body does not contain the word secret. *)
Theorem C25_pool_refuted :
  exists entry fuel buf src r r' p p', pooled entry /\
    ParseJsonV1 fuel buf entry src = XDone (Some r, p) /\ ParseJsonV1 fuel buf new_pool_entry src = XDone (Some r', p') /\ r <> r'.
Proof. exact pool_leaks. Qed.
Print Assumptions C25_pool_refuted.

(** C25, guarded: if no earlier request repeated that member in an object, then any body, valid or not, gives the
    same result as with new memory. *)
Theorem C25_no_leak :
  forall fuel buf entry src, pooled_once entry ->
  match ParseJsonV1 fuel buf entry src, ParseJsonV1 fuel buf new_pool_entry src with
  | XDone (r, _), XDone (r', _) => r = r'
  | XHang, XHang => True
  | XPanic, XPanic => True
  | _, _ => False
  end.
Proof. exact no_leak. Qed.
Print Assumptions C25_no_leak.

(** A used entry: the guard admits it although the request ended with an error in the middle of an annotation. *)
Example C25_instance :
  let src := Src [str "[{""binaryAnnotations"":[{""key"":""a"",""value"":""secret""},{""key"":""b"",""value"":[]}]}]"] (EndEOF false) in
  match ParseJsonV1 300 (replicate 20 0) new_pool_entry src with
  | XDone (None, entry) => pooled_once entry /\ entry <> new_pool_entry
  | _ => False
  end.
Proof.
  cbv zeta. destruct (ParseJsonV1 300 (replicate 20 0) new_pool_entry _) as [[r p]| |] eqn:E; [|by vm_compute in E..].
  assert (r = None) as -> by (vm_compute in E; by injection E).
  split.
  - eapply once_put; [apply once_new|exact E|]. apply repeats_dec. by vm_compute.
  - intros ->. vm_compute in E. discriminate E.
Qed.
