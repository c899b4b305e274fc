(** Pairs of documents that agree in what is asked for. *)
From Verif Require Import Base SpanModel JsonModel CodecModel JsonSpec DocSpec ParseSpec PoolProofs JaegerModel HandlerModel HandlerSpec StdJsonModel StdJsonSpec StdWitness
  FormatSpec FormatWitness SwapSpec SwapProofs SwapJaeger SwapWitness LayerSpec AskedSpec AskedProofs.

Ltac show_given :=
  match goal with |- Forall2 _ ?a ?b => let a' := eval vm_compute in a in let b' := eval vm_compute in b in change a with a'; change b with b' end.
Ltac agreeing :=
  first
    [apply sf_same
    |apply sf_list; repeat (apply Forall2_cons_2; [agreeing|]); apply Forall2_nil_2
    |apply sf_first; show_given; repeat (apply Forall2_cons_2; [agreeing|]); apply Forall2_nil_2
    |apply sf_table; repeat (apply Forall2_cons_2; [split; [reflexivity|cbn [snd]; agreeing]|]); apply Forall2_nil_2
    |apply sf_object; let k := fresh "k" in let s := fresh "s" in let Hk := fresh "Hk" in intros k s Hk; cbn [values map app] in Hk;
     repeat (apply elem_of_cons in Hk as [[= -> ->]|Hk]; [show_given; repeat (apply Forall2_cons_2; [agreeing|]); apply Forall2_nil_2|]); by apply elem_of_nil in Hk].

Definition text_v (s : gostring) : json := JStr s.
Definition lean_v2 : json := JArr [JObj [(str "id", text_v (str "1f")); (str "traceId", text_v (str "7")); (str "localEndpoint", JObj [(str "serviceName", text_v (str "shop"))])]].
Definition rich_v2 : json := JArr [JObj [(str "shared", JTrue); (str "ID", text_v (str "zz")); (str "id", text_v (str "1f")); (str "remoteEndpoint", JObj [(str "serviceName", text_v (str "bank"))]);
  (str "localEndpoint", JObj [(str "ipv4", text_v (str "10.1.2.3")); (str "serviceName", text_v (str "shop")); (str "port", JNull)]); (str "traceId", text_v (str "7")); (str "annotations", JArr [JArr []])]].
Definition lean_span (format : gostring) : span := Span 31 0 7 [] (str "shop") 0 1000000 {[str "protocolVersion" := format]} (Timings 0 0 0 0).
Lemma v2_asked : v2_request order_env (order_ask EV2 lean_v2) lean_v2 /\ v2_request order_env (order_ask EV2 rich_v2) rich_v2 /\ same_for exactly v2_shape lean_v2 rich_v2 /\
  handle order_env (order_ask EV2 rich_v2) = XDone [Put (lean_span (str "json v2")); Status 202].
Proof.
  split; [split; [done|]; apply body_ok; [by vm_compute|done|]; apply Nat.ltb_lt; by vm_compute|].
  split; [split; [done|]; apply body_ok; [by vm_compute|done|]; apply Nat.ltb_lt; by vm_compute|].
  split; [|by vm_compute]. unfold v2_shape, lean_v2, rich_v2, endpoint_shape, text_v. agreeing.
Qed.

Definition quiet (s : gostring) : json := JObj [(str "value", text_v s)].
Definition in_shop (more : list (bytes * json)) : json := JObj (more ++ [(str "value", text_v (str "x")); (str "endpoint", JObj (more ++ [(str "serviceName", text_v (str "shop"))])); (str "key", text_v (str "k"))]).
Definition lean_v1 : json := JArr [JObj [(str "traceId", text_v (str "7")); (str "id", text_v (str "1f")); (str "annotations", JArr [quiet (str "a"); quiet (str "b"); quiet (str "c"); quiet (str "d")]);
  (str "binaryAnnotations", JArr [in_shop []])]].
Definition rich_v1 : json := JArr [JObj [(str "debug", JTrue); (str "traceId", text_v (str "7")); (str "id", text_v (str "1f"));
  (str "binaryAnnotations", JArr [in_shop [(str "ipv4", JArr []); (str "type", text_v (str "STRING"))]]);
  (str "annotations", JArr [quiet (str "a"); quiet (str "b"); quiet (str "c"); quiet (str "d"); JArr []; quiet (str "e")]); (str "Name", JFalse)]].
Lemma v1_asked : v1_request_any order_env (order_ask EV1 lean_v1) lean_v1 /\ v1_request_any order_env (order_ask EV1 rich_v1) rich_v1 /\ same_for exactly v1_shape lean_v1 rich_v1 /\
  handle order_env (order_ask EV1 rich_v1) =
    XDone [Put (Span 31 0 7 [] (str "shop") 0 1000000 (<[str "protocolVersion" := str "json v1"]> {[str "k" := str "x"]}) (Timings 0 0 0 0)); Status 202].
Proof.
  assert (R : forall v, plain_json 20 v = true -> (forall rest, delimited v rest) -> (2 * length (render v) + 2 <? 3000)%nat = true -> v1_request_any order_env (order_ask EV1 v) v).
  { intros v H1 H2 H3. split; [done|]. split; [by exists [], []|]. split; [apply once_new|]. apply body_ok; [done|done|by apply Nat.ltb_lt]. }
  split; [apply R; [by vm_compute|done|by vm_compute]|]. split; [apply R; [by vm_compute|done|by vm_compute]|]. split; [|by vm_compute].
  unfold v1_shape, lean_v1, rich_v1, annotation_shape, binary_shape, endpoint_shape, in_shop, quiet, text_v. cbn [app]. agreeing.
Qed.

Definition jaeger_doc (more extra : list (bytes * json)) : json :=
  JObj (more ++ [(str "data", JArr [JObj (more ++ [(str "processes", JObj [(str "p", JObj (more ++ [(str "serviceName", text_v (str "shop"))]))]);
    (str "spans", JArr [JObj ([(str "spanID", text_v (str "1f")); (str "processID", text_v (str "p")); (str "traceID", text_v (str "7"));
      (str "tags", JArr [JObj (more ++ [(str "key", text_v (str "k")); (str "value", text_v (str "x"))])])] ++ more ++ extra)])])])]).
Definition more_members : list (bytes * json) := [(str "logs", JArr [JArr []]); (str "type", text_v (str "string")); (str "warnings", JNull)].
Definition lean_jaeger : json := jaeger_doc [] [].
Definition rich_jaeger : json := jaeger_doc more_members [].
(** A member that is called like one that is asked for, in other letters. *)
Definition louder_jaeger : json := jaeger_doc [] [(str "SPANID", text_v (str "2c"))].
Lemma jaeger_any_ok v : (match scan_value (2 * length (render v) + 2) 0 (skip_space (render v)) with Scanned t [] => plain_tree t | _ => false end) = true -> doc_value (render v) = v ->
  doubles v -> jaeger_request_any order_env (order_ask EJaeger v) v.
Proof.
  intros H Hv Hd. destruct (plain_document (render v) H) as [A B]. rewrite Hv in B. split; [done|]. split; [done|].
  exists [take 50 (render v); drop 50 (render v)], (EndEOF true), (doc_tree (render v)), []. split; [right; split; [discriminate|done]|].
  split; [cbn [concat]; rewrite app_nil_r, take_drop; exact A|]. split; [by destruct (doc_tree (render v))|]. split; [right; right; right; by exists true|]. by split.
Qed.
Ltac jaeger_is_ok := apply jaeger_any_ok; [by vm_compute|by vm_compute|]; unfold lean_jaeger, rich_jaeger, louder_jaeger, jaeger_doc, more_members, text_v; cbn [app]; no_numbers.
Definition jaeger_span_k (id : Z) : span :=
  Span id id 7 [] (str "shop") 0 1000000 (<[str "protocolVersion" := str "jaeger"]> {[str "k" := str "x"]}) (Timings 0 0 0 0).
Lemma jaeger_asked : jaeger_request_any order_env (order_ask EJaeger lean_jaeger) lean_jaeger /\ jaeger_request_any order_env (order_ask EJaeger rich_jaeger) rich_jaeger /\
  same_for fold_case jaeger_shape lean_jaeger rich_jaeger /\ handle order_env (order_ask EJaeger rich_jaeger) = XDone [Put (jaeger_span_k 31); Status 202].
Proof.
  split; [jaeger_is_ok|]. split; [jaeger_is_ok|]. split; [|by vm_compute].
  unfold jaeger_shape, jaeger_span_shape, lean_jaeger, rich_jaeger, jaeger_doc, more_members, text_v. cbn [app]. agreeing.
Qed.
Lemma louder_heard : jaeger_request_any order_env (order_ask EJaeger lean_jaeger) lean_jaeger /\ jaeger_request_any order_env (order_ask EJaeger louder_jaeger) louder_jaeger /\
  handle order_env (order_ask EJaeger lean_jaeger) = XDone [Put (jaeger_span_k 31); Status 202] /\
  handle order_env (order_ask EJaeger louder_jaeger) = XDone [Put (jaeger_span_k 44); Status 202].
Proof. split; [jaeger_is_ok|]. split; [jaeger_is_ok|]. split; by vm_compute. Qed.
