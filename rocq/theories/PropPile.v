(** Property C113: Jaeger documents that give a member more than once.  As in C82, [n_jaeger] is [jaeger_body], the model of
    encoding/json as codec/jaeger.go:48-49 uses it. *)
From Verif Require Import Base SpanModel JsonModel CodecModel JsonSpec DocSpec JaegerModel JaegerSpec HandlerModel HandlerSpec AcceptSpec
  StdJsonModel StdJsonSpec StdWitness PileSpec PileProofs PileWitness.

(** C113: as C82_document, with any members given any number of times: lists lie on top of each other ([piled_document]). *)
Theorem C113_document :
  forall env q chunks e t rest v, n_jaeger env = jaeger_body -> q_endpoint q = EJaeger -> reads env q (Src chunks e) ->
  begins_with (concat chunks) t rest -> ended t rest -> end_visible t rest e -> means plain_ids t v -> doubles v ->
  exists acts, handle env q = XDone acts /\
  match piled_document v with
  | Some data => exists groups, accepts (concat groups) acts /\ Forall2 (fun d g => Forall2 (jaeger_describes (jd_procs d)) (jd_spans d) g) data groups
  | None => rejects acts
  end.
Proof. exact http_piled. Qed.
Print Assumptions C113_document.
Example C113_document_instance :
  let env := Env 300 (replicate 40 0) new_pool_entry (fun _ => None) jaeger_body in
  let q := Request EJaeger [] [] (Src [take 100 piles; drop 100 piles] (EndErr true)) in
  (exists t v, begins_with piles t [] /\ ended t [] /\ end_visible t [] (EndErr true) /\ means plain_ids t v /\ doubles v /\
    piled_document v = Some [JData [JSpan 0 10 (str "op") [JRef [] 2] 0 0 (str "p") [JTag (str "c") (JVString (str "x")); JTag (str "d") (JVString (str "y"))]]
      (<[str "r" := str "third"]> (<[str "p" := []]> (<[str "q" := str "second"]> {[str "p" := str "first"]})))] /\
    jaeger_document v <> piled_document v) /\
  exists s, handle env q = XDone [Put s; Status 202] /\ s_id s = 10 /\ s_name s = str "op" /\ s_tags s !! str "c" = Some (str "x") /\ s_tags s !! str "d" = Some (str "y").
Proof. split; [exact piles_document|]. eexists. split; [by vm_compute|]. by vm_compute. Qed.

(** C113: for documents that give every list once this is the meaning of C82. *)
Theorem C113_once : forall v, given_once v -> piled_document v = jaeger_document v.
Proof. exact document_once. Qed.
Print Assumptions C113_once.
Example C113_once_instance : exists t v, begins_with sample t (str " trailing") /\ means plain_ids t v /\ given_once v /\ exists d, piled_document v = Some [d].
Proof.
  destruct sample_document as (t & v & H1 & H2 & H3 & H4 & H5 & H6 & E). exists t, v. split; [done|]. split; [done|]. split; [done|].
  rewrite document_once by done. eexists. exact E.
Qed.

(** A shorter list does not remove what lies beyond its end: a later, longer one brings it back.  The two documents differ only
    in the first of three lists, in a place that the second one does not have. *)
Theorem C113_hidden_refuted :
  exists t1 t2 v1 v2, begins_with (hidden (str "x")) t1 [] /\ means plain_ids t1 v1 /\ doubles v1 /\
  begins_with (hidden (str "y")) t2 [] /\ means plain_ids t2 v2 /\ doubles v2 /\
  jaeger_body (Src [hidden (str "x")] (EndEOF true)) = Some [JData [JSpan 0 0 [] [] 0 0 [] [JTag [] JVOther; JTag (str "d") (JVString (str "x"))]] ∅] /\
  jaeger_body (Src [hidden (str "y")] (EndEOF true)) = Some [JData [JSpan 0 0 [] [] 0 0 [] [JTag [] JVOther; JTag (str "d") (JVString (str "y"))]] ∅].
Proof. exact hidden_seen. Qed.
Print Assumptions C113_hidden_refuted.
