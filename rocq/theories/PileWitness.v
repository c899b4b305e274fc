(** A Jaeger document that gives members several times, and two that differ only in what looks hidden. *)
From Verif Require Import Base SpanModel JsonModel CodecModel JsonSpec DocSpec JaegerModel HandlerModel HandlerSpec StdJsonModel StdJsonSpec StdWitness PileSpec.

(** The second list of tags is shorter than the first one and than the third one; null stands between lists of references;
    spans and processes are given twice. *)
Definition piles : bytes := str
  "{""data"":[{""spans"":[{""spanID"":""a"",""tags"":[{""key"":""a"",""value"":""x""},{""key"":""b"",""value"":""y""}],""tags"":[{""key"":""c""}],""tags"":[null,{""key"":""d""}],""references"":[{""refType"":""CHILD_OF"",""spanID"":""1""}],""references"":null,""references"":[{""spanID"":""2""}]},{""spanID"":""b""}],""processes"":{""p"":{""serviceName"":""first""},""q"":{""serviceName"":""second""}},""Spans"":[{""operationName"":""op"",""processID"":""p""}],""processes"":{""p"":{},""r"":{""serviceName"":""third""}}}]}".
Lemma piles_document : exists t v, begins_with piles t [] /\ ended t [] /\ end_visible t [] (EndErr true) /\ means plain_ids t v /\ doubles v /\
  piled_document v = Some [JData [JSpan 0 10 (str "op") [JRef [] 2] 0 0 (str "p") [JTag (str "c") (JVString (str "x")); JTag (str "d") (JVString (str "y"))]]
    (<[str "r" := str "third"]> (<[str "p" := []]> (<[str "q" := str "second"]> {[str "p" := str "first"]})))] /\
  jaeger_document v <> piled_document v.
Proof.
  exists (doc_tree piles), (doc_value piles). destruct (plain_document piles ltac:(by vm_compute)) as [Hb Hm].
  assert (E : exists ms, doc_tree piles = TObj ms) by (eexists; by vm_compute). destruct E as [ms E].
  split; [done|]. split; [by rewrite E|]. split; [right; left; by exists ms|]. split; [done|].
  split; [|split; [by vm_compute|by vm_compute]].
  let v := eval vm_compute in (doc_value piles) in change (doc_value piles) with v. no_numbers.
Qed.

(** Only the first list of three differs, and only in a place that the second list does not have. *)
Definition hidden (value : bytes) : bytes :=
  str "{""data"":[{""spans"":[{""tags"":[{},{""value"":""" ++ value ++ str """}],""tags"":[{}],""tags"":[{},{""key"":""d""}]}]}]}".
Lemma hidden_seen : exists t1 t2 v1 v2, begins_with (hidden (str "x")) t1 [] /\ means plain_ids t1 v1 /\ doubles v1 /\
  begins_with (hidden (str "y")) t2 [] /\ means plain_ids t2 v2 /\ doubles v2 /\
  jaeger_body (Src [hidden (str "x")] (EndEOF true)) = Some [JData [JSpan 0 0 [] [] 0 0 [] [JTag [] JVOther; JTag (str "d") (JVString (str "x"))]] ∅] /\
  jaeger_body (Src [hidden (str "y")] (EndEOF true)) = Some [JData [JSpan 0 0 [] [] 0 0 [] [JTag [] JVOther; JTag (str "d") (JVString (str "y"))]] ∅].
Proof.
  exists (doc_tree (hidden (str "x"))), (doc_tree (hidden (str "y"))), (doc_value (hidden (str "x"))), (doc_value (hidden (str "y"))).
  destruct (plain_document (hidden (str "x")) ltac:(by vm_compute)) as [Hb Hm]. destruct (plain_document (hidden (str "y")) ltac:(by vm_compute)) as [Hb' Hm'].
  split; [done|]. split; [done|]. split.
  { let v := eval vm_compute in (doc_value (hidden (str "x"))) in change (doc_value (hidden (str "x"))) with v. no_numbers. }
  split; [done|]. split; [done|]. split; [|split; by vm_compute].
  let v := eval vm_compute in (doc_value (hidden (str "y"))) in change (doc_value (hidden (str "y"))) with v. no_numbers.
Qed.
