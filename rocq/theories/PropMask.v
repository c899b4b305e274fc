(** Property C99: what spans say does not influence what becomes of them. *)
From Verif Require Import Base SpanModel TreeModel TreeSpec FinishModel FinishSpec FinishWitness MaskSpec MaskProofs MaskWitness.

(** C99: two runs that receive spans that look the same through a mask, at the same times, have the same record through
    that mask: the same traces leave at the same moments, for the same reasons, and as spans that look the same. *)
Theorem C99_run :
  forall m, honest m -> forall evs evs', Forall2 (same_event m) evs evs' -> map (masked_entry m) (run evs).2 = map (masked_entry m) (run evs').2.
Proof. exact masked_run. Qed.
Print Assumptions C99_run.

(** C99: tags show only as themselves. *)
Theorem C99_tags :
  forall K evs evs', Forall2 (same_event (without K)) evs evs' ->
  map (masked_entry (without K)) (run evs).2 = map (masked_entry (without K)) (run evs').2.
Proof. exact tags_run. Qed.
Print Assumptions C99_tags.

(** C99: identities, times, durations and fate do not depend on what the names, services and tags are (but merging
    depends on whether there is a name, and a service). *)
Theorem C99_fate :
  forall evs evs', Forall2 (same_event faceless) evs evs' -> map (masked_entry faceless) (run evs).2 = map (masked_entry faceless) (run evs').2.
Proof. exact faceless_run. Qed.
Print Assumptions C99_fate.

(** Both hold of the runs of [call]: other names and tags; the first trace is emitted, with a merged and corrected span, the
    second as well, with an injected root. *)
Example C99_instance :
  forall n1 n2 n1' n2' tag tag', n1 <> [] -> n2 <> [] -> n1' <> [] -> n2' <> [] ->
  Forall valid_event (call n1 n2 tag) /\ Forall2 (same_event faceless) (call n1 n2 tag) (call n1' n2' tag').
Proof. exact call_same. Qed.
Example C99_instance_tags :
  let K := fun k => bool_decide (k = str "user") in
  let tag := {[str "user" := str "joe"; str "job" := str "buy"]} in
  let tag' := {[str "user" := str "ann"; str "job" := str "buy"]} in
  Forall2 (same_event (without K)) (call (str "get") (str "GET") tag) (call (str "get") (str "GET") tag').
Proof. exact call_tags. Qed.
Example C99_instance_log :
  let tag := {[str "user" := str "joe"; str "job" := str "buy"]} in
  List.filter (fun e => match e with LOut _ _ => true | _ => false end) (run (call (str "get") (str "GET") tag)).2 =
  [ LOut 8 (Emitted [ Span 4 2 8 (str "get") (str "shop") 1000 9000 tag (Timings 0 0 0 0); Span 3 2 8 (str "get") (str "shop") 1000 9000 tag (Timings 0 0 0 0);
                      Span 2 8 8 (str "fake-root") (str "fake-root") 1000 9000 ∅ (Timings 0 0 0 0) ]);
    LOut 7 (Emitted [Span 1 0 7 (str "GET") (str "stock") 1000 9000 (<[str "http.status" := str "200"]> tag) (Timings 1000 10000 11000 5000)]) ].
Proof. by vm_compute. Qed.
