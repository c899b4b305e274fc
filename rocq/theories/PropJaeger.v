(** Property C27: Jaeger spans. *)
From Verif Require Import Base SpanModel JaegerModel JaegerSpec JaegerProofs.

(** C27: one span per Jaeger span, in order, group by group, each as described. *)
Theorem C27_jaeger_spans :
  forall data, exists groups, ParseJaeger (Some data) = Some (concat groups) /\
  Forall2 (fun d g => Forall2 (jaeger_describes (jd_procs d)) (jd_spans d) g) data groups.
Proof. exact parse_jaeger. Qed.
Print Assumptions C27_jaeger_spans.

(** The description leaves no freedom. *)
Theorem C27_description_determines :
  forall procs js s s', jaeger_describes procs js s -> jaeger_describes procs js s' -> s = s'.
Proof. exact describes_functional. Qed.
Print Assumptions C27_description_determines.

Example C27_instance :
  ParseJaeger (Some [JData [
      JSpan 7 9 (str "get") [JRef (str "CHILD_OF") 3; JRef (str "FOLLOWS_FROM") 4; JRef (str "CHILD_OF") 5] 2 0 (str "p1")
        [JTag (str "component") (JVString (str "net")); JTag (str "n") JVOther; JTag (str "span.kind") (JVString (str "CLIENT"))];
      JSpan 7 5 (str "top") [] 1 6 (str "p2") []] {[str "p1" := str "svc"]}])
  = Some [Span 9 5 7 (str "get") (str "svc") 2000 1000000 (<[str "protocolVersion" := str "jaeger"]> {[str "lc" := str "net"]}) (Timings 2000 1002000 0 0);
          Span 5 5 7 (str "top") [] 1000 6000 {[str "protocolVersion" := str "jaeger"]} (Timings 0 0 0 0)].
Proof. by vm_compute. Qed.
