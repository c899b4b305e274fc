(** Property C73: what the HTTP handlers accept. *)
From Verif Require Import Base IdModel SpanModel JsonModel CodecModel JaegerModel HandlerModel BinaryModel BinarySpec AcceptSpec AcceptProofs.

(** C73: names, services, tag names and tag values of accepted version 1 and 2 spans fit the parse buffer, whatever was
    parsed with the pooled memory before. *)
Theorem C73_strings :
  forall env q acts s, pooled_memory env -> q_endpoint q <> EJaeger -> handle env q = XDone acts -> Put s ∈ acts ->
  strings_within parse_buffer s.
Proof. exact accepted_strings. Qed.
Print Assumptions C73_strings.

(** C73: every accepted span can be sent through Kafka: it is a value that the wire format can carry, ... *)
Theorem C73_wire :
  forall env q acts s, pooled_memory env -> jaeger_ok env q -> handle env q = XDone acts -> Put s ∈ acts ->
  Z.of_nat (size (s_tags s)) < 2^63 -> wire_ok s.
Proof. exact accepted_wire. Qed.
Print Assumptions C73_wire.

(** ... so encoding succeeds and the consumer decodes the same span. *)
Theorem C73_survives :
  forall env q acts s order, pooled_memory env -> jaeger_ok env q -> handle env q = XDone acts -> Put s ∈ acts ->
  Z.of_nat (size (s_tags s)) < 2^63 -> iteration_order order (s_tags s) ->
  exists bs, binary_encode order s = Some bs /\ forall rest, binary_decode (bs ++ rest) = DOk s rest.
Proof. exact accepted_survives. Qed.
Print Assumptions C73_survives.

(** A name of 8191 bytes is accepted.  (With longer names the parser does not return, see C18.) *)
Example C73_instance :
  let env := Env (Z.to_nat 9000) (replicate parse_buffer 0) new_pool_entry (fun _ => None) (fun _ => Some []) in
  let body n := Src [str "[{""id"":""1"",""traceId"":""7"",""tags"":{""k"":""v""},""name"":""" ++ replicate (Z.to_nat n) 97 ++ str """}]"] (EndEOF true) in
  let ids r := match r with XDone acts => map (fun a => match a with Put s => Z.of_nat (length (s_name s)) | Status c => c end) acts | _ => [] end in
  pooled_memory env /\ jaeger_ok env (Request EV2 [] [] (body 8191)) /\ ids (handle env (Request EV2 [] [] (body 8191))) = [8191; 202].
Proof.
  split; [split; [apply replicate_length|constructor]|]. split; [intros b data _ [= <-]; constructor|]. by vm_compute.
Qed.
