(** C105: what the answer to a rejected request says.  [lib]: the texts of the errors of libraries, which are arbitrary: of the
    reader of the body, of [gzip.NewReader] and of encoding/json. *)
From Verif Require Import Base SpanModel IdModel JsonModel JsonSpec ParseSpec CodecModel JaegerModel HandlerModel HandlerSpec TextModel TextSpec TextHandler TextEager.

(** The spans and the status are those of the model without texts; accepted requests get an empty body, of rejected ones nothing
    is forwarded. *)
Theorem C105_answer : forall lib env q,
  handle env q = xmap (fun r => map Put (y_puts r) ++ [Status (y_status r)]) (t_handle lib env q) /\
  (forall r, t_handle lib env q = XDone r -> y_status r = 202 /\ y_body r = [] \/ y_status r = 400 /\ y_puts r = []).
Proof. intros lib env q. split; [exact (answer_texts lib env q)|exact (answer_shape lib env q)]. Qed.
Print Assumptions C105_answer.

(** A rejection of a body that is parsed says the endpoint, one of 7 (v2) or 17 (v1) places ([contexts]), and one of 13 causes.
    Characters and kinds of tokens named in a cause occur in the body; only those of ids need not, they may be written as escapes. *)
Theorem C105_text : forall lib env q chunks e r,
  parsed q -> reads env q (Src chunks e) -> (5 <= length (n_buf env))%nat -> t_handle lib env q = XDone r -> y_status r = 400 ->
  exists c m, c ∈ contexts (q_endpoint q) /\ cause (end_text (x_read lib) e) (concat chunks) m /\ y_body r = heading (q_endpoint q) ++ c ++ m ++ [10].
Proof. exact text_of_rejection_any. Qed.
Print Assumptions C105_text.

(** So no answer is long, whatever the body is: nothing of the body but single characters is repeated. *)
Theorem C105_short : forall lib env q chunks e r,
  parsed q -> reads env q (Src chunks e) -> (5 <= length (n_buf env))%nat -> t_handle lib env q = XDone r -> (length (y_body r) <= 255 + length (x_read lib))%nat.
Proof. exact text_length_any. Qed.
Print Assumptions C105_short.

(** The other rejections: what is not gzip although declared as such, v1 bodies not declared as JSON, and Jaeger bodies. *)
Theorem C105_other : forall lib env q r, t_handle lib env q = XDone r ->
  (q_encoding q = str "gzip" -> n_gunzip env (q_body q) = None -> r = Reply [] 400 (x_gunzip lib (q_body q) ++ [10])) /\
  (forall b, reads env q b -> q_endpoint q = EV1 -> ~ declared_json (q_type q) -> r = Reply [] 400 (str "only json spans are supported" ++ [10])) /\
  (forall b, reads env q b -> q_endpoint q = EJaeger -> y_status r = 400 -> r = Reply [] 400 (heading EJaeger ++ x_jaeger lib b ++ [10])).
Proof. exact other_texts. Qed.
Print Assumptions C105_other.

(** The pieces in which a body is read, what earlier requests left in the buffer and in the pool, and whether the body was
    compressed make no difference to status and text. *)
Theorem C105_reads : forall lib env env' q q' b b' r r',
  parsed q -> parsed q' -> q_endpoint q = q_endpoint q' -> reads env q b -> reads env' q' b' ->
  same_bytes b b' -> no_eager_error (r_end b) -> no_eager_error (r_end b') -> end_text (x_read lib) (r_end b) = end_text (x_read lib) (r_end b') ->
  (5 <= length (n_buf env))%nat -> length (n_buf env) = length (n_buf env') ->
  t_handle lib env q = XDone r -> t_handle lib env' q' = XDone r' -> y_status r = y_status r' /\ y_body r = y_body r'.
Proof. exact same_text. Qed.
Print Assumptions C105_reads.

(** If the reader fails together with its last bytes, the answer is that to a body with perhaps fewer bytes, whose reader fails
    afterwards. *)
Theorem C105_eager : forall lib env q chunks, parsed q -> reads env q (Src chunks (EndErr true)) ->
  exists chunks' lost, concat chunks = concat chunks' ++ lost /\
  forall q', q_endpoint q' = q_endpoint q -> q_type q' = q_type q -> reads env q' (Src chunks' (EndErr false)) -> t_handle lib env q' = t_handle lib env q.
Proof. exact eager_text. Qed.
Print Assumptions C105_eager.

(** An answer whose text does not say that the body ended is final: it is given to every longer body too, and however that ends. *)
Theorem C105_final : forall lib env env' q q' b b' more r r',
  parsed q -> parsed q' -> q_endpoint q = q_endpoint q' -> reads env q b -> reads env' q' b' ->
  concat (r_chunks b') = concat (r_chunks b) ++ more -> no_eager_error (r_end b') ->
  (5 <= length (n_buf env))%nat -> length (n_buf env) = length (n_buf env') ->
  t_handle lib env q = XDone r -> t_handle lib env' q' = XDone r' ->
  (y_status r = 400 -> ~ exists p, y_body r = p ++ end_text (x_read lib) (r_end b) ++ [10]) -> y_status r' = y_status r /\ y_body r' = y_body r.
Proof. exact final_text_any. Qed.
Print Assumptions C105_final.

(** Texts for some bodies.  The second and third have the same bytes in other pieces; the fourth goes on where the second ends.
    The sixth is read completely, but its last bytes come with the error. *)
Example C105_instance :
  let lib := LibTexts (str "unexpected EOF") (fun _ => str "gzip: invalid header") (fun _ => str "invalid character 'x'") in
  let env := Env 200 (replicate 32 0) new_pool_entry (fun _ => None) (fun _ => None) in
  let says ep chunks e text := exists q r, q_endpoint q = ep /\ parsed q /\ reads env q (Src chunks e) /\ (5 <= length (n_buf env))%nat /\
    t_handle lib env q = XDone r /\ y_status r = 400 /\ y_body r = text ++ [10] in
  let v2 := str "parsing spans from json: parse spans for json v2: " in
  let v1 := str "parsing spans from json: parse spans for json v1: " in
  says EV2 [str "{}"] (EndEOF false) (v2 ++ str "decoding []codec.spanV2: expected token of type 'TypeArrayBegin', but found 'TypeObjectBegin'") /\
  says EV2 [str "[{""id"":"; str """1x"""] (EndEOF false) (v2 ++ str "decoding element of type codec.spanV2: hex value must only contain [0-9a-f], got 'x'") /\
  says EV2 [str "[{"; str """id"":""1x"""] (EndEOF true) (v2 ++ str "decoding element of type codec.spanV2: hex value must only contain [0-9a-f], got 'x'") /\
  says EV2 [str "[{""id"":"; str """1x"",""name"":"; str "true}]"] (EndErr false) (v2 ++ str "decoding element of type codec.spanV2: hex value must only contain [0-9a-f], got 'x'") /\
  says EV2 [str "[{""id"":"; str """1f"""] (EndErr false) (v2 ++ str "decoding element of type codec.spanV2: buffer more data: unexpected EOF") /\
  says EV2 [str "[{""id"":"; str """1f""}]"] (EndErr true) (v2 ++ str "decoding element of type codec.spanV2: buffer more data: unexpected EOF") /\
  says EV1 [str "[{""annotations"":"; str "[{""timestamp"":7-}]}]"] (EndEOF true)
    (v1 ++ str "decoding element of type codec.spanV1: decoding array element of type codec.annotationV1: Unexpected character in number: '-'") /\
  (exists r, t_handle lib env (Request EJaeger [] [] (Src [str "x"] (EndEOF false))) = XDone r /\ y_body r = heading EJaeger ++ str "invalid character 'x'" ++ [10]) /\
  (exists r, t_handle lib env (Request EV1 (str "application/x-thrift") [] (Src [str "x"] (EndEOF false))) = XDone r /\ y_body r = str "only json spans are supported" ++ [10]) /\
  (exists r, t_handle lib env (Request EV2 [] (str "gzip") (Src [str "x"] (EndEOF false))) = XDone r /\ y_body r = str "gzip: invalid header" ++ [10]).
Proof.
  cbv zeta. repeat match goal with |- _ /\ _ => split end;
    try (eexists; split; [vm_compute; reflexivity|vm_compute; reflexivity]);
    (match goal with |- exists q r, q_endpoint q = ?ep /\ _ /\ reads _ _ (Src ?c ?e) /\ _ => exists (Request ep (str "application/json") [] (Src c e)) end;
     eexists; split; [reflexivity|]; split; [(right; reflexivity) || (left; split; [reflexivity|exists [], []; reflexivity])|];
     split; [right; split; [discriminate|reflexivity]|]; split; [vm_compute; lia|];
     split; [vm_compute; reflexivity|]; split; vm_compute; reflexivity).
Qed.
