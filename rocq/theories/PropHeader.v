(** C107: fields of requests and answers, and what a handler behind the wrapper for compressed bodies sees. *)
From Verif Require Import Base SpanModel JsonModel CodecModel HandlerModel TextModel HeaderModel HeaderSpec HeaderProofs.

(** [inner] is any handler: the router, or what a caller of [MainWithRouting] makes of it.  It sees the request as sent, unless the
    first Content-Encoding is exactly gzip; then it sees the decompressed body and no Content-Encoding or Content-Length, all else as
    sent.  If the body is not gzip it sees nothing. *)
Theorem C107_sees : forall gunzip text inner method path fields body,
  (~ says_gzip fields -> gzip_handler gunzip text inner (sent method path fields body) = inner (sent method path fields body)) /\
  (forall b, says_gzip fields -> gunzip body = Some b ->
    gzip_handler gunzip text inner (sent method path fields body) =
    inner (sent method path (without [str "content-encoding"; str "content-length"] fields) b)) /\
  (says_gzip fields -> gunzip body = None ->
    exists r, gzip_handler gunzip text inner (sent method path fields body) = XDone r /\ hr_puts r = [] /\ hr_status r = 400 /\ hr_body r = text body ++ [10]).
Proof. exact gzip_sees. Qed.
Print Assumptions C107_sees.

(** A second wrapper changes nothing: a body is decompressed at most once. *)
Theorem C107_once : forall gunzip text inner q, gzip_handler gunzip text (gzip_handler gunzip text inner) q = gzip_handler gunzip text inner q.
Proof. exact gzip_once. Qed.
Print Assumptions C107_once.

(** Case of names and order of fields with different names make no difference. *)
Theorem C107_names : forall method path fields fields' body,
  (forall n, values_of n fields = values_of n fields') -> sent method path fields body = sent method path fields' body.
Proof. intros method path fields fields' body H. exact (f_equal (fun h => HRequest method path h body) (read_ext fields fields' H)). Qed.
Print Assumptions C107_names.

(** Spans, status and body of the answers of the three endpoints are those of [TextModel]: other fields, and whether the connection is
    closed afterwards, have no influence. *)
Theorem C107_answer : forall lib env close other q ep, asks q ep ->
  xmap plain_reply (serve lib env close other q) = t_handle lib env (plain_request ep q).
Proof. exact asks_plain. Qed.
Print Assumptions C107_answer.

(** Requests that ask for none of the endpoints go to the rest of the router, behind the wrapper. *)
Theorem C107_others : forall lib env close other q, (forall ep, ~ asks q ep) ->
  serve lib env close other q = gzip_handler (n_gunzip env) (x_gunzip lib) other q.
Proof. exact asks_nothing. Qed.
Print Assumptions C107_others.

(** The fields of answers: those for texts exactly in rejections; the connection is closed only after v1 requests, as drawn, and not
    if the body is not gzip although declared as such. *)
Theorem C107_fields : forall lib env close other q ep r, asks q ep -> serve lib env close other q = XDone r -> forall n v,
  hr_header r !! n = Some v <->
    (n = str "Connection" /\ v = [str "close"] /\ ep = EV1 /\ close = true /\
     ~ (header_get (str "Content-Encoding") (hq_header q) = str "gzip" /\ n_gunzip env (hq_body q) = None)) \/
    (hr_status r = 400 /\ (n, v) ∈ text_fields).
Proof. exact asks_fields. Qed.
Print Assumptions C107_fields.

(** A compressed v1 body with names in other cases, and the same with another encoding. *)
Definition fields107 (encoding : gostring) : list (gostring * gostring) :=
  [(str "content-ENCODING", encoding); (str "Content-type", str "application/json"); (str "X-b3", str "1"); (str "CONTENT-length", str "9");
   (str "Content-Encoding", str "gzip")].
Definition env107 : environment := Env 50 (replicate 16 0) [] (fun b => match b with Src [[31]] e => Some (Src [str "[]"] e) | _ => None end) (fun _ => None).
Definition lib107 : lib_texts := LibTexts (str "reset") (fun _ => str "gzip: invalid header") (fun _ => []).
Definition request107 (encoding : gostring) : hrequest := sent (str "POST") (str "/api/v1/spans") (fields107 encoding) (Src [[31]] (EndEOF false)).
Example C107_instance :
  says_gzip (fields107 (str "gzip")) /\ ~ says_gzip (fields107 (str "GZIP")) /\
  values_of (str "CONTENT-TYPE") (fields107 []) = [str "application/json"] /\
  without [str "content-encoding"; str "content-length"] (fields107 []) = [(str "Content-type", str "application/json"); (str "X-b3", str "1")] /\
  (forall n, values_of n [(str "a", [1]); (str "B", [2]); (str "A", [3])] = values_of n [(str "b", [2]); (str "A", [1]); (str "a", [3])]) /\
  asks (request107 (str "gzip")) EV1 /\ (forall ep, ~ asks (sent (str "GET") (str "/api/v1/spans") [] (Src [] (EndEOF false))) ep) /\
  (exists r, serve lib107 env107 true (fun _ => XHang) (request107 (str "gzip")) = XDone r /\ hr_status r = 202 /\ hr_header r !! str "Connection" = Some [str "close"]) /\
  (exists r, serve lib107 env107 false (fun _ => XHang) (request107 (str "GZIP")) = XDone r /\ hr_status r = 400 /\ hr_header r !! str "Connection" = None /\
     hr_header r !! str "Content-Type" = Some [str "text/plain; charset=utf-8"]).
Proof.
  split; [done|]. split; [done|]. split; [done|]. split; [done|]. split; [|split; [done|split; [by intros ep []|split; eexists; (split; [vm_compute; reflexivity|]); repeat split; vm_compute; reflexivity]]].
  intros n. unfold values_of.
  assert (Ha : same_name (str "A") n <-> same_name (str "a") n) by done. assert (Hb : same_name (str "B") n <-> same_name (str "b") n) by done.
  assert (Hab : same_name (str "a") n -> ~ same_name (str "b") n) by (unfold same_name; intros <-; done).
  rewrite !filter_cons, filter_nil. cbn [fst].
  repeat (destruct (decide (same_name _ n))); naive_solver.
Qed.
