(** Model of handlers.go once more, with the headers of requests and answers, and of handleGzipRequestBody around any handler
    (main.go:171-174 puts it around whatever the [Routing] of the caller makes of the router). *)
From Verif Require Import Base SpanModel JsonModel CodecModel JaegerModel HandlerModel TextModel.

(** net/http [Header]: names in canonical form, with the values in the order received. *)
Notation header := (gmap gostring (list gostring)).

(** net/textproto [canonicalMIMEHeaderKey] for names that consist of token characters (net/http answers requests with other names
    itself): letters after the beginning and after '-' in upper case, others in lower case. *)
Definition upper_byte (c : Z) : Z := if (97 <=? c) && (c <=? 122) then c - 32 else c.
Definition lower_byte (c : Z) : Z := if (65 <=? c) && (c <=? 90) then c + 32 else c.
Fixpoint canonical_from (upper : bool) (name : gostring) : gostring :=
  match name with
  | [] => []
  | c :: name => let c' := if upper then upper_byte c else lower_byte c in c' :: canonical_from (c' =? 45) name
  end.
Definition canonical (name : gostring) : gostring := canonical_from true name.

(** net/textproto [ReadMIMEHeader]: the fields of a request as sent. *)
Definition read_fields (fields : list (gostring * gostring)) : header :=
  foldl (fun h f => <[canonical f.1 := default [] (h !! canonical f.1) ++ [f.2]]> h) ∅ fields.

(** net/http [Header.Get], [Header.Del] and [Header.Set]. *)
Definition header_get (name : gostring) (h : header) : gostring :=
  match h !! canonical name with Some (v :: _) => v | _ => [] end.
Definition header_del (name : gostring) (h : header) : header := delete (canonical name) h.
Definition header_set (name value : gostring) (h : header) : header := <[canonical name := [value]]> h.

(** The parts of a request that the code uses. *)
Record hrequest := HRequest { hq_method : gostring; hq_path : gostring; hq_header : header; hq_body : rsrc }.
(** An answer: the spans put on the input channel, status, header, body. *)
Record hreply := HReply { hr_puts : list span; hr_status : Z; hr_header : header; hr_body : bytes }.

(** net/http [Error] with status 400 (Go 1.15), after [h] was put into the header. *)
Definition header_error (text : bytes) (h : header) : hreply :=
  HReply [] 400 (header_set (str "X-Content-Type-Options") (str "nosniff") (header_set (str "Content-Type") (str "text/plain; charset=utf-8") h)) (text ++ [10]).

(** handlers.go:66-83 [handleGzipRequestBody]; [gunzip] is [gzip.NewReader], [text] the text of its error, [inner] the handler
    it is put around. *)
Definition gzip_handler (gunzip : rsrc -> option rsrc) (text : rsrc -> bytes) (inner : hrequest -> xres hreply) (q : hrequest) : xres hreply :=
  if decide (header_get (str "Content-Encoding") (hq_header q) = str "gzip") then
    match gunzip (hq_body q) with
    | None => XDone (header_error (text (hq_body q)) ∅)
    | Some body => inner (HRequest (hq_method q) (hq_path q) (header_del (str "Content-Length") (header_del (str "Content-Encoding") (hq_header q))) body)
    end
  else inner q.

(** handlers.go:32-36, 45-49, 58-62: the answer, with [h] in the header already. *)
Definition header_answer (h : header) (r : list span + bytes) : hreply :=
  match r with inl spans => HReply spans 202 h [] | inr m => header_error (with_message (str "parsing spans from json") m) h end.

(** handlers.go:17-63: the handlers; [close]: whether [rand.Float64() < 0.01]. *)
Definition spans_handler (lib : lib_texts) (env : environment) (close : bool) (ep : endpoint) (q : hrequest) : xres hreply :=
  match ep with
  | EV1 =>
      let h := if close then header_set (str "Connection") (str "close") ∅ else ∅ in
      if contains (header_get (str "Content-Type") (hq_header q)) (str "application/json")
      then xmap (header_answer h) (t_parser lib env EV1 (hq_body q))
      else XDone (header_error (str "only json spans are supported") h)
  | ep => xmap (header_answer ∅) (t_parser lib env ep (hq_body q))
  end.

(** The router (httprouter): the three routes; [other] is what it does with other requests. *)
Definition route (q : hrequest) : option endpoint :=
  if decide (hq_method q = str "POST") then
    if decide (hq_path q = str "/api/v1/spans") then Some EV1
    else if decide (hq_path q = str "/api/v2/spans") then Some EV2
    else if decide (hq_path q = str "/api/jaeger/spans") then Some EJaeger
    else None
  else None.
Definition router (lib : lib_texts) (env : environment) (close : bool) (other : hrequest -> xres hreply) (q : hrequest) : xres hreply :=
  match route q with Some ep => spans_handler lib env close ep q | None => other q end.

(** main.go:171-174 with the routing of [Main] (main.go:33-35). *)
Definition serve (lib : lib_texts) (env : environment) (close : bool) (other : hrequest -> xres hreply) (q : hrequest) : xres hreply :=
  gzip_handler (n_gunzip env) (x_gunzip lib) (router lib env close other) q.
