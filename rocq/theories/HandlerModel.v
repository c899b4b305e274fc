(** Model of handlers.go: the HTTP endpoints. *)
From Verif Require Import Base SpanModel JsonModel CodecModel JaegerModel.

(** The three routes (handlers.go:17, 39, 52). *)
Inductive endpoint := EV1 | EV2 | EJaeger.

(** What the handlers look at: [Header.Get] of Content-Type and Content-Encoding (empty if absent) and the body. *)
Record request := Request { q_endpoint : endpoint; q_type : gostring; q_encoding : gostring; q_body : rsrc }.

(** What the run-time system and libraries contribute: fuel of the parsers (a bound on their steps), the pooled parse
    buffer and v1 memory, [gzip.NewReader] ([None]: not a gzip header) and [encoding/json] for Jaeger bodies. *)
Record environment := Env {
  n_fuel : nat; n_buf : bytes; n_pool : list spanV1;
  n_gunzip : rsrc -> option rsrc; n_jaeger : rsrc -> option (list jdata) }.

(** Visible effects in order: a span put on the input channel, the status of the answer. *)
Inductive action := Put (s : span) | Status (code : Z).

(** Go's [strings.HasPrefix] and [strings.Contains]. *)
Fixpoint has_prefix (p s : gostring) : bool :=
  match p, s with
  | [], _ => true
  | a :: p', b :: s' => (a =? b) && has_prefix p' s'
  | _, [] => false
  end.
Fixpoint contains (s p : gostring) : bool :=
  has_prefix p s || match s with [] => false | _ :: s' => contains s' p end.

(** The parser of each endpoint. *)
Definition parser (env : environment) (ep : endpoint) (body : rsrc) : xres (option (list span)) :=
  match ep with
  | EV1 => xmap fst (ParseJsonV1 (n_fuel env) (n_buf env) (n_pool env) body)
  | EV2 => ParseJsonV2 (n_fuel env) (n_buf env) body
  | EJaeger => XDone (ParseJaeger (n_jaeger env body))
  end.

(** handlers.go:85-99 [parseSpansWithJSON]: effects and whether [err == nil].  (Metrics are left out.) *)
Definition parse_spans (env : environment) (ep : endpoint) (body : rsrc) : xres (list action * bool) :=
  xmap (fun r => match r with
    | None => ([], false)
    | Some spans => (map Put spans, true) end) (parser env ep body).

(** handlers.go:32-36, 45-49, 58-62. *)
Definition answer (r : list action * bool) : list action := r.1 ++ [Status (if r.2 then 202 else 400)].

(** handlers.go:16-64.  (For the header "Connection: close" in 1% of the answers see [HeaderModel].) *)
Definition handle_spans (env : environment) (q : request) (body : rsrc) : xres (list action) :=
  match q_endpoint q with
  | EV1 => if contains (q_type q) (str "application/json") then xmap answer (parse_spans env EV1 body) else XDone (answer ([], false))
  | ep => xmap answer (parse_spans env ep body)
  end.

(** handlers.go:66-83 [handleGzipRequestBody]. *)
Definition handle (env : environment) (q : request) : xres (list action) :=
  if decide (q_encoding q = str "gzip") then
    match n_gunzip env (q_body q) with
    | None => XDone [Status 400]
    | Some body => handle_spans env q body
    end
  else handle_spans env q (q_body q).
