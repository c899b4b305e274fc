(** What the endpoints should do, for C52. *)
From Verif Require Import Base SpanModel JsonModel JsonSpec HandlerModel.

(** The media type mentions application/json. *)
Definition declared_json (t : gostring) : Prop := exists a b, t = a ++ str "application/json" ++ b.

(** The handler reads [body]: the decompressed or the plain body. *)
Definition reads (env : environment) (q : request) (body : rsrc) : Prop :=
  (q_encoding q = str "gzip" /\ n_gunzip env (q_body q) = Some body) \/ (q_encoding q <> str "gzip" /\ body = q_body q).

(** Accepted: all the spans in order, then status 202.  Rejected: only status 400. *)
Definition accepts (spans : list span) (acts : list action) : Prop := acts = map Put spans ++ [Status 202].
Definition rejects (acts : list action) : Prop := acts = [Status 400].

(** The answer for a document that means [r] ([None]: nothing). *)
Definition answers (r : option (list span)) (acts : list action) : Prop :=
  match r with Some spans => accepts spans acts | None => rejects acts end.
