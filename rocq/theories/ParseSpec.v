(** What the properties of the JSON parser and decoders refer to: readers, tokens that fit, pool histories. *)
From Verif Require Import Base SpanModel JsonModel CodecModel JsonSpec.

(** The reader does not report an error (other than end of file) together with data. *)
Definition no_eager_error (e : rend) : Prop := e <> EndErr true.

(** What the parser has not consumed yet: the unread part of its buffer and what the reader will deliver. *)
Definition unread (st : pstate) : bytes := take (p_head st - p_tail st) (drop (p_tail st) (p_buf st)) ++ concat (r_chunks (p_src st)).

(** Text of a string up to the closing quote: no quote that is not preceded by an escaping backslash. *)
Inductive raw_string : bytes -> Prop :=
  | raw_nil : raw_string []
  | raw_char c l : c <> 34 -> c <> 92 -> raw_string l -> raw_string (c :: l)
  | raw_esc c l : raw_string l -> raw_string (92 :: c :: l).

(** From every quote the end of the string, or of the body, is near; so is the end of every number. *)
Definition short_tokens (cap : nat) (body : bytes) : Prop := forall pre c l, body = pre ++ c :: l ->
  (c = 34 -> (length l <= cap)%nat \/ exists s rest, l = s ++ 34 :: rest /\ (length s < cap)%nat /\ raw_string s) /\
  (number_byte c -> (length l < cap)%nat \/ exists s b rest, l = s ++ b :: rest /\ (length s < cap - 1)%nat /\ ~ number_byte b).

(* ---------- pooled memory ---------- *)

(** The decoder of one v1 span, counting how often the member "binaryAnnotations" is decoded. *)
Definition counted_field (f : gostring * decoder spanV1) : gostring * decoder (spanV1 * nat) :=
  let add c := if decide (f.1 = str "binaryAnnotations") then S c else c in
  (f.1, fun tc => pthen (f.2 tc.1) (fun t => (t, add tc.2)) (fun t => Ret ((t, add tc.2), true))).
Definition counted_decoder (fuel : nat) : decoder (spanV1 * nat) := fun tc =>
  struct_decoder (map counted_field (v1_fields fuel)) fuel (reset_v1 tc.1, 0%nat).
Definition counted_prog (fuel : nat) (pool : list spanV1) : prog (slice (spanV1 * nat) * bool) :=
  slice_decoder (zero_v1, 0%nat) (counted_decoder fuel) fuel (Slice (map (fun t => (t, 0%nat)) pool) 0).

(** Some object of the body has the member "binaryAnnotations" twice (as far as the body was decoded). *)
Definition repeats (fuel : nat) (buf : bytes) (pool : list spanV1) (src : rsrc) : Prop :=
  match exec fuel (counted_prog fuel pool) (new_parser src buf) with
  | XDone (s, _) => Exists (fun tc => (2 <= tc.2)%nat) (sl_mem s)
  | _ => False
  end.

(** Entries of the pool after any history of requests: a new entry (json-v1.go:44-48), or what a request to which
    the pool handed such an entry put back (json-v1.go:63-64). *)
Inductive pooled : list spanV1 -> Prop :=
  | pooled_new : pooled new_pool_entry
  | pooled_put fuel buf entry src r entry' : pooled entry -> ParseJsonV1 fuel buf entry src = XDone (r, entry') -> pooled entry'.
(** The same when no request repeats the member "binaryAnnotations" in an object. *)
Inductive pooled_once : list spanV1 -> Prop :=
  | once_new : pooled_once new_pool_entry
  | once_put fuel buf entry src r entry' : pooled_once entry -> ParseJsonV1 fuel buf entry src = XDone (r, entry') ->
      ~ repeats fuel buf entry src -> pooled_once entry'.
