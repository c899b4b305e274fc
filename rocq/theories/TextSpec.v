(** Specification of the texts of rejections (C105). *)
From Verif Require Import Base JsonModel JsonSpec HandlerModel HandlerSpec.
From Coq Require Import String.
Local Open Scope string_scope.
Local Open Scope list_scope.

Definition names (l : list string) : list bytes := map str l.
Definition quote (s : bytes) : bytes := str "'" ++ s ++ str "'".

(** The names of the kinds of tokens. *)
Definition opening : list bytes := names ["TypeObjectBegin"; "TypeArrayBegin"].
Definition closing : list bytes := names ["TypeObjectEnd"; "TypeArrayEnd"].
Definition scalars : list bytes := names ["TypeNull"; "TypeBoolean"; "TypeNumber"; "TypeString"].
(** What decoders ask for. *)
Definition wanted : list bytes := opening ++ names ["TypeNumber"; "TypeString"].

(** No token begins with the byte, and it does not count as white space either. *)
Definition no_token (c : Z) : Prop := c ∉ [9; 10; 11; 12; 13; 32; 34; 44; 58; 133; 160] ++ str "-0123456789ntf{}[]".
Definition no_hex (c : Z) : Prop := forall v, ~ hex_is c v.

(** The body has a byte with which tokens of the kind begin. *)
Definition first_bytes : list (bytes * bytes) :=
  [(str "TypeNull", str "n"); (str "TypeBoolean", str "tf"); (str "TypeNumber", str "-0123456789"); (str "TypeString", [34]);
   (str "TypeObjectBegin", str "{"); (str "TypeObjectEnd", str "}"); (str "TypeArrayBegin", str "["); (str "TypeArrayEnd", str "]")].
Definition has_token (body kind : bytes) : Prop := exists s b, (kind, s) ∈ first_bytes /\ b ∈ s /\ b ∈ body.

(** What is wrong with the body; [fin]: the text of the error with which the reader ends. *)
Inductive cause (fin body : bytes) : bytes -> Prop :=
  | at_end : cause fin body fin
  | in_short_word : cause fin body (str "require(4): " ++ fin)
  | in_false : cause fin body (str "require(5): " ++ fin)
  | at_character c : c ∈ body -> no_token c -> cause fin body (str "unexpected character: " ++ quote (encode_rune c))
  | other_token w f : w ∈ wanted -> f ∈ opening ++ closing ++ scalars -> has_token body f -> w <> f ->
      cause fin body (str "expected token of type " ++ quote w ++ str ", but found " ++ quote f)
  | other_character w c : w ∈ wanted -> c ∈ body -> no_token c ->
      cause fin body (str "expected token of type " ++ quote w ++ str ", but found character " ++ quote (encode_rune c))
  | no_literal f : f ∈ opening ++ closing -> has_token body f -> cause fin body (str "expected literal, got " ++ quote f)
  | no_value f : f ∈ closing -> has_token body f -> cause fin body (str "can not skip unexpected symbol of type " ++ quote f)
  | short_escape : cause fin body (str "premature end of input while decoding unicode character")
  | bad_escape c : c ∈ body -> no_hex c -> cause fin body (str "expected hexadecimal character but got " ++ quote (encode_rune c))
  | bad_number c : c ∈ str "-.e" -> c ∈ body -> cause fin body (str "Unexpected character in number: " ++ quote (encode_rune c))
  | long_id : cause fin body (str "hex value too large")
  | bad_id c : no_hex c -> cause fin body (str "hex value must only contain [0-9a-f], got " ++ quote (encode_rune c)).

(** Where it was found. *)
Definition inside (outer : string) (inner : list string) : list string := map (append outer) inner.
Definition binary_places : list string := [""; "begin object: "; "decode value: "].
Definition annotation_places : list string := [""; "begin object: "; "decode uint64 value: "; "decode value: "].
Definition v2_places : list string := [""; "begin object: "; "decode id value: "; "decode uint64 value: "; "decode value: "].
Definition v1_places : list string := v2_places
  ++ ["decoding []codec.binaryAnnotationV1: "; "decoding [4]codec.annotationV1: "; "skipping out of range array element of type codec.annotationV1: "]
  ++ inside "decoding element of type codec.binaryAnnotationV1: " binary_places
  ++ inside "decoding array element of type codec.annotationV1: " annotation_places.
Definition contexts (ep : endpoint) : list bytes :=
  match ep with
  | EV2 => names (["decoding []codec.spanV2: "; ""] ++ inside "decoding element of type codec.spanV2: " v2_places)
  | EV1 => names (["decoding []codec.spanV1: "; ""] ++ inside "decoding element of type codec.spanV1: " v1_places)
  | EJaeger => []
  end.
(** What every text of an endpoint begins with. *)
Definition heading (ep : endpoint) : bytes :=
  str "parsing spans from json: parse spans for " ++ match ep with EV1 => str "json v1: " | EV2 => str "json v2: " | EJaeger => str "jaeger: " end.

(** The text at the end of a reader whose error has the text [oth]. *)
Definition end_text (oth : bytes) (e : rend) : bytes := match e with EndEOF _ => str "EOF" | EndErr _ => str "buffer more data: " ++ oth end.

(** The body of the request is parsed by a parser of this program. *)
Definition parsed (q : request) : Prop := q_endpoint q = EV1 /\ declared_json (q_type q) \/ q_endpoint q = EV2.
(** The two requests have the same body in this sense, perhaps read in other pieces. *)
Definition same_bytes (b b' : rsrc) : Prop := List.concat (r_chunks b) = List.concat (r_chunks b').
