(** Reading single literals with the methods of the JSON parser, and the names of its types. *)
From Verif Require Import Base JsonModel SpanJsonModel.

(** codec/hyperjson/parser.go:298-304 [ReadNull]. *)
Definition ReadNull (fuel : nat) (st : pstate) : pres token :=
  pbind (skip_whitespace fuel st) (fun _ st => read_null fuel st).
(** parser.go:310-316 [ReadBoolean]. *)
Definition ReadBoolean (fuel : nat) (st : pstate) : pres token :=
  pbind (skip_whitespace fuel st) (fun _ st => read_boolean fuel st).
(** parser.go:274-282 [read1], which nothing calls. *)
Definition read1 (ty : jtype) (st : pstate) : pres token :=
  pbind (current st) (fun b st =>
  if decide (symbol b = ty) then POk (Token ty [b]) (set_tail (S (p_tail st)) st) else PErr).

(** parser.go:11-23: the values of the constants. *)
Definition type_value (ty : jtype) : Z :=
  match ty with
  | TError => 0 | TNull => 1 | TObjBegin => 2 | TObjEnd => 3 | TArrBegin => 4 | TArrEnd => 5 | TBool => 6 | TNumber => 7 | TString => 8 | TSpace => 9
  end.
(** type_string.go:22 [_Type_name] and 24 [_Type_index]. *)
Definition type_names : bytes :=
  str "TypeErrorTypeNullTypeObjectBeginTypeObjectEndTypeArrayBeginTypeArrayEndTypeBooleanTypeNumberTypeStringtypeWhitespace".
Definition type_index : list Z := [0; 9; 17; 32; 45; 59; 71; 82; 92; 102; 116].
(** Go's [s[a:b]] for a string; [None] is a panic. *)
Definition go_slice (s : bytes) (a b : Z) : option bytes :=
  if (0 <=? a) && (a <=? b) && (b <=? Z.of_nat (length s)) then Some (take (Z.to_nat (b - a)) (drop (Z.to_nat a) s)) else None.
(** type_string.go:26-31 [Type.String] for a value of the type uint8; [None] is a panic. *)
Definition type_string (i : Z) : option bytes :=
  if Z.of_nat (length type_index) - 1 <=? i then Some (str "Type(" ++ write_int i ++ str ")") else
  match type_index !! Z.to_nat i, type_index !! Z.to_nat (i + 1) with
  | Some a, Some b => go_slice type_names a b
  | _, _ => None
  end.

(** parser.go:371-378 [wrongTypeError]: the text of the error; [None] is a panic.  [%c] of a byte is the character with this
    number. *)
Definition wrong_type_error (expected : jtype) (st : pstate) : option bytes :=
  match p_buf st !! p_tail st, type_string (type_value expected) with
  | Some b, Some e =>
      match symbol b with
      | TError => Some (str "expected token of type '" ++ e ++ str "', but found character '" ++ encode_rune b ++ str "'")
      | actual => match type_string (type_value actual) with
                  | Some a => Some (str "expected token of type '" ++ e ++ str "', but found '" ++ a ++ str "'")
                  | None => None
                  end
      end
  | _, _ => None
  end.
