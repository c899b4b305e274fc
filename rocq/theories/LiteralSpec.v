(** What the methods of the parser that read one literal return, for C85. *)
From Verif Require Import Base JsonModel JsonSpec ParseSpec ReadSpec LiteralModel SpanJsonSpec.

(** The token of a literal: words that begin with n count as null, words that begin with t or f as booleans. *)
Definition token_of (v : json) : option token :=
  match v with
  | JNull => Some (Token TNull (str "null"))
  | JTrue => Some (Token TBool (str "true"))
  | JFalse => Some (Token TBool (str "false"))
  | JWord (110 :: l) => Some (Token TNull (110 :: l))
  | JWord l => Some (Token TBool l)
  | JNum l => Some (Token TNumber l)
  | JStr s => Some (Token TString s)
  | _ => None
  end.
Definition a_literal (v : json) : Prop := is_Some (token_of v).
Definition a_literal_of (ty : jtype) (v : json) : Prop := exists t, token_of v = Some t /\ t_type t = ty.

(** Consumers that call one method and note the token. *)
Definition noting (read : pstate -> pres token) (s : list token) (st : pstate) : pres (list token) :=
  pbind (read st) (fun t st => POk (s ++ [t]) st).
Definition noted (s : list token) (v : json) : list token := s ++ match token_of v with Some t => [t] | None => [] end.

(** The names of the types in parser.go. *)
Definition type_name (ty : jtype) : bytes :=
  match ty with
  | TError => str "TypeError" | TNull => str "TypeNull" | TObjBegin => str "TypeObjectBegin" | TObjEnd => str "TypeObjectEnd"
  | TArrBegin => str "TypeArrayBegin" | TArrEnd => str "TypeArrayEnd" | TBool => str "TypeBoolean" | TNumber => str "TypeNumber"
  | TString => str "TypeString" | TSpace => str "typeWhitespace"
  end.

(** What an error says that is found at the byte [b]. *)
Definition complaint (expected : jtype) (b : Z) : bytes :=
  str "expected token of type '" ++ type_name expected ++ str "', but found " ++
  (if decide (symbol b = TError) then str "character '" ++ utf8 b else str "'" ++ type_name (symbol b)) ++ str "'".
