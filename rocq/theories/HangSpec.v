(** When exactly the decoding of a body never ends (C89). *)
From Verif Require Import Base SpanModel JsonModel CodecModel JsonSpec ParseSpec.

(** [tokens p rest]: [p] consists of whole tokens and separators when [rest] follows it; what begins with [rest] is
    not part of a token of [p]. *)
Inductive tokens : bytes -> bytes -> Prop :=
  | tk_none rest : tokens [] rest
  | tk_sep c p rest : ws [c] -> tokens p rest -> tokens (c :: p) rest
  | tk_bracket c p rest : c = 91 \/ c = 93 \/ c = 123 \/ c = 125 -> tokens p rest -> tokens (c :: p) rest
  | tk_string raw p rest : raw_string raw -> tokens p rest -> tokens (34 :: raw ++ 34 :: p) rest
  | tk_word w p rest : word w -> tokens p rest -> tokens (w ++ p) rest
  | tk_number n p rest : loose_number n -> delimited (JNum n) (p ++ rest) -> tokens p rest -> tokens (n ++ p) rest.

(** A number begins with this byte. *)
Definition number_start (c : Z) : Prop := 48 <= c <= 57 \/ c = 45.

(** The string or number that begins with [c] and goes on with [l] does not end within the buffer, and more follows than
    fits into it. *)
Definition overlong (cap : nat) (c : Z) (l : bytes) : Prop :=
  c = 34 /\ (cap < length l)%nat /\ (forall s r, l = s ++ 34 :: r -> raw_string s -> (cap <= length s)%nat) \/
  number_start c /\ (cap <= length l)%nat /\ Forall number_byte (take (cap - 1) l).

(** Two bytes with which tokens of the same kind begin. *)
Definition same_kind (c c' : Z) : Prop := c = c' \/ number_start c /\ number_start c'.

(** The body is decoded, with a buffer that is large enough. *)
Definition accepted (parse : nat -> bytes -> rsrc -> xres (option (list span))) (body : bytes) : Prop :=
  exists fuel buf spans, (5 <= length buf)%nat /\ parse fuel buf (Src [body] (EndEOF false)) = XDone (Some spans).

(** After [p] a token of the kind of [c] is in order: with one, [p] is the beginning of a body that is accepted, and it is
    not already accepted without the rest. *)
Definition expected (parse : nat -> bytes -> rsrc -> xres (option (list span))) (p : bytes) (c : Z) : Prop :=
  exists c' rest, same_kind c c' /\ accepted parse (p ++ c' :: rest) /\ ~ accepted parse (p ++ [c']).

(** A string or number that is in order where it stands does not fit into the buffer. *)
Definition stuck (parse : nat -> bytes -> rsrc -> xres (option (list span))) (cap : nat) (body : bytes) : Prop :=
  exists p c l, body = p ++ c :: l /\ tokens p (c :: l) /\ overlong cap c l /\ expected parse p c.

(** The parsers of the two Zipkin formats; that of v1 with the memory that the pool hands out. *)
Definition v1_parser (pool : list spanV1) (fuel : nat) (buf : bytes) (src : rsrc) : xres (option (list span)) :=
  xmap fst (ParseJsonV1 fuel buf pool src).
