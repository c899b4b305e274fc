(** What JSON text means: strings, values, layouts. *)
From Verif Require Import Base.

(* ---------- strings ---------- *)

(** UTF-8 encoding of a code point (RFC 3629). *)
Definition utf8 (cp : Z) : bytes :=
  if cp <? 128 then [cp]
  else if cp <? 2048 then [192 + cp / 64; 128 + cp mod 64]
  else if cp <? 65536 then [224 + cp / 4096; 128 + cp / 64 mod 64; 128 + cp mod 64]
  else [240 + cp / 262144; 128 + cp / 4096 mod 64; 128 + cp / 64 mod 64; 128 + cp mod 64].

Definition surrogate (cp : Z) : Prop := 55296 <= cp <= 57343.
Global Instance surrogate_dec cp : Decision (surrogate cp) := _.

(** Hexadecimal digits. *)
Definition hex_is (c v : Z) : Prop :=
  48 <= c <= 57 /\ v = c - 48 \/ 97 <= c <= 102 /\ v = c - 87 \/ 65 <= c <= 70 /\ v = c - 55.
Definition hex4_is (a b c d v : Z) : Prop :=
  exists x y z w, hex_is a x /\ hex_is b y /\ hex_is c z /\ hex_is d w /\ v = x * 4096 + y * 256 + z * 16 + w.

(** A copying left-to-right decoder of the escapes this program understands (property C20): a backslash followed
    by [u] and four hexadecimal digits is that character in UTF-8 (a surrogate is U+FFFD), a backslash followed by
    anything else is that byte. *)
Inductive unescaped : bytes -> bytes -> Prop :=
  | un_nil : unescaped [] []
  | un_plain c l v : c <> 92 -> unescaped l v -> unescaped (c :: l) (c :: v)
  | un_esc c l v : c <> 117 -> unescaped l v -> unescaped (92 :: c :: l) (c :: v)
  | un_uni a b c d cp l v : hex4_is a b c d cp -> unescaped l v ->
      unescaped (92 :: 117 :: a :: b :: c :: d :: l) ((if decide (surrogate cp) then utf8 65533 else utf8 cp) ++ v).

(** The meaning of the text between the quotes of a JSON string (RFC 8259, section 7); bytes above 127 are copied. *)
Inductive json_string : bytes -> bytes -> Prop :=
  | js_nil : json_string [] []
  | js_plain c l v : 32 <= c -> c <> 34 -> c <> 92 -> json_string l v -> json_string (c :: l) (c :: v)
  | js_quote l v : json_string l v -> json_string (92 :: 34 :: l) (34 :: v)
  | js_backslash l v : json_string l v -> json_string (92 :: 92 :: l) (92 :: v)
  | js_slash l v : json_string l v -> json_string (92 :: 47 :: l) (47 :: v)
  | js_b l v : json_string l v -> json_string (92 :: 98 :: l) (8 :: v)
  | js_f l v : json_string l v -> json_string (92 :: 102 :: l) (12 :: v)
  | js_n l v : json_string l v -> json_string (92 :: 110 :: l) (10 :: v)
  | js_r l v : json_string l v -> json_string (92 :: 114 :: l) (13 :: v)
  | js_t l v : json_string l v -> json_string (92 :: 116 :: l) (9 :: v)
  | js_u a b c d cp l v : hex4_is a b c d cp -> ~ surrogate cp -> json_string l v ->
      json_string (92 :: 117 :: a :: b :: c :: d :: l) (utf8 cp ++ v)
  | js_pair a b c d a' b' c' d' hi lo l v : hex4_is a b c d hi -> hex4_is a' b' c' d' lo ->
      55296 <= hi < 56320 -> 56320 <= lo < 57344 -> json_string l v ->
      json_string (92 :: 117 :: a :: b :: c :: d :: 92 :: 117 :: a' :: b' :: c' :: d' :: l)
        (utf8 (65536 + (hi - 55296) * 1024 + (lo - 56320)) ++ v).

(** The part of JSON strings this program decodes as JSON does: no [\b \f \n \r \t], no surrogate pairs. *)
Inductive simple_string : bytes -> bytes -> Prop :=
  | ss_nil : simple_string [] []
  | ss_plain c l v : c <> 34 -> c <> 92 -> simple_string l v -> simple_string (c :: l) (c :: v)
  | ss_quote l v : simple_string l v -> simple_string (92 :: 34 :: l) (34 :: v)
  | ss_backslash l v : simple_string l v -> simple_string (92 :: 92 :: l) (92 :: v)
  | ss_slash l v : simple_string l v -> simple_string (92 :: 47 :: l) (47 :: v)
  | ss_u a b c d cp l v : hex4_is a b c d cp -> ~ surrogate cp -> simple_string l v ->
      simple_string (92 :: 117 :: a :: b :: c :: d :: l) (utf8 cp ++ v).

(* ---------- values ---------- *)

(** JSON values; strings are given by their meaning, numbers by their text.  [JWord] is not JSON: a word that begins like
    [null], [true] or [false], which this program accepts (see [loose]). *)
Inductive json :=
  | JNull | JTrue | JFalse
  | JWord (text : bytes)
  | JNum (text : bytes)
  | JStr (s : bytes)
  | JArr (l : list json)
  | JObj (l : list (bytes * json)).

(** What may stand between tokens: the white space of JSON (space, tab, line feed, carriage return) and the other bytes
    that this program treats alike: vertical tab, form feed, comma, colon, 133 and 160. *)
Definition ws (l : bytes) : Prop :=
  Forall (fun c => c = 32 \/ c = 9 \/ c = 10 \/ c = 13 \/ c = 11 \/ c = 12 \/ c = 44 \/ c = 58 \/ c = 133 \/ c = 160) l.

(** Texts of numbers: digits with optional sign, fraction and exponent (with [e], and [-] but not [+]: the other
    forms JSON allows are not supported by this program). *)
Definition digits (l : bytes) : Prop := Forall (fun c => 48 <= c <= 57) l /\ l <> [].
Definition opt_minus (l : bytes) : Prop := l = [] \/ l = [45].
Definition number_text (l : bytes) : Prop :=
  exists m i f e, l = m ++ i ++ f ++ e /\ opt_minus m /\ digits i /\
    (f = [] \/ exists d, f = 46 :: d /\ digits d) /\
    (e = [] \/ exists m' d, e = 101 :: m' ++ d /\ opt_minus m' /\ digits d).

(** [text m v l]: [l] is a text of the value [v], without surrounding white space, in which the texts of strings and
    numbers are shorter than [m] bytes. *)
Inductive text (m : nat) : json -> bytes -> Prop :=
  | t_null : text m JNull (str "null")
  | t_true : text m JTrue (str "true")
  | t_false : text m JFalse (str "false")
  | t_num l : number_text l -> (length l < m)%nat -> text m (JNum l) l
  | t_str raw s : simple_string raw s -> (length raw < m)%nat -> text m (JStr s) (34 :: raw ++ [34])
  | t_arr_empty w : ws w -> text m (JArr []) (91 :: w ++ [93])
  | t_arr vs l : elements m vs l -> text m (JArr vs) (91 :: l ++ [93])
  | t_obj_empty w : ws w -> text m (JObj []) (123 :: w ++ [125])
  | t_obj ms l : members m ms l -> text m (JObj ms) (123 :: l ++ [125])
(** one or more elements separated by commas *)
with elements (m : nat) : list json -> bytes -> Prop :=
  | e_one v w1 l w2 : ws w1 -> text m v l -> ws w2 -> elements m [v] (w1 ++ l ++ w2)
  | e_more v w1 l w2 vs l' : ws w1 -> text m v l -> ws w2 -> elements m vs l' -> elements m (v :: vs) (w1 ++ l ++ w2 ++ 44 :: l')
(** one or more members separated by commas *)
with members (m : nat) : list (bytes * json) -> bytes -> Prop :=
  | m_one raw k w1 w2 w3 v l w4 : ws w1 -> simple_string raw k -> (length raw < m)%nat -> ws w2 -> ws w3 -> text m v l -> ws w4 ->
      members m [(k, v)] (w1 ++ 34 :: raw ++ 34 :: w2 ++ 58 :: w3 ++ l ++ w4)
  | m_more raw k w1 w2 w3 v l w4 ms l' : ws w1 -> simple_string raw k -> (length raw < m)%nat -> ws w2 -> ws w3 -> text m v l -> ws w4 ->
      members m ms l' ->
      members m ((k, v) :: ms) (w1 ++ 34 :: raw ++ 34 :: w2 ++ 58 :: w3 ++ l ++ w4 ++ 44 :: l').

Scheme text_mind := Induction for text Sort Prop
  with elements_mind := Induction for elements Sort Prop
  with members_mind := Induction for members Sort Prop.
Combined Scheme text_mutind from text_mind, elements_mind, members_mind.

(** Value of a sequence of decimal digits. *)
Fixpoint dec_value (acc : Z) (l : bytes) : Z :=
  match l with [] => acc | c :: l' => dec_value (acc * 10 + (c - 48)) l' end.

(** A number is delimited by what follows it: this program looks for a byte that cannot be part of a number. *)
Definition number_byte (b : Z) : Prop := 48 <= b <= 57 \/ b = 45 \/ b = 46 \/ b = 101.
Definition delimited (v : json) (rest : bytes) : Prop :=
  match v with JNum _ => exists b r, rest = b :: r /\ ~ number_byte b | _ => True end.

(* ---------- everything this program accepts ---------- *)

(** The text between the quotes of a string, and what this program takes it for: as [unescaped], but a quote must follow a
    backslash. *)
Inductive loose_string : bytes -> bytes -> Prop :=
  | lo_nil : loose_string [] []
  | lo_plain c l v : c <> 34 -> c <> 92 -> loose_string l v -> loose_string (c :: l) (c :: v)
  | lo_esc c l v : c <> 117 -> loose_string l v -> loose_string (92 :: c :: l) (c :: v)
  | lo_uni a b c d cp l v : hex4_is a b c d cp -> loose_string l v ->
      loose_string (92 :: 117 :: a :: b :: c :: d :: l) ((if decide (surrogate cp) then utf8 65533 else utf8 cp) ++ v).

(** Numbers: anything that begins with a digit or a minus. *)
Definition loose_number (l : bytes) : Prop := exists c l', l = c :: l' /\ (48 <= c <= 57 \/ c = 45) /\ Forall number_byte l'.

(** Words: four bytes of which the first is n or t, or five of which the first is f. *)
Definition word (l : bytes) : Prop :=
  (exists c l', l = c :: l' /\ (c = 110 \/ c = 116) /\ length l' = 3%nat) \/ (exists l', l = 102 :: l' /\ length l' = 4%nat).

(** As [text], with any words and numbers, and with separators that may be left out wherever a number does not run into
    what follows it. *)
Inductive loose (m : nat) : json -> bytes -> Prop :=
  | l_null : loose m JNull (str "null")
  | l_true : loose m JTrue (str "true")
  | l_false : loose m JFalse (str "false")
  | l_word l : word l -> loose m (JWord l) l
  | l_num l : loose_number l -> (length l < m)%nat -> loose m (JNum l) l
  | l_str raw s : loose_string raw s -> (length raw < m)%nat -> loose m (JStr s) (34 :: raw ++ [34])
  | l_arr vs l : loose_elements m vs l -> loose m (JArr vs) (91 :: l ++ [93])
  | l_obj ms l : loose_members m ms l -> loose m (JObj ms) (123 :: l ++ [125])
with loose_elements (m : nat) : list json -> bytes -> Prop :=
  | le_end w : ws w -> loose_elements m [] w
  | le_more w v l vs l' : ws w -> loose m v l -> delimited v (l' ++ [93]) -> loose_elements m vs l' -> loose_elements m (v :: vs) (w ++ l ++ l')
with loose_members (m : nat) : list (bytes * json) -> bytes -> Prop :=
  | lm_end w : ws w -> loose_members m [] w
  | lm_more w raw k w' v l ms l' : ws w -> loose_string raw k -> (length raw < m)%nat -> ws w' -> loose m v l -> delimited v (l' ++ [125]) ->
      loose_members m ms l' -> loose_members m ((k, v) :: ms) (w ++ 34 :: raw ++ 34 :: w' ++ l ++ l').

Scheme loose_mind := Induction for loose Sort Prop
  with loose_elements_mind := Induction for loose_elements Sort Prop
  with loose_members_mind := Induction for loose_members Sort Prop.
Combined Scheme loose_mutind from loose_mind, loose_elements_mind, loose_members_mind.
