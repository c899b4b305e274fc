(** JSON according to RFC 8259, and what a Jaeger document describes. *)
From Verif Require Import Base IdSpec SpanModel JsonModel JsonSpec DocSpec JaegerModel StdJsonModel.

(* ---------- the grammar of RFC 8259 ---------- *)

(** Section 2: white space. *)
Definition blank (l : bytes) : Prop := Forall (fun c => c = 32 \/ c = 9 \/ c = 10 \/ c = 13) l.

(** Section 7: the text between the quotes of a string. *)
Definition hex (c : Z) : Prop := exists v, hex_is c v.
Inductive string_text : bytes -> Prop :=
  | st_nil : string_text []
  | st_plain c l : 32 <= c -> c <> 34 -> c <> 92 -> string_text l -> string_text (c :: l)
  | st_escape c l : c ∈ [34; 92; 47; 98; 102; 110; 114; 116] -> string_text l -> string_text (92 :: c :: l)
  | st_unicode a b c d l : hex a -> hex b -> hex c -> hex d -> string_text l -> string_text (92 :: 117 :: a :: b :: c :: d :: l).

(** Section 6: numbers. *)
Definition int_text (l : bytes) : Prop := l = [48] \/ digits l /\ head l <> Some 48.
Definition frac_text (l : bytes) : Prop := l = [] \/ exists d, l = 46 :: d /\ digits d.
Definition exp_text (l : bytes) : Prop :=
  l = [] \/ exists c s d, l = c :: s ++ d /\ (c = 101 \/ c = 69) /\ (s = [] \/ s = [43] \/ s = [45]) /\ digits d.
Definition rfc_number (l : bytes) : Prop :=
  exists m i f e, l = m ++ i ++ f ++ e /\ opt_minus m /\ int_text i /\ frac_text f /\ exp_text e.

(** Sections 3 to 5: [gram t l]: [l] is a text of [t], without white space around it. *)
Inductive gram : tree -> bytes -> Prop :=
  | g_null : gram TNil (str "null")
  | g_true : gram (TBoolean true) (str "true")
  | g_false : gram (TBoolean false) (str "false")
  | g_num l : rfc_number l -> gram (TNum l) l
  | g_str raw : string_text raw -> gram (TStr raw) (34 :: raw ++ [34])
  | g_arr_empty w : blank w -> gram (TArr []) (91 :: w ++ [93])
  | g_arr vs l : gram_elements vs l -> gram (TArr vs) (91 :: l ++ [93])
  | g_obj_empty w : blank w -> gram (TObj []) (123 :: w ++ [125])
  | g_obj ms l : gram_members ms l -> gram (TObj ms) (123 :: l ++ [125])
with gram_elements : list tree -> bytes -> Prop :=
  | ge_one v w1 l w2 : blank w1 -> gram v l -> blank w2 -> gram_elements [v] (w1 ++ l ++ w2)
  | ge_more v w1 l w2 vs l' : blank w1 -> gram v l -> blank w2 -> gram_elements vs l' -> gram_elements (v :: vs) (w1 ++ l ++ w2 ++ 44 :: l')
with gram_members : list (bytes * tree) -> bytes -> Prop :=
  | gm_one k w1 w2 w3 v l w4 : blank w1 -> string_text k -> blank w2 -> blank w3 -> gram v l -> blank w4 ->
      gram_members [(k, v)] (w1 ++ 34 :: k ++ 34 :: w2 ++ 58 :: w3 ++ l ++ w4)
  | gm_more k w1 w2 w3 v l w4 ms l' : blank w1 -> string_text k -> blank w2 -> blank w3 -> gram v l -> blank w4 ->
      gram_members ms l' -> gram_members ((k, v) :: ms) (w1 ++ 34 :: k ++ 34 :: w2 ++ 58 :: w3 ++ l ++ w4 ++ 44 :: l').

Scheme gram_mind := Induction for gram Sort Prop
  with gram_elements_mind := Induction for gram_elements Sort Prop
  with gram_members_mind := Induction for gram_members Sort Prop.
Combined Scheme gram_mutind from gram_mind, gram_elements_mind, gram_members_mind.

(** How deeply arrays and objects are nested. *)
Fixpoint nesting (t : tree) : Z :=
  match t with
  | TArr l => 1 + foldr Z.max 0 (map nesting l)
  | TObj l => 1 + foldr Z.max 0 (map (fun m => nesting m.2) l)
  | _ => 0
  end.

(** The byte after a number is not one that numbers are made of. *)
Definition ended (t : tree) (rest : bytes) : Prop :=
  match t, rest with TNum _, b :: _ => ~ (48 <= b <= 57) /\ b <> 46 /\ b <> 101 /\ b <> 69 | _, _ => True end.

(* ---------- the meaning of the grammar ---------- *)

(** RFC 3629: UTF-8 texts. *)
Inductive utf8_text : bytes -> Prop :=
  | ut_nil : utf8_text []
  | ut_char cp l : 0 <= cp <= 1114111 -> ~ surrogate cp -> utf8_text l -> utf8_text (utf8 cp ++ l).

(** [means P t v]: [t] stands for the value [v]; strings are encoded in UTF-8, and [P] holds of the text and the meaning of
    each string that is not a name. *)
Inductive means (P : bytes -> bytes -> Prop) : tree -> json -> Prop :=
  | mn_null : means P TNil JNull
  | mn_true : means P (TBoolean true) JTrue
  | mn_false : means P (TBoolean false) JFalse
  | mn_num l : rfc_number l -> means P (TNum l) (JNum l)
  | mn_str raw s : json_string raw s -> utf8_text raw -> P raw s -> means P (TStr raw) (JStr s)
  | mn_arr ts vs : means_all P ts vs -> means P (TArr ts) (JArr vs)
  | mn_obj ms vs : means_members P ms vs -> means P (TObj ms) (JObj vs)
with means_all (P : bytes -> bytes -> Prop) : list tree -> list json -> Prop :=
  | mna_nil : means_all P [] []
  | mna_cons t v ts vs : means P t v -> means_all P ts vs -> means_all P (t :: ts) (v :: vs)
with means_members (P : bytes -> bytes -> Prop) : list (bytes * tree) -> list (bytes * json) -> Prop :=
  | mnm_nil : means_members P [] []
  | mnm_cons raw k t v ms vs : json_string raw k -> utf8_text raw -> means P t v -> means_members P ms vs ->
      means_members P ((raw, t) :: ms) ((k, v) :: vs).

Scheme means_mind := Induction for means Sort Prop
  with means_all_mind := Induction for means_all Sort Prop
  with means_members_mind := Induction for means_members Sort Prop.
Combined Scheme means_mutind from means_mind, means_all_mind, means_members_mind.

(** Identifiers are written without escapes. *)
Definition plain_ids (raw s : bytes) : Prop := id_text s <> None -> raw = s.

(* ---------- Jaeger documents ---------- *)

(** The values of the members with the name [k], in any case ([k] is in lower case). *)
Definition named (k : gostring) (ms : list (bytes * json)) : list json :=
  map snd (List.filter (fun m => bool_decide (fold_case m.1 = k)) ms).
(** Those that are not null: null counts as absent. *)
Definition present (k : gostring) (ms : list (bytes * json)) : list json :=
  List.filter (fun v => match v with JNull => false | _ => true end) (named k ms).
(** All of them must be readable by [f]; the last one counts; [dflt] if there is none. *)
Definition last_of {A} (f : json -> option A) (dflt : A) (l : list json) : option A :=
  option_map (fun l => List.last l dflt) (traverse f l).

(** Unsigned decimal numbers of 64 bits. *)
Definition as_u64 (v : json) : option Z :=
  match v with
  | JNum l => if forallb (fun c => (48 <=? c) && (c <=? 57)) l then if dec_value 0 l <? 2^64 then Some (dec_value 0 l) else None else None
  | _ => None
  end.
(** Identifiers: strings of at most 16 hexadecimal digits; null is not one. *)
Definition as_ident (v : json) : option Z := match v with JStr s => id_text s | _ => None end.
(** Objects; null counts as an empty one. *)
Definition as_members (v : json) : option (list (bytes * json)) := match v with JNull => Some [] | JObj ms => Some ms | _ => None end.
(** The elements of the array that is the member [k]. *)
Definition items (k : gostring) (ms : list (bytes * json)) : option (list json) := last_of as_arr [] (present k ms).

(** The value of the text of a number as a fraction [n / 10^d] in terms of its parts (sign left out). *)
Definition magnitude_below (l : bytes) (limit : Z) : Prop :=
  exists m i f e, l = m ++ i ++ f ++ e /\ opt_minus m /\ digits i /\
  exists fd, (f = [] /\ fd = [] \/ f = 46 :: fd /\ digits fd) /\
  exists x, (e = [] /\ x = 0 \/ exists c s d, e = c :: s ++ d /\ (c = 101 \/ c = 69) /\ digits d /\
               (s = [45] /\ x = - dec_value 0 d \/ (s = [] \/ s = [43]) /\ x = dec_value 0 d)) /\
  dec_value 0 (i ++ fd) * 10 ^ Z.max 0 x < limit * 10 ^ (Z.of_nat (length fd) + Z.max 0 (- x)).
(** Numbers of less than 10000 bytes that do not round to 2^1024 or more in double precision: they are less than half a step above
    the largest number. *)
Definition is_double (l : bytes) : Prop := Z.of_nat (length l) < 10000 /\ magnitude_below l (2^1024 - 2^970).
(** Every number inside a value is one. *)
Inductive doubles : json -> Prop :=
  | db_num l : is_double l -> doubles (JNum l)
  | db_arr l : Forall doubles l -> doubles (JArr l)
  | db_obj l : Forall (fun m => doubles m.2) l -> doubles (JObj l)
  | db_other v : match v with JNum _ | JArr _ | JObj _ => False | _ => True end -> doubles v.
Definition as_tag_value (v : json) : option jvalue := match v with JStr s => Some (JVString s) | _ => Some JVOther end.

Definition jaeger_tag_of (v : json) : option jtag :=
  ms ← as_members v;
  key ← last_of as_str [] (present (str "key") ms);
  value ← last_of as_tag_value JVOther (named (str "value") ms);
  Some (JTag key value).
Definition jaeger_ref_of (v : json) : option jref :=
  ms ← as_members v;
  type ← last_of as_str [] (present (str "reftype") ms);
  id ← last_of as_ident 0 (named (str "spanid") ms);
  Some (JRef type id).
Definition jaeger_span_of (v : json) : option jspan :=
  ms ← as_members v;
  trace ← last_of as_ident 0 (named (str "traceid") ms);
  id ← last_of as_ident 0 (named (str "spanid") ms);
  name ← last_of as_str [] (present (str "operationname") ms);
  refs ← items (str "references") ms ≫= traverse jaeger_ref_of;
  ts ← last_of as_u64 0 (present (str "starttime") ms);
  dur ← last_of as_u64 0 (present (str "duration") ms);
  process ← last_of as_str [] (present (str "processid") ms);
  tags ← items (str "tags") ms ≫= traverse jaeger_tag_of;
  Some (JSpan trace id name refs ts dur process tags).
Definition jaeger_process_of (v : json) : option gostring :=
  ms ← as_members v;
  last_of as_str [] (present (str "servicename") ms).
(** The processes by name; the last one with a name counts. *)
Definition jaeger_processes_of (ms : list (bytes * json)) : option (gmap gostring gostring) :=
  procs ← last_of as_obj [] (present (str "processes") ms);
  option_map (fun l => foldl (fun m kv => <[kv.1 := kv.2]> m) (∅ : gmap gostring gostring) l)
    (traverse (fun kv => option_map (pair kv.1) (jaeger_process_of kv.2)) procs).
Definition jaeger_data_of (v : json) : option jdata :=
  ms ← as_members v;
  spans ← items (str "spans") ms ≫= traverse jaeger_span_of;
  procs ← jaeger_processes_of ms;
  Some (JData spans procs).
(** The whole document. *)
Definition jaeger_document (v : json) : option (list jdata) :=
  ms ← as_members v;
  items (str "data") ms ≫= traverse jaeger_data_of.

(** Arrays and the processes are given once. *)
Definition once (k : gostring) (v : json) : Prop := match v with JObj ms => (length (named k ms) <= 1)%nat | _ => True end.
(** Everywhere in a value. *)
Inductive everywhere (P : json -> Prop) : json -> Prop :=
  | ev_arr l : P (JArr l) -> Forall (everywhere P) l -> everywhere P (JArr l)
  | ev_obj l : P (JObj l) -> Forall (fun m => everywhere P m.2) l -> everywhere P (JObj l)
  | ev_other v : P v -> match v with JArr _ | JObj _ => False | _ => True end -> everywhere P v.
Definition given_once (v : json) : Prop :=
  everywhere (fun v => Forall (fun k => once k v) [str "data"; str "spans"; str "processes"; str "references"; str "tags"]) v.

(* ---------- decoded values ---------- *)

(** Identifiers are numbers of 64 bits, times unsigned numbers of 64 bits, and [S] holds of all strings. *)
Definition jtag_all (S : gostring -> Prop) (t : jtag) : Prop := S (jt_key t) /\ match jt_value t with JVString v => S v | JVOther => True end.
Definition jref_all (S : gostring -> Prop) (r : jref) : Prop := S (jr_type r) /\ int64_ok (jr_span r).
Definition jspan_all (S : gostring -> Prop) (s : jspan) : Prop :=
  int64_ok (js_trace s) /\ int64_ok (js_id s) /\ S (js_operation s) /\ Forall (jref_all S) (js_refs s) /\
  0 <= js_ts s < 2^64 /\ 0 <= js_dur s < 2^64 /\ S (js_process s) /\ Forall (jtag_all S) (js_tags s).
Definition jdata_all (S : gostring -> Prop) (d : jdata) : Prop :=
  Forall (jspan_all S) (jd_spans d) /\ forall k v, jd_procs d !! k = Some v -> S k /\ S v.

(** The end of the value can be seen: it is an array or an object, or something follows, or it is followed by the end of the input. *)
Definition end_visible (t : tree) (rest : bytes) (e : rend) : Prop :=
  (exists l, t = TArr l) \/ (exists l, t = TObj l) \/ rest <> [] \/ exists eager, e = EndEOF eager.

(** [body] begins with white space and the text of a JSON value [t]; [rest] follows.  Go allows 10000 levels. *)
Definition begins_with (body : bytes) (t : tree) (rest : bytes) : Prop :=
  exists w l, body = w ++ l ++ rest /\ blank w /\ gram t l /\ nesting t <= 10000.

(** [S] holds of all strings of a span. *)
Definition span_strings (S : gostring -> Prop) (s : span) : Prop := S (s_name s) /\ S (s_service s) /\ forall k v, s_tags s !! k = Some v -> S k /\ S v.
