(** Model of spans as JSON: what Go's encoding/json (version 1.15) writes and reads for the types of proxy/span.go:7-28 with
    the methods of proxy/id.go:70-107 and proxy/timestamp.go:36-47.  The program writes spans on the admin page /spans
    (main.go:165-169, buffer.go:32-44).

    The library is not part of /repo; the rules below are those of its encode.go and decode.go (see StdJsonModel for the
    scanner and for decoding). *)
From Verif Require Import Base IdModel SpanModel JsonModel CodecModel JaegerModel TimeModel StdJsonModel.

(* ---------- encode.go ---------- *)

Definition hex_char (d : Z) : Z := nth (Z.to_nat d) hextable 0.

(** encode.go [encodeState.string] with [escapeHTML], without the quotes.  [keep] is the number of bytes of a character that
    are still to be copied, [drop] the number still to be left out. *)
Definition html_safe (x : Z) : bool :=
  (32 <=? x) && negb ((x =? 34) || (x =? 92) || (x =? 60) || (x =? 62) || (x =? 38)).
Definition escape_char (x : Z) : bytes :=
  if (x =? 92) || (x =? 34) then [92; x]
  else if x =? 10 then [92; 110]
  else if x =? 13 then [92; 114]
  else if x =? 9 then [92; 116]
  else [92; 117; 48; 48; hex_char (Z.shiftr x 4); hex_char (Z.land x 15)].
(** U+2028 and U+2029: the last hexadecimal digit. *)
Definition line_separator (x : Z) (r : bytes) : option Z :=
  match r with
  | a :: b :: _ => if (x =? 226) && (a =? 128) && ((b =? 168) || (b =? 169)) then Some (b - 160) else None
  | _ => None
  end.
Fixpoint escape_string (keep drop : nat) (l : bytes) : bytes :=
  match l with
  | [] => []
  | x :: r =>
      match keep, drop with
      | S keep, _ => x :: escape_string keep 0 r
      | O, S drop => escape_string 0 drop r
      | O, O =>
          if x <? 128 then (if html_safe x then [x] else escape_char x) ++ escape_string 0 0 r
          else match rune_tail x r with
               | None => [92; 117; 102; 102; 102; 100] ++ escape_string 0 0 r
               | Some n =>
                   match line_separator x r with
                   | Some d => [92; 117; 50; 48; 50; hex_char d] ++ escape_string 0 n r
                   | None => x :: escape_string n 0 r
                   end
               end
      end
  end.
Definition write_string (s : gostring) : bytes := 34 :: escape_string 0 0 s ++ [34].

(** encode.go [intEncoder]: strconv [AppendInt] in base 10, for int64. *)
Fixpoint drop_leading (l : bytes) : bytes :=
  match l with
  | c :: (_ :: _) as l' => if c =? 48 then drop_leading l' else l
  | _ => l
  end.
Definition write_int (x : Z) : bytes :=
  if x <? 0 then 45 :: drop_leading (pad_int 19 (- x)) else drop_leading (pad_int 19 x).

(** encode.go [structEncoder], [mapEncoder] and [arrayEncoder]: values separated by commas, without white space. *)
Fixpoint write_list (l : list bytes) : bytes :=
  match l with
  | [] => []
  | [v] => v
  | v :: l' => v ++ 44 :: write_list l'
  end.
Definition write_object (ms : list (bytes * bytes)) : bytes :=
  123 :: write_list (map (fun m => m.1 ++ 58 :: m.2) ms) ++ [125].

(** A name of a field, which is written as it is; with [omitempty] it is left out. *)
Definition field (name : gostring) (value : bytes) : bytes * bytes := (34 :: name ++ [34], value).
Definition omit_zero (name : gostring) (ts : Z) (value : bytes) : list (bytes * bytes) :=
  if ts =? 0 then [] else [field name value].

(** proxy/span.go:23-28. *)
Definition write_timings (zone : Z -> Z) (t : timings) : bytes :=
  write_object (omit_zero (str "cs") (tCS t) (ts_marshal_json zone (tCS t)) ++ omit_zero (str "cr") (tCR t) (ts_marshal_json zone (tCR t)) ++
                omit_zero (str "ss") (tSS t) (ts_marshal_json zone (tSS t)) ++ omit_zero (str "sr") (tSR t) (ts_marshal_json zone (tSR t))).

(** encode.go [mapEncoder]: the entries sorted by key.  [insert_entry] keeps a list sorted, the order of [map_to_list] does not matter. *)
Fixpoint bytes_less (a b : bytes) : bool :=
  match a, b with
  | _, [] => false
  | [], _ :: _ => true
  | x :: a', y :: b' => (x <? y) || (x =? y) && bytes_less a' b'
  end.
Fixpoint insert_entry (kv : gostring * gostring) (l : list (gostring * gostring)) : list (gostring * gostring) :=
  match l with
  | [] => [kv]
  | kv' :: l' => if bytes_less kv.1 kv'.1 then kv :: l else kv' :: insert_entry kv l'
  end.
Definition sorted_entries (m : gmap gostring gostring) : list (gostring * gostring) := foldr insert_entry [] (map_to_list m).
Definition write_tags (m : gmap gostring gostring) : bytes :=
  write_object (map (fun kv => (write_string kv.1, write_string kv.2)) (sorted_entries m)).

(** proxy/span.go:7-21, in the order of the fields.  The method of proxy/id.go:70 has a pointer receiver: it is only used for
    a span that has an address (an element of a slice has one); [json.Marshal(span)] writes the ids as numbers. *)
Definition write_id (addressable : bool) (id : Z) : bytes := if addressable then id_marshal_json id else write_int id.
Definition write_span (addressable : bool) (zone : Z -> Z) (s : span) : bytes :=
  write_object
    ([ field (str "id") (write_id addressable (s_id s));
       field (str "parent") (write_id addressable (s_parent s));
       field (str "trace") (write_id addressable (s_trace s));
       field (str "name") (write_string (s_name s));
       field (str "service") (write_string (s_service s));
       field (str "timestamp") (ts_marshal_json zone (s_ts s));
       field (str "duration") (write_int (s_dur s)) ] ++
     (if bool_decide (s_tags s = ∅) then [] else [ field (str "tags") (write_tags (s_tags s)) ]) ++
     [ field (str "timings") (write_timings zone (s_timings s)) ]).
(** [json.Marshal] of a [[]proxy.Span]; buffer.go:36: no spans are the nil slice. *)
Definition write_spans (zone : Z -> Z) (l : list span) : bytes :=
  match l with
  | [] => str "null"
  | _ => 91 :: write_list (map (write_span true zone) l) ++ [93]
  end.

(* ---------- decode.go ---------- *)

(** [literalStore] into an int64: strconv [ParseInt]. *)
Definition parse_int (l : bytes) : option Z :=
  match l with
  | c :: r =>
      if c =? 45 then match parse_uint 0 r with Some n => if 2^63 <? n then None else Some (- n) | None => None end
      else match parse_uint 0 l with Some n => if 2^63 <=? n then None else Some n | None => None end
  | [] => None
  end.
Definition store_int (t : tree) (old : Z) : option Z :=
  match t with TNum l => parse_int l | TNil => Some old | _ => None end.
(** ... into a [proxy.Timestamp]: its UnmarshalJSON gets the text of the value.  (The text of an array or object does not
    begin with a quote.) *)
Definition store_time (t : tree) (old : Z) : option Z :=
  match t with
  | TStr raw => ts_unmarshal_json (34 :: raw ++ [34])
  | TNum l => ts_unmarshal_json l
  | TNil => ts_unmarshal_json (str "null")
  | TBoolean b => ts_unmarshal_json (if b then str "true" else str "false")
  | TArr _ | TObj _ => None
  end.
Definition timing_fields : list (gostring * (tree -> timings -> option timings)) :=
  [ (str "cs", within tCS set_cs store_time); (str "cr", within tCR set_cr store_time);
    (str "ss", within tSS set_ss store_time); (str "sr", within tSR set_sr store_time) ].
Definition set_id (x : Z) (s : span) : span :=
  Span x (s_parent s) (s_trace s) (s_name s) (s_service s) (s_ts s) (s_dur s) (s_tags s) (s_timings s).
Definition set_trace (x : Z) (s : span) : span :=
  Span (s_id s) (s_parent s) x (s_name s) (s_service s) (s_ts s) (s_dur s) (s_tags s) (s_timings s).
Definition proxy_fields : list (gostring * (tree -> span -> option span)) :=
  [ (str "id", within s_id set_id store_id); (str "parent", within s_parent set_parent store_id); (str "trace", within s_trace set_trace store_id);
    (str "name", within s_name set_name store_string); (str "service", within s_service set_service store_string);
    (str "timestamp", within s_ts set_ts store_time); (str "duration", within s_dur set_dur store_int);
    (str "tags", within s_tags set_tags (store_map [] store_string));
    (str "timings", within s_timings set_timings (store_struct timing_fields)) ].

(** [json.Unmarshal]: the whole text has to be one value. *)
Definition json_text (l : bytes) : scanned tree :=
  sthen (scan_value (2 * length l + 2) 0 (skip_space l)) (fun t rest =>
    match skip_space rest with [] => Scanned t [] | _ => NotJson end).
(** ... into a [*proxy.Span] and into a [*[]proxy.Span] that are zero. *)
Definition read_span (l : bytes) : option span :=
  match json_text l with Scanned t _ => store_struct proxy_fields t zero_span | _ => None end.
Definition read_spans (l : bytes) : option (list span) :=
  match json_text l with
  | Scanned t _ => option_map sl_list (store_slice zero_span (store_struct proxy_fields) t (Slice [] 0))
  | _ => None
  end.
