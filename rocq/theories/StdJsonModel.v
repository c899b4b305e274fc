(** Model of the part of Go's encoding/json (version 1.15) that [ParseJaeger] calls: [json.NewDecoder(input).Decode(&decoded)]
    (codec/jaeger.go:48-49) for the types of codec/jaeger.go:12-44.

    The library is not part of /repo; the rules below are those of its scanner.go, stream.go and decode.go.  Errors are not
    distinguished (the caller only asks whether there was one), so an error that is noted for later and one that stops at
    once are both [None]. *)
From Verif Require Import Base IdModel JsonModel CodecModel JaegerModel.

(* ---------- scanner.go: from bytes to a tree ---------- *)

(** A scanned value; strings (and names) are the bytes between the quotes, numbers their text. *)
Inductive tree :=
  | TNil | TBoolean (b : bool)
  | TNum (text : bytes)
  | TStr (raw : bytes)
  | TArr (l : list tree)
  | TObj (l : list (bytes * tree)).

(** scanner.go [isSpace]. *)
Definition json_space (c : Z) : bool := (c =? 32) || (c =? 9) || (c =? 13) || (c =? 10).
Fixpoint skip_space (l : bytes) : bytes :=
  match l with
  | c :: r => if json_space c then skip_space r else l
  | [] => []
  end.

Definition dec_digit (c : Z) : bool := (48 <=? c) && (c <=? 57).
Definition is_hex (c : Z) : bool := dec_digit c || (97 <=? c) && (c <=? 102) || (65 <=? c) && (c <=? 70).

(** scanner.go [stateInString], [stateInStringEsc], [stateInStringEscU...]: the bytes up to the closing quote, and the rest. *)
Fixpoint scan_string (l : bytes) : option (bytes * bytes) :=
  match l with
  | [] => None
  | x :: r =>
      if x =? 34 then Some ([], r)
      else if x =? 92 then
        match r with
        | [] => None
        | y :: r1 =>
            if y =? 117 then
              match r1 with
              | a :: b :: c :: d :: r2 =>
                  if is_hex a && is_hex b && is_hex c && is_hex d
                  then match scan_string r2 with Some (s, rest) => Some (x :: y :: a :: b :: c :: d :: s, rest) | None => None end
                  else None
              | _ => None
              end
            else if (y =? 98) || (y =? 102) || (y =? 110) || (y =? 114) || (y =? 116) || (y =? 92) || (y =? 47) || (y =? 34)
            then match scan_string r1 with Some (s, rest) => Some (x :: y :: s, rest) | None => None end
            else None
        end
      else if x <? 32 then None
      else match scan_string r with Some (s, rest) => Some (x :: s, rest) | None => None end
  end.

(** scanner.go [stateNeg], [state0], [state1], [stateDot], [stateDot0], [stateE], [stateESign], [stateE0]. *)
Fixpoint scan_digits (l : bytes) : bytes * bytes :=
  match l with
  | c :: r => if dec_digit c then let '(ds, rest) := scan_digits r in (c :: ds, rest) else ([], l)
  | [] => ([], [])
  end.
Definition scan_exponent (acc l : bytes) : option (bytes * bytes) :=
  match l with
  | c :: r =>
      if (c =? 101) || (c =? 69) then
        let '(sign, r) := match r with s :: r' => if (s =? 43) || (s =? 45) then ([s], r') else ([], r) | [] => ([], []) end in
        let '(ds, rest) := scan_digits r in
        match ds with [] => None | _ => Some (acc ++ c :: sign ++ ds, rest) end
      else Some (acc, l)
  | [] => Some (acc, [])
  end.
Definition scan_fraction (acc l : bytes) : option (bytes * bytes) :=
  match l with
  | c :: r =>
      if c =? 46 then
        let '(ds, rest) := scan_digits r in
        match ds with [] => None | _ => scan_exponent (acc ++ c :: ds) rest end
      else scan_exponent acc l
  | [] => Some (acc, [])
  end.
Definition scan_number (l : bytes) : option (bytes * bytes) :=
  let '(sign, l) := match l with c :: r => if c =? 45 then ([c], r) else ([], l) | [] => ([], []) end in
  match l with
  | c :: r =>
      if c =? 48 then scan_fraction (sign ++ [c]) r
      else if dec_digit c then let '(ds, rest) := scan_digits l in scan_fraction (sign ++ ds) rest
      else None
  | [] => None
  end.

(** scanner.go [stateT] ... [stateNul]. *)
Fixpoint scan_word (w l : bytes) : option bytes :=
  match w, l with
  | [], _ => Some l
  | a :: w', b :: l' => if a =? b then scan_word w' l' else None
  | _, [] => None
  end.

(** The outcome of scanning: a value and the bytes after it; not JSON (or not complete); bound of the recursion reached. *)
Inductive scanned (A : Type) := Scanned (a : A) (rest : bytes) | NotJson | OutOfBound.
Arguments Scanned {A}. Arguments NotJson {A}. Arguments OutOfBound {A}.
Definition sthen {A B} (r : scanned A) (f : A -> bytes -> scanned B) : scanned B :=
  match r with Scanned a rest => f a rest | NotJson => NotJson | OutOfBound => OutOfBound end.
Definition of_option {A} (r : option (A * bytes)) : scanned A :=
  match r with Some (a, rest) => Scanned a rest | None => NotJson end.

(** scanner.go [maxNestingDepth]. *)
Definition max_nesting : Z := 10000.

(** scanner.go [stateBeginValue], [stateEndValue] and what they lead to.  [depth] is the number of open arrays and objects
    (the length of [parseState]).  [scan_value] begins at a byte that is not white space. *)
Fixpoint scan_value (fuel : nat) (depth : Z) (l : bytes) : scanned tree :=
  match fuel with
  | O => OutOfBound
  | S fuel =>
      match l with
      | [] => NotJson
      | c :: r =>
          if c =? 123 then
            if max_nesting <? depth + 1 then NotJson
            else match skip_space r with
                 | [] => NotJson
                 | d :: r' =>
                     if d =? 125 then Scanned (TObj []) r'
                     else sthen (scan_members fuel (depth + 1) (d :: r')) (fun ms rest => Scanned (TObj ms) rest)
                 end
          else if c =? 91 then
            if max_nesting <? depth + 1 then NotJson
            else match skip_space r with
                 | [] => NotJson
                 | d :: r' =>
                     if d =? 93 then Scanned (TArr []) r'
                     else sthen (scan_elements fuel (depth + 1) (d :: r')) (fun vs rest => Scanned (TArr vs) rest)
                 end
          else if c =? 34 then sthen (of_option (scan_string r)) (fun s rest => Scanned (TStr s) rest)
          else if c =? 116 then match scan_word (str "true") l with Some rest => Scanned (TBoolean true) rest | None => NotJson end
          else if c =? 102 then match scan_word (str "false") l with Some rest => Scanned (TBoolean false) rest | None => NotJson end
          else if c =? 110 then match scan_word (str "null") l with Some rest => Scanned TNil rest | None => NotJson end
          else sthen (of_option (scan_number l)) (fun n rest => Scanned (TNum n) rest)
      end
  end
(** The elements of an array from the first byte of a value on, and the closing bracket. *)
with scan_elements (fuel : nat) (depth : Z) (l : bytes) : scanned (list tree) :=
  match fuel with
  | O => OutOfBound
  | S fuel =>
      sthen (scan_value fuel depth l) (fun v rest =>
        match skip_space rest with
        | [] => NotJson
        | d :: r' =>
            if d =? 44 then sthen (scan_elements fuel depth (skip_space r')) (fun vs rest => Scanned (v :: vs) rest)
            else if d =? 93 then Scanned [v] r'
            else NotJson
        end)
  end
(** The members of an object from the first byte of a name on, and the closing brace. *)
with scan_members (fuel : nat) (depth : Z) (l : bytes) : scanned (list (bytes * tree)) :=
  match fuel with
  | O => OutOfBound
  | S fuel =>
      match l with
      | [] => NotJson
      | q :: r =>
          if q =? 34 then
            sthen (of_option (scan_string r)) (fun k rest =>
              match skip_space rest with
              | [] => NotJson
              | d :: r' =>
                  if d =? 58 then
                    sthen (scan_value fuel depth (skip_space r')) (fun v rest =>
                      match skip_space rest with
                      | [] => NotJson
                      | d :: r' =>
                          if d =? 44 then sthen (scan_members fuel depth (skip_space r')) (fun ms rest => Scanned ((k, v) :: ms) rest)
                          else if d =? 125 then Scanned [(k, v)] r'
                          else NotJson
                      end)
                  else NotJson
              end)
          else NotJson
      end
  end.

(* ---------- decode.go: strings and numbers ---------- *)

Definition hex_val (c : Z) : Z := if c <=? 57 then c - 48 else if c <=? 70 then c - 55 else c - 87.
(** decode.go [getu4] on four hexadecimal digits. *)
Definition hex4 (a b c d : Z) : Z := ((hex_val a * 16 + hex_val b) * 16 + hex_val c) * 16 + hex_val d.

(** unicode/utf8 [EncodeRune] for 0 <= r <= 0x10FFFF. *)
Definition put_rune (r : Z) : bytes :=
  if r <=? 65535 then encode_rune r
  else [Z.lor 240 (Z.shiftr r 18); Z.lor 128 (Z.land (Z.shiftr r 12) 63); Z.lor 128 (Z.land (Z.shiftr r 6) 63); Z.lor 128 (Z.land r 63)].
Definition replacement : bytes := [239; 191; 189].

(** unicode/utf8 [DecodeRune] on a byte [x] of 128 or more and what follows it: how many bytes follow [x] in a valid
    encoding; [None] if there is none (then the size is 1). *)
Definition between (lo hi c : Z) : bool := (lo <=? c) && (c <=? hi).
Definition cont1 (r : bytes) : bool := match r with a :: _ => between 128 191 a | _ => false end.
Definition cont2 (lo hi : Z) (r : bytes) : bool := match r with a :: r' => between lo hi a && cont1 r' | _ => false end.
Definition cont3 (lo hi : Z) (r : bytes) : bool := match r with a :: r' => between lo hi a && cont2 128 191 r' | _ => false end.
Definition rune_tail (x : Z) (r : bytes) : option nat :=
  if between 194 223 x then (if cont1 r then Some 1%nat else None)
  else if x =? 224 then (if cont2 160 191 r then Some 2%nat else None)
  else if between 225 236 x || between 238 239 x then (if cont2 128 191 r then Some 2%nat else None)
  else if x =? 237 then (if cont2 128 159 r then Some 2%nat else None)
  else if x =? 240 then (if cont3 144 191 r then Some 3%nat else None)
  else if between 241 243 x then (if cont3 128 191 r then Some 3%nat else None)
  else if x =? 244 then (if cont3 128 143 r then Some 3%nat else None)
  else None.

(** decode.go [unquoteBytes] on the bytes between the quotes, which the scanner has accepted.  [keep] is the number of bytes
    that belong to a character whose first byte has been copied. *)
Definition escape_byte (y : Z) : Z :=
  if y =? 98 then 8 else if y =? 102 then 12 else if y =? 110 then 10 else if y =? 114 then 13 else if y =? 116 then 9 else y.
Fixpoint unquote (keep : nat) (l : bytes) : bytes :=
  match l with
  | [] => []
  | x :: r =>
      match keep with
      | S keep => x :: unquote keep r
      | O =>
          if x =? 92 then
            match r with
            | [] => []
            | y :: r1 =>
                if y =? 117 then
                  match r1 with
                  | a :: b :: c :: d :: r2 =>
                      let rr := hex4 a b c d in
                      if between 55296 57343 rr then
                        match r2 with
                        | x' :: y' :: a' :: b' :: c' :: d' :: r3 =>
                            let rr1 := hex4 a' b' c' d' in
                            if (x' =? 92) && (y' =? 117) && between 55296 56319 rr && between 56320 57343 rr1
                            then put_rune (Z.lor (Z.shiftl (rr - 55296) 10) (rr1 - 56320) + 65536) ++ unquote 0 r3
                            else replacement ++ unquote 0 r2
                        | _ => replacement ++ unquote 0 r2
                        end
                      else put_rune rr ++ unquote 0 r2
                  | _ => []
                  end
                else escape_byte y :: unquote 0 r1
            end
          else if x <? 128 then x :: unquote 0 r
          else match rune_tail x r with
               | Some n => x :: unquote n r
               | None => replacement ++ unquote 0 r
               end
      end
  end.

(** strconv [ParseUint] in base 10 with 64 bits. *)
Fixpoint parse_uint (acc : Z) (l : bytes) : option Z :=
  match l with
  | [] => Some acc
  | c :: r =>
      if dec_digit c then
        if 2^64 <=? acc * 10 + (c - 48) then None else parse_uint (acc * 10 + (c - 48)) r
      else None
  end.

(** strconv [readFloat] on the text of a JSON number, without its sign: the digits as one number, how many of them are after
    the point, and the exponent, of which no more digits are taken once it has reached 10000. *)
Fixpoint float_exponent (e : Z) (l : bytes) : Z :=
  match l with
  | [] => e
  | c :: r => float_exponent (if e <? 10000 then e * 10 + (c - 48) else e) r
  end.
Fixpoint float_digits (point : bool) (digits frac : Z) (l : bytes) : Z * Z * Z :=
  match l with
  | [] => (digits, frac, 0)
  | c :: r =>
      if c =? 46 then float_digits true digits frac r
      else if (c =? 101) || (c =? 69) then
        (digits, frac, match r with s :: r' => if s =? 45 then - float_exponent 0 r' else if s =? 43 then float_exponent 0 r' else float_exponent 0 r | [] => 0 end)
      else float_digits point (digits * 10 + (c - 48)) (if point then frac + 1 else frac) r
  end.
(** strconv [ParseFloat] reports a range error: the number rounds to 2^1024 or more. *)
Definition float_limit : Z := 2^1024 - 2^970.
Definition float_overflow (l : bytes) : bool :=
  let '(digits, frac, e) := float_digits false 0 0 (match l with c :: r => if c =? 45 then r else l | [] => [] end) in
  let e := e - frac in
  if e <? 0 then float_limit * 10 ^ (- e) <=? digits else float_limit <=? digits * 10 ^ e.

(* ---------- decode.go: trees into Go values ---------- *)

(** decode.go [literalStore] into a string. *)
Definition store_string (t : tree) (old : gostring) : option gostring :=
  match t with TStr raw => Some (unquote 0 raw) | TNil => Some old | _ => None end.
(** ... into a uint64. *)
Definition store_uint (t : tree) (old : Z) : option Z :=
  match t with TNum l => parse_uint 0 l | TNil => Some old | _ => None end.
(** ... into a [proxy.Id]: its UnmarshalJSON (proxy/id.go:94-107) gets the text of the value, whatever it is.  (The text of
    an array or object does not begin with a quote.) *)
Definition store_id (t : tree) (old : Z) : option Z :=
  match t with
  | TStr raw => id_unmarshal_json (34 :: raw ++ [34])
  | TNum l => id_unmarshal_json l
  | TNil => id_unmarshal_json (str "null")
  | TBoolean b => id_unmarshal_json (if b then str "true" else str "false")
  | TArr _ | TObj _ => None
  end.
(** decode.go [valueInterface], [arrayInterface], [objectInterface], [convertNumber]: every number inside has to be a float64. *)
Fixpoint interface_ok (t : tree) : bool :=
  match t with
  | TNum l => negb (float_overflow l)
  | TArr l => forallb interface_ok l
  | TObj l => forallb (fun m => interface_ok m.2) l
  | _ => true
  end.
Definition store_interface (t : tree) (old : jvalue) : option jvalue :=
  if interface_ok t then Some (match t with TStr raw => JVString (unquote 0 raw) | _ => JVOther end) else None.

(** decode.go [array] into a slice: elements are decoded on top of what the memory of the slice holds at their place; the
    memory grows by half, to at least four. *)
Definition grow_for {T} (zero : T) (s : slice T) (i : nat) : slice T :=
  let s := if (length (sl_mem s) <=? i)%nat
           then let cap := length (sl_mem s) in
                Slice (take (sl_len s) (sl_mem s) ++ replicate (Nat.max (cap + cap / 2) 4 - sl_len s) zero) (sl_len s)
           else s in
  if (sl_len s <=? i)%nat then Slice (sl_mem s) (i + 1) else s.
Fixpoint store_elements {T} (zero : T) (store : tree -> T -> option T) (i : nat) (l : list tree) (s : slice T) : option (slice T) :=
  match l with
  | [] => Some (match i with O => Slice [] 0 | _ => if (i <? sl_len s)%nat then Slice (sl_mem s) i else s end)
  | t :: l' =>
      let s := grow_for zero s i in
      match store t (nth i (sl_mem s) zero) with
      | Some el => store_elements zero store (i + 1) l' (Slice (<[i := el]> (sl_mem s)) (sl_len s))
      | None => None
      end
  end.
Definition store_slice {T} (zero : T) (store : tree -> T -> option T) (t : tree) (old : slice T) : option (slice T) :=
  match t with
  | TArr l => store_elements zero store 0 l old
  | TNil => Some (Slice [] 0)
  | _ => None
  end.

(** decode.go [object] into a struct: the field with the name of the member, in any case (fold.go; the names of the fields
    are letters, [equal_fold] compares with the name in lower case); other members are skipped. *)
Fixpoint find_field {T} (fields : list (gostring * (tree -> T -> option T))) (name : gostring) : option (tree -> T -> option T) :=
  match fields with
  | [] => None
  | (n, d) :: fields' => if equal_fold name n then Some d else find_field fields' name
  end.
Fixpoint store_members {T} (fields : list (gostring * (tree -> T -> option T))) (ms : list (bytes * tree)) (t : T) : option T :=
  match ms with
  | [] => Some t
  | (k, v) :: ms' =>
      match find_field fields (unquote 0 k) with
      | Some store => match store v t with Some t => store_members fields ms' t | None => None end
      | None => store_members fields ms' t
      end
  end.
Definition store_struct {T} (fields : list (gostring * (tree -> T -> option T))) (t : tree) (old : T) : option T :=
  match t with
  | TObj ms => store_members fields ms old
  | TNil => Some old
  | _ => None
  end.
(** A field of a struct. *)
Definition within {T F} (get : T -> F) (set : F -> T -> T) (store : tree -> F -> option F) : tree -> T -> option T :=
  fun v t => match store v (get t) with Some f => Some (set f t) | None => None end.

(** decode.go [object] into a map: each value is decoded on top of a zero value and entered under its name. *)
Fixpoint store_entries {T} (zero : T) (store : tree -> T -> option T) (ms : list (bytes * tree)) (m : gmap gostring T) : option (gmap gostring T) :=
  match ms with
  | [] => Some m
  | (k, v) :: ms' =>
      match store v zero with
      | Some el => store_entries zero store ms' (<[unquote 0 k := el]> m)
      | None => None
      end
  end.
Definition store_map {T} (zero : T) (store : tree -> T -> option T) (t : tree) (old : gmap gostring T) : option (gmap gostring T) :=
  match t with
  | TObj ms => store_entries zero store ms old
  | TNil => Some ∅
  | _ => None
  end.

(* ---------- the types of codec/jaeger.go ---------- *)

(** jaeger.go:12-15 [jaegerTag]. *)
Definition zero_tag : jtag := JTag [] JVOther.
Definition tag_fields : list (gostring * (tree -> jtag -> option jtag)) :=
  [ (str "key", within jt_key (fun x t => JTag x (jt_value t)) store_string);
    (str "value", within jt_value (fun x t => JTag (jt_key t) x) store_interface) ].

(** jaeger.go:23-26. *)
Definition zero_ref : jref := JRef [] 0.
Definition ref_fields : list (gostring * (tree -> jref -> option jref)) :=
  [ (str "reftype", within jr_type (fun x r => JRef x (jr_span r)) store_string);
    (str "spanid", within jr_span (fun x r => JRef (jr_type r) x) store_id) ].

(** jaeger.go:17-33 [jaegerSpan], with the memory of its slices. *)
Record mspan := MSpan {
  ms_trace : Z; ms_id : Z; ms_operation : gostring; ms_refs : slice jref;
  ms_ts : Z; ms_dur : Z; ms_process : gostring; ms_tags : slice jtag }.
Definition zero_mspan : mspan := MSpan 0 0 [] (Slice [] 0) 0 0 [] (Slice [] 0).
Definition span_fields : list (gostring * (tree -> mspan -> option mspan)) :=
  [ (str "traceid", within ms_trace (fun x s => MSpan x (ms_id s) (ms_operation s) (ms_refs s) (ms_ts s) (ms_dur s) (ms_process s) (ms_tags s)) store_id);
    (str "spanid", within ms_id (fun x s => MSpan (ms_trace s) x (ms_operation s) (ms_refs s) (ms_ts s) (ms_dur s) (ms_process s) (ms_tags s)) store_id);
    (str "operationname", within ms_operation (fun x s => MSpan (ms_trace s) (ms_id s) x (ms_refs s) (ms_ts s) (ms_dur s) (ms_process s) (ms_tags s)) store_string);
    (str "references", within ms_refs (fun x s => MSpan (ms_trace s) (ms_id s) (ms_operation s) x (ms_ts s) (ms_dur s) (ms_process s) (ms_tags s))
                         (store_slice zero_ref (store_struct ref_fields)));
    (str "starttime", within ms_ts (fun x s => MSpan (ms_trace s) (ms_id s) (ms_operation s) (ms_refs s) x (ms_dur s) (ms_process s) (ms_tags s)) store_uint);
    (str "duration", within ms_dur (fun x s => MSpan (ms_trace s) (ms_id s) (ms_operation s) (ms_refs s) (ms_ts s) x (ms_process s) (ms_tags s)) store_uint);
    (str "processid", within ms_process (fun x s => MSpan (ms_trace s) (ms_id s) (ms_operation s) (ms_refs s) (ms_ts s) (ms_dur s) x (ms_tags s)) store_string);
    (str "tags", within ms_tags (fun x s => MSpan (ms_trace s) (ms_id s) (ms_operation s) (ms_refs s) (ms_ts s) (ms_dur s) (ms_process s) x)
                   (store_slice zero_tag (store_struct tag_fields))) ].

(** jaeger.go:42-44 [jaegerProcess]; 36-39 the elements of [Data]; 35-40 [jaegerObject]. *)
Definition process_fields : list (gostring * (tree -> gostring -> option gostring)) := [ (str "servicename", store_string) ].
Record mdata := MData { md_spans : slice mspan; md_procs : gmap gostring gostring }.
Definition zero_mdata : mdata := MData (Slice [] 0) ∅.
Definition data_fields : list (gostring * (tree -> mdata -> option mdata)) :=
  [ (str "spans", within md_spans (fun x d => MData x (md_procs d)) (store_slice zero_mspan (store_struct span_fields)));
    (str "processes", within md_procs (fun x d => MData (md_spans d) x) (store_map [] (store_struct process_fields))) ].
Definition object_fields : list (gostring * (tree -> slice mdata -> option (slice mdata))) :=
  [ (str "data", store_slice zero_mdata (store_struct data_fields)) ].

(** What the loops of jaeger.go:56-60 and 69-101 range over. *)
Definition view_span (s : mspan) : jspan :=
  JSpan (ms_trace s) (ms_id s) (ms_operation s) (sl_list (ms_refs s)) (ms_ts s) (ms_dur s) (ms_process s) (sl_list (ms_tags s)).
Definition view_data (d : mdata) : jdata := JData (map view_span (sl_list (md_spans d))) (md_procs d).
Definition decode_tree (t : tree) : option (list jdata) :=
  match store_struct object_fields t (Slice [] 0) with
  | Some s => Some (map view_data (sl_list s))
  | None => None
  end.

(** stream.go [Decode] and [readValue], jaeger.go:48-49.  The reader is asked for more only while the value is not complete;
    after a literal, a number or a string one more byte or the end of the input is needed to see that it is complete.  An
    error of the reader before that is the result. *)
Definition complete (t : tree) (rest : bytes) (e : rend) : bool :=
  match t, rest, e with
  | TArr _, _, _ | TObj _, _, _ | _, _ :: _, _ | _, [], EndEOF _ => true
  | _, [], EndErr _ => false
  end.
Definition json_decode (input : rsrc) : scanned (option (list jdata)) :=
  let l := concat (r_chunks input) in
  sthen (scan_value (2 * length l + 2) 0 (skip_space l)) (fun t rest =>
    Scanned (if complete t rest (r_end input) then decode_tree t else None) rest).
Definition jaeger_body (input : rsrc) : option (list jdata) :=
  match json_decode input with Scanned r _ => r | _ => None end.
