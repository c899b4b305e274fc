(** Model of the texts of errors: the body of an answer with status 400.  The functions of JsonModel, CodecModel and
    HandlerModel again, with the error values of Go represented by what their method [Error] returns. *)
From Verif Require Import Base IdModel SpanModel JsonModel LiteralModel CodecModel JaegerModel HandlerModel.

(** github.com/pkg/errors [WithMessage(err, msg)]. *)
Definition with_message (msg : bytes) (err : bytes) : bytes := msg ++ str ": " ++ err.

(** [%c] of a byte: the character with this number, in UTF-8. *)
Definition quoted (c : Z) : bytes := str "'" ++ encode_rune c ++ str "'".
(** [%s] of a [Type]; its method [String] does not fail for the ten types. *)
Definition quoted_type (t : jtype) : bytes := str "'" ++ default [] (type_string (type_value t)) ++ str "'".

Inductive eres (A : Type) := EOk (a : A) (st : pstate) | EErr (err : bytes) | EPanic | EHang.
Arguments EOk {A}. Arguments EErr {A}. Arguments EPanic {A}. Arguments EHang {A}.
Definition ebind {A B} (r : eres A) (f : A -> pstate -> eres B) : eres B :=
  match r with EOk a st => f a st | EErr m => EErr m | EPanic => EPanic | EHang => EHang end.

(* ---------- codec/hyperjson/parser.go ---------- *)

Section texts.
Context (oth : bytes). (* the text of the error of the reader, if it is not [io.EOF] *)

(** parser.go:380-382 [current]. *)
Definition e_current (st : pstate) : eres Z :=
  match p_buf st !! p_tail st with Some b => EOk b st | None => EPanic end.

(** parser.go:371-378 [wrongTypeError]. *)
Definition e_wrong_type {A} (expected : jtype) (st : pstate) : eres A :=
  match wrong_type_error expected st with Some m => EErr m | None => EPanic end.

(** parser.go:411-443 [bufferMore]; the text of [io.EOF] is EOF. *)
Definition e_more (st : pstate) : eres unit :=
  if p_eof st then EErr (str "EOF") else
  if (0 <? p_tail st)%nat && negb ((p_tail st <=? p_head st)%nat && (p_head st <=? length (p_buf st))%nat) then EPanic else
  let st1 := if (0 <? p_tail st)%nat
             then PState (p_src st) (splice (p_buf st) 0 (take (available st) (drop (p_tail st) (p_buf st)))) 0 (available st) false
             else st in
  if (length (p_buf st1) <? p_head st1)%nat then EPanic else
  let '(got, err, src) := src_read (p_src st1) (length (p_buf st1) - p_head st1) in
  let buf := splice (p_buf st1) (p_head st1) got in
  match err with
  | REof =>
      match got with
      | [] => EErr (str "EOF")
      | _ => EOk tt (PState src buf (p_tail st1) (p_head st1 + length got) true)
      end
  | ROther => EErr (with_message (str "buffer more data") oth)
  | RNil => EOk tt (PState src buf (p_tail st1) (p_head st1 + length got) false)
  end.

(** parser.go:259-272 [skipWhitespace]. *)
Fixpoint e_space (fuel : nat) (st : pstate) : eres unit :=
  match scan_space (available st) (p_buf st) (p_tail st) with
  | None => EPanic
  | Some (t, true) => EOk tt (set_tail t st)
  | Some (t, false) =>
      match fuel with
      | O => EHang
      | S fuel' => ebind (e_more (set_tail t st)) (fun _ st' => e_space fuel' st')
      end
  end.

(** parser.go:237-253 [NextType] and [currentType]. *)
Definition e_next (fuel : nat) (st : pstate) : eres jtype :=
  ebind (e_space fuel st) (fun _ st =>
  ebind (e_current st) (fun b st =>
  match symbol b with TError => EErr (str "unexpected character: " ++ quoted b) | t => EOk t st end)).

(** parser.go:49-115: the eight methods that consume a bracket. *)
Definition e_consume1 (ty : jtype) (st : pstate) : eres unit :=
  ebind (e_current st) (fun b st =>
  if decide (symbol b = ty) then EOk tt (set_tail (S (p_tail st)) st) else e_wrong_type ty st).
Definition e_consume (fuel : nat) (ty : jtype) (st : pstate) : eres unit :=
  ebind (e_space fuel st) (fun _ st => e_consume1 ty st).

(** string.go:56-66: the first of the characters that is not a hexadecimal digit. *)
Fixpoint hex_error (l : bytes) : bytes :=
  match l with
  | [] => []
  | c :: l' => match hex_digit c with Some _ => hex_error l' | None => str "expected hexadecimal character but got " ++ quoted c end
  end.
(** string.go:8-51 [decodeStringInPlace] as [decode_in_place]: the text of its error, if it returns one. *)
Fixpoint decode_error (fuel : nat) (mem : bytes) (idx w : nat) : bytes :=
  if (length mem <=? idx)%nat then [] else
  match fuel with
  | O => []
  | S fuel' =>
      match mem !! idx with
      | None => []
      | Some ch =>
          if negb (ch =? ch_backslash) then decode_error fuel' (<[w := ch]> mem) (S idx) (S w)
          else if (length mem <=? idx + 1)%nat then str "premature end of input"
          else match mem !! (idx + 1)%nat with
          | None => []
          | Some ch =>
              if negb (ch =? 117) then decode_error fuel' (<[w := ch]> mem) (idx + 2)%nat (S w)
              else if (length mem <=? idx + 1 + 4)%nat then str "premature end of input while decoding unicode character"
              else match mem !! (idx + 2)%nat, mem !! (idx + 3)%nat, mem !! (idx + 4)%nat, mem !! (idx + 5)%nat with
              | Some a, Some b, Some c, Some d =>
                  match hex_digit a, hex_digit b, hex_digit c, hex_digit d with
                  | Some xa, Some xb, Some xc, Some xd =>
                      let enc := encode_rune (((xa * 16 + xb) * 16 + xc) * 16 + xd) in
                      decode_error fuel' (splice mem w enc) (idx + 6)%nat (w + length enc)%nat
                  | _, _, _, _ => hex_error [a; b; c; d]
                  end
              | _, _, _, _ => []
              end
          end
      end
  end.

(** parser.go:158-196: the loop of [readString]. *)
Fixpoint e_string_loop (fuel : nat) (st : pstate) (n : nat) (esc has : bool) : eres token :=
  match scan_string (available st - n) (p_buf st) (p_tail st) n esc has with
  | SPanic => EPanic
  | SFound n has =>
      if (length (p_buf st) <? p_tail st + n)%nat then EPanic else
      let value := take n (drop (p_tail st) (p_buf st)) in
      if has : bool then
        match decode_in_place n value 0 0 with
        | DecOk mem w =>
            EOk (Token TString (take w mem))
                (PState (p_src st) (splice (p_buf st) (p_tail st) mem) (p_tail st + n + 1) (p_head st) (p_eof st))
        | DecErr => EErr (decode_error n value 0 0)
        | DecPanic => EPanic
        | DecFuel => EHang
        end
      else EOk (Token TString value) (set_tail (p_tail st + n + 1) st)
  | SMore esc has =>
      match fuel with
      | O => EHang
      | S fuel' =>
          let n' := (n + (available st - n))%nat in
          ebind (e_more st) (fun _ st' => e_string_loop fuel' st' n' esc has)
      end
  end.

(** parser.go:149-197 [readString]. *)
Definition e_string (fuel : nat) (st : pstate) : eres token :=
  ebind (e_current st) (fun ch st =>
  if negb (ch =? ch_quote) then e_wrong_type TString st
  else e_string_loop fuel (set_tail (S (p_tail st)) st) 0 false false).

(** parser.go:216-234: the loop of [readNumber]. *)
Fixpoint e_number_loop (fuel : nat) (st : pstate) (n : nat) : eres token :=
  match scan_number (available st - n) (p_buf st) (p_tail st) n with
  | NPanic => EPanic
  | NFound n =>
      if (length (p_buf st) <? p_tail st + n)%nat then EPanic else
      EOk (Token TNumber (take n (drop (p_tail st) (p_buf st)))) (set_tail (p_tail st + n) st)
  | NMore =>
      match fuel with
      | O => EHang
      | S fuel' =>
          let n' := (n + (available st - n))%nat in
          ebind (e_more st) (fun _ st' => e_number_loop fuel' st' n')
      end
  end.
(** parser.go:207-235 [readNumber]. *)
Definition e_number (fuel : nat) (st : pstate) : eres token :=
  ebind (e_current st) (fun ch st => if negb (is_digit ch) then e_wrong_type TNumber st else e_number_loop fuel st 1).

(** parser.go:384-403 [require]; it is called with 4 and 5. *)
Definition e_required {A} (n : nat) (r : eres A) : eres A :=
  match r with EErr m => EErr (with_message (str "require(" ++ [48 + Z.of_nat n] ++ str ")") m) | r => r end.
Fixpoint e_require (fuel : nat) (st : pstate) (n : nat) : eres unit :=
  if (n <=? available st)%nat then EOk tt st else
  match fuel with
  | O => EHang
  | S fuel' =>
      let missing := (n - available st)%nat in
      let free := (length (p_buf st) - available st)%nat in
      if (free <? missing)%nat && (available st + n <? length (p_buf st))%nat then EPanic else
      let st1 := if (free <? missing)%nat
                 then PState (p_src st) (splice (replicate (available st + n) 0) 0 (p_buf st)) (p_tail st) (p_head st) (p_eof st)
                 else st in
      ebind (e_required n (e_more st1)) (fun _ st' => e_require fuel' st' n)
  end.

(** parser.go:284-296 [readN]. *)
Definition e_read_n (fuel : nat) (st : pstate) (ty : jtype) (first : Z) (n : nat) : eres token :=
  ebind (e_require fuel st n) (fun _ st =>
  ebind (e_current st) (fun ch st =>
  if negb (ch =? first) then e_wrong_type ty st else
  if (length (p_buf st) <? p_tail st + n)%nat then EPanic else
  EOk (Token ty (take n (drop (p_tail st) (p_buf st)))) (set_tail (p_tail st + n) st))).
(** parser.go:306-308 [readNull] and 318-324 [readBoolean]. *)
Definition e_null (fuel : nat) (st : pstate) : eres token := e_read_n fuel st TNull 110 4.
Definition e_boolean (fuel : nat) (st : pstate) : eres token :=
  ebind (e_current st) (fun ch st => if ch =? 116 then e_read_n fuel st TBool 116 4 else e_read_n fuel st TBool 102 5).

(** parser.go:117-139 [ReadLiteral]. *)
Definition e_literal (fuel : nat) (st : pstate) : eres token :=
  ebind (e_next fuel st) (fun next st =>
  match next with
  | TString => e_string fuel st
  | TNumber => e_number fuel st
  | TBool => e_boolean fuel st
  | TNull => e_null fuel st
  | _ => EErr (str "expected literal, got " ++ quoted_type next)
  end).

(** parser_skip.go:14-90 [skip], [skipArray] and [skipObject]. *)
Fixpoint e_skip (depth : nat) (fuel : nat) (next : jtype) (st : pstate) {struct depth} : eres unit :=
  match depth with
  | O => EHang
  | S depth =>
      match next with
      | TString => ebind (e_string fuel st) (fun _ st => EOk tt st)
      | TNumber => ebind (e_number fuel st) (fun _ st => EOk tt st)
      | TBool => ebind (e_boolean fuel st) (fun _ st => EOk tt st)
      | TNull => ebind (e_null fuel st) (fun _ st => EOk tt st)
      | TObjBegin => ebind (e_consume1 TObjBegin st) (fun _ st => e_skip_members depth fuel st)
      | TArrBegin => ebind (e_consume1 TArrBegin st) (fun _ st => e_skip_elements depth fuel st)
      | _ => EErr (str "can not skip unexpected symbol of type " ++ quoted_type next)
      end
  end
with e_skip_elements (depth : nat) (fuel : nat) (st : pstate) {struct depth} : eres unit :=
  match depth with
  | O => EHang
  | S depth =>
      ebind (e_next fuel st) (fun next st =>
      if decide (next = TArrEnd) then e_consume1 TArrEnd st
      else ebind (e_skip depth fuel next st) (fun _ st => e_skip_elements depth fuel st))
  end
with e_skip_members (depth : nat) (fuel : nat) (st : pstate) {struct depth} : eres unit :=
  match depth with
  | O => EHang
  | S depth =>
      ebind (e_next fuel st) (fun next st =>
      if decide (next = TObjEnd) then e_consume1 TObjEnd st
      else ebind (e_string fuel st) (fun _ st =>
           ebind (e_next fuel st) (fun next st =>
           ebind (e_skip depth fuel next st) (fun _ st => e_skip_members depth fuel st))))
  end.
(** parser_skip.go:5-12 [Skip]. *)
Definition e_Skip (fuel : nat) (st : pstate) : eres unit :=
  ebind (e_next fuel st) (fun next st => e_skip fuel fuel next st).

(** The methods that decoders call. *)
Definition e_op (fuel : nat) (o : op) (st : pstate) : eres token :=
  let unit r := ebind r (fun (_ : unit) st => EOk (Token TNull []) st) in
  match o with
  | ONext => ebind (e_next fuel st) (fun t st => EOk (Token t []) st)
  | OObjBegin => unit (e_consume fuel TObjBegin st)
  | OObjEnd => unit (e_consume fuel TObjEnd st)
  | OArrBegin => unit (e_consume fuel TArrBegin st)
  | OArrEnd => unit (e_consume fuel TArrEnd st)
  | OString => ebind (e_space fuel st) (fun _ st => e_string fuel st)
  | ONumber => ebind (e_space fuel st) (fun _ st => e_number fuel st)
  | OLiteral => e_literal fuel st
  | OSkip => unit (e_Skip fuel st)
  end.

(** Programs as in CodecModel; [TFail]: an error that is not one of the parser; [w]: what a decoder makes of the error of the
    call.  The result: the memory decoded into, and the text of the error if there is one. *)
Inductive tprog (A : Type) :=
  | TRet (a : A)
  | TFail (a : A) (err : bytes)
  | TCall (o : op) (k : token -> tprog A) (a : A) (w : bytes -> bytes)
  | TOut.
Arguments TRet {A}. Arguments TFail {A}. Arguments TCall {A}. Arguments TOut {A}.

Fixpoint texec {A} (fuel : nat) (p : tprog A) (st : pstate) : xres (A * option bytes) :=
  match p with
  | TRet a => XDone (a, None)
  | TFail a m => XDone (a, Some m)
  | TOut => XHang
  | TCall o k a w =>
      match e_op fuel o st with
      | EOk t st' => texec fuel (k t) st'
      | EErr m => XDone (a, Some (w m))
      | EPanic => XPanic
      | EHang => XHang
      end
  end.
End texts.
Arguments TRet {A}. Arguments TFail {A}. Arguments TCall {A}. Arguments TOut {A}.

(* ---------- decoders ---------- *)

Notation tdecoder T := (T -> tprog T).

(** Sequencing; [w]: what is made of the error of [p]. *)
Fixpoint tthen {A B} (p : tprog A) (f : A -> B) (k : A -> tprog B) (w : bytes -> bytes) : tprog B :=
  match p with
  | TRet a => k a
  | TFail a m => TFail (f a) (w m)
  | TCall o c a w' => TCall o (fun t => tthen (c t) f k w) (f a) (fun m => w (w' m))
  | TOut => TOut
  end.
Definition bare (m : bytes) : bytes := m.
Definition t_field {T A} (get : T -> A) (put : A -> T -> T) (d : tdecoder A) : tdecoder T :=
  fun t => tthen (d (get t)) (fun a => put a t) (fun a => TRet (put a t)) bare.

(** bind.go:19-22. *)
Fixpoint digits_error (bs : bytes) : bytes :=
  match bs with
  | [] => []
  | ch :: bs' => if (ch <? 48) || (57 <? ch) then str "Unexpected character in number: " ++ quoted ch else digits_error bs'
  end.
(** bind.go:12-31 [Uint64ValueDecoder]. *)
Definition t_uint64 : tdecoder Z := fun t =>
  TCall ONumber (fun tok => match digits_value 0 (t_val tok) with Some v => TRet v | None => TFail t (digits_error (t_val tok)) end) t
    (with_message (str "decode uint64 value")).
(** bind.go:33-43 [StringValueDecoder]. *)
Definition t_string : tdecoder gostring := fun t => TCall OString (fun tok => TRet (t_val tok)) t (with_message (str "decode value")).
(** codec/json.go:28-38 [anyValueDecoder]. *)
Definition t_any : tdecoder gostring := fun t => TCall OLiteral (fun tok => TRet (t_val tok)) t (with_message (str "decode value")).

(** proxy/id.go:109-132 [ParseId]: the text of its error. *)
Fixpoint id_char_error (bs : bytes) : bytes :=
  match bs with
  | [] => []
  | c :: bs' => match parse_id_step 0 c with Some _ => id_char_error bs' | None => str "hex value must only contain [0-9a-f], got " ++ quoted c end
  end.
Definition id_error (bs : bytes) : bytes := if (16 <? length bs)%nat then str "hex value too large" else id_char_error bs.
(** codec/json-v2.go:88-112 [idValueDecoder]. *)
Definition t_id : tdecoder Z := fun t =>
  TCall ONext (fun next =>
    if decide (t_type next = TNull) then TCall OSkip (fun _ => TRet 0) 0 bare
    else TCall OString (fun tok => match parse_id (t_val tok) with Some v => TRet v | None => TFail t (id_error (t_val tok)) end) t
           (with_message (str "decode id value")))
  t bare.

(** bind.go:45-82 [MakeMapDecoder] with string keys and values. *)
Fixpoint t_map_loop (fuel : nat) (target result : gmap gostring gostring) : tprog (gmap gostring gostring) :=
  match fuel with
  | O => TOut
  | S fuel =>
      TCall ONext (fun next =>
        if decide (t_type next = TObjEnd) then TCall OObjEnd (fun _ => TRet result) result bare
        else tthen (t_string []) (fun _ => target) (fun key =>
             tthen (t_string []) (fun _ => target) (fun value =>
             t_map_loop fuel target (<[key := value]> result)) bare) bare) target bare
  end.
Definition t_map (fuel : nat) : tdecoder (gmap gostring gostring) := fun t =>
  TCall OObjBegin (fun _ => t_map_loop fuel t ∅) t (with_message (str "begin object")).

(** bind.go:84-118 [MakeSliceDecoder]; [ty] is the name of the type of the elements. *)
Fixpoint t_slice_loop {T} (ty : bytes) (zero : T) (d : tdecoder T) (fuel : nat) (s : slice T) (idx : nat) : tprog (slice T) :=
  match fuel with
  | O => TOut
  | S fuel =>
      TCall ONext (fun next =>
        if decide (t_type next = TArrEnd) then TCall OArrEnd (fun _ => TRet s) s (with_message (str "decoding end of []" ++ ty))
        else
          let s := unsafe_grow zero s (idx + 1) in
          tthen (d (nth idx (sl_mem s) zero)) (fun el => Slice (<[idx := el]> (sl_mem s)) (sl_len s)) (fun el =>
          t_slice_loop ty zero d fuel (Slice (<[idx := el]> (sl_mem s)) (sl_len s)) (idx + 1)) (with_message (str "decoding element of type " ++ ty))) s bare
  end.
Definition t_slice {T} (ty : bytes) (zero : T) (d : tdecoder T) (fuel : nat) : tdecoder (slice T) := fun t =>
  TCall OArrBegin (fun _ => t_slice_loop ty zero d fuel t 0) t (with_message (str "decoding []" ++ ty)).

(** bind.go:120-158 [MakeArrayDecoder]; [ty] is the name of the type of the elements, [pre] that of the array without it. *)
Fixpoint t_array_loop {T} (pre ty : bytes) (d : tdecoder T) (fuel : nat) (a : list T) (idx : nat) : tprog (list T) :=
  match fuel with
  | O => TOut
  | S fuel =>
      TCall ONext (fun next =>
        if decide (t_type next = TArrEnd) then TCall OArrEnd (fun _ => TRet a) a (with_message (str "decoding end of " ++ pre ++ ty))
        else match a !! idx with
             | Some el => tthen (d el) (fun el => <[idx := el]> a) (fun el => t_array_loop pre ty d fuel (<[idx := el]> a) (idx + 1))
                            (with_message (str "decoding array element of type " ++ ty))
             | None => TCall OSkip (fun _ => t_array_loop pre ty d fuel a (idx + 1)) a (with_message (str "skipping out of range array element of type " ++ ty))
             end) a bare
  end.
Definition t_array {T} (pre ty : bytes) (d : tdecoder T) (fuel : nat) : tdecoder (list T) := fun t =>
  TCall OArrBegin (fun _ => t_array_loop pre ty d fuel t 0) t (with_message (str "decoding " ++ pre ++ ty)).

(** bind.go:160-224 [MakeStructDecoder]. *)
Fixpoint t_lookup {T} (fields : list (gostring * tdecoder T)) (name : gostring) : option (tdecoder T) :=
  match fields with
  | [] => None
  | (n, d) :: fields' => if decide (n = name) then Some d else t_lookup fields' name
  end.
Fixpoint t_struct_loop {T} (fields : list (gostring * tdecoder T)) (fuel : nat) (t : T) : tprog T :=
  match fuel with
  | O => TOut
  | S fuel =>
      TCall ONext (fun next =>
        if decide (t_type next = TObjEnd) then TCall OObjEnd (fun _ => TRet t) t bare
        else TCall OString (fun key =>
          match t_lookup fields (t_val key) with
          | Some d => tthen (d t) (fun t => t) (fun t => t_struct_loop fields fuel t) bare
          | None => TCall OSkip (fun _ => t_struct_loop fields fuel t) t bare
          end) t bare) t bare
  end.
Definition t_struct {T} (fields : list (gostring * tdecoder T)) (fuel : nat) : tdecoder T := fun t =>
  TCall OObjBegin (fun _ => t_struct_loop fields fuel t) t (with_message (str "begin object")).

(** codec/json.go:19-25 [endpointValueDecoder]. *)
Definition t_endpoint (fuel : nat) : tdecoder gostring := t_struct [(str "serviceName", t_string)] fuel.

(** codec/json-v2.go:114-172. *)
Definition t_v2_fields (fuel : nat) : list (gostring * tdecoder spanV2) :=
  [ (str "id", t_field v2_id set_v2_id t_id);
    (str "traceId", t_field v2_trace set_v2_trace t_id);
    (str "parentId", t_field v2_parent set_v2_parent t_id);
    (str "timestamp", t_field v2_ts set_v2_ts t_uint64);
    (str "duration", t_field v2_dur set_v2_dur t_uint64);
    (str "name", t_field v2_name set_v2_name t_string);
    (str "tags", t_field v2_tags set_v2_tags (t_map fuel));
    (str "kind", t_field v2_kind set_v2_kind t_string);
    (str "localEndpoint", t_field v2_endpoint set_v2_endpoint (t_endpoint fuel)) ].
Definition t_span_v2 (fuel : nat) : tdecoder spanV2 := fun _ => t_struct (t_v2_fields fuel) fuel zero_v2.
(** codec/json-v2.go:31-56 [ParseJsonV2]: the spans, or the text of the error. *)
Definition t_v2_prog (fuel : nat) : tprog (slice spanV2) := t_slice (str "codec.spanV2") zero_v2 (t_span_v2 fuel) fuel (Slice [] 0).
Definition TextJsonV2 (oth : bytes) (fuel : nat) (buf : bytes) (input : rsrc) : xres (list span + bytes) :=
  xmap (fun r => match r.2 with None => inl (map v2_to_span (sl_list r.1)) | Some m => inr (with_message (str "parse spans for json v2") m) end)
    (texec oth fuel (t_v2_prog fuel) (new_parser input buf)).

(** codec/json-v1.go:142-246. *)
Definition t_ba_fields (fuel : nat) : list (gostring * tdecoder binaryAnnotationV1) :=
  [ (str "key", t_field ba_key set_ba_key t_string);
    (str "value", t_field ba_value set_ba_value t_any);
    (str "endpoint", t_field ba_endpoint set_ba_endpoint (t_endpoint fuel)) ].
Definition t_annot_fields (fuel : nat) : list (gostring * tdecoder annotationV1) :=
  [ (str "timestamp", t_field an_ts set_an_ts t_uint64);
    (str "value", t_field an_value set_an_value t_string);
    (str "endpoint", t_field an_endpoint set_an_endpoint (t_endpoint fuel)) ].
Definition t_v1_fields (fuel : nat) : list (gostring * tdecoder spanV1) :=
  [ (str "id", t_field v1_id set_v1_id t_id);
    (str "traceId", t_field v1_trace set_v1_trace t_id);
    (str "parentId", t_field v1_parent set_v1_parent t_id);
    (str "timestamp", t_field v1_ts set_v1_ts t_uint64);
    (str "duration", t_field v1_dur set_v1_dur t_uint64);
    (str "name", t_field v1_name set_v1_name t_string);
    (str "binaryAnnotations", t_field v1_bas set_v1_bas (t_slice (str "codec.binaryAnnotationV1") zero_ba (t_struct (t_ba_fields fuel) fuel) fuel));
    (str "annotations", t_field v1_annots set_v1_annots (t_array (str "[4]") (str "codec.annotationV1") (t_struct (t_annot_fields fuel) fuel) fuel)) ].
Definition t_span_v1 (fuel : nat) : tdecoder spanV1 := fun t => t_struct (t_v1_fields fuel) fuel (reset_v1 t).
(** codec/json-v1.go:50-79 [ParseJsonV1]: the spans or the text of the error, and what goes back to the pool. *)
Definition t_v1_prog (fuel : nat) (pool : list spanV1) : tprog (slice spanV1) := t_slice (str "codec.spanV1") zero_v1 (t_span_v1 fuel) fuel (Slice pool 0).
Definition TextJsonV1 (oth : bytes) (fuel : nat) (buf : bytes) (pool : list spanV1) (input : rsrc) : xres ((list span + bytes) * list spanV1) :=
  xmap (fun r => (match r.2 with None => inl (map v1_to_span (sl_list r.1)) | Some m => inr (with_message (str "parse spans for json v1") m) end,
                  take (length pool) (sl_mem r.1)))
    (texec oth fuel (t_v1_prog fuel pool) (new_parser input buf)).

(* ---------- handlers.go ---------- *)

(** The texts of errors of libraries: of reading a body, of [gzip.NewReader], of [encoding/json]. *)
Record lib_texts := LibTexts { x_read : bytes; x_gunzip : rsrc -> bytes; x_jaeger : rsrc -> bytes }.

(** What an answer consists of: the spans put on the input channel, the status and the body. *)
Record reply := Reply { y_puts : list span; y_status : Z; y_body : bytes }.

(** net/http [Error(writer, text, 400)]: the text and a newline. *)
Definition http_error (text : bytes) : reply := Reply [] 400 (text ++ [10]).

(** The parser of each endpoint; codec/jaeger.go:44-51. *)
Definition t_parser (lib : lib_texts) (env : environment) (ep : endpoint) (body : rsrc) : xres (list span + bytes) :=
  match ep with
  | EV1 => xmap fst (TextJsonV1 (x_read lib) (n_fuel env) (n_buf env) (n_pool env) body)
  | EV2 => TextJsonV2 (x_read lib) (n_fuel env) (n_buf env) body
  | EJaeger => XDone (match ParseJaeger (n_jaeger env body) with
                      | Some spans => inl spans
                      | None => inr (with_message (str "parse spans for jaeger") (x_jaeger lib body)) end)
  end.
(** handlers.go:85-99 [parseSpansWithJSON], and the answer of the handlers. *)
Definition t_answer (r : list span + bytes) : reply :=
  match r with inl spans => Reply spans 202 [] | inr m => http_error (with_message (str "parsing spans from json") m) end.
(** handlers.go:16-64. *)
Definition t_handle_spans (lib : lib_texts) (env : environment) (q : request) (body : rsrc) : xres reply :=
  match q_endpoint q with
  | EV1 => if contains (q_type q) (str "application/json") then xmap t_answer (t_parser lib env EV1 body) else XDone (http_error (str "only json spans are supported"))
  | ep => xmap t_answer (t_parser lib env ep body)
  end.
(** handlers.go:66-83 [handleGzipRequestBody]. *)
Definition t_handle (lib : lib_texts) (env : environment) (q : request) : xres reply :=
  if decide (q_encoding q = str "gzip") then
    match n_gunzip env (q_body q) with
    | None => XDone (http_error (x_gunzip lib (q_body q)))
    | Some body => t_handle_spans lib env q body
    end
  else t_handle_spans lib env q (q_body q).
