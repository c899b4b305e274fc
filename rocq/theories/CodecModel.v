(** Model of codec/hyperjson/bind.go (decoder combinators), codec/json.go, codec/json-v1.go and codec/json-v2.go. *)
From Verif Require Import Base IdModel SpanModel JsonModel.

(* ---------- decoders as programs over the exported parser methods ---------- *)

(** The exported methods of the parser that decoders call.  The bytes of a token live in the parse buffer; every
    decoder uses them before the next parser call (bind.go:18-28, 40, 213; json.go:35; json-v2.go:104), so a token
    is passed by value here.  Interning (cache.StringForByteSliceCopy) returns a string with the same bytes that
    never changes (C12, C13), so it is the identity here. *)
Inductive op := ONext | OObjBegin | OObjEnd | OArrBegin | OArrEnd | OString | ONumber | OLiteral | OSkip.

Definition run_op (fuel : nat) (o : op) (st : pstate) : pres token :=
  let unit r := pbind r (fun (_ : unit) st => POk (Token TNull []) st) in
  match o with
  | ONext => pbind (next_type fuel st) (fun t st => POk (Token t []) st)
  | OObjBegin => unit (consume fuel TObjBegin st)
  | OObjEnd => unit (consume fuel TObjEnd st)
  | OArrBegin => unit (consume fuel TArrBegin st)
  | OArrEnd => unit (consume fuel TArrEnd st)
  | OString => ReadString fuel st
  | ONumber => ReadNumber fuel st
  | OLiteral => ReadLiteral fuel st
  | OSkip => unit (Skip fuel st)
  end.

(** A program: return, call a parser method (continuing with its token, or ending with a value when the method
    returns an error: no decoder calls the parser again after an error), or an exhausted loop bound. *)
Inductive prog (A : Type) :=
  | Ret (a : A)
  | Call (o : op) (k : token -> prog A) (on_error : A)
  | OutOfFuel.
Arguments Ret {A}. Arguments Call {A}. Arguments OutOfFuel {A}.

Inductive xres (A : Type) := XDone (a : A) | XPanic | XHang.
Arguments XDone {A}. Arguments XPanic {A}. Arguments XHang {A}.

Fixpoint exec {A} (fuel : nat) (p : prog A) (st : pstate) : xres A :=
  match p with
  | Ret a => XDone a
  | OutOfFuel => XHang
  | Call o k e =>
      match run_op fuel o st with
      | POk t st' => exec fuel (k t) st'
      | PErr => XDone e
      | PPanic => XPanic
      | PHang => XHang
      end
  end.

(** bind.go:10 [ValueDecoder]: the memory it decodes into, afterwards, and whether it succeeded. *)
Notation decoder T := (T -> prog (T * bool)).

(** Sequencing: run [p]; if it failed, end with its memory; the memory is embedded into the surrounding one. *)
Fixpoint pthen {A B} (p : prog (A * bool)) (f : A -> B) (k : A -> prog (B * bool)) : prog (B * bool) :=
  match p with
  | Ret (a, true) => k a
  | Ret (a, false) => Ret (f a, false)
  | Call o c (a, b) => Call o (fun t => pthen (c t) f k) (f a, false)
  | OutOfFuel => OutOfFuel
  end.

(** A decoder for a struct field, through its offset. *)
Definition at_field {T A} (get : T -> A) (put : A -> T -> T) (d : decoder A) : decoder T :=
  fun t => pthen (d (get t)) (fun a => put a t) (fun a => Ret (put a t, true)).

(** bind.go:18-25: the digits of a number, modulo 2^64. *)
Fixpoint digits_value (acc : Z) (bs : bytes) : option Z :=
  match bs with
  | [] => Some acc
  | ch :: bs' => if (ch <? 48) || (57 <? ch) then None else digits_value (u64 (acc * 10 + (ch - 48))) bs'
  end.

(** bind.go:12-31 [Uint64ValueDecoder]. *)
Definition uint64_decoder : decoder Z := fun t =>
  Call ONumber (fun tok => match digits_value 0 (t_val tok) with Some v => Ret (v, true) | None => Ret (t, false) end) (t, false).

(** bind.go:33-43 [StringValueDecoder]. *)
Definition string_decoder : decoder gostring := fun t =>
  Call OString (fun tok => Ret (t_val tok, true)) (t, false).

(** codec/json.go:28-38 [anyValueDecoder]. *)
Definition any_decoder : decoder gostring := fun t =>
  Call OLiteral (fun tok => Ret (t_val tok, true)) (t, false).

(** codec/json-v2.go:88-112 [idValueDecoder]. *)
Definition id_decoder : decoder Z := fun t =>
  Call ONext (fun next =>
    if decide (t_type next = TNull) then Call OSkip (fun _ => Ret (0, true)) (0, false)
    else Call OString (fun tok => match parse_id (t_val tok) with Some v => Ret (v, true) | None => Ret (t, false) end) (t, false))
  (t, false).

(** bind.go:45-82 [MakeMapDecoder] with string keys and values. *)
Fixpoint map_loop (fuel : nat) (target result : gmap gostring gostring) : prog (gmap gostring gostring * bool) :=
  match fuel with
  | O => OutOfFuel
  | S fuel =>
      Call ONext (fun next =>
        if decide (t_type next = TObjEnd) then Call OObjEnd (fun _ => Ret (result, true)) (result, false)
        else pthen (string_decoder []) (fun _ => target) (fun key =>
             pthen (string_decoder []) (fun _ => target) (fun value =>
             map_loop fuel target (<[key := value]> result)))) (target, false)
  end.
Definition map_decoder (fuel : nat) : decoder (gmap gostring gostring) := fun t =>
  Call OObjBegin (fun _ => map_loop fuel t ∅) (t, false).

(** A Go slice that owns its backing array: all of the array, and the length. *)
Record slice (T : Type) := Slice { sl_mem : list T; sl_len : nat }.
Arguments Slice {T}. Arguments sl_mem {T}. Arguments sl_len {T}.

(** The elements of a slice. *)
Definition sl_list {T} (s : slice T) : list T := take (sl_len s) (sl_mem s).

(** reflect2 [calcNewCap]: doubling (a quarter more above 1024) until it fits. *)
Fixpoint calc_cap (fuel cap want : nat) : nat :=
  match fuel with
  | O => want
  | S fuel => if (want <=? cap)%nat then cap
              else calc_cap fuel (if (cap <? 1024)%nat then cap + cap else cap + cap / 4)%nat want
  end.
Definition new_cap (cap want : nat) : nat := match cap with O => want | _ => calc_cap want cap want end.

(** reflect2 [UnsafeGrow]: within the capacity only the length changes, the memory keeps what it has; otherwise
    the elements are copied to a new zeroed array. *)
Definition unsafe_grow {T} (zero : T) (s : slice T) (n : nat) : slice T :=
  if (n <=? length (sl_mem s))%nat then Slice (sl_mem s) n
  else Slice (take (sl_len s) (sl_mem s) ++ replicate (new_cap (length (sl_mem s)) n - sl_len s) zero) n.

(** bind.go:84-118 [MakeSliceDecoder]. *)
Fixpoint slice_loop {T} (zero : T) (d : decoder T) (fuel : nat) (s : slice T) (idx : nat) : prog (slice T * bool) :=
  match fuel with
  | O => OutOfFuel
  | S fuel =>
      Call ONext (fun next =>
        if decide (t_type next = TArrEnd) then Call OArrEnd (fun _ => Ret (s, true)) (s, false)
        else
          let s := unsafe_grow zero s (idx + 1) in
          pthen (d (nth idx (sl_mem s) zero)) (fun el => Slice (<[idx := el]> (sl_mem s)) (sl_len s)) (fun el =>
          slice_loop zero d fuel (Slice (<[idx := el]> (sl_mem s)) (sl_len s)) (idx + 1))) (s, false)
  end.
Definition slice_decoder {T} (zero : T) (d : decoder T) (fuel : nat) : decoder (slice T) := fun t =>
  Call OArrBegin (fun _ => slice_loop zero d fuel t 0) (t, false).

(** bind.go:120-158 [MakeArrayDecoder]; the array is a list of its length. *)
Fixpoint array_loop {T} (d : decoder T) (fuel : nat) (a : list T) (idx : nat) : prog (list T * bool) :=
  match fuel with
  | O => OutOfFuel
  | S fuel =>
      Call ONext (fun next =>
        if decide (t_type next = TArrEnd) then Call OArrEnd (fun _ => Ret (a, true)) (a, false)
        else match a !! idx with
             | Some el =>
                 pthen (d el) (fun el => <[idx := el]> a) (fun el => array_loop d fuel (<[idx := el]> a) (idx + 1))
             | None => Call OSkip (fun _ => array_loop d fuel a (idx + 1)) (a, false)
             end) (a, false)
  end.
Definition array_decoder {T} (d : decoder T) (fuel : nat) : decoder (list T) := fun t =>
  Call OArrBegin (fun _ => array_loop d fuel t 0) (t, false).

(** bind.go:160-224 [MakeStructDecoder]: the decoder of the field with the given name, if any (the names of one
    struct are distinct). *)
Fixpoint lookup_field {T} (fields : list (gostring * decoder T)) (name : gostring) : option (decoder T) :=
  match fields with
  | [] => None
  | (n, d) :: fields' => if decide (n = name) then Some d else lookup_field fields' name
  end.
Fixpoint struct_loop {T} (fields : list (gostring * decoder T)) (fuel : nat) (t : T) : prog (T * bool) :=
  match fuel with
  | O => OutOfFuel
  | S fuel =>
      Call ONext (fun next =>
        if decide (t_type next = TObjEnd) then Call OObjEnd (fun _ => Ret (t, true)) (t, false)
        else Call OString (fun key =>
          match lookup_field fields (t_val key) with
          | Some d => pthen (d t) (fun t => t) (fun t => struct_loop fields fuel t)
          | None => Call OSkip (fun _ => struct_loop fields fuel t) (t, false)
          end) (t, false)) (t, false)
  end.
Definition struct_decoder {T} (fields : list (gostring * decoder T)) (fuel : nat) : decoder T := fun t =>
  Call OObjBegin (fun _ => struct_loop fields fuel t) (t, false).

(* ---------- Zipkin v2 ---------- *)

(** codec/json-v1.go:40-42 [endpoint] is its only field; codec/json.go:19-25 [endpointValueDecoder]. *)
Definition endpoint_decoder (fuel : nat) : decoder gostring :=
  struct_decoder [(str "serviceName", string_decoder)] fuel.

(** codec/json-v2.go:14-29 [spanV2]. *)
Record spanV2 := SpanV2 {
  v2_trace : Z; v2_id : Z; v2_parent : Z; v2_name : gostring; v2_endpoint : gostring;
  v2_tags : gmap gostring gostring; v2_kind : gostring; v2_ts : Z; v2_dur : Z }.
Definition zero_v2 : spanV2 := SpanV2 0 0 0 [] [] ∅ [] 0 0.

Definition set_v2_trace x s := SpanV2 x (v2_id s) (v2_parent s) (v2_name s) (v2_endpoint s) (v2_tags s) (v2_kind s) (v2_ts s) (v2_dur s).
Definition set_v2_id x s := SpanV2 (v2_trace s) x (v2_parent s) (v2_name s) (v2_endpoint s) (v2_tags s) (v2_kind s) (v2_ts s) (v2_dur s).
Definition set_v2_parent x s := SpanV2 (v2_trace s) (v2_id s) x (v2_name s) (v2_endpoint s) (v2_tags s) (v2_kind s) (v2_ts s) (v2_dur s).
Definition set_v2_name x s := SpanV2 (v2_trace s) (v2_id s) (v2_parent s) x (v2_endpoint s) (v2_tags s) (v2_kind s) (v2_ts s) (v2_dur s).
Definition set_v2_endpoint x s := SpanV2 (v2_trace s) (v2_id s) (v2_parent s) (v2_name s) x (v2_tags s) (v2_kind s) (v2_ts s) (v2_dur s).
Definition set_v2_tags x s := SpanV2 (v2_trace s) (v2_id s) (v2_parent s) (v2_name s) (v2_endpoint s) x (v2_kind s) (v2_ts s) (v2_dur s).
Definition set_v2_kind x s := SpanV2 (v2_trace s) (v2_id s) (v2_parent s) (v2_name s) (v2_endpoint s) (v2_tags s) x (v2_ts s) (v2_dur s).
Definition set_v2_ts x s := SpanV2 (v2_trace s) (v2_id s) (v2_parent s) (v2_name s) (v2_endpoint s) (v2_tags s) (v2_kind s) x (v2_dur s).
Definition set_v2_dur x s := SpanV2 (v2_trace s) (v2_id s) (v2_parent s) (v2_name s) (v2_endpoint s) (v2_tags s) (v2_kind s) (v2_ts s) x.

(** codec/json-v2.go:115-161: the fields of [spanV2ValueDecoder]. *)
Definition v2_fields (fuel : nat) : list (gostring * decoder spanV2) :=
  [ (str "id", at_field v2_id set_v2_id id_decoder);
    (str "traceId", at_field v2_trace set_v2_trace id_decoder);
    (str "parentId", at_field v2_parent set_v2_parent id_decoder);
    (str "timestamp", at_field v2_ts set_v2_ts uint64_decoder);
    (str "duration", at_field v2_dur set_v2_dur uint64_decoder);
    (str "name", at_field v2_name set_v2_name string_decoder);
    (str "tags", at_field v2_tags set_v2_tags (map_decoder fuel));
    (str "kind", at_field v2_kind set_v2_kind string_decoder);
    (str "localEndpoint", at_field v2_endpoint set_v2_endpoint (endpoint_decoder fuel)) ].

(** codec/json-v2.go:163-167: the slot is cleared first. *)
Definition span_v2_decoder (fuel : nat) : decoder spanV2 := fun _ => struct_decoder (v2_fields fuel) fuel zero_v2.

(** Go strings.EqualFold against a lower case ASCII word: letters match in either case, and the two non-ASCII
    characters that fold to an ASCII letter match too (U+017F to s, U+212A to k). *)
Fixpoint equal_fold (s word : gostring) : bool :=
  match word with
  | [] => match s with [] => true | _ => false end
  | c :: word' =>
      match s with
      | [] => false
      | x :: s1 =>
          if (x =? c) || (x =? c - 32) then equal_fold s1 word'
          else match s1 with
               | [] => false
               | y :: s2 =>
                   if (x =? 197) && (y =? 191) && (c =? 115) then equal_fold s2 word'
                   else match s2 with
                        | [] => false
                        | z :: s3 => (x =? 226) && (y =? 132) && (z =? 170) && (c =? 107) && equal_fold s3 word'
                        end
               end
      end
  end.

Definition tag_protocol_version : gostring := str "protocolVersion".

(** codec/json-v2.go:58-86 [spanV2.ToSpan]. *)
Definition v2_to_span (v : spanV2) : span :=
  let s := new_span (v2_name v) (v2_trace v) (v2_id v) (v2_parent v) in
  let s := if decide (v2_endpoint v = []) then s else set_service (v2_endpoint v) s in
  let s := set_tags (v2_tags v) s in
  let s := add_tag tag_protocol_version (str "json v2") s in
  let s := set_ts (microseconds (wrap64 (v2_ts v))) s in
  let s := set_dur (wrap64 (wrap64 (v2_dur v) * microsecond)) s in
  let s := if s_dur s =? 0 then set_dur millisecond s else s in
  let s := if equal_fold (v2_kind v) (str "client")
           then set_timings (set_cr (ts_add (s_ts s) (s_dur s)) (set_cs (s_ts s) (s_timings s))) s else s in
  let s := if equal_fold (v2_kind v) (str "server")
           then set_timings (set_ss (ts_add (s_ts s) (s_dur s)) (set_sr (s_ts s) (s_timings s))) s else s in
  s.

(** codec/json-v2.go:31-56 [ParseJsonV2] on the pooled buffer [buf]; [None] is an error. *)
Definition parse_v2_prog (fuel : nat) : prog (slice spanV2 * bool) :=
  slice_decoder zero_v2 (span_v2_decoder fuel) fuel (Slice [] 0).
Definition v2_result (r : slice spanV2 * bool) : option (list span) :=
  if r.2 then Some (map v2_to_span (sl_list r.1)) else None.
Definition xmap {A B} (f : A -> B) (r : xres A) : xres B :=
  match r with XDone a => XDone (f a) | XPanic => XPanic | XHang => XHang end.
Definition ParseJsonV2 (fuel : nat) (buf : bytes) (input : rsrc) : xres (option (list span)) :=
  xmap v2_result (exec fuel (parse_v2_prog fuel) (new_parser input buf)).

(* ---------- Zipkin v1 ---------- *)

(** codec/json-v1.go:28-38 [annotationV1] and [binaryAnnotationV1]. *)
Record annotationV1 := Annot { an_ts : Z; an_value : gostring; an_endpoint : gostring }.
Record binaryAnnotationV1 := BinAnnot { ba_key : gostring; ba_value : gostring; ba_endpoint : gostring }.
Definition zero_annot : annotationV1 := Annot 0 [] [].
Definition zero_ba : binaryAnnotationV1 := BinAnnot [] [] [].

(** codec/json-v1.go:14-26 [spanV1]. *)
Record spanV1 := SpanV1 {
  v1_trace : Z; v1_id : Z; v1_parent : Z;
  v1_annots : list annotationV1; v1_bas : slice binaryAnnotationV1;
  v1_name : gostring; v1_ts : Z; v1_dur : Z }.
Definition zero_v1 : spanV1 := SpanV1 0 0 0 (replicate 4 zero_annot) (Slice [] 0) [] 0 0.

Definition set_v1_trace x s := SpanV1 x (v1_id s) (v1_parent s) (v1_annots s) (v1_bas s) (v1_name s) (v1_ts s) (v1_dur s).
Definition set_v1_id x s := SpanV1 (v1_trace s) x (v1_parent s) (v1_annots s) (v1_bas s) (v1_name s) (v1_ts s) (v1_dur s).
Definition set_v1_parent x s := SpanV1 (v1_trace s) (v1_id s) x (v1_annots s) (v1_bas s) (v1_name s) (v1_ts s) (v1_dur s).
Definition set_v1_annots x s := SpanV1 (v1_trace s) (v1_id s) (v1_parent s) x (v1_bas s) (v1_name s) (v1_ts s) (v1_dur s).
Definition set_v1_bas x s := SpanV1 (v1_trace s) (v1_id s) (v1_parent s) (v1_annots s) x (v1_name s) (v1_ts s) (v1_dur s).
Definition set_v1_name x s := SpanV1 (v1_trace s) (v1_id s) (v1_parent s) (v1_annots s) (v1_bas s) x (v1_ts s) (v1_dur s).
Definition set_v1_ts x s := SpanV1 (v1_trace s) (v1_id s) (v1_parent s) (v1_annots s) (v1_bas s) (v1_name s) x (v1_dur s).
Definition set_v1_dur x s := SpanV1 (v1_trace s) (v1_id s) (v1_parent s) (v1_annots s) (v1_bas s) (v1_name s) (v1_ts s) x.

Definition set_an_ts x a := Annot x (an_value a) (an_endpoint a).
Definition set_an_value x a := Annot (an_ts a) x (an_endpoint a).
Definition set_an_endpoint x a := Annot (an_ts a) (an_value a) x.
Definition set_ba_key x a := BinAnnot x (ba_value a) (ba_endpoint a).
Definition set_ba_value x a := BinAnnot (ba_key a) x (ba_endpoint a).
Definition set_ba_endpoint x a := BinAnnot (ba_key a) (ba_value a) x.

(** codec/json-v1.go:179-195. *)
Definition ba_fields (fuel : nat) : list (gostring * decoder binaryAnnotationV1) :=
  [ (str "key", at_field ba_key set_ba_key string_decoder);
    (str "value", at_field ba_value set_ba_value any_decoder);
    (str "endpoint", at_field ba_endpoint set_ba_endpoint (endpoint_decoder fuel)) ].
(** codec/json-v1.go:202-218. *)
Definition annot_fields (fuel : nat) : list (gostring * decoder annotationV1) :=
  [ (str "timestamp", at_field an_ts set_an_ts uint64_decoder);
    (str "value", at_field an_value set_an_value string_decoder);
    (str "endpoint", at_field an_endpoint set_an_endpoint (endpoint_decoder fuel)) ].
(** codec/json-v1.go:143-220. *)
Definition v1_fields (fuel : nat) : list (gostring * decoder spanV1) :=
  [ (str "id", at_field v1_id set_v1_id id_decoder);
    (str "traceId", at_field v1_trace set_v1_trace id_decoder);
    (str "parentId", at_field v1_parent set_v1_parent id_decoder);
    (str "timestamp", at_field v1_ts set_v1_ts uint64_decoder);
    (str "duration", at_field v1_dur set_v1_dur uint64_decoder);
    (str "name", at_field v1_name set_v1_name string_decoder);
    (str "binaryAnnotations", at_field v1_bas set_v1_bas (slice_decoder zero_ba (struct_decoder (ba_fields fuel) fuel) fuel));
    (str "annotations", at_field v1_annots set_v1_annots (array_decoder (struct_decoder (annot_fields fuel) fuel) fuel)) ].

(** codec/json-v1.go:222-241: the slot is cleared first; of the binary annotations only the elements in use. *)
Definition reset_v1 (s : spanV1) : spanV1 :=
  SpanV1 0 0 0 (replicate 4 zero_annot)
    (Slice (replicate (min (sl_len (v1_bas s)) (length (sl_mem (v1_bas s)))) zero_ba ++ drop (sl_len (v1_bas s)) (sl_mem (v1_bas s))) 0)
    [] 0 0.
Definition span_v1_decoder (fuel : nat) : decoder spanV1 := fun t => struct_decoder (v1_fields fuel) fuel (reset_v1 t).

(** codec/json-v1.go:122-140 [fillInTimestamp]. *)
Definition fill_in_timestamp (s : span) : span :=
  let sr := tSR (s_timings s) in
  let ss := tSS (s_timings s) in
  let s := if (0 <? sr) && (0 <? ss) then set_dur (wrap64 (ss - sr)) (set_ts sr s) else s in
  let cs := tCS (s_timings s) in
  let cr := tCR (s_timings s) in
  let s := if (0 <? cs) && (0 <? cr) then set_dur (wrap64 (cr - cs)) (set_ts cs s) else s in
  if s_dur s =? 0 then set_dur millisecond s else s.

(** codec/json-v1.go:84-95 and 99-105: the loops of [ToSpan]. *)
Definition use_service (name : gostring) (s : span) : span :=
  if decide (s_service s = [] /\ name <> []) then set_service name s else s.
Definition add_annot (s : span) (a : annotationV1) : span :=
  if an_ts a =? 0 then s
  else use_service (an_endpoint a) (add_timing (an_value a) (microseconds (wrap64 (an_ts a))) s).
Definition add_ba (s : span) (a : binaryAnnotationV1) : span :=
  use_service (ba_endpoint a) (add_tag (ba_key a) (ba_value a) s).

(** codec/json-v1.go:81-120 [spanV1.ToSpan]. *)
Definition v1_to_span (v : spanV1) : span :=
  let s := new_span (v1_name v) (v1_trace v) (v1_id v) (v1_parent v) in
  let s := foldl add_annot s (v1_annots v) in
  let s := set_tags ∅ s in
  let s := foldl add_ba s (sl_list (v1_bas v)) in
  let s := add_tag tag_protocol_version (str "json v1") s in
  let s := if v1_ts v =? 0 then s else set_ts (microseconds (wrap64 (v1_ts v))) s in
  let s := if v1_dur v =? 0 then s else set_dur (wrap64 (wrap64 (v1_dur v) * microsecond)) s in
  fill_in_timestamp s.

(** codec/json-v1.go:44-48: a new pool entry. *)
Definition pool_size : nat := 64.
Definition new_pool_entry : list spanV1 := replicate pool_size zero_v1.

(** codec/json-v1.go:50-79 [ParseJsonV1] with the pooled buffer [buf] and the pooled slots [pool]; also returns
    what is put back into the pool.  If the slice has to grow beyond the pooled array, its slots are copied to a
    new array and the pooled one keeps the copied state: decoding never goes back to an earlier slot. *)
Definition parse_v1_prog (fuel : nat) (pool : list spanV1) : prog (slice spanV1 * bool) :=
  slice_decoder zero_v1 (span_v1_decoder fuel) fuel (Slice pool 0).
Definition v1_result (n : nat) (r : slice spanV1 * bool) : option (list span) * list spanV1 :=
  (if r.2 then Some (map v1_to_span (sl_list r.1)) else None, take n (sl_mem r.1)).
Definition ParseJsonV1 (fuel : nat) (buf : bytes) (pool : list spanV1) (input : rsrc) : xres (option (list span) * list spanV1) :=
  xmap (v1_result (length pool)) (exec fuel (parse_v1_prog fuel pool) (new_parser input buf)).
