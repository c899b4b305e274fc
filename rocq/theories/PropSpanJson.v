(** Property C84: spans as JSON. *)
From Verif Require Import Base SpanModel JsonSpec StdJsonModel StdJsonSpec TimeModel TimeSpec SpanJsonModel SpanJsonSpec SpanTextProofs SpanJsonProofs.

(** C84: the text of spans whose strings are UTF-8 is JSON (RFC 8259) and says what the spans are. *)
Theorem C84_text :
  forall zone l, zone_minutes zone -> Forall span_ok l -> Forall (span_strings utf8_text) l ->
    exists t v, gram t (write_spans zone l) /\ means (fun _ _ => True) t v /\ spans_value l v.
Proof. exact spans_text. Qed.
Print Assumptions C84_text.

(** C84: reading the text gives the spans back. *)
Theorem C84_roundtrip :
  forall zone l, zone_minutes zone -> Forall span_ok l -> Forall (span_strings utf8_text) l -> read_spans (write_spans zone l) = Some l.
Proof. exact read_back. Qed.
Print Assumptions C84_roundtrip.

(** C84: whatever bytes are in the strings, the text is JSON and can be read; bytes that are not UTF-8 are replaced. *)
Theorem C84_any :
  forall zone l, zone_minutes zone -> Forall span_ok l -> Forall (span_strings (Forall byte_ok)) l ->
    (exists t, gram t (write_spans zone l)) /\
    exists l', read_spans (write_spans zone l) = Some l' /\ Forall2 repaired_span l l'.
Proof. exact any_spans. Qed.
Print Assumptions C84_any.

(** C84: the text contains no control characters and nothing that HTML takes for markup. *)
Theorem C84_html :
  forall zone l, zone_minutes zone -> Forall span_ok l -> Forall (span_strings (Forall byte_ok)) l ->
    Forall (fun c => 32 <= c /\ c <> 60 /\ c <> 62 /\ c <> 38) (write_spans zone l).
Proof. exact spans_plain. Qed.
Print Assumptions C84_html.

Example C84_instance :
  let s := Span 5 (-2) 7 (str "a<b" ++ [10; 195; 164]) (str "svc") 1616893199500000000 (-12345)
             (list_to_map [(str "b", str "2"); (str "a", [34; 92; 1])]) (Timings 0 10 0 0) in
  zone_minutes (fun _ => 3600) /\ span_ok s /\ span_strings utf8_text s /\
  write_spans (fun _ => 3600) [s] =
    str "[{""id"":""0000000000000005"",""parent"":""fffffffffffffffe"",""trace"":""0000000000000007"",""name"":""a\u003cb\n" ++ [195; 164] ++
    str """,""service"":""svc"",""timestamp"":""2021-03-28T01:59:59.5+01:00"",""duration"":-12345,""tags"":{""a"":""\""\\\u0001"",""b"":""2""},""timings"":{""cr"":""1970-01-01T01:00:00.00000001+01:00""}}]" /\
  write_spans (fun _ => 3600) [] = str "null".
Proof. exact text_of_a_span. Qed.

(** C84: no span survives the round trip if it is marshalled by value ([json.Marshal(span)]): their ids are numbers, because
    the method of the ids has a pointer receiver, and are refused by [json.Unmarshal].  By reference it works. *)
Theorem C84_by_value :
  forall zone s, zone_minutes zone -> span_ok s -> span_strings utf8_text s ->
    read_span (write_span false zone s) = None /\ read_span (write_span true zone s) = Some s.
Proof. exact by_value. Qed.
Print Assumptions C84_by_value.

Theorem C84_value_refuted :
  exists zone s, zone_minutes zone /\ span_ok s /\ span_strings utf8_text s /\ read_span (write_span false zone s) <> Some s.
Proof. exact value_witness. Qed.
Print Assumptions C84_value_refuted.

(** C84: tags whose names are not UTF-8 can become one. *)
Theorem C84_tags_refuted :
  exists s, span_ok s /\ span_strings (Forall byte_ok) s /\ s_tags s = <[[255] := str "1"]> {[ [254] := str "2" ]} /\
    read_spans (write_spans (fun _ => 0) [s]) = Some [Span 1 1 1 [] [] 0 0 {[ [239; 191; 189] := str "1" ]} zero_timings].
Proof. exact tags_merged. Qed.
Print Assumptions C84_tags_refuted.
