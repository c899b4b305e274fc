(** The repository's own tests, run on the models: the inputs are those of the test files, the expected values are what
    the tests expect.  Random choices of the tests are replaced by all or by some of the choices. *)
From Verif Require Import Base IdModel SpanModel BinaryModel BinarySpec EncoderModel LruModel JsonModel CodecModel JaegerModel TreeModel DebugModel.

Definition stags (l : list (gostring * gostring)) : gmap gostring gostring := list_to_map l.
(** All of a span, in a form that can be compared by computing. *)
Definition view (s : span) := (s_id s, s_trace s, s_parent s, s_name s, s_service s, s_ts s, s_dur s, map_to_list (s_tags s), s_timings s).

(* ---------- codec/binary_test.go ---------- *)

Definition binary_test_span : span :=
  Span 57005 48815 48815 (str "span name") (str "my-service") (1560276970 * second) (1000 * millisecond)
    (stags [(str "http.path", str "/my/path"); (str "protocolVersion", str "json v1")])
    (Timings (1560276970 * second) (1560276971 * second) (1560276973 * second) (1560276972 * second)).

(** codec/binary_test.go:38-44 [TestBinaryEncoding]. *)
Example TestBinaryEncoding :
  match binary_encode (map_to_list (s_tags binary_test_span)) binary_test_span with
  | Some bs => match binary_decode bs with DOk s rest => view s = view binary_test_span /\ rest = [] | DErr _ => False end
  | None => False
  end.
Proof. vm_compute. split; reflexivity. Qed.

(* ---------- codec/json-v1_test.go ---------- *)

Definition encodedJsonV1 : gostring := str "[
		{
			""traceId"": ""beaf"",
			""id"": ""dead"",
			""parentId"": ""beaf"",

			""name"": ""span name"",

			""timestamp"": 1560276900000000,
			""duration"": 50000,

			""annotations"": [
				{
					""timestamp"": 1560276970000000,
					""value"": ""cs"",
					""endpoint"": {""serviceName"": ""my-service""}
				},
				{
					""timestamp"": 1560276971000000,
					""value"": ""cr"",
					""endpoint"": {""serviceName"": ""my-service""}
				}
			],

			""binaryAnnotations"": [
				{
					""key"": ""http.path"",
					""value"": ""/my/path"", 
					""endpoint"": {
						""serviceName"": ""my-service""
					}
				},
				{
					""key"": ""http.status"",
					""value"": 404, 
					""endpoint"": {
						""serviceName"": ""my-service""
					}
				}
			]
		}
	]".
Definition compactJsonV1 : gostring := str "[{""traceId"":""beaf"",""id"":""dead"",""parentId"":""beaf"",""name"":""span name"",""timestamp"":1560276900000000,""duration"":50000,""annotations"":[{""timestamp"":1560276970000000,""value"":""cs"",""endpoint"":{""serviceName"":""my-service""}},{""timestamp"":1560276971000000,""value"":""cr"",""endpoint"":{""serviceName"":""my-service""}}],""binaryAnnotations"":[{""key"":""http.path"",""value"":""/my/path"",""endpoint"":{""serviceName"":""my-service""}},{""key"":""http.status"",""value"":404,""endpoint"":{""serviceName"":""my-service""}}]}]".

Definition expected_v1 : span :=
  Span 57005 48815 48815 (str "span name") (str "my-service") (1560276970 * second) (1000 * millisecond)
    (stags [(str "http.path", str "/my/path"); (str "http.status", str "404"); (str "protocolVersion", str "json v1")])
    (Timings (1560276970 * second) (1560276971 * second) 0 0).
Definition v1_view (r : xres (option (list span) * list spanV1)) :=
  match r with XDone (Some spans, _) => Some (map view spans) | _ => None end.

(** codec/json-v1_test.go:13-45 [TestParseJsonV1], also with the input of the benchmark and with a small buffer and a
    reader that delivers few bytes at a time. *)
Example TestParseJsonV1 :
  v1_view (ParseJsonV1 2000 (replicate 1024 0) new_pool_entry (Src [encodedJsonV1] (EndEOF false))) = Some [view expected_v1] /\
  v1_view (ParseJsonV1 2000 (replicate 1024 0) new_pool_entry (Src [compactJsonV1] (EndEOF false))) = Some [view expected_v1] /\
  v1_view (ParseJsonV1 2000 (replicate 40 0) new_pool_entry (Src [take 33 encodedJsonV1; take 300 (drop 33 encodedJsonV1); drop 333 encodedJsonV1] (EndEOF true))) = Some [view expected_v1].
Proof. vm_compute. repeat split. Qed.

(* ---------- codec/json-v2_test.go ---------- *)

Definition encodedJsonV2 : gostring := str "[
		{
			""traceId"": ""beaf"",
			""id"": ""dead"",
			""parentId"": ""beaf"",

			""name"": ""span name"",

			""localEndpoint"": {
				""serviceName"": ""my-service""
			},

			""tags"": {
				""http.path"": ""/my/path"",
				""http.status"": ""404""
			},

			""kind"": ""CLIENT"",

			""timestamp"": 1560276970000000,
			""duration"": 50000
		}
	]".
Definition compactJsonV2 : gostring := str "[{""traceId"":""beaf"",""id"":""dead"",""parentId"":""beaf"",""name"":""span name"",""localEndpoint"":{""serviceName"":""my-service""},""tags"":{""http.path"":""/my/path"",""http.status"":""404""},""kind"":""CLIENT"",""timestamp"":1560276970000000,""duration"":50000}]".

Definition expected_v2 : span :=
  Span 57005 48815 48815 (str "span name") (str "my-service") (1560276970 * second) (50 * millisecond)
    (stags [(str "http.path", str "/my/path"); (str "http.status", str "404"); (str "protocolVersion", str "json v2")])
    (Timings (1560276970 * second) (1560276970 * second + 50 * millisecond) 0 0).
Definition v2_view (r : xres (option (list span))) :=
  match r with XDone (Some spans) => Some (map view spans) | _ => None end.

(** codec/json-v2_test.go:12-41 [TestParseJsonV2]. *)
Example TestParseJsonV2 :
  v2_view (ParseJsonV2 2000 (replicate 1024 0) (Src [encodedJsonV2] (EndEOF false))) = Some [view expected_v2] /\
  v2_view (ParseJsonV2 2000 (replicate 1024 0) (Src [compactJsonV2] (EndEOF false))) = Some [view expected_v2] /\
  v2_view (ParseJsonV2 2000 (replicate 40 0) (Src [take 33 encodedJsonV2; take 100 (drop 33 encodedJsonV2); drop 133 encodedJsonV2] (EndEOF true))) = Some [view expected_v2].
Proof. vm_compute. repeat split. Qed.

(* ---------- codec/jaeger_test.go ---------- *)

(** What encoding/json makes of the text in codec/jaeger_test.go:43-99. *)
Definition jaeger_test_data : list jdata :=
  [JData [JSpan 57005 48815 (str "getconnection") [JRef (str "CHILD_OF") 43690] 1560276970000000 1000000 (str "p1")
            [JTag (str "component") (JVString (str "postgres")); JTag (str "internal.span.format") (JVString (str "zipkin"));
             JTag (str "span.kind") (JVString (str "client"))]]
     (stags [(str "p1", str "core-services")])].

(** codec/jaeger_test.go:11-41 [TestParseJaeger]. *)
Example TestParseJaeger :
  option_map (map view) (ParseJaeger (Some jaeger_test_data)) =
  Some [view (Span 48815 43690 57005 (str "getconnection") (str "core-services") (1560276970 * second) (1000 * millisecond)
    (stags [(str "lc", str "postgres"); (str "protocolVersion", str "jaeger")])
    (Timings (1560276970 * second) (1560276971 * second) 0 0))].
Proof. vm_compute. reflexivity. Qed.

(* ---------- codec/hyperjson/parser_test.go ---------- *)

Definition jsonString : gostring := str "
{
	""number"": 123,
	""numberZero"": 0,
	""boolean"": true,
	""nullValue"": null,
	""object"": {
		""name"": ""name as string"",
		""age"": 43,
		""adult"": true
	},
	""arrayWithNumbers"": [1, 2, 3],
	""simple string"": ""some simple string"",
	""string with escaped quote"": ""The pharse \""hello world\"" is used very often."",
	""string with backslash"": ""the symbol '\\' is a backslash."",
	""string with unicode"": ""This is a bullet: \u2022, and this is a triangle: \u2023""
}".
Definition compactString : gostring := str "{""number"":123,""numberZero"":0,""boolean"":true,""nullValue"":null,""object"":{""name"":""name as string"",""age"":43,""adult"":true},""arrayWithNumbers"":[1,2,3],""simple string"":""some simple string"",""string with escaped quote"":""The pharse \""hello world\"" is used very often."",""string with backslash"":""the symbol '\\' is a backslash."",""string with unicode"":""This is a bullet: \u2022, and this is a triangle: \u2023""}".

(** codec/hyperjson/parser_test.go:42-67 [doTest]: the operations of the test; the values of the tokens. *)
Definition do_test (fuel : nat) (st : pstate) : option (list (jtype * gostring)) :=
  let tok (f : nat -> pstate -> pres token) (k : pstate -> list (jtype * gostring) -> option (list (jtype * gostring))) st acc :=
    match f fuel st with POk t st' => k st' (acc ++ [(t_type t, t_val t)]) | _ => None end in
  let unit (f : nat -> pstate -> pres ()) (k : pstate -> list (jtype * gostring) -> option (list (jtype * gostring))) st acc :=
    match f fuel st with POk _ st' => k st' acc | _ => None end in
  let next k st acc := match next_type fuel st with POk ty st' => k st' (acc ++ [(ty, [])]) | _ => None end in
  let lit k := tok ReadLiteral k in
  (next (unit (fun fuel => consume fuel TObjBegin) (next (
   tok ReadString (tok ReadNumber (
   tok ReadString (unit Skip (
   tok ReadString (lit (
   tok ReadString (lit (
   tok ReadString (unit Skip (
   tok ReadString (unit Skip (
   tok ReadString (tok ReadString (
   tok ReadString (tok ReadString (
   tok ReadString (tok ReadString (
   tok ReadString (tok ReadString (
   unit (fun fuel => consume fuel TObjEnd) (fun _ acc => Some acc))))))))))))))))))))))))) st [].

Definition expected_tokens : list (jtype * gostring) :=
  [(TObjBegin, []); (TString, []); (TString, str "number"); (TNumber, str "123"); (TString, str "numberZero"); (TString, str "boolean"); (TBool, str "true");
   (TString, str "nullValue"); (TNull, str "null"); (TString, str "object"); (TString, str "arrayWithNumbers");
   (TString, str "simple string"); (TString, str "some simple string");
   (TString, str "string with escaped quote"); (TString, str "The pharse ""hello world"" is used very often.");
   (TString, str "string with backslash"); (TString, str "the symbol '\' is a backslash.");
   (TString, str "string with unicode"); (TString, str "This is a bullet: •, and this is a triangle: ‣")].

(** codec/hyperjson/parser_test.go:34-40, 69-78 [TestParser_Read], [TestParser_Compact]. *)
Example TestParser_Read : do_test 1000 (new_parser (Src [jsonString] (EndEOF false)) (replicate 1024 0)) = Some expected_tokens.
Proof. vm_compute. reflexivity. Qed.
Example TestParser_Compact : do_test 1000 (new_parser (Src [compactString] (EndEOF false)) (replicate 1024 0)) = Some expected_tokens.
Proof. vm_compute. reflexivity. Qed.
(** With a short buffer and as [NewWithBytes]. *)
Example TestParser_Short :
  do_test 1000 (new_parser (Src [take 100 jsonString; drop 100 jsonString] (EndEOF false)) (replicate 70 0)) = Some expected_tokens /\
  do_test 1000 (new_parser_bytes jsonString) = Some expected_tokens.
Proof. vm_compute. split; reflexivity. Qed.
(** codec/hyperjson/parser_test.go:20-32 [BenchmarkParser_Skip]. *)
Example BenchmarkParser_Skip : match Skip 1000 (new_parser (Src [jsonString] (EndEOF false)) (replicate 1024 0)) with POk _ st => p_tail st = length jsonString | _ => False end.
Proof. vm_compute. reflexivity. Qed.

(* ---------- correct_test.go ---------- *)

Definition ord : gmap gostring gostring -> list (gostring * gostring) := map_to_list.

(** correct_test.go:12-28 [TestTree]; [Root] is the only root. *)
Example TestTree :
  let first := set_parent 0 (new_span [] 0 1 0) in
  let second := new_span [] 0 2 1 in
  let t := add_span ord 0 second (add_span ord 0 first (new_tree 0 1)) in
  map view (deref (t_spans t) (children_of 1 (t_spans t))) = [view second] /\ map view (deref (t_spans t) (roots (t_spans t))) = [view first].
Proof. vm_compute. split; reflexivity. Qed.

(** correct_test.go:30-43 [TestMergeSpansInPlace_Annotations]. *)
Example TestMergeSpansInPlace_Annotations :
  let s := merge_spans ord (add_timing (str "cs") 1 zero_span) (add_timing (str "ss") 2 zero_span) in
  tCS (s_timings s) = 1 /\ tSS (s_timings s) = 2.
Proof. vm_compute. split; reflexivity. Qed.

(** correct_test.go:45-61 and 63-79 [TestMergeSpansInPlace_BinaryAnnotations], [.._Reverse]. *)
Example TestMergeSpansInPlace_BinaryAnnotations :
  let s := merge_spans ord (add_tag (str "tag") (str "a") (add_timing (str "sr") 0 zero_span)) (add_tag (str "tag") (str "b") zero_span) in
  map_to_list (s_tags s) = [(str "tag", str "a")].
Proof. vm_compute. reflexivity. Qed.
Example TestMergeSpansInPlace_BinaryAnnotations_Reverse :
  let s := merge_spans ord (add_tag (str "tag") (str "a") zero_span) (add_tag (str "tag") (str "b") (add_timing (str "sr") 1 zero_span)) in
  map_to_list (s_tags s) = [(str "tag", str "b")].
Proof. vm_compute. reflexivity. Qed.

(** correct_test.go:115-137 [threeSpans]. *)
Definition timed (a b : gostring) (ta tb : Z) (s : span) : span := add_timing b tb (add_timing a ta (set_dur (tb - ta) (set_ts ta s))).
Definition three_spans (cs cr sr ss : Z) : list span :=
  let offset := 100 * millisecond in
  [timed (str "cs") (str "cr") cs cr (new_span [] 1 1 1);
   timed (str "cs") (str "cr") cs cr (new_span [] 1 2 1);
   timed (str "sr") (str "ss") (sr + offset) (ss + offset) (new_span [] 1 2 1);
   timed (str "sr") (str "ss") (sr + offset) (ss + offset) (new_span [] 1 3 2)].

Fixpoint everywhere {A} (x : A) (l : list A) : list (list A) :=
  match l with [] => [[x]] | y :: l' => (x :: l) :: map (cons y) (everywhere x l') end.
Fixpoint orders {A} (l : list A) : list (list A) :=
  match l with [] => [[]] | x :: l' => concat (map (everywhere x) (orders l')) end.

(** What the test looks at: the timestamps of the spans 1, 3 and 2. *)
Definition corrected_times (adds : list span) (base : Z) : option (list Z) :=
  let t := foldl (fun t s => add_span ord 0 s t) (new_tree 0 1) adds in
  match roots (t_spans t) with
  | [r] => match correct 10 (t_spans t) r None base with
           | Some (mem, _) => Some (map s_ts (omap (fun i => mem !! i) (omap (fun id => get_span_ref id mem) [1; 3; 2])))
           | None => None end
  | _ => None
  end.

(** correct_test.go:81-113 [TestCorrectTimings], in all orders and with both choices for the parent of the shared span.
    [start] is added to all times; it is 0 in the test. *)
Definition test_timings (start : Z) (expect : Z -> list Z) : bool :=
  let s := millisecond in
  let spans := three_spans (start + 100 * s) (start + 200 * s) (start + 1110 * s) (start + 1190 * s) in
  forallb (fun base =>
    forallb (fun adds =>
      bool_decide (corrected_times adds base = Some (map (Z.add start) (expect base))) &&
      (length (debug_print DebugLevel (t_spans (foldl (fun t s => add_span ord 0 s t) (new_tree 0 1) adds))) =? 5)%nat)
    (orders spans ++ orders (imap (fun i x => if (i =? 2)%nat then set_parent 0 x else x) spans)))
  [0; 1; 77777; 99999].

(** The values that the test expects come out if the times are after 2020. *)
Example TestCorrectTimings_2020 :
  test_timings (1600000000 * second) (fun base => [base + 100 * millisecond; base + 110 * millisecond; base + 100 * millisecond]) = true.
Proof. vm_compute. reflexivity. Qed.
(** With the times of the test, shortly after 1970, the rule of correct.go:476-483 makes the server's span start when its
    parent starts; the test expects 110 ms, so it fails for this version of the code. *)
Example TestCorrectTimings_fails :
  test_timings 0 (fun base => [base + 100 * millisecond; base + 100 * millisecond; base + 100 * millisecond]) = true /\
  test_timings 0 (fun base => [base + 100 * millisecond; base + 110 * millisecond; base + 100 * millisecond]) = false.
Proof. vm_compute. split; reflexivity. Qed.
Example TestCorrectTimings_orders : length (orders (three_spans 0 0 0 0)) = 24%nat.
Proof. vm_compute. reflexivity. Qed.

(* ---------- cache/lru_test.go ---------- *)

Definition lru_run (c : lru) (l : list gostring) : lres lru :=
  foldl (fun acc v => lbind acc (fun c => lru_set 100 c (GStr 0 v))) (LOk c) l.
Fixpoint usage (fuel : nat) (c : lru) (e : option nat) : nat :=
  match fuel, e with
  | S fuel', Some n => match c_heap c !! n with Some x => S (usage fuel' c (n_next x)) | None => O end
  | _, _ => O
  end.
Definition word (i : nat) : gostring := concat (replicate 4 [48 + Z.of_nat i / 100 mod 10; 48 + Z.of_nat i / 10 mod 10; 48 + Z.of_nat i mod 10]).

(** cache/lru_test.go:11-35 [TestLruCache_Get] with smaller numbers: 400 values of 12 bytes, limit 1024 bytes. *)
Example TestLruCache_Get :
  match lru_run (new_lru 1024) (map word (seq 0 400)) with
  | LOk c => lru_size c <= 2 * 1024 /\ lru_count c = 16 /\
             forallb (fun i => match lru_get c (word i) with LOk (_, Some v) => bool_decide (g_val v = word i) | _ => false end) (seq 384 16) = true
  | _ => False
  end.
Proof. vm_compute. split; [discriminate|split; reflexivity]. Qed.

(** cache/lru_test.go:37-54 [TestLruCache_RandomSet] with 500 values, drawn by a linear congruence: the count of the cache
    is the length of the list. *)
Example TestLruCache_RandomSet :
  (fix go (n : nat) (x : Z) (c : lru) : bool :=
     match n with
     | O => true
     | S n' => match lru_set 100 c (GStr 0 (word (Z.to_nat (x / 8 mod 60)))) with
               | LOk c' => (lru_count c' =? Z.of_nat (usage 200 c' (c_head c'))) && go n' ((x * 75 + 74) mod 65537) c'
               | _ => false end
     end) 500%nat 4711 (new_lru 1024) = true.
Proof. vm_compute. reflexivity. Qed.

(* ---------- balance/sender_test.go ---------- *)

(** balance/sender_test.go:41-76 [TestEncodeDecode], with some values instead of random ones: all messages are made first, then all
    are read from the memory that they point to. *)
Definition encode_span (i : Z) : span :=
  Span (wrap64 (i * 6364136223846793005)) (wrap64 (i * 1442695040888963407)) (wrap64 (i * 3935559000370003845)) (str "consume " ++ word (Z.to_nat i)) (str "zipkin-proxy" ++ word (Z.to_nat i))
    (1560847100 + i) (i + 50 * millisecond)
    (stags [(str "http.path", str "/some/url"); (str "http.status", [50 + i mod 2; 48 + i / 10 mod 10; 48 + i mod 10]); (str "protocolVersion", str "json v1")])
    (Timings (1560847100 + i mod 1000) 0 0 0).
Example TestEncodeDecode :
  let spans := map (fun i => encode_span (Z.of_nat i)) (seq 0 80) in
  match send_all empty_mem (imap (fun i s => Send (if (i <? 2)%nat then i else i mod 2)%nat (map_to_list (s_tags s)) s) spans) with
  | Some (m, msgs) => map (fun x => match binary_decode (cell_get m (msg_value x)) with DOk s _ => Some (view s) | DErr _ => None end) msgs = map (fun s => Some (view s)) spans
  | None => False
  end.
Proof. vm_compute. reflexivity. Qed.
