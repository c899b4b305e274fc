(** Properties C17-C22 and C26: the JSON parser. *)
From Verif Require Import Base SpanModel JsonModel CodecModel JsonSpec ParseSpec JsonProofs DocTheorems EagerTheorems.

(** C17: if a body decodes to [r] with one split into reads and one buffer, then it decodes to [r] with every other
    split (empty reads included, end of file with or after the last bytes) and every buffer at least as large.
    [XDone] includes decoding errors. *)
Theorem C17_split_independent_v2 :
  forall fuel fuel' buf buf' chunks chunks' e e' r,
  concat chunks = concat chunks' -> (5 <= length buf <= length buf')%nat -> no_eager_error e -> no_eager_error e' ->
  (length chunks' + length (concat chunks') < fuel')%nat -> (2 * length (concat chunks') + 2 < fuel')%nat ->
  ParseJsonV2 fuel buf (Src chunks e) = XDone r -> ParseJsonV2 fuel' buf' (Src chunks' e') = XDone r.
Proof. exact v2_split_independent. Qed.
Print Assumptions C17_split_independent_v2.

Theorem C17_split_independent_v1 :
  forall fuel fuel' buf buf' pool chunks chunks' e e' r,
  concat chunks = concat chunks' -> (5 <= length buf <= length buf')%nat -> no_eager_error e -> no_eager_error e' ->
  (length chunks' + length (concat chunks') < fuel')%nat -> (2 * length (concat chunks') + 2 < fuel')%nat ->
  ParseJsonV1 fuel buf pool (Src chunks e) = XDone r -> ParseJsonV1 fuel' buf' pool (Src chunks' e') = XDone r.
Proof. exact v1_split_independent. Qed.
Print Assumptions C17_split_independent_v1.

Example C17_instance :
  let body := str "[{""id"":""1f"",""name"":""abc"",""timestamp"":7}]" in
  ParseJsonV2 200 (replicate 10 0) (Src [body] (EndEOF false)) =
  ParseJsonV2 200 (replicate 14 0) (Src ([] :: map (fun b => [b]) body) (EndEOF true)) /\
  match ParseJsonV2 200 (replicate 10 0) (Src [body] (EndEOF false)) with
  | XDone (Some [s]) => s_id s = 31 /\ s_name s = str "abc" /\ s_ts s = 7000
  | _ => False
  end.
Proof. by vm_compute. Qed.

(** C18 is false: a member name (or any other string) that does not fit into the parse buffer, here the pooled one of
    8192 bytes, makes the parser read into an empty slice forever: no bound on the steps suffices. *)
Theorem C18_terminates_refuted :
  exists body, forall fuel e, ParseJsonV2 fuel (replicate (Z.to_nat 8192) 0) (Src [body] e) = XHang.
Proof. exact body_never_decoded_any. Qed.
Print Assumptions C18_terminates_refuted.

Theorem C18_hangs_on_long_names :
  forall fuel buf chunks e x tail, (5 <= length buf < length x)%nat -> Forall (fun c => c <> 34 /\ c <> 92) x ->
  concat chunks = str "[{""" ++ x ++ tail -> ParseJsonV2 fuel buf (Src chunks e) = XHang.
Proof. exact v2_hangs_any. Qed.
Print Assumptions C18_hangs_on_long_names.

(** C18, guarded: every body in which strings and numbers are shorter than the buffer is decoded or rejected after
    a number of steps linear in its length and the number of reads. *)
Theorem C18_terminates_v2 :
  forall fuel chunks e buf, (5 <= length buf)%nat ->
  (length chunks + length (concat chunks) < fuel)%nat -> (2 * length (concat chunks) + 2 < fuel)%nat -> short_tokens (length buf) (concat chunks) ->
  exists r, ParseJsonV2 fuel buf (Src chunks e) = XDone r.
Proof. exact v2_terminates_any. Qed.
Print Assumptions C18_terminates_v2.

Theorem C18_terminates_v1 :
  forall fuel chunks e buf pool, (5 <= length buf)%nat ->
  (length chunks + length (concat chunks) < fuel)%nat -> (2 * length (concat chunks) + 2 < fuel)%nat -> short_tokens (length buf) (concat chunks) ->
  exists r, ParseJsonV1 fuel buf pool (Src chunks e) = XDone r.
Proof. exact v1_terminates_any. Qed.
Print Assumptions C18_terminates_v1.

(** The guard holds for every body that is not longer than the buffer. *)
Theorem C18_small_bodies : forall cap body, (length body <= cap)%nat -> short_tokens cap body.
Proof. exact short_tokens_small. Qed.
Print Assumptions C18_small_bodies.

Example C18_instance : exists r, ParseJsonV2 100 (replicate 64 0) (Src [str "[{""id"":""1f"""; []; str ",""x"":-"] (EndErr false)) = XDone r.
Proof. apply v2_terminates; [cbn; lia|done|cbn; lia|cbn; lia|]. apply short_tokens_small. cbn. lia. Qed.

(** C19: any bytes in any reads with any kind of end, any buffer (also empty), any pooled slots: no index or slice
    expression is out of range. *)
Theorem C19_no_panic :
  forall fuel buf src pool, ParseJsonV2 fuel buf src <> XPanic /\ ParseJsonV1 fuel buf pool src <> XPanic.
Proof. exact parse_safe. Qed.
Print Assumptions C19_no_panic.

(** A literal cut off by the end of the body, in a buffer that is too small for it. *)
Example C19_instance :
  ParseJsonV2 50 [0; 0] (Src [str "["; str "{"; [34]; str "i"; [34; 58]; str "nu"; str "ll"; str "}]"] (EndErr true)) = XDone None /\
  ParseJsonV2 50 [] (Src [str "["] (EndEOF true)) = XHang.
Proof. by vm_compute. Qed.

(** C20: unescaping in place gives what the copying decoder gives, stays inside the token, and rejects exactly what
    the copying decoder rejects. *)
Theorem C20_in_place :
  forall mem,
  (exists v mem', unescaped mem v /\ decode_in_place (length mem) mem 0 0 = DecOk mem' (length v) /\
      length mem' = length mem /\ take (length v) mem' = v) \/
  ((forall v, ~ unescaped mem v) /\ decode_in_place (length mem) mem 0 0 = DecErr).
Proof. exact in_place_is_copying. Qed.
Print Assumptions C20_in_place.

Example C20_instance :
  exists mem, decode_in_place 14 (str "a\""\u00e9b\cd") 0 0 = DecOk mem 7 /\ take 7 mem = str "a""" ++ [195; 169] ++ str "bcd".
Proof. eexists. by vm_compute. Qed.

(** C21 is false: an escaped newline decodes to the letter n. *)
Theorem C21_escapes_refuted :
  exists raw v, json_string raw v /\ exists st,
    ReadString 20 (new_parser (Src [34 :: raw ++ [34]] (EndEOF false)) (replicate 64 0)) = POk (Token TString (str "n")) st /\ str "n" <> v.
Proof. exact newline_is_n. Qed.
Print Assumptions C21_escapes_refuted.

(** C21, guarded: strings without the escapes b, f, n, r, t and without surrogate pairs decode to their meaning, and
    what follows the string is left alone. *)
Theorem C21_simple_strings :
  forall raw v w rest chunks e buf fuel, simple_string raw v -> ws w -> concat chunks = w ++ 34 :: raw ++ 34 :: rest ->
  (length raw < length buf)%nat -> (5 <= length buf)%nat -> no_eager_error e ->
  (length chunks + length (concat chunks) < fuel)%nat ->
  exists st, ReadString fuel (new_parser (Src chunks e) buf) = POk (Token TString v) st /\ unread st = rest.
Proof. exact read_string_value. Qed.
Print Assumptions C21_simple_strings.

(** ... which is the meaning JSON gives to them. *)
Theorem C21_simple_is_json :
  forall raw v, simple_string raw v -> Forall (fun c => 32 <= c) raw -> json_string raw v.
Proof. exact simple_is_json. Qed.
Print Assumptions C21_simple_is_json.

Example C21_instance : simple_string (str "a\u00e9\/") (97 :: [195; 169] ++ [47]).
Proof.
  apply ss_plain; [lia|lia|]. apply (ss_u 48 48 101 57 233 (str "\/") [47]).
  - exists 0, 0, 14, 9. unfold hex_is. lia.
  - unfold surrogate. lia.
  - apply ss_slash, ss_nil.
Qed.

(** C22. *)
Theorem C22_skip_exact :
  forall m v l w rest chunks e buf fuel, text m v l -> ws w -> delimited v rest -> concat chunks = w ++ l ++ rest ->
  (m <= length buf)%nat -> (5 <= length buf)%nat -> no_eager_error e ->
  (length chunks + length (concat chunks) < fuel)%nat -> (2 * length l < fuel)%nat ->
  exists st, Skip fuel (new_parser (Src chunks e) buf) = POk tt st /\ unread st = rest.
Proof. exact skip_value. Qed.
Print Assumptions C22_skip_exact.

Example C22_instance :
  match Skip 100 (new_parser (Src [str " [1, {""a]"" :"; str "[[]], ""b"":n"; str "ull}, -2.5e-1 ,""\""""] , ""x"" "] (EndEOF false)) (replicate 8 0)) with
  | POk tt st => unread st = str " , ""x"" "
  | _ => False
  end.
Proof. by vm_compute. Qed.

(** C26: a maximal run of the bytes that can occur in numbers is decoded to its value modulo 2^64 if it consists of
    digits only, and rejected otherwise. *)
Theorem C26_decimal :
  forall l b w rest chunks e buf fuel t, Forall number_byte l -> l <> [] -> ~ number_byte b -> ws w -> concat chunks = w ++ l ++ b :: rest ->
  (length l < length buf)%nat -> (5 <= length buf)%nat -> no_eager_error e ->
  (length chunks + length (concat chunks) < fuel)%nat ->
  exec fuel (uint64_decoder t) (new_parser (Src chunks e) buf) =
    XDone (if forallb (fun c => (48 <=? c) && (c <=? 57)) l then (dec_value 0 l mod 2^64, true) else (t, false)).
Proof. exact uint64_value. Qed.
Print Assumptions C26_decimal.

Example C26_instance :
  exec 50 (uint64_decoder 5) (new_parser (Src [str " 18446744"; str "073709551619,"] (EndEOF false)) (replicate 32 0)) = XDone (3, true) /\
  exec 50 (uint64_decoder 5) (new_parser (Src [str "12.0,"] (EndEOF false)) (replicate 32 0)) = XDone (5, false).
Proof. by vm_compute. Qed.
