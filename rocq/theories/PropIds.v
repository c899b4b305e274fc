(** Properties C01, C02 and C55: ids and timestamps. *)
From Verif Require Import Base IdModel IdSpec IdProofs SpanModel SpanProofs.

(** C01: printing an id and parsing the text gives the id back; the text is 16 lower-case hex digits; the JSON
    form is that text in quotes and round-trips too. *)
Theorem C01_id_text_roundtrip :
  forall id, int64_ok id ->
    parse_id (id_string id) = Some id /\
    length (id_string id) = 16%nat /\
    Forall lower_hex (id_string id) /\
    id_marshal_json id = [34] ++ id_string id ++ [34] /\
    id_unmarshal_json (id_marshal_json id) = Some id.
Proof. exact id_roundtrip_all. Qed.
Print Assumptions C01_id_text_roundtrip.

Example C01_instance :
  int64_ok (-2) /\ id_string (-2) = str "fffffffffffffffe" /\
  id_string 48879 = str "000000000000beef" /\ parse_id (str "000000000000beef") = Some 48879.
Proof. split; [zlia|]. vm_compute. auto. Qed.

(** C02: [ParseId] succeeds exactly on at most 16 hex digits of either case, and returns the signed 64-bit
    reading of the denoted number. *)
Theorem C02_parse_exact :
  forall t v,
    parse_id t = Some v <->
    (length t <= 16)%nat /\ exists n, denotes16 t n /\ signed64 n v.
Proof. exact parse_id_spec. Qed.
Print Assumptions C02_parse_exact.

(** C02: two accepted texts give the same id iff they denote the same number. *)
Theorem C02_parse_injective :
  forall t1 t2 v1 v2 n1 n2,
    parse_id t1 = Some v1 -> parse_id t2 = Some v2 ->
    denotes16 t1 n1 -> denotes16 t2 n2 ->
    (v1 = v2 <-> n1 = n2).
Proof. exact parse_id_injective. Qed.
Print Assumptions C02_parse_injective.

(** C02: longer texts are rejected, in particular every 32-digit (128-bit) trace id; so is every text with a
    character that is not a hex digit. *)
Theorem C02_parse_rejects :
  forall t, (16 < length t)%nat \/ (exists c, c ∈ t /\ forall d, ~ hex_digit c d) -> parse_id t = None.
Proof. exact parse_id_rejects. Qed.
Print Assumptions C02_parse_rejects.

(** [UnmarshalJSON] accepts exactly a quoted text accepted by [ParseId]. *)
Theorem C02_unmarshal_exact :
  forall bs v,
    id_unmarshal_json bs = Some v <-> exists t, bs = [34] ++ t ++ [34] /\ parse_id t = Some v.
Proof. exact unmarshal_spec. Qed.
Print Assumptions C02_unmarshal_exact.

Example C02_instance :
  parse_id (str "bEeF") = Some 48879 /\ denotes16 (str "bEeF") 48879 /\
  parse_id (str "8000000000000000") = Some (-9223372036854775808) /\
  parse_id (str "463ac35c9f6413ad48485a3953bb6124") = None /\ parse_id (str "12g4") = None.
Proof.
  split; [done|]. split.
  - exists [11;14;14;15]. split; [|done].
    constructor; [apply (hex_af 11); lia|]. constructor; [apply (hex_AF 14); lia|].
    constructor; [apply (hex_af 14); lia|]. constructor; [apply (hex_AF 15); lia|]. constructor.
  - vm_compute. auto.
Qed.

(** C55: microseconds to timestamp and back is the identity unless the nanoseconds overflow; milliseconds are the
    quotient by 10^6 rounded toward zero. *)
Theorem C55_micros_roundtrip :
  forall us, int64_ok (us * 1000) -> microseconds us = us * 1000 /\ to_micros (microseconds us) = us.
Proof. exact micros_roundtrip. Qed.
Print Assumptions C55_micros_roundtrip.

Theorem C55_micros_wrap :
  forall us, int64_ok us ->
    - 2^63 <= microseconds us < 2^63 /\ (microseconds us - us * 1000) mod 2^64 = 0.
Proof. exact micros_wrap. Qed.
Print Assumptions C55_micros_wrap.

Theorem C55_millis :
  forall ts, Z.abs (to_millis ts) = Z.abs ts / 1000000 /\ (0 <= ts -> 0 <= to_millis ts) /\ (ts <= 0 -> to_millis ts <= 0).
Proof. exact millis_spec. Qed.
Print Assumptions C55_millis.

Example C55_instance :
  int64_ok (1560276970000000 * 1000) /\ microseconds 1560276970000000 = 1560276970000000000 /\
  to_millis (-1500000) = -1.
Proof. split; [zlia|]. vm_compute. auto. Qed.
