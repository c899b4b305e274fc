(** Property C83: timestamps as JSON. *)
From Verif Require Import Base TimeModel TimeSpec TimeProofs TimeLooseSpec TimeLoose.

(** The calendar used to state the property: exactly one date for every day. *)
Theorem C83_calendar : forall n, exists d, calendar n d /\ valid_date d /\ forall d', calendar n d' -> d' = d.
Proof. exact calendar_unique. Qed.
Print Assumptions C83_calendar.

(** C83: every timestamp is written as a quoted RFC 3339 text of the same instant - to the nanosecond if the offset of the
    local time zone is a whole number of minutes, otherwise short by the seconds of the offset. *)
Theorem C83_marshal :
  forall zone ts, int64_ok ts -> - 86400 < zone (ts / 1000000000) < 86400 ->
    exists l, ts_marshal_json zone ts = quoted l /\ rfc3339 l (ts + Z.rem (zone (ts / 1000000000)) 60 * 1000000000).
Proof. exact marshal_rfc3339. Qed.
Print Assumptions C83_marshal.

(** C83: every quoted RFC 3339 text is read, as the instant it names if that has a timestamp. *)
Theorem C83_unmarshal :
  forall l ns, rfc3339 l ns -> int64_ok ns -> ts_unmarshal_json (quoted l) = Some ns.
Proof. exact unmarshal_exact. Qed.
Print Assumptions C83_unmarshal.

(** C83: what was written is read back; so different timestamps have different texts. *)
Theorem C83_roundtrip :
  forall zone ts, int64_ok ts -> - 86400 < zone (ts / 1000000000) < 86400 -> Z.rem (zone (ts / 1000000000)) 60 = 0 ->
    ts_unmarshal_json (ts_marshal_json zone ts) = Some ts.
Proof. exact timestamp_roundtrip. Qed.
Print Assumptions C83_roundtrip.

Example C83_instance :
  let berlin := fun s => if s <? 1616893200 then 3600 else 7200 in
  ts_marshal_json (fun _ => 0) 951782400000000000 = str """2000-02-29T00:00:00Z""" /\
  ts_marshal_json (fun _ => 0) (-1) = str """1969-12-31T23:59:59.999999999Z""" /\
  ts_marshal_json berlin 1616893199500000000 = str """2021-03-28T01:59:59.5+01:00""" /\
  ts_marshal_json berlin 1616893200000000000 = str """2021-03-28T03:00:00+02:00""" /\
  ts_marshal_json (fun _ => -12600) 0 = str """1969-12-31T20:30:00-03:30""" /\
  ts_marshal_json (fun _ => 0) (-9223372036854775808) = str """1677-09-21T00:12:43.145224192Z""" /\
  ts_unmarshal_json (str """2021-03-28T01:59:59.5+01:00""") = Some 1616893199500000000 /\
  ts_unmarshal_json (str """1677-09-21T00:12:43.145224192Z""") = Some (-9223372036854775808) /\
  ts_unmarshal_json (str """2021-02-29T00:00:00Z""") = None /\
  ts_unmarshal_json (str "1616893199500000000") = None /\
  int64_ok 1616893199500000000 /\ Z.rem (berlin (1616893199500000000 / 1000000000)) 60 = 0.
Proof. vm_compute. repeat split; congruence. Qed.
Example C83_text_instance :
  rfc3339 (str "2000-02-29T12:30:00.25-03:30") 951840000250000000.
Proof. exact text_instance. Qed.

(** C83: the round trip of the property fails where the offset of the local zone has seconds, as the local mean times before
    standard time (Berlin until 1893: +00:53:28). *)
Theorem C83_zone_refuted :
  exists zone ts, int64_ok ts /\ - 86400 < zone (ts / 1000000000) < 86400 /\
    ts_marshal_json zone ts = str """1890-01-01T00:00:00+00:53""" /\
    exists ts', ts_unmarshal_json (ts_marshal_json zone ts) = Some ts' /\ ts' - ts = 28 * 1000000000.
Proof. exact zone_seconds. Qed.
Print Assumptions C83_zone_refuted.

(** C83: a text of an instant that has no timestamp is not refused but read as another instant. *)
Theorem C83_range_refuted :
  exists l ns v, rfc3339 l ns /\ ~ int64_ok ns /\ ts_unmarshal_json (quoted l) = Some v /\ v <> ns /\
    l = str "2300-01-01T00:00:00Z" /\ ts_marshal_json (fun _ => 0) v = str """1715-06-13T00:25:26.290448384Z""".
Proof. exact range_wraps. Qed.
Print Assumptions C83_range_refuted.

(** C83: [null] is read as a timestamp, of a day in 1754; and a fraction of more than nine digits as a larger one: here one
    nanosecond as ten. *)
Theorem C83_null_refuted :
  ts_unmarshal_json (str "null") = Some (-6795364578871345152) /\
  ts_marshal_json (fun _ => 0) (-6795364578871345152) = str """1754-08-30T22:43:41.128654848Z""".
Proof. exact null_is_read. Qed.
Print Assumptions C83_null_refuted.
Theorem C83_fraction_refuted :
  ts_unmarshal_json (str """1970-01-01T00:00:00.0000000010Z""") = Some 10 /\
  ts_unmarshal_json (str """1970-01-01T00:00:00.000000001Z""") = Some 1.
Proof. exact long_fraction. Qed.
Print Assumptions C83_fraction_refuted.

(** C83: exactly what is read: [null], and quoted texts in a format that is a little wider than RFC 3339. *)
Theorem C83_exact :
  forall t v, ts_unmarshal_json t = Some v <->
    (t = str "null" /\ v = wrap64 (-62135596800 * 1000000000)) \/ exists l ns, t = quoted l /\ loose_time l ns /\ v = wrap64 ns.
Proof. exact unmarshal_iff. Qed.
Print Assumptions C83_exact.
Theorem C83_wider :
  forall l ns, rfc3339 l ns -> loose_time l ns.
Proof. exact rfc3339_loose. Qed.
Print Assumptions C83_wider.
Example C83_exact_instance :
  ts_unmarshal_json (str """2021-02-28T7:00:00+99:-5""") = Some (wrap64 ((1614495600 - (99 * 60 - 5) * 60) * 1000000000)) /\
  loose_time (str "2021-02-28T7:00:00+99:-5") ((1614495600 - (99 * 60 - 5) * 60) * 1000000000) /\
  (forall ns, ~ loose_time (str "2021-02-00T07:00:00Z") ns) /\ (forall ns, ~ loose_time (str "2021-02-29T07:00:00Z") ns) /\ (forall ns, ~ loose_time (str "2021-02-28T07:00:00") ns).
Proof. exact loose_texts. Qed.
