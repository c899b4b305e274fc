(** Model of datadog/converter.go: the sink that converts spans and groups them into batches. *)
From Verif Require Import Base SpanModel IdModel.

(** The fields of dd-trace-go's [tracer.Span] that the sink sets. *)
Record ddspan := DD {
  d_name : gostring; d_service : gostring; d_resource : gostring;
  d_start : Z; d_dur : Z; d_span : Z; d_trace : Z; d_parent : Z;
  d_meta : gmap gostring gostring; d_sampled : bool; d_error : Z }.

Definition zero_dd : ddspan := DD [] [] [] 0 0 0 0 0 ∅ false 0.

(** Go's [time.Unix(0, n).UnixNano()] (proxy/timestamp.go:24-26, datadog/converter.go:114): seconds and nanoseconds are
    split with nanoseconds in [0, 10^9) and put together again in int64. *)
Definition unix_nano (n : Z) : Z :=
  let '(sec, nsec) :=
    if (n <? 0) || (1000000000 <=? n) then
      let q := Z.quot n 1000000000 in
      let r := n - q * 1000000000 in
      if r <? 0 then (q - 1, r + 1000000000) else (q, r)
    else (0, n) in
  wrap64 (wrap64 (sec * 1000000000) + nsec).

(** datadog/converter.go:79-124: conversion of one span. *)
Definition dd_convert (s : span) : ddspan :=
  let duration := if s_dur s <? microsecond then microsecond else s_dur s in
  let resource := match s_name s with [] => str "(resource empty)" | n => n end in
  let isError := match s_tags s !! str "error" with
    | Some v => if negb (bool_decide (v = str "false")) && negb (bool_decide (v = str "0")) then 1 else 0
    | None => 0 end in
  DD (s_service s) (s_service s) resource (unix_nano (s_ts s)) duration
     (id_uint64 (s_id s)) (id_uint64 (s_trace s)) (id_uint64 (s_parent s)) (s_tags s) true isError.

(** A batch: pointers to converted spans by trace id (datadog/converter.go:56). *)
Notation batch := (gmap Z (list nat)) (only parsing).

(** datadog/converter.go:55-66: the variables of [Sink].  Memory of converted spans is flat, a pointer is an address;
    [ddSpans] is the slice of [k_len] addresses from [k_start]; [lastFlushTime] is [None] while it is the zero time;
    [k_queue] is the channel [groupedSpans]; [k_open] is false after the return. *)
Record sink := Sink {
  k_mem : list ddspan; k_start : nat; k_len : nat;
  k_count : Z; k_by : gmap Z (list nat); k_last : option Z;
  k_queue : list (gmap Z (list nat)); k_open : bool }.

Definition new_sink : sink := Sink [] 0 0 0 ∅ None [] true.

(** datadog/converter.go:15-16 (nanoseconds), 58 and 93. *)
Definition flushInterval : Z := 2000000000.
Definition flushSpanCount : Z := 1000.
Definition queue_capacity : nat := 8.
Definition slab_size : nat := Z.to_nat 4096.

(** datadog/converter.go:78-127: one span of a trace. *)
Definition sink_span (st : sink) (s : span) : sink :=
  let '(mem, start, len) :=
    match k_len st with
    | O => (k_mem st ++ replicate slab_size zero_dd, length (k_mem st), slab_size)
    | _ => (k_mem st, k_start st, k_len st)
    end in
  let converted := start in
  let c := dd_convert s in
  Sink (<[converted := c]> mem) (start + 1) (len - 1) (k_count st)
       (<[d_trace c := default [] (k_by st !! d_trace c) ++ [converted]]> (k_by st)) (k_last st) (k_queue st) (k_open st).

(** What the sender sees of a batch. *)
Definition deref (mem : list ddspan) (b : batch) : gmap Z (list ddspan) := map (fun p => default zero_dd (mem !! p)) <$> b.

(** The record of a run.  Only [XTrace], [XSend], [XClose] are visible outside; the others are ghost. *)
Inductive dentry :=
  | XTrace (t : list span)
  | XTick (now : Z)                                            (* [now]: the clock in [time.Since] *)
  | XFlush (accepted : bool) (b : gmap Z (list ddspan)) (now : Z)  (* [now]: the new [lastFlushTime] *)
  | XSend (traces : list (list ddspan))
  | XClose.

(** datadog/converter.go:138-149. *)
Definition sink_flush (flush : bool) (now : Z) (st : sink) : sink * list dentry :=
  if flush && (0 <? k_count st) then
    let accepted := bool_decide (length (k_queue st) < queue_capacity)%nat in
    (Sink (k_mem st) (k_start st) (k_len st) 0 ∅ (Some now) (if accepted then k_queue st ++ [k_by st] else k_queue st) (k_open st),
     [XFlush accepted (deref (k_mem st) (k_by st)) now])
  else (st, []).

(** datadog/converter.go:135: [time.Since(lastFlushTime) >= 90*flushInterval/100].  Since the zero time more than 292
    years have passed, where [time.Since] saturates. *)
Definition due (last : option Z) (now : Z) : bool :=
  match last with None => true | Some l => Z.quot (90 * flushInterval) 100 <=? now - l end.

(** [DTake] is the goroutine [submitTraces] (datadog/converter.go:23-49) taking and sending one batch; [ord] is the order of
    map iteration.  (With [DD_LOG_TRACES] the traces are logged instead; not modelled.) *)
Inductive devent :=
  | DTrace (t : list span) (now : Z)
  | DTick (since now : Z)
  | DTake (ord : gmap Z (list nat) -> list (Z * list nat))
  | DClose.

Definition set_count (n : Z) (st : sink) : sink :=
  Sink (k_mem st) (k_start st) (k_len st) n (k_by st) (k_last st) (k_queue st) (k_open st).

(** datadog/converter.go:68-150 and 23-49. *)
Definition dstep (e : devent) (st : sink) : sink * list dentry :=
  match e with
  | DTrace t now =>
      if k_open st then
        let st1 := foldl sink_span st t in
        let st2 := set_count (k_count st1 + Z.of_nat (length t)) st1 in
        let '(st3, log) := sink_flush (flushSpanCount <=? k_count st2) now st2 in
        (st3, XTrace t :: log)
      else (st, [])
  | DTick since now =>
      if k_open st then
        let '(st1, log) := sink_flush (due (k_last st) since) now st in
        (st1, XTick since :: log)
      else (st, [])
  | DTake ord =>
      match k_queue st with
      | [] => (st, [])
      | b :: q =>
          let traces := map (fun p => map (fun a => default zero_dd (k_mem st !! a)) p.2) (ord b) in
          (Sink (k_mem st) (k_start st) (k_len st) (k_count st) (k_by st) (k_last st) q (k_open st),
           match traces with [] => [] | _ => [XSend traces] end)
      end
  | DClose =>
      if k_open st then (Sink (k_mem st) (k_start st) (k_len st) (k_count st) (k_by st) (k_last st) (k_queue st) false, [XClose])
      else (st, [])
  end.

Fixpoint drun_from (st : sink) (evs : list devent) : sink * list dentry :=
  match evs with
  | [] => (st, [])
  | e :: evs' => let '(st1, l1) := dstep e st in let '(st2, l2) := drun_from st1 evs' in (st2, l1 ++ l2)
  end.
Definition drun (evs : list devent) : sink * list dentry := drun_from new_sink evs.
