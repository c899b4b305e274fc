(** What the sink should do, for C49-C51, in terms of the record of a run. *)
From Verif Require Import Base SpanModel DatadogModel.

(** [d] is the Datadog form of [s]. *)
Record converted (s : span) (d : ddspan) : Prop := {
  cv_span : uint64_ok (d_span d) /\ (d_span d - s_id s) mod 2^64 = 0;
  cv_trace : uint64_ok (d_trace d) /\ (d_trace d - s_trace s) mod 2^64 = 0;
  cv_parent : uint64_ok (d_parent d) /\ (d_parent d - s_parent s) mod 2^64 = 0;
  cv_start : d_start d = s_ts s;
  cv_dur : d_dur d = Z.max (s_dur s) 1000;
  cv_resource : d_resource d <> [] /\ (s_name s <> [] -> d_resource d = s_name s) /\ (s_name s = [] -> d_resource d = str "(resource empty)");
  cv_service : d_service d = s_service s /\ d_name d = s_service s;
  cv_meta : d_meta d = s_tags s;
  cv_sampled : d_sampled d = true;
  cv_error : (d_error d = 1 \/ d_error d = 0) /\ (d_error d = 1 <-> exists v, s_tags s !! str "error" = Some v /\ v <> str "false" /\ v <> str "0") }.

(** Spans received since the last flush. *)
Definition pend (acc : list span) (e : dentry) : list span :=
  match e with XTrace t => acc ++ t | XFlush _ _ _ => [] | _ => acc end.
Definition buffered (log : list dentry) : list span := foldl pend [] log.

(** Everything received. *)
Definition received (log : list dentry) : list span := concat (map (fun e => match e with XTrace t => t | _ => [] end) log).

(** [b] groups the converted spans [l] by trace id, each group in order, no empty group. *)
Definition grouped (l : list span) (b : gmap Z (list ddspan)) : Prop :=
  forall t, match b !! t with
    | Some g => g <> [] /\ Forall2 converted (filter (fun s => u64 (s_trace s) = t) l) g
    | None => filter (fun s => u64 (s_trace s) = t) l = [] end.

(** Accepted batches in order, and how many were sent. *)
Definition accepted (log : list dentry) : list (gmap Z (list ddspan)) :=
  concat (map (fun e => match e with XFlush true b _ => [b] | _ => [] end) log).
Definition sent (log : list dentry) : nat := length (List.filter (fun e => match e with XSend _ => true | _ => false end) log).
Definition flushes (log : list dentry) : list (gmap Z (list ddspan)) :=
  concat (map (fun e => match e with XFlush _ b _ => [b] | _ => [] end) log).
Definition closed (log : list dentry) : Prop := XClose ∈ log.

(** Number of spans in a batch. *)
Definition batch_size (b : gmap Z (list ddspan)) : nat := sum_list (map (fun p => length p.2) (map_to_list b)).

(** The last time that a batch was flushed. *)
Definition last_flush (log : list dentry) : option Z :=
  foldl (fun acc e => match e with XFlush _ _ now => Some now | _ => acc end) None log.

(** A flush is called for after [log]: the trace received last made it 1000 spans, or the tick that came last is 1.8 s
    after the last flush (or there was none). *)
Definition flush_due (log : list dentry) : Prop :=
  buffered log <> [] /\
  match last log with
  | Some (XTrace _) => 1000 <= Z.of_nat (length (buffered log))
  | Some (XTick now) => forall l, last_flush log = Some l -> 1800000000 <= now - l
  | _ => False end.

(** Any order of map iteration. *)
Definition valid_devent (e : devent) : Prop :=
  match e with
  | DTrace t _ => Forall span_ok t
  | DTake ord => forall m, ord m ≡ₚ map_to_list m
  | _ => True end.
