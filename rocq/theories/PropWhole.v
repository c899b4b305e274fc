(** Properties C71, C72 and the runs of C42: traces that arrive without long breaks, overload. *)
From Coq Require Import Sorted.
From Verif Require Import Base IdModel SpanModel CodecModel HandlerModel TreeModel TreeSpec TreeProofs FinishModel FinishSpec FinishWitness ForwardModel PipelineModel SystemModel SystemSpec
  WholeSpec WholeProofs StallWitness OverloadWitness.

(** C71: a trace whose spans come without breaks of [p] and within [5 * p], while every check finds at most 100000 spans
    and waits for at least [p], leaves the buffer once, after its last span, with all its spans. *)
Theorem C71_not_split :
  forall evs t p, let log := (run evs).2 in
  Forall valid_event evs -> t <> 0 -> steady log -> brisk p (additions t log) -> calm p log -> Z.of_nat (length (additions t log)) <= 8192 ->
  forall l1 o l2, log = l1 ++ LOut t o :: l2 ->
  (forall o', LOut t o' ∉ l1) /\ (forall o', LOut t o' ∉ l2) /\ additions t l2 = [] /\ pending l1 t = additions t log /\
  match o with
  | Emitted out => emission t (merged_spans t (additions t log)) out
  | NoRoot => ~ exists out, emission t (merged_spans t (additions t log)) out
  | TooOld => exists n1 n2 load, last_tick l1 n1 n2 load /\ started (additions t log) + 5 * patience load < n2
  | _ => False
  end.
Proof. exact not_split. Qed.
Print Assumptions C71_not_split.

(** C71: the first check that comes late enough after its last span and early enough after its first finishes it. *)
Theorem C71_in_time :
  forall evs k st0 log0 t ts load, Forall valid_event evs -> valid_tick k -> run evs = (Some st0, log0) -> t <> 0 ->
  (forall o, LOut t o ∉ log0) -> additions t log0 <> [] -> Z.of_nat (length (additions t log0)) <= 8192 ->
  waiting log0 ts -> load = sum (fun t => small (counted t (pending log0 t))) ts ->
  touched (additions t log0) + patience load <= k_now1 k -> k_now2 k <= started (additions t log0) + 5 * patience load ->
  exists l1 o l2, (run (evs ++ [ETick k])).2 = log0 ++ l1 ++ LOut t o :: l2 /\ (forall o', LOut t o' ∉ l1) /\
    match o with
    | Emitted out => emission t (merged_spans t (additions t log0)) out
    | NoRoot => ~ exists out, emission t (merged_spans t (additions t log0)) out
    | _ => False
    end.
Proof. exact in_time. Qed.
Print Assumptions C71_in_time.

(** C71: two checks and another trace in between. *)
Example C71_instance :
  let at_ n id t := ESpan map_to_list (seconds n) (seconds n) (Span id 1 t [] [] 0 10 ∅ (Timings 0 0 0 0)) in
  let evs := [at_ 0 1 9; at_ 1 1 8; at_ 7 2 9; ETick (plain_tick (seconds 10)); at_ 14 3 9] in
  let log := (run (evs ++ [ETick (plain_tick (seconds 22))])).2 in
  Forall valid_event (evs ++ [ETick (plain_tick (seconds 22))]) /\ steady log /\ brisk (seconds 8) (additions 9 log) /\ calm (seconds 8) log /\
  length (additions 9 log) = 3%nat /\ (exists l out, log = l ++ [LOut 9 (Emitted out)] /\ ids out = [3; 2; 1]) /\
  waiting (run evs).2 [9] /\ touched (additions 9 (run evs).2) + patience 3 <= seconds 22 /\ seconds 22 <= started (additions 9 (run evs).2) + 5 * patience 3.
Proof.
  cbv zeta. split; [|split; [|split; [|split; [|split; [|split; [|split]]]]]].
  - cbn [app]. repeat constructor; try apply map_order_list; try apply plain_valid; by vm_compute.
  - unfold steady. apply ascending_sorted. by vm_compute.
  - apply briskb_spec. by vm_compute.
  - apply calmb_spec. by vm_compute.
  - by vm_compute.
  - eexists [_; _; _; _; _; _; _], _. split; vm_compute; reflexivity.
  - apply waitingb_spec. by vm_compute.
  - split; by vm_compute.
Qed.

(** C72 is false: what waits behind a stalled conversion is dropped as too old. *)
Theorem C72_stall_refuted :
  exists evs evs' st st', yreachable main_sysconfig pass tt evs st /\ yreachable main_sysconfig pass tt (evs ++ evs') st' /\ steady (y_log st') /\
  (forall e, yinternal e -> (forall p, e <> YPipe p) -> ystep main_sysconfig pass e st = Blocked) /\ (forall k, ystep main_sysconfig pass (YTick k) st = Blocked) /\
  map (fun h => List.last h.1 (Status 0)) (y_handlers st) = [Status 202; Status 202] /\
  additions 1000 (y_log st) = additions 1000 (y_log st') /\ brisk (seconds 2) (additions 1000 (y_log st)) /\ length (additions 1000 (y_log st)) = 2%nat /\
  (exists out, emission 1000 (merged_spans 1000 (additions 1000 (y_log st))) out) /\ (forall o, LOut 1000 o ∉ y_log st) /\
  all_done st' /\ LOut 1000 TooOld ∈ y_log st' /\
  Forall (fun r => length (rd_log r) = 66%nat /\ forall s, s ∈ concat (rd_log r) -> s_trace s <> 1000) (p_readers (y_pipe st')).
Proof. exact stalled. Qed.
Print Assumptions C72_stall_refuted.

(** C72: the bound is exact: a check later than [5 * patience] after the first span drops the trace, whatever it holds. *)
Theorem C72_late :
  forall evs k st0 log0 t ts load, Forall valid_event evs -> valid_tick k -> run evs = (Some st0, log0) ->
  waiting log0 ts -> load = sum (fun t => small (counted t (pending log0 t))) ts -> pending log0 t <> [] ->
  started (pending log0 t) + 5 * patience load < k_now2 k ->
  exists st log1 o, run (evs ++ [ETick k]) = (Some st, log0 ++ log1) /\ LOut t o ∈ log1 /\ (o = TooLarge \/ o = TooOld).
Proof. exact late. Qed.
Print Assumptions C72_late.

Example C72_late_instance :
  let evs := [ESpan map_to_list 0 0 (Span 1 1 9 [] [] 0 10 ∅ (Timings 0 0 0 0))] in
  pending (run evs).2 9 <> [] /\ 0 + 5 * patience 1 < seconds 41 /\ List.last (run (evs ++ [ETick (plain_tick (seconds 41))])).2 LClose = LOut 9 TooOld /\
  List.last (run (evs ++ [ETick (plain_tick (seconds 40))])).2 LClose <> LOut 9 TooOld.
Proof. split; [by vm_compute|]. split; [by vm_compute|]. split; by vm_compute. Qed.

(** C42 in a run: each trace that is discarded is the largest at that moment, and there are at least 100000 spans. *)
Theorem C42_run :
  forall evs k st0 log0 a t b, Forall valid_event evs -> valid_tick k -> run evs = (Some st0, log0) ->
  (run (evs ++ [ETick k])).2 = log0 ++ a ++ LOut t Overload :: b ->
  (forall ts, waiting (log0 ++ a) ts -> 100000 <= sum (fun t => counted t (pending (log0 ++ a) t)) ts) /\
  (forall u, pending (log0 ++ a) u <> [] -> counted u (pending (log0 ++ a) u) <= counted t (pending (log0 ++ a) t)).
Proof. exact overload_each. Qed.
Print Assumptions C42_run.

Example C42_run_instance : exists evs k st0 log0 a t b, Forall valid_event evs /\ valid_tick k /\ run evs = (Some st0, log0) /\
  (run (evs ++ [ETick k])).2 = log0 ++ a ++ LOut t Overload :: b.
Proof. exact overload_happens. Qed.
