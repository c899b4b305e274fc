(** Properties C36-C45: which traces leave the buffer, when and with which spans. *)
From Coq Require Import Sorted.
From Verif Require Import Base IdModel SpanModel TreeModel TreeSpec FinishModel FinishSpec FinishTheorems FinishWitness.

(** C36: an emitted trace holds spans of one trace with unique ids: exactly the ids that were received for it since it
    last left the buffer (and while it was not blacklisted), and at most one injected root. *)
Theorem C36_emitted_traces :
  forall evs l1 t out l2, Forall valid_event evs -> (run evs).2 = l1 ++ LOut t (Emitted out) :: l2 ->
  Forall (fun s => s_trace s = t) out /\ NoDup (ids out) /\
  exists extra, (forall id, id ∈ ids out <-> id ∈ extra \/ id ∈ pending_ids l1 t) /\
    (extra = [] \/ exists f, extra = [s_id f] /\ injected t (merged_spans t (pending l1 t)) f).
Proof. exact emitted_trace. Qed.
Print Assumptions C36_emitted_traces.

(** C36: its spans are those received, merged by id (C28-C30), with corrected times (C32), nothing else. *)
Theorem C36_emission :
  forall evs l1 t out l2, Forall valid_event evs -> (run evs).2 = l1 ++ LOut t (Emitted out) :: l2 ->
  pending l1 t <> [] /\ emission t (merged_spans t (pending l1 t)) out.
Proof. exact emitted_is. Qed.
Print Assumptions C36_emission.

(** C37: a span received for a trace that is not blacklisted is held until its trace leaves the buffer ... *)
Theorem C37_not_lost :
  forall evs st log l1 n0 n1 s l2, Forall valid_event evs -> run evs = (Some st, log) -> log = l1 ++ LSpan n0 n1 s :: l2 ->
  s_trace s <> 0 -> s_id s <> 0 -> ~ blacklisted l1 (s_trace s) -> (forall o, LOut (s_trace s) o ∉ l2) ->
  exists tr, f_traces st !! s_trace s = Some tr /\ s_id s ∈ ids (t_spans tr).
Proof. exact not_lost. Qed.
Print Assumptions C37_not_lost.

(** ... and if it leaves by being emitted, the span is in it. *)
Theorem C37_emitted :
  forall evs log l1 n0 n1 s l2 out l3, Forall valid_event evs -> (run evs).2 = log ->
  log = l1 ++ LSpan n0 n1 s :: l2 ++ LOut (s_trace s) (Emitted out) :: l3 ->
  s_trace s <> 0 -> s_id s <> 0 -> ~ blacklisted l1 (s_trace s) -> (forall o, LOut (s_trace s) o ∉ l2) -> s_id s ∈ ids out.
Proof. exact not_lost_emitted. Qed.
Print Assumptions C37_emitted.

(** C37: traces are dropped for the stated reason only; there is no other way out (no [Stuck]). *)
Theorem C37_reasons :
  forall evs l1 t o l2, Forall valid_event evs -> (run evs).2 = l1 ++ LOut t o :: l2 -> entry_ok l1 (LOut t o).
Proof. exact outcome_reason. Qed.
Print Assumptions C37_reasons.

(** C38: emitted only after a break as long as the buffer time of that tick. *)
Theorem C38_emitted_idle :
  forall evs l1 t out l2, Forall valid_event evs -> (run evs).2 = l1 ++ LOut t (Emitted out) :: l2 ->
  exists n1 n2 load, last_tick l1 n1 n2 load /\ touched (pending l1 t) <= n1 - patience load /\ n2 - 5 * patience load <= started (pending l1 t).
Proof. exact emitted_idle. Qed.
Print Assumptions C38_emitted_idle.

(** C38: what is still there after a tick is recent. *)
Theorem C38_not_kept_long :
  forall evs k st0 log0, Forall valid_event evs -> valid_tick k -> run evs = (Some st0, log0) ->
  exists st log load, run (evs ++ [ETick k]) = (Some st, log) /\ last_tick log (k_now1 k) (k_now2 k) load /\
    (forall ts, waiting log0 ts -> load = sum (fun t => small (counted t (pending log0 t))) ts) /\
    forall t, pending log t <> [] ->
      k_now1 k - patience load < touched (pending log t) /\ k_now2 k - 5 * patience load <= started (pending log t) /\
      counted t (pending log t) <= 8192.
Proof. exact after_tick. Qed.
Print Assumptions C38_not_kept_long.

(** C39 *)
Theorem C39_buffer_time :
  forall n m, 0 <= n <= m ->
  buffer_time n = (if decide (n < 40000) then seconds 8 else if decide (n < 60000) then seconds 6 else if decide (n < 80000) then seconds 4 else seconds 2) /\
  seconds 2 <= buffer_time m <= buffer_time n /\ buffer_time n <= seconds 8.
Proof. exact buffer_time_table. Qed.
Print Assumptions C39_buffer_time.

(** C39: the load is what the traces count, not including traces that are too large. *)
Theorem C39_load :
  forall evs l1 n1 n2 load l2 ts, Forall valid_event evs -> (run evs).2 = l1 ++ LTick n1 n2 load :: l2 -> waiting l1 ts ->
  load = sum (fun t => small (counted t (pending l1 t))) ts.
Proof. exact tick_load. Qed.
Print Assumptions C39_load.

Example C39_instance : map buffer_time [0; 39999; 40000; 60000; 79999; 80000; 1000000] = map seconds [8; 8; 6; 4; 4; 2; 2].
Proof. by vm_compute. Qed.

(** C40: the blacklist holds the traces that were dropped as too large or too old and not evicted since. *)
Theorem C40_blacklist :
  forall evs st log t, Forall valid_event evs -> run evs = (Some st, log) -> (t ∈ f_black st <-> blacklisted log t).
Proof. exact blacklist_is. Qed.
Print Assumptions C40_blacklist.

Theorem C40_blacklisted_why :
  forall evs l1 t o l2, Forall valid_event evs -> (run evs).2 = l1 ++ LOut t o :: l2 -> dropped o = true ->
  8192 < counted t (pending l1 t) \/
  exists n1 n2 load, last_tick l1 n1 n2 load /\ started (pending l1 t) < n2 - 5 * patience load.
Proof. exact blacklisted_why. Qed.
Print Assumptions C40_blacklisted_why.

(** C40: a span of a blacklisted trace changes nothing. *)
Theorem C40_ignored :
  forall evs st log ord n0 n1 s, Forall valid_event evs -> run evs = (Some st, log) -> blacklisted log (s_trace s) ->
  run (evs ++ [ESpan ord n0 n1 s]) = (Some st, log ++ [LSpan n0 n1 s]).
Proof. exact blacklisted_ignored. Qed.
Print Assumptions C40_ignored.

(** C40: at most 1023 traces are blacklisted after a tick, and nothing is evicted while there are fewer than 1024. *)
Theorem C40_bounded :
  forall evs k st0 log0 ts, Forall valid_event evs -> valid_tick k -> run evs = (Some st0, log0) ->
  NoDup ts -> (forall t, t ∈ ts -> blacklisted (run (evs ++ [ETick k])).2 t) -> Z.of_nat (length ts) <= 1023.
Proof. exact blacklist_bound. Qed.
Print Assumptions C40_bounded.

Theorem C40_evicted_only_when_full :
  forall evs l1 t l2, Forall valid_event evs -> (run evs).2 = l1 ++ LEvict t :: l2 ->
  blacklisted l1 t /\ exists ts, NoDup ts /\ (forall u, u ∈ ts <-> blacklisted l1 u) /\ 1024 <= Z.of_nat (length ts).
Proof. exact evicted_when_full. Qed.
Print Assumptions C40_evicted_only_when_full.

(** A run: trace 9 (root and child) is emitted at 12 s, trace 7 has two unrelated roots; span id 0 is ignored; trace 6
    gets spans for too long, is dropped at 43 s and then ignored. *)
Example C36_C37_C38_C40_instance :
  let y := 1600000000000000000 in
  let sp id parent t := Span id parent t [] [] y 10 ∅ (Timings 0 0 0 0) in
  let at_ n s := ESpan map_to_list (seconds n) (seconds n) s in
  let evs := [at_ 0 (sp 5 0 9); at_ 1 (sp 4 5 9); at_ 2 (sp 3 8 7); at_ 2 (sp 2 1 7); at_ 2 (sp 0 1 7); at_ 2 (sp 1 1 6); ETick (plain_tick (seconds 3));
              at_ 9 (sp 2 1 6); ETick (plain_tick (seconds 12)); at_ 12 (sp 4 5 9); ETick (plain_tick (seconds 16));
              at_ 19 (sp 3 1 6); at_ 26 (sp 4 1 6); at_ 33 (sp 5 1 6); at_ 40 (sp 6 1 6); ETick (plain_tick (seconds 43)); at_ 44 (sp 7 1 6)] in
  let short e := match e with LOut t (Emitted l) => [(t, 1, map s_id l)] | LOut t NoRoot => [(t, 2, [])] | LOut t TooOld => [(t, 3, [])] | _ => [] end in
  concat (map short (run evs).2) = [(9, 1, [5; 4]); (7, 2, []); (6, 3, []); (9, 1, [4])] /\
  match (run evs).1 with Some st => map_to_list (f_traces st) = [] /\ elements (f_black st) = [6] | None => False end.
Proof. by vm_compute. Qed.

(** C41 is false for the spans that are really there: the counter of a trace has 16 bits. *)
Theorem C41_inflight_refuted :
  exists evs k st0 log0 ts, Forall valid_event evs /\ valid_tick k /\ run evs = (Some st0, log0) /\
  let log := (run (evs ++ [ETick k])).2 in
  waiting log ts /\ 100000 < sum (fun t => Z.of_nat (length (merged_spans t (pending log t)))) ts.
Proof. exact inflight_unbounded. Qed.
Print Assumptions C41_inflight_refuted.

(** C41 for the numbers that the program counts, and, guarded, for the spans. *)
Theorem C41_counted :
  forall evs k st0 log0 ts, Forall valid_event evs -> valid_tick k -> run evs = (Some st0, log0) ->
  let log := (run (evs ++ [ETick k])).2 in
  waiting log ts -> sum (fun t => counted t (pending log t)) ts <= 100000.
Proof. exact inflight_bound. Qed.
Print Assumptions C41_counted.

Theorem C41_guarded :
  forall evs k st0 log0 ts, Forall valid_event evs -> valid_tick k -> run evs = (Some st0, log0) ->
  let log := (run (evs ++ [ETick k])).2 in
  waiting log ts -> (forall t, Z.of_nat (length (merged_spans t (pending log t))) < 2^16) ->
  sum (fun t => Z.of_nat (length (merged_spans t (pending log t)))) ts <= 100000.
Proof. exact inflight_bound_real. Qed.
Print Assumptions C41_guarded.

Example C41_instance :
  let evs := [ESpan map_to_list 0 0 (Span 5 0 9 [] [] 0 10 ∅ (Timings 0 0 0 0)); ESpan map_to_list 0 0 (Span 4 0 9 [] [] 0 10 ∅ (Timings 0 0 0 0));
              ESpan map_to_list 0 0 (Span 4 0 8 [] [] 0 10 ∅ (Timings 0 0 0 0))] in
  let log := (run (evs ++ [ETick (plain_tick 0)])).2 in
  map (fun t => counted t (pending log t)) [9; 8; 7] = [2; 1; 0].
Proof. by vm_compute. Qed.

(** C42: overload. *)
Theorem C42_discard_largest :
  forall k traces, valid_tick k ->
  let '(rest, log) := discard k traces in
  if decide (total traces < maxSpans) then rest = traces /\ log = []
  else total rest < maxSpans /\ rest ⊆ traces /\
    (forall id tr, traces !! id = Some tr -> (LOut id Overload ∈ log <-> rest !! id = None)) /\
    (forall id tr id' tr', traces !! id = Some tr -> rest !! id = None -> rest !! id' = Some tr' -> t_count tr' <= t_count tr) /\
    (exists id tr, last log = Some (LOut id Overload) /\ traces !! id = Some tr /\ maxSpans <= total rest + t_count tr).
Proof. exact discard_spec. Qed.
Print Assumptions C42_discard_largest.

Example C42_instance :
  let m : gmap Z tree := list_to_map [(1, Tree 1 [] 0 0 60000); (2, Tree 2 [] 0 0 30000); (3, Tree 3 [] 0 0 61000); (4, Tree 4 [] 0 0 200)] in
  valid_tick (plain_tick 0) /\ total m = 151200 /\ (discard (plain_tick 0) m).2 = [LOut 3 Overload] /\ total (discard (plain_tick 0) m).1 = 90200.
Proof. split; [apply plain_valid|]. by vm_compute. Qed.

(** C43 is false: 65537 spans count as one. *)
Theorem C43_oversized_refuted :
  exists evs l1 t out l2, Forall valid_event evs /\ (run evs).2 = l1 ++ LOut t (Emitted out) :: l2 /\
  8192 < Z.of_nat (length (merged_spans t (pending l1 t))) /\ 8192 < Z.of_nat (length out).
Proof. exact oversized_emitted. Qed.
Print Assumptions C43_oversized_refuted.

(** C43, guarded: below 65536 spans the limit holds. *)
Theorem C43_guarded :
  forall evs l1 t out l2, Forall valid_event evs -> (run evs).2 = l1 ++ LOut t (Emitted out) :: l2 ->
  Z.of_nat (length (merged_spans t (pending l1 t))) < 2^16 -> Z.of_nat (length (merged_spans t (pending l1 t))) <= 8192.
Proof. exact oversized. Qed.
Print Assumptions C43_guarded.

Example C43_instance :
  let sp := Span 5 0 9 [] [] 1600000000000000000 10 ∅ (Timings 0 0 0 0) in
  let evs := [ESpan map_to_list 0 0 sp; ETick (plain_tick (seconds 8))] in
  (run evs).2 = [LSpan 0 0 sp; LTick (seconds 8) (seconds 8) 1; LOut 9 (Emitted [sp])] /\ length (merged_spans 9 (pending [LSpan 0 0 sp] 9)) = 1%nat.
Proof. by vm_compute. Qed.

(** C44 is false: what waits when the input is closed is gone, whatever happens later. *)
Theorem C44_close_refuted :
  exists evs l1 n0 n1 s l2, Forall valid_event evs /\ run evs = (None, l1 ++ LSpan n0 n1 s :: l2) /\
  s_trace s <> 0 /\ s_id s <> 0 /\ ~ blacklisted l1 (s_trace s) /\
  forall more, run (evs ++ more) = run evs /\ forall o, LOut (s_trace s) o ∉ (run (evs ++ more)).2.
Proof. exact close_loses. Qed.
Print Assumptions C44_close_refuted.

(** C44, guarded: nothing is lost if no trace waits when the input is closed; for instance if a tick at which every
    trace was idle for 8 s came before (C44_quiet). *)
Theorem C44_guarded :
  forall evs st log l1 n0 n1 s l2, Forall valid_event evs -> run evs = (Some st, log) -> f_traces st = ∅ ->
  (run (evs ++ [EClose])).2 = l1 ++ LSpan n0 n1 s :: l2 ->
  s_trace s <> 0 -> s_id s <> 0 -> ~ blacklisted l1 (s_trace s) -> exists o, LOut (s_trace s) o ∈ l2 /\ o <> Stuck.
Proof. exact close_guarded. Qed.
Print Assumptions C44_guarded.

Theorem C44_quiet :
  forall evs k st0 log0, Forall valid_event evs -> valid_tick k -> run evs = (Some st0, log0) ->
  (forall t, touched (pending log0 t) <= k_now1 k - seconds 8) ->
  exists st log, run (evs ++ [ETick k]) = (Some st, log) /\ f_traces st = ∅.
Proof. exact quiet_tick_empties. Qed.
Print Assumptions C44_quiet.

Example C44_instance :
  let sp := Span 5 0 9 [] [] 1600000000000000000 10 ∅ (Timings 0 0 0 0) in
  let evs := [ESpan map_to_list 0 0 sp; ETick (plain_tick (seconds 8)); EClose] in
  run evs = (None, [LSpan 0 0 sp; LTick (seconds 8) (seconds 8) 1; LOut 9 (Emitted [sp]); LClose]).
Proof. by vm_compute. Qed.

(** C45: with the same state and clock, any two orders of iteration give the same outcomes in some order (overload
    aside), and the same traces stay unless there is overload. *)
Theorem C45_order_free :
  forall evs k k' st0 log0, Forall valid_event evs -> valid_tick k -> valid_tick k' -> k_now1 k = k_now1 k' -> k_now2 k = k_now2 k' ->
  run evs = (Some st0, log0) ->
  exists st1 st2 log1 log2 load, finish_traces k st0 = (st1, LTick (k_now1 k) (k_now2 k) load :: log1) /\
    finish_traces k' st0 = (st2, LTick (k_now1 k) (k_now2 k) load :: log2) /\
    List.filter finished log1 ≡ₚ List.filter finished log2 /\ (load <= 100000 -> f_traces st1 = f_traces st2).
Proof. exact order_free. Qed.
Print Assumptions C45_order_free.

Example C45_instance :
  let sp id t := Span id 0 t [] [] 1600000000000000000 10 ∅ (Timings 0 0 0 0) in
  let evs := [ESpan map_to_list 0 0 (sp 5 9); ESpan map_to_list 0 0 (sp 6 8)] in
  let k := plain_tick (seconds 8) in
  let k' := Tick (seconds 8) (seconds 8) (fun _ => 0) map_to_list (fun _ m => rev (map_to_list m)) elements (k_sort k) in
  valid_tick k' /\
  List.filter finished (run (evs ++ [ETick k])).2 = [LOut 8 (Emitted [sp 6 8]); LOut 9 (Emitted [sp 5 9])] /\
  List.filter finished (run (evs ++ [ETick k'])).2 = [LOut 9 (Emitted [sp 5 9]); LOut 8 (Emitted [sp 6 8])].
Proof.
  split; [|by vm_compute]. destruct (plain_valid 0) as (H1 & H2 & H3 & H4). split; [done|]. split; [|split; [done|exact H4]].
  intros i m. cbn. symmetry. apply Permutation_rev.
Qed.
