(** Property C62: what the metrics say. *)
From Verif Require Import Base SpanModel TreeModel FinishModel FinishSpec FinishWitness MetricsModel MetricsSpec MetricsTheorems.

(** C62: every meter but one has been marked exactly as often as what it stands for has happened. *)
Theorem C62_meters :
  forall evs m, Forall valid_event evs -> m <> MTracesLost -> marks m (run_ops evs) = addup (collect (counts m) (run evs).2).
Proof. exact meters. Qed.
Print Assumptions C62_meters.

(** C62: the histogram got the size of each trace that left, in that order; not of those lost to overload. *)
Theorem C62_sizes :
  forall evs, Forall valid_event evs -> size_updates (run_ops evs) = collect sizes (run evs).2.
Proof. exact histogram. Qed.
Print Assumptions C62_sizes.

(** C62: after a tick the gauges show the spans that waited before it (too large traces not counted) and the traces
    that wait after it, and on top those that this tick lost to overload. *)
Theorem C62_gauges :
  forall evs k st0 log0 ts ts', Forall valid_event evs -> valid_tick k -> run evs = (Some st0, log0) ->
  let log := (run (evs ++ [ETick k])).2 in waiting log0 ts -> waiting log ts' ->
  gauges (run_ops (evs ++ [ETick k])) = Some (sum (fun t => small (counted t (pending log0 t))) ts, Z.of_nat (length ts') + (lost log - lost log0)).
Proof. exact gauge_values. Qed.
Print Assumptions C62_gauges.

(** C62: the meter of the discarded traces counts their spans. *)
Theorem C62_discarded :
  forall evs, marks MTracesLost (run_ops evs) = marks MSpansLost (run_ops evs).
Proof. exact discarded_same. Qed.
Print Assumptions C62_discarded.

Theorem C62_discarded_refuted :
  exists evs, Forall valid_event evs /\ 0 < lost (run evs).2 /\ marks MTracesLost (run_ops evs) = 8192 * lost (run evs).2.
Proof. exact discarded_wrong. Qed.
Print Assumptions C62_discarded_refuted.

(** The run of C36: trace 9 is emitted twice, 7 has no root, 6 is dropped and ignored; the span 4 of trace 8 comes twice. *)
Example C62_instance :
  let y := 1600000000000000000 in
  let sp id parent t := Span id parent t [] [] y 10 ∅ (Timings 0 0 0 0) in
  let at_ n s := ESpan map_to_list (seconds n) (seconds n) s in
  let evs := [at_ 0 (sp 5 0 9); at_ 1 (sp 4 5 9); at_ 2 (sp 3 8 7); at_ 2 (sp 2 1 7); at_ 2 (sp 0 1 7); at_ 2 (sp 1 1 6); ETick (plain_tick (seconds 3));
              at_ 9 (sp 2 1 6); ETick (plain_tick (seconds 12)); at_ 12 (sp 4 5 9); ETick (plain_tick (seconds 16));
              at_ 19 (sp 3 1 6); at_ 26 (sp 4 1 6); at_ 33 (sp 5 1 6); at_ 40 (sp 6 1 6); at_ 42 (sp 4 3 8); at_ 42 (sp 4 3 8);
              ETick (plain_tick (seconds 43)); at_ 44 (sp 7 1 6)] in
  let meters := [MMerged; MSpansLost; MCorrected; MFinished; MNoRoot; MTooLarge; MTooOld; MTracesLost; MBlacklisted] in
  map (fun m => marks m (run_ops evs)) meters = [1; 0; 2; 2; 1; 0; 1; 0; 1] /\
  map (fun m => addup (collect (counts m) (run evs).2)) meters = [1; 0; 2; 2; 1; 0; 1; 0; 1] /\
  size_updates (run_ops evs) = collect sizes (run evs).2 /\ size_updates (run_ops evs) = [2; 2; 6; 1] /\
  gauges (run_ops evs) = Some (8, 1).
Proof. by vm_compute. Qed.
