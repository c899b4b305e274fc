(** Property C95: the meters add up. *)
From Verif Require Import Base SpanModel TreeModel FinishModel FinishSpec FinishWitness MetricsModel MetricsSpec AccountSpec AccountProofs.

(** C95: every span that was received with its two ids is in exactly one of five places: refused (blacklist.span.received),
    merged into another (spans.merged), in the size of a trace that left (traces.finishedsize), lost to overload
    (spans.discarded), or waiting. *)
Theorem C95_spans :
  forall evs ts, Forall valid_event evs -> let log := (run evs).2 in countable log -> waiting log ts ->
  addup (collect proper log) = marks MBlacklisted (run_ops evs) + marks MMerged (run_ops evs) + addup (size_updates (run_ops evs)) + marks MSpansLost (run_ops evs) +
    sum (fun t => counted t (pending log t)) ts.
Proof. exact spans_accounted. Qed.
Print Assumptions C95_spans.

(** C95: every trace that was begun is emitted, without root, too large, too old, lost to overload, or waiting. *)
Theorem C95_traces :
  forall evs ts, Forall valid_event evs -> let log := (run evs).2 in waiting log ts ->
  addup (collect opened log) = marks MFinished (run_ops evs) + marks MNoRoot (run_ops evs) + marks MTooLarge (run_ops evs) + marks MTooOld (run_ops evs) + lost log + Z.of_nat (length ts).
Proof. exact traces_accounted. Qed.
Print Assumptions C95_traces.

(** C95: with 65536 spans in one trace, as many spans are missing in the books. *)
Theorem C95_overflow_refuted :
  exists evs ts, Forall valid_event evs /\ let log := (run evs).2 in waiting log ts /\
  addup (collect proper log) = 2^16 + (marks MBlacklisted (run_ops evs) + marks MMerged (run_ops evs) + addup (size_updates (run_ops evs)) + marks MSpansLost (run_ops evs) +
    sum (fun t => counted t (pending log t)) ts).
Proof. exact overflown. Qed.
Print Assumptions C95_overflow_refuted.

(** The run of C62: 14 spans with ids (one more has none); 1 refused, 1 merged, 11 left, 1 waits.  5 traces begun; 2 left
    emitted, one without root, one too old, 1 waits. *)
Example C95_instance :
  let y := 1600000000000000000 in
  let sp id parent t := Span id parent t [] [] y 10 ∅ (Timings 0 0 0 0) in
  let at_ n s := ESpan map_to_list (seconds n) (seconds n) s in
  let evs := [at_ 0 (sp 5 0 9); at_ 1 (sp 4 5 9); at_ 2 (sp 3 8 7); at_ 2 (sp 2 1 7); at_ 2 (sp 0 1 7); at_ 2 (sp 1 1 6); ETick (plain_tick (seconds 3));
              at_ 9 (sp 2 1 6); ETick (plain_tick (seconds 12)); at_ 12 (sp 4 5 9); ETick (plain_tick (seconds 16));
              at_ 19 (sp 3 1 6); at_ 26 (sp 4 1 6); at_ 33 (sp 5 1 6); at_ 40 (sp 6 1 6); at_ 42 (sp 4 3 8); at_ 42 (sp 4 3 8);
              ETick (plain_tick (seconds 43)); at_ 44 (sp 7 1 6)] in
  let log := (run evs).2 in
  Forall valid_event evs /\ countable log /\ waiting log [8] /\ addup (collect proper log) = 14 /\
  (marks MBlacklisted (run_ops evs), marks MMerged (run_ops evs), size_updates (run_ops evs), marks MSpansLost (run_ops evs)) = (1, 1, [2; 2; 6; 1], 0) /\
  counted 8 (pending log 8) = 1 /\ addup (collect opened log) = 5 /\
  map (fun m => marks m (run_ops evs)) [MFinished; MNoRoot; MTooLarge; MTooOld] = [2; 1; 0; 1] /\ lost log = 0.
Proof.
  intros y sp at_ evs log.
  assert (Hv : Forall valid_event evs) by (repeat constructor; first [apply plain_valid | apply map_order_list | by vm_compute]).
  split; [done|]. split; [by apply countable_short; vm_compute|]. split; [|by vm_compute].
  destruct (run evs).1 as [st|] eqn:E; [|by vm_compute in E]. pose proof (waiting_state evs st Hv E) as H.
  assert (Ek : map_to_list (f_traces st) = map_to_list (default ∅ (f_traces <$> (run evs).1))) by (by rewrite E). rewrite Ek in H. exact H.
Qed.
