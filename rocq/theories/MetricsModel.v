(** Model of the metrics that correct.go reports. *)
From Verif Require Import Base SpanModel TreeModel FinishModel.

(** correct.go:26-37: the meters; in comments their names in the registry (correct.go:40-50). *)
Inductive meter :=
  | MMerged        (* spans.merged *)
  | MSpansLost     (* spans.discarded *)
  | MCorrected     (* traces.corrected *)
  | MFinished      (* traces.finished *)
  | MNoRoot        (* traces.noroot *)
  | MTooLarge      (* traces.toolarge *)
  | MTooOld        (* traces.tooold *)
  | MTracesLost    (* traces.discarded *)
  | MBlacklisted.  (* blacklist.span.received *)
Global Instance meter_eq_dec : EqDecision meter.
Proof. solve_decision. Defined.

(** Calls to the metrics library: [Mark] of a meter, [Update] of the histogram traces.finishedsize and of the gauges
    traces.partial.span.count and traces.partial.count. *)
Inductive mop := Mark (m : meter) (n : Z) | Size (n : Z) | Spans (n : Z) | Traces (n : Z).

(** correct.go:81-97 [AddSpan], 548. *)
Definition add_ops (new : span) (t : tree) : list mop :=
  match get_span_ref (s_id new) (t_spans t) with None => [] | Some _ => [Mark MMerged 1] end.

(** correct.go:169-192. *)
Definition receive_ops (s : span) (st : fstate) : list mop :=
  if (s_trace s =? 0) || (s_id s =? 0) then []
  else if bool_decide (s_trace s ∈ f_black st) then [Mark MBlacklisted 1]
  else add_ops s (match f_traces st !! s_trace s with Some t => t | None => new_tree 0 (s_trace s) end).

(** correct.go:258-262. *)
Definition find_roots_ops (t : tree) : list mop :=
  match omap (fun i => t_spans t !! i) (roots (t_spans t)) with
  | s0 :: (s1 :: rest) =>
      if all_the_same_parent s0 (s1 :: rest) then add_ops (create_fake_root s0 (s1 :: rest)) t else []
  | _ => []
  end.

(** correct.go:226-285, one trace of the loop. *)
Definition finish_one_ops (k : tick) (deadlineUpdate deadlineStarted : Z) (p : Z * tree) : list mop :=
  let '(id, t) := p in
  let traceTooLarge := too_large t in
  let updatedRecently := deadlineUpdate <? t_updated t in
  let traceTooOld := t_started t <? deadlineStarted in
  if negb traceTooLarge && negb traceTooOld && updatedRecently then []
  else
    Size (t_count t) ::
    (if traceTooLarge then [Mark MTooLarge 1]
     else if traceTooOld then [Mark MTooOld 1]
     else
       find_roots_ops t ++
       match (find_roots (k_ord k) (k_fake k id) t).2 with
       | [_] => [Mark MCorrected 1; Mark MFinished 1]
       | _ => [Mark MNoRoot 1]
       end).

(** correct.go:413-427: [discardSpanCount]. *)
Fixpoint discard_count (l : list (Z * tree)) (spanCount discardSpanCount : Z) : Z :=
  match l with
  | [] => discardSpanCount
  | (_, t) :: l' =>
      if spanCount <? maxSpans then discardSpanCount
      else discard_count l' (spanCount - t_count t) (discardSpanCount + t_count t)
  end.

(** correct.go:387-433. *)
Definition discard_ops (k : tick) (traces : gmap Z tree) : list mop :=
  let l := k_range k 2 traces in
  let spanCount := foldl (fun n p => n + t_count p.2) 0 l in
  if spanCount <? maxSpans then []
  else let n := discard_count (k_sort k l) spanCount 0 in [Mark MSpansLost n; Mark MTracesLost n].

(** correct.go:200-306; the loop looks at each trace of the map once. *)
Definition finish_traces_ops (k : tick) (st : fstate) : list mop :=
  let spanCount := count_spans (k_range k 0 (f_traces st)) in
  let bufferTime := buffer_time spanCount in
  let deadlineUpdate := k_now1 k - bufferTime in
  let deadlineStarted := k_now2 k - 5 * bufferTime in
  let loop := k_range k 1 (f_traces st) in
  let '(st', _) := foldl (finish_one k deadlineUpdate deadlineStarted) (st, []) loop in
  concat (map (finish_one_ops k deadlineUpdate deadlineStarted) loop) ++
  [Spans spanCount; Traces (Z.of_nat (size (f_traces st')))] ++
  (if maxSpans <? spanCount then discard_ops k (f_traces st') else []).

Definition step_ops (st : option fstate) (e : event) : list mop :=
  match st with
  | None => []
  | Some st =>
      match e with
      | ESpan _ _ _ s => receive_ops s st
      | ETick k => finish_traces_ops k st
      | EClose => []
      end
  end.

(** The calls of a run. *)
Definition run_ops (evs : list event) : list mop :=
  (foldl (fun acc e => ((step acc.1 e).1, acc.2 ++ step_ops acc.1 e)) (Some initial, []) evs).2.
