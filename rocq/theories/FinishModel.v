(** Model of correct.go: buffering spans by trace and finishing traces ([ErrorCorrectSpans], [finishTraces]). *)
From Verif Require Import Base IdModel SpanModel TreeModel.

(** correct.go:159, 165: the two maps. *)
Record fstate := FState { f_traces : gmap Z tree; f_black : gset Z }.

(** What happened to a trace that left the buffer.  [Stuck] (recursion deeper than the number of spans) does not
    exist in the program; it never occurs ([FinishProofs]). *)
Inductive outcome :=
  | Emitted (spans : list span)   (* sent to the output channel, correct.go:282 *)
  | TooLarge | TooOld             (* correct.go:239-255 *)
  | NoRoot                        (* correct.go:268-275 *)
  | Overload                      (* correct.go:422-423 *)
  | Stuck.

(** A record of the run.  Only [LSpan] (input) and [LOut _ (Emitted _)] (output) are visible outside; the others are
    ghost entries (some are visible as metrics). *)
Inductive entry :=
  | LSpan (created added : Z) (s : span)  (* received; the clock in [newTree] (if called) and in [AddSpan] *)
  | LTick (now1 now2 load : Z)            (* [finishTraces] called; its clock readings and span count *)
  | LOut (t : Z) (o : outcome)
  | LEvict (t : Z)                        (* removed from the blacklist, correct.go:304 *)
  | LClose.

(** correct.go:169-192, one received span.  [n0], [n1]: clock readings of [newTree] and [AddSpan]. *)
Definition receive (ord : gmap gostring gostring -> list (gostring * gostring)) (n0 n1 : Z) (s : span) (st : fstate) : fstate :=
  if (s_trace s =? 0) || (s_id s =? 0) then st
  else if bool_decide (s_trace s ∈ f_black st) then st
  else
    let t := match f_traces st !! s_trace s with Some t => t | None => new_tree n0 (s_trace s) end in
    FState (<[s_trace s := add_span ord n1 s t]> (f_traces st)) (f_black st).

(** What the run-time system contributes to one call of [finishTraces]: the two clock readings, the clock readings of
    [AddSpan] for fake roots, the orders of map iteration (of tags; of traces: correct.go:204, 226, 396; of the
    blacklist: correct.go:299) and the result of the unstable [sort.Slice]. *)
Record tick := Tick {
  k_now1 : Z; k_now2 : Z; k_fake : Z -> Z;
  k_ord : gmap gostring gostring -> list (gostring * gostring);
  k_range : nat -> gmap Z tree -> list (Z * tree);
  k_range_black : gset Z -> list Z;
  k_sort : list (Z * tree) -> list (Z * tree) }.

(** correct.go:14-24 (nanoseconds). *)
Definition maxSpans : Z := 100000.
Definition bufferConfigs : list (Z * Z) := [(0, 8000000000); (40000, 6000000000); (60000, 4000000000); (80000, 2000000000)].

(** correct.go:206, 227. *)
Definition too_large (t : tree) : bool := 8 * 1024 <? t_count t.

(** correct.go:201-211.  [int] does not overflow: it would need 2^50 traces. *)
Definition count_spans (l : list (Z * tree)) : Z :=
  foldl (fun n p => if too_large p.2 then n else n + t_count p.2) 0 l.

(** correct.go:214-219. *)
Definition buffer_time (spanCount : Z) : Z :=
  foldl (fun bt c => if c.1 <=? spanCount then c.2 else bt) 0 bufferConfigs.

(** correct.go:226-285, one trace of the loop. *)
Definition finish_one (k : tick) (deadlineUpdate deadlineStarted : Z) (acc : fstate * list entry) (p : Z * tree) : fstate * list entry :=
  let '(st, log) := acc in
  let '(id, t) := p in
  let traceTooLarge := too_large t in
  let updatedRecently := deadlineUpdate <? t_updated t in
  let traceTooOld := t_started t <? deadlineStarted in
  if negb traceTooLarge && negb traceTooOld && updatedRecently then acc
  else
    let traces := delete id (f_traces st) in
    if traceTooLarge then (FState traces ({[id]} ∪ f_black st), log ++ [LOut id TooLarge])
    else if traceTooOld then (FState traces ({[id]} ∪ f_black st), log ++ [LOut id TooOld])
    else
      let '(t, roots) := find_roots (k_ord k) (k_fake k id) t in
      match roots with
      | [r] =>
          match correct (length (t_spans t)) (t_spans t) r None 0 with
          | Some (spans, _) => (FState traces (f_black st), log ++ [LOut id (Emitted spans)])
          | None => (FState traces (f_black st), log ++ [LOut id Stuck])
          end
      | _ => (FState traces (f_black st), log ++ [LOut id NoRoot])
      end.

(** correct.go:417-427. *)
Fixpoint discard_loop (l : list (Z * tree)) (spanCount : Z) (traces : gmap Z tree) (log : list entry) : gmap Z tree * list entry :=
  match l with
  | [] => (traces, log)
  | (id, t) :: l' =>
      if spanCount <? maxSpans then (traces, log)
      else discard_loop l' (spanCount - t_count t) (delete id traces) (log ++ [LOut id Overload])
  end.

(** correct.go:387-433 [discardSuspiciousTraces]. *)
Definition discard (k : tick) (traces : gmap Z tree) : gmap Z tree * list entry :=
  let l := k_range k 2 traces in
  let spanCount := foldl (fun n p => n + t_count p.2) 0 l in
  if spanCount <? maxSpans then (traces, [])
  else discard_loop (k_sort k l) spanCount traces [].

(** correct.go:299-305. *)
Fixpoint evict (l : list Z) (black : gset Z) (log : list entry) : gset Z * list entry :=
  match l with
  | [] => (black, log)
  | id :: l' => if Z.of_nat (size black) <? 1024 then (black, log) else evict l' (black ∖ {[id]}) (log ++ [LEvict id])
  end.

(** correct.go:200-306 [finishTraces]; metrics and logging left out. *)
Definition finish_traces (k : tick) (st : fstate) : fstate * list entry :=
  let spanCount := count_spans (k_range k 0 (f_traces st)) in
  let bufferTime := buffer_time spanCount in
  let deadlineUpdate := k_now1 k - bufferTime in
  let deadlineStarted := k_now2 k - 5 * bufferTime in
  let '(st, log) := foldl (finish_one k deadlineUpdate deadlineStarted) (st, [LTick (k_now1 k) (k_now2 k) spanCount]) (k_range k 1 (f_traces st)) in
  let '(traces, logd) := if maxSpans <? spanCount then discard k (f_traces st) else (f_traces st, []) in
  let '(black, loge) := evict (k_range_black k (f_black st)) (f_black st) [] in
  (FState traces black, log ++ logd ++ loge).

(** correct.go:158-198 [ErrorCorrectSpans]: one round of its loop; [None]: returned. *)
Inductive event :=
  | ESpan (ord : gmap gostring gostring -> list (gostring * gostring)) (n0 n1 : Z) (s : span)
  | ETick (k : tick)
  | EClose.

Definition step (st : option fstate) (e : event) : option fstate * list entry :=
  match st with
  | None => (None, [])
  | Some st =>
      match e with
      | ESpan ord n0 n1 s => (Some (receive ord n0 n1 s st), [LSpan n0 n1 s])
      | ETick k => let '(st, log) := finish_traces k st in (Some st, log)
      | EClose => (None, [LClose])
      end
  end.

Definition initial : fstate := FState ∅ ∅.
Definition run (evs : list event) : option fstate * list entry :=
  foldl (fun acc e => let '(st, log) := step acc.1 e in (st, acc.2 ++ log)) (Some initial, []) evs.
