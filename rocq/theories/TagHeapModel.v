(** Model of correct.go in which the tags of a span are what they are in Go: a reference to a map on the heap.
    [TreeModel] and [FinishModel] treat tags as values; C74 shows that this makes no difference. *)
From Verif Require Import Base IdModel SpanModel TreeModel FinishModel.

(** The maps; a reference is an index, maps are never freed.  proxy/span.go:7-22 [Span]: [h_bare] is the struct without
    its field [Tags] (the field of [h_bare] is not used), [h_tags] that field ([None]: nil). *)
Notation tagmap := (gmap gostring gostring).
Notation heap := (list tagmap).
Record hspan := HSpan { h_bare : span; h_tags : option nat }.

(** What reading [span.Tags], or the whole span, gives. *)
Definition tags_at (hp : heap) (r : option nat) : tagmap := match r with Some l => default ∅ (hp !! l) | None => ∅ end.
Definition deref (hp : heap) (h : hspan) : span := set_tags (tags_at hp (h_tags h)) (h_bare h).

(** proxy/span.go:51-57 [AddTag] on heap and reference; the third component records the maps written to (not in the program). *)
Definition h_add_tag (acc : heap * option nat * list nat) (kv : gostring * gostring) : heap * option nat * list nat :=
  let '(hp, r, w) := acc in
  match r with
  | None => (hp ++ [{[kv.1 := kv.2]}], Some (length hp), w ++ [length hp])
  | Some l => (alter (<[kv.1 := kv.2]>) l hp, Some l, w ++ [l])
  end.

(** correct.go:490-549 [mergeSpansInPlace]. *)
Definition h_merge (ord : tagmap -> list (gostring * gostring)) (hp : heap) (s new : hspan) : heap * hspan * list nat :=
  let b := h_bare s in
  let n := h_bare new in
  if ts_valid (tSR (s_timings n)) || ts_valid (tSS (s_timings n)) then
    let b := if decide (s_service n = []) then b else set_service (s_service n) b in
    let b := if decide (s_name n = []) then b else set_name (s_name n) b in
    let '(hp, r, w) := foldl h_add_tag (hp, h_tags s, []) (ord (tags_at hp (h_tags new))) in
    let b := if ts_valid (tSR (s_timings n)) then set_timings (set_sr (tSR (s_timings n)) (s_timings b)) b else b in
    let b := if ts_valid (tSS (s_timings n)) then set_timings (set_ss (tSS (s_timings n)) (s_timings b)) b else b in
    (hp, HSpan b r, w)
  else
    let b := if decide (s_service b = []) then set_service (s_service n) b else b in
    let b := if decide (s_name b = []) then set_name (s_name n) b else b in
    let client_tags := h_tags s in
    let acc := foldl h_add_tag (hp, None, []) (ord (tags_at hp (h_tags new))) in
    let '(hp, r, w) := foldl h_add_tag acc (ord (tags_at acc.1.1 client_tags)) in
    let b := if ts_valid (tCS (s_timings n)) then set_timings (set_cs (tCS (s_timings n)) (s_timings b)) b else b in
    let b := if ts_valid (tCR (s_timings n)) then set_timings (set_cr (tCR (s_timings n)) (s_timings b)) b else b in
    (hp, HSpan b r, w).

(** correct.go:58-66 [tree]. *)
Record htree := HTree { ht_id : Z; ht_spans : list hspan; ht_started : Z; ht_updated : Z; ht_count : Z }.
Definition deref_tree (hp : heap) (t : htree) : tree :=
  Tree (ht_id t) (map (deref hp) (ht_spans t)) (ht_started t) (ht_updated t) (ht_count t).

(** correct.go:68-75 [newTree]. *)
Definition h_new_tree (now traceId : Z) : htree := HTree traceId [] now now 0.

(** correct.go:81-97 [tree.AddSpan], 553-573: searching looks at the ids only. *)
Definition h_add_span (ord : tagmap -> list (gostring * gostring)) (now : Z) (new : hspan) (hp : heap) (t : htree) : heap * htree * list nat :=
  let l := ht_spans t in
  match get_span_ref (s_id (h_bare new)) (map h_bare l) with
  | None =>
      let idx := position (s_id (h_bare new)) (map h_bare l) in
      (hp, HTree (ht_id t) (take idx l ++ new :: drop idx l) (ht_started t) now (u16 (ht_count t + 1)), [])
  | Some i =>
      match l !! i with
      | None => (hp, t, [])  (* does not happen: [i] is an index of [l] *)
      | Some s =>
          let s := HSpan (if id_is_unknown (s_parent (h_bare s)) then set_parent (s_parent (h_bare new)) (h_bare s) else h_bare s) (h_tags s) in
          let '(hp, s, w) := h_merge ord hp s new in
          (hp, HTree (ht_id t) (<[i := s]> l) (ht_started t) now (ht_count t), w)
      end
  end.

(** correct.go:258-262, 308-340: the fake root has no tags (nil). *)
Definition h_find_roots (ord : tagmap -> list (gostring * gostring)) (now : Z) (hp : heap) (t : htree) : heap * htree * list nat * list nat :=
  let rs := roots (map h_bare (ht_spans t)) in
  match omap (fun i => map h_bare (ht_spans t) !! i) rs with
  | s0 :: (s1 :: rest) =>
      if all_the_same_parent s0 (s1 :: rest)
      then let '(hp, t, w) := h_add_span ord now (HSpan (create_fake_root s0 (s1 :: rest)) None) hp t in (hp, t, w, roots (map h_bare (ht_spans t)))
      else (hp, t, [], rs)
  | _ => (hp, t, [], rs)
  end.

(** The record: maps written to, traces sent, and the other entries of [FinishModel]. *)
Inductive hentry :=
  | HWrite (l : nat)
  | HSent (t : Z) (spans : list hspan)
  | HOther (e : entry).

(** correct.go:226-285, one trace of the loop.  correctTreeTimings (435-488) does not look at tags. *)
Definition h_finish_one (k : tick) (deadlineUpdate deadlineStarted : Z) (acc : gmap Z htree * gset Z * heap * list hentry) (p : Z * htree)
    : gmap Z htree * gset Z * heap * list hentry :=
  let '(traces, black, hp, log) := acc in
  let '(id, t) := p in
  let traceTooLarge := 8 * 1024 <? ht_count t in
  let updatedRecently := deadlineUpdate <? ht_updated t in
  let traceTooOld := ht_started t <? deadlineStarted in
  if negb traceTooLarge && negb traceTooOld && updatedRecently then acc
  else
    let traces := delete id traces in
    if traceTooLarge then (traces, {[id]} ∪ black, hp, log ++ [HOther (LOut id TooLarge)])
    else if traceTooOld then (traces, {[id]} ∪ black, hp, log ++ [HOther (LOut id TooOld)])
    else
      let '(hp, t, w, roots) := h_find_roots (k_ord k) (k_fake k id) hp t in
      let log := log ++ map HWrite w in
      match roots with
      | [r] =>
          match correct (length (ht_spans t)) (map h_bare (ht_spans t)) r None 0 with
          | Some (spans, _) => (traces, black, hp, log ++ [HSent id (zip_with HSpan spans (map h_tags (ht_spans t)))])
          | None => (traces, black, hp, log ++ [HOther (LOut id Stuck)])
          end
      | _ => (traces, black, hp, log ++ [HOther (LOut id NoRoot)])
      end.

(** correct.go:200-306 [finishTraces].  The counting (201-219), [discardSuspiciousTraces] (387-433) and the blacklist (299-305)
    look at ids and counters of the trees only, so the functions of [FinishModel] are used on what the heap says. *)
Definition h_finish_traces (k : tick) (traces : gmap Z htree) (black : gset Z) (hp : heap) : gmap Z htree * gset Z * heap * list hentry :=
  let seen := deref_tree hp <$> traces in
  let spanCount := count_spans (k_range k 0 seen) in
  let bufferTime := buffer_time spanCount in
  let deadlineUpdate := k_now1 k - bufferTime in
  let deadlineStarted := k_now2 k - 5 * bufferTime in
  let range := omap (fun p => (fun t => (p.1, t)) <$> traces !! p.1) (k_range k 1 seen) in
  let '(traces, black, hp, log) := foldl (h_finish_one k deadlineUpdate deadlineStarted) (traces, black, hp, [HOther (LTick (k_now1 k) (k_now2 k) spanCount)]) range in
  let '(kept, logd) := if maxSpans <? spanCount then discard k (deref_tree hp <$> traces) else (deref_tree hp <$> traces, []) in
  let '(black', loge) := evict (k_range_black k black) black [] in
  (filter (fun p => is_Some (kept !! p.1)) traces, black', hp, log ++ map HOther (logd ++ loge)).

(** correct.go:158-198.  A span arrives with a map of its own (the decoders and [AddTag] make a new one for each span); without
    tags it may also be nil ([nomap]). *)
Inductive hevent :=
  | HESpan (nomap : bool) (ord : tagmap -> list (gostring * gostring)) (n0 n1 : Z) (s : span)
  | HETick (k : tick)
  | HEClose.

Record hstate := HState { h_live : option (gmap Z htree * gset Z); h_heap : heap }.

Definition h_receive (ord : tagmap -> list (gostring * gostring)) (n0 n1 : Z) (s : hspan) (traces : gmap Z htree) (black : gset Z) (hp : heap)
    : gmap Z htree * heap * list nat :=
  let id := s_trace (h_bare s) in
  if (id =? 0) || (s_id (h_bare s) =? 0) then (traces, hp, [])
  else if bool_decide (id ∈ black) then (traces, hp, [])
  else
    let t := match traces !! id with Some t => t | None => h_new_tree n0 id end in
    let '(hp, t, w) := h_add_span ord n1 s hp t in
    (<[id := t]> traces, hp, w).

Definition hstep (st : hstate) (e : hevent) : hstate * list hentry :=
  match h_live st with
  | None => (st, [])
  | Some (traces, black) =>
      match e with
      | HESpan nomap ord n0 n1 s =>
          let '(hp, r) := if nomap && bool_decide (s_tags s = ∅) then (h_heap st, None) else (h_heap st ++ [s_tags s], Some (length (h_heap st))) in
          let '(traces, hp, w) := h_receive ord n0 n1 (HSpan s r) traces black hp in
          (HState (Some (traces, black)) hp, HOther (LSpan n0 n1 s) :: map HWrite w)
      | HETick k =>
          let '(traces, black, hp, log) := h_finish_traces k traces black (h_heap st) in
          (HState (Some (traces, black)) hp, log)
      | HEClose => (HState None (h_heap st), [HOther LClose])
      end
  end.

Definition hinitial : hstate := HState (Some (∅, ∅)) [].
Definition hrun (evs : list hevent) : hstate * list hentry :=
  foldl (fun acc e => let '(st, log) := hstep acc.1 e in (st, acc.2 ++ log)) (hinitial, []) evs.
