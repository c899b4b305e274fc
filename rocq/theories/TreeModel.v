(** Model of correct.go: the spans of one trace, merging, root candidates and timing correction. *)
From Verif Require Import Base IdModel SpanModel.

(* ---------- sort.Search ---------- *)

(** Go's [sort.Search]: [i, j := 0, n; for i < j { h := (i+j)/2; if !f(h) { i = h+1 } else { j = h } }; return i].
    [k] bounds the number of rounds; with [k >= j - i] it is never reached ([TreeProofs.search_loop_go] shows that
    the loop equation holds). *)
Fixpoint search_loop (k : nat) (f : nat -> bool) (i j : nat) : nat :=
  match k with
  | O => i
  | S k' =>
      if (i <? j)%nat then
        let h := ((i + j) / 2)%nat in
        if f h then search_loop k' f i h else search_loop k' f (S h) j
      else i
  end.
Definition search (n : nat) (f : nat -> bool) : nat := search_loop n f 0 n.

(* ---------- spans of a trace ---------- *)

(** correct.go:553-563 [SpanSlice.GetSpanRef]: the index of the span, if found. *)
Definition id_at (spans : list span) (i : nat) : Z := nth i (map s_id spans) 0.
Definition position (id : Z) (spans : list span) : nat := search (length spans) (fun i => id_at spans i <=? id).
Definition get_span_ref (id : Z) (spans : list span) : option nat :=
  let idx := position id spans in
  if (idx <? length spans)%nat && (id_at spans idx =? id) then Some idx else None.

(** correct.go:565-573 [SpanSlice.Append]: the spans from the position on move one place up. *)
Definition append_span (s : span) (spans : list span) : list span :=
  let idx := position (s_id s) spans in take idx spans ++ s :: drop idx spans.

(** correct.go:504-506: [AddTag] for all entries of a map, in the order of the list. *)
Definition add_tags (entries : list (gostring * gostring)) (s : span) : span :=
  foldl (fun s kv => add_tag kv.1 kv.2 s) s entries.

(** correct.go:490-549 [mergeSpansInPlace]; [ord] is the iteration order of Go's maps (a permutation of the
    entries; [TreeProofs.add_tags_order] shows that it does not matter). *)
Definition merge_spans (ord : gmap gostring gostring -> list (gostring * gostring)) (s new : span) : span :=
  if ts_valid (tSR (s_timings new)) || ts_valid (tSS (s_timings new)) then
    let s := if decide (s_service new = []) then s else set_service (s_service new) s in
    let s := if decide (s_name new = []) then s else set_name (s_name new) s in
    let s := add_tags (ord (s_tags new)) s in
    let s := if ts_valid (tSR (s_timings new)) then set_timings (set_sr (tSR (s_timings new)) (s_timings s)) s else s in
    let s := if ts_valid (tSS (s_timings new)) then set_timings (set_ss (tSS (s_timings new)) (s_timings s)) s else s in
    s
  else
    let s := if decide (s_service s = []) then set_service (s_service new) s else s in
    let s := if decide (s_name s = []) then set_name (s_name new) s else s in
    let client_tags := s_tags s in
    let s := set_tags ∅ s in
    let s := add_tags (ord (s_tags new)) s in
    let s := add_tags (ord client_tags) s in
    let s := if ts_valid (tCS (s_timings new)) then set_timings (set_cs (tCS (s_timings new)) (s_timings s)) s else s in
    let s := if ts_valid (tCR (s_timings new)) then set_timings (set_cr (tCR (s_timings new)) (s_timings s)) s else s in
    s.

(** correct.go:58-66 [tree]. *)
Record tree := Tree { t_id : Z; t_spans : list span; t_started : Z; t_updated : Z; t_count : Z }.

(** correct.go:68-75 [newTree]; [now] is the clock. *)
Definition new_tree (now traceId : Z) : tree := Tree traceId [] now now 0.

(** correct.go:81-97 [tree.AddSpan]. *)
Definition add_span (ord : gmap gostring gostring -> list (gostring * gostring)) (now : Z) (new : span) (t : tree) : tree :=
  match get_span_ref (s_id new) (t_spans t) with
  | None => Tree (t_id t) (append_span new (t_spans t)) (t_started t) now (u16 (t_count t + 1))
  | Some i =>
      let upd s := merge_spans ord (if id_is_unknown (s_parent s) then set_parent (s_parent new) s else s) new in
      Tree (t_id t) (alter upd i (t_spans t)) (t_started t) now (t_count t)
  end.

(** Indices of the elements that satisfy a test, in order. *)
Definition indices (test : span -> bool) (spans : list span) : list nat :=
  map fst (List.filter (fun p => test p.2) (imap pair spans)).

(** correct.go:119-130 [tree.ChildrenOf]. *)
Definition children_of (id : Z) (spans : list span) : list nat :=
  indices (fun s => (s_parent s =? id) && negb (is_root s)) spans.

(** correct.go:132-156 [tree.Roots]. *)
Definition roots (spans : list span) : list nat :=
  let by_id : gset Z := list_to_set (map s_id spans) in
  indices (fun s => is_root s || negb (bool_decide (s_parent s ∈ by_id))) spans.

(* ---------- fake roots ---------- *)

(** correct.go:308-330 [createFakeRoot]; the list is not empty. *)
Definition create_fake_root (s0 : span) (rest : list span) : span :=
  let '(first, last) :=
    foldl (fun acc s =>
      let first := if s_ts s <? acc.1 then s_ts s else acc.1 in
      let e := ts_add (s_ts s) (s_dur s) in
      let last := if acc.2 <? e then e else acc.2 in
      (first, last)) (s_ts s0, ts_add (s_ts s0) (s_dur s0)) rest in
  let root := new_root_span (str "fake-root") (s_trace s0) (s_parent s0) in
  let root := set_service (str "fake-root") root in
  let root := set_ts first root in
  set_dur (wrap64 (last - first)) root.

(** correct.go:332-340 [allTheSameParent]. *)
Definition all_the_same_parent (s0 : span) (rest : list span) : bool :=
  forallb (fun s => s_parent s0 =? s_parent s) (s0 :: rest).

(** correct.go:258-262: the root candidates, after adding a fake root if there are several with the same parent. *)
Definition find_roots (ord : gmap gostring gostring -> list (gostring * gostring)) (now : Z) (t : tree) : tree * list nat :=
  let rs := roots (t_spans t) in
  match omap (fun i => t_spans t !! i) rs with
  | s0 :: (s1 :: rest) =>
      if all_the_same_parent s0 (s1 :: rest)
      then let t' := add_span ord now (create_fake_root s0 (s1 :: rest)) t in (t', roots (t_spans t'))
      else (t, rs)
  | _ => (t, rs)
  end.

(* ---------- timing correction ---------- *)

(** correct.go:455. *)
Definition has_timings (s : span) : bool :=
  negb (tCR (s_timings s) =? 0) && negb (tCS (s_timings s) =? 0) && negb (tSR (s_timings s) =? 0) && negb (tSS (s_timings s) =? 0).
(** correct.go:457. *)
Definition screw (t : timings) : Z :=
  wrap64 (Z.quot (wrap64 (tCR t + tCS t)) 2 - Z.quot (wrap64 (tSR t + tSS t)) 2).
(** correct.go:476. *)
Definition year2020 : Z := 1577836800000.

(** correct.go:435-483: the changes to one node; also the offset for the children. *)
Definition correct_node (node : span) (parent : option span) (offset : Z) : span * Z :=
  let node := if offset =? 0 then node else set_ts (wrap64 (s_ts node + offset)) node in
  let t := s_timings node in
  let '(node, offset) :=
    if has_timings node then
      (set_dur (wrap64 (tCR t - tCS t)) (set_ts (wrap64 (tCS t + offset)) node), wrap64 (offset + screw t))
    else (node, offset) in
  let node :=
    match parent with
    | Some p => if to_millis (s_ts node) <? year2020 then set_ts (s_ts p) node else node
    | None => node
    end in
  (node, offset).

(** correct.go:435-488 [correctTreeTimings] on the memory [mem] of the spans; pointers are indices.  The second
    component is a record of the visited indices (not in the program).  [None]: recursion deeper than [fuel]. *)
Fixpoint correct (fuel : nat) (mem : list span) (node : nat) (parent : option nat) (offset : Z) : option (list span * list nat) :=
  match fuel with
  | O => None
  | S fuel' =>
      match mem !! node with
      | None => None
      | Some s =>
          let '(s', offset') := correct_node s (parent ≫= fun p => mem !! p) offset in
          let mem := <[node := s']> mem in
          (fix go (children : list nat) (mem : list span) (seen : list nat) : option (list span * list nat) :=
             match children with
             | [] => Some (mem, seen)
             | c :: cs =>
                 match correct fuel' mem c (Some node) offset' with
                 | Some (mem', seen') => go cs mem' (seen ++ seen')
                 | None => None
                 end
             end) (children_of (s_id s') mem) mem [node]
      end
  end.
