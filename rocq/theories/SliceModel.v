(** Model of correct.go with the spans in memory: arrays, slices with length and capacity, pointers to elements.
    The decisions are those of [FinishModel]; here it is followed which memory they read and write. *)
From Verif Require Import Base IdModel SpanModel TreeModel FinishModel.

(** Arrays of spans; the length of an array is the capacity of the slices of it.  Arrays are not freed. *)
Notation memory := (list (list span)).
(** A slice that starts at the start of its array: array and length; [None]: the nil slice. *)
Notation slice := (option (nat * nat)).
(** A [*proxy.Span]: an element of an array. *)
Notation pointer := (nat * nat)%type.

(** [proxy.Span{}]. *)
Definition zero_span : span := Span 0 0 0 [] [] 0 0 ∅ (Timings 0 0 0 0).

(** What the elements of a slice are. *)
Definition cells (mem : memory) (sl : slice) : list span :=
  match sl with None => [] | Some (a, n) => take n (mem !!! a) end.
(** Reading and writing through a pointer; [None]: there is no such element. *)
Definition load (mem : memory) (p : pointer) : option span := arr ← mem !! p.1; arr !! p.2.
Definition store (mem : memory) (p : pointer) (s : span) : option memory :=
  _ ← load mem p; Some (alter (fun arr => <[p.2 := s]> arr) p.1 mem).

(** Go's [append(spans, proxy.Span{})]: in place if the capacity suffices, otherwise into a new array with room for
    [extra] more elements. *)
Definition go_append (extra : nat) (mem : memory) (sl : slice) : option (memory * (nat * nat)) :=
  let move := (mem ++ [cells mem sl ++ replicate (S extra) zero_span], (length mem, S (length (cells mem sl)))) in
  match sl with
  | None => Some move
  | Some (a, n) =>
      arr ← mem !! a;
      if (n <? length arr)%nat then Some (alter (fun arr => <[n := zero_span]> arr) a mem, (a, S n)) else Some move
  end.
(** Go's [copy(spans[idx+1:], spans[idx:])] for a slice of length [n]; [None]: slice bounds out of range. *)
Definition go_copy (mem : memory) (a n idx : nat) : option memory :=
  arr ← mem !! a;
  if (S idx <=? n)%nat && (n <=? length arr)%nat then
    Some (alter (fun arr => take (S idx) arr ++ take (n - S idx) (drop idx arr) ++ drop n arr) a mem)
  else None.

(** correct.go:565-573 [SpanSlice.Append]. *)
Definition slice_append (extra : nat) (mem : memory) (sl : slice) (s : span) : option (memory * slice) :=
  let idx := position (s_id s) (cells mem sl) in
  '(mem, (a, n)) ← go_append extra mem sl;
  mem ← go_copy mem a n idx;
  mem ← store mem (a, idx) s;
  Some (mem, Some (a, n)).

(** correct.go:553-563 [SpanSlice.GetSpanRef]. *)
Definition span_ref (mem : memory) (sl : slice) (id : Z) : option pointer :=
  match sl with None => None | Some (a, _) => (fun i => (a, i)) <$> get_span_ref id (cells mem sl) end.

(** correct.go:58-75. *)
Record htree := HTree { ht_id : Z; ht_spans : slice; ht_started : Z; ht_updated : Z; ht_count : Z }.
Definition new_htree (now traceId : Z) : htree := HTree traceId None now now 0.

(** correct.go:81-97 [tree.AddSpan]. *)
Definition hadd (ord : gmap gostring gostring -> list (gostring * gostring)) (extra : nat) (now : Z) (new : span) (mem : memory) (t : htree) : option (memory * htree) :=
  match span_ref mem (ht_spans t) (s_id new) with
  | None =>
      '(mem, sl) ← slice_append extra mem (ht_spans t) new;
      Some (mem, HTree (ht_id t) sl (ht_started t) now (u16 (ht_count t + 1)))
  | Some p =>
      s ← load mem p;
      mem ← (if id_is_unknown (s_parent s) then store mem p (set_parent (s_parent new) s) else Some mem);
      s ← load mem p;
      mem ← store mem p (merge_spans ord s new);
      Some (mem, HTree (ht_id t) (ht_spans t) (ht_started t) now (ht_count t))
  end.

(** correct.go:119-156 [tree.ChildrenOf], [tree.Roots]: pointers to the elements. *)
Definition pointers (sl : slice) (l : list nat) : list pointer :=
  match sl with None => [] | Some (a, _) => map (fun i => (a, i)) l end.
Definition hchildren (mem : memory) (sl : slice) (id : Z) : list pointer := pointers sl (children_of id (cells mem sl)).
Definition hroots (mem : memory) (sl : slice) : list pointer := pointers sl (roots (cells mem sl)).

(** correct.go:258-262. *)
Definition hfind (ord : gmap gostring gostring -> list (gostring * gostring)) (extra : nat) (now : Z) (mem : memory) (t : htree) :
  option (memory * htree * list pointer) :=
  let rs := hroots mem (ht_spans t) in
  if (1 <? length rs)%nat then
    cs ← mapM (load mem) rs;
    match cs with
    | [] => None
    | s0 :: rest =>
        if all_the_same_parent s0 rest then
          '(mem, t) ← hadd ord extra now (create_fake_root s0 rest) mem t;
          Some (mem, t, hroots mem (ht_spans t))
        else Some (mem, t, rs)
    end
  else Some (mem, t, rs).

(** correct.go:435-488 [correctTreeTimings].  [Panic]: a pointer that points to nothing; [Deep]: deeper than [fuel]. *)
Inductive result := Panic | Deep | Done (mem : memory).
Fixpoint hcorrect (fuel : nat) (sl : slice) (mem : memory) (node : pointer) (parent : option pointer) (offset : Z) : result :=
  match fuel with
  | O => Deep
  | S fuel' =>
      match load mem node with
      | None => Panic
      | Some s =>
          match (match parent with None => Some None | Some p => Some <$> load mem p end) with
          | None => Panic
          | Some par =>
              let '(s', offset') := correct_node s par offset in
              match store mem node s' with
              | None => Panic
              | Some mem =>
                  (fix go (children : list pointer) (mem : memory) : result :=
                     match children with
                     | [] => Done mem
                     | c :: cs => match hcorrect fuel' sl mem c (Some node) offset' with Done mem' => go cs mem' | r => r end
                     end) (hchildren mem sl (s_id s')) mem
              end
          end
      end
  end.

(** correct.go:159, 165: the two maps; and the memory. *)
Record hstate := HState { h_mem : memory; h_traces : gmap Z htree; h_black : gset Z }.

(** An entry of the record; for an emitted trace also the slice that was sent. *)
Definition hentry : Type := entry * slice.

(** correct.go:169-192, one received span. *)
Definition hreceive (ord : gmap gostring gostring -> list (gostring * gostring)) (extra : nat) (n0 n1 : Z) (s : span) (st : hstate) : option hstate :=
  if (s_trace s =? 0) || (s_id s =? 0) then Some st
  else if bool_decide (s_trace s ∈ h_black st) then Some st
  else
    let t := match h_traces st !! s_trace s with Some t => t | None => new_htree n0 (s_trace s) end in
    '(mem, t) ← hadd ord extra n1 s (h_mem st) t;
    Some (HState mem (<[s_trace s := t]> (h_traces st)) (h_black st)).

(** What one sees of a tree. *)
Definition see (mem : memory) (t : htree) : tree := Tree (ht_id t) (cells mem (ht_spans t)) (ht_started t) (ht_updated t) (ht_count t).

(** The arrays of the slices that were sent. *)
Definition sent (log : list hentry) : list nat := omap (fun e => fst <$> e.2) log.
(** The receivers write into arrays that they have got (what they attempt elsewhere does not happen), with any contents
    and, as if they had appended in their own copy of the slice, any length. *)
Definition interfere (snt : list nat) (writes : list (nat * list span)) (mem : memory) : memory :=
  foldl (fun mem w => if bool_decide (w.1 ∈ snt) then <[w.1 := w.2]> mem else mem) mem writes.

(** correct.go:226-285, one trace of the loop; [extra]: the spare room of a new array, by trace; [others]: what the
    receivers write before this trace; [snt]: the arrays sent before this tick. *)
Definition hfinish_one (k : tick) (extra : Z -> nat) (others : Z -> list (nat * list span)) (snt : list nat) (deadlineUpdate deadlineStarted : Z) (acc : option (hstate * list hentry)) (p : Z * htree) :
  option (hstate * list hentry) :=
  '(st, log) ← acc;
  let '(id, t) := p in
  let st := HState (interfere (snt ++ sent log) (others id) (h_mem st)) (h_traces st) (h_black st) in
  let traceTooLarge := 8 * 1024 <? ht_count t in
  let updatedRecently := deadlineUpdate <? ht_updated t in
  let traceTooOld := ht_started t <? deadlineStarted in
  if negb traceTooLarge && negb traceTooOld && updatedRecently then Some (st, log)
  else
    let traces := delete id (h_traces st) in
    if traceTooLarge then Some (HState (h_mem st) traces ({[id]} ∪ h_black st), log ++ [(LOut id TooLarge, None)])
    else if traceTooOld then Some (HState (h_mem st) traces ({[id]} ∪ h_black st), log ++ [(LOut id TooOld, None)])
    else
      '(mem, t, rs) ← hfind (k_ord k) (extra id) (k_fake k id) (h_mem st) t;
      match rs with
      | [r] =>
          match hcorrect (length (cells mem (ht_spans t))) (ht_spans t) mem r None 0 with
          | Done mem => Some (HState mem traces (h_black st), log ++ [(LOut id (Emitted (cells mem (ht_spans t))), ht_spans t)])
          | Deep => Some (HState mem traces (h_black st), log ++ [(LOut id Stuck, None)])
          | Panic => None
          end
      | _ => Some (HState mem traces (h_black st), log ++ [(LOut id NoRoot, None)])
      end.

(** correct.go:417-427; the list holds ids and counts. *)
Fixpoint hdiscard_loop (l : list (Z * Z)) (spanCount : Z) (traces : gmap Z htree) (log : list hentry) : gmap Z htree * list hentry :=
  match l with
  | [] => (traces, log)
  | (id, n) :: l' =>
      if spanCount <? maxSpans then (traces, log)
      else hdiscard_loop l' (spanCount - n) (delete id traces) (log ++ [(LOut id Overload, None)])
  end.
(** correct.go:387-433.  The order of iteration and of the sort may depend on everything that can be seen. *)
Definition hdiscard (k : tick) (mem : memory) (traces : gmap Z htree) : gmap Z htree * list hentry :=
  let l := k_range k 2 (see mem <$> traces) in
  let spanCount := foldl (fun n p => n + t_count p.2) 0 l in
  if spanCount <? maxSpans then (traces, [])
  else hdiscard_loop (map (fun p => (p.1, t_count p.2)) (k_sort k l)) spanCount traces [].

(** correct.go:200-306 [finishTraces]. *)
Definition hfinish (k : tick) (extra : Z -> nat) (others : Z -> list (nat * list span)) (snt : list nat) (st : hstate) : option (hstate * list hentry) :=
  let all := see (h_mem st) <$> h_traces st in
  let spanCount := count_spans (k_range k 0 all) in
  let bufferTime := buffer_time spanCount in
  let deadlineUpdate := k_now1 k - bufferTime in
  let deadlineStarted := k_now2 k - 5 * bufferTime in
  let order := omap (fun p => (fun t => (p.1, t)) <$> h_traces st !! p.1) (k_range k 1 all) in
  '(st, log) ← foldl (hfinish_one k extra others snt deadlineUpdate deadlineStarted) (Some (st, [(LTick (k_now1 k) (k_now2 k) spanCount, None)])) order;
  let '(traces, logd) := if maxSpans <? spanCount then hdiscard k (h_mem st) (h_traces st) else (h_traces st, []) in
  let '(black, loge) := evict (k_range_black k (h_black st)) (h_black st) [] in
  Some (HState (h_mem st) traces black, log ++ logd ++ map (fun e => (e, None)) loge).

(** correct.go:158-198: one round of the loop, with the spare room of new arrays and, by trace, what the receivers write
    while the traces are finished; or the receivers write in between. *)
Inductive hevent :=
  | HEvent (extra : Z -> nat) (others : Z -> list (nat * list span)) (e : event)
  | HOther (writes : list (nat * list span)).

(** [None]: a run-time panic; the inner [None]: returned. *)
Definition hstep (acc : option hstate * list hentry) (e : hevent) : option (option hstate * list hentry) :=
  match acc.1 with
  | None => Some (None, acc.2)
  | Some st =>
      match e with
      | HEvent extra others (ESpan ord n0 n1 s) =>
          st ← hreceive ord (extra (s_trace s)) n0 n1 s st; Some (Some st, acc.2 ++ [(LSpan n0 n1 s, None)])
      | HEvent extra others (ETick k) => '(st, log) ← hfinish k extra others (sent acc.2) st; Some (Some st, acc.2 ++ log)
      | HEvent extra others EClose => Some (None, acc.2 ++ [(LClose, None)])
      | HOther writes => Some (Some (HState (interfere (sent acc.2) writes (h_mem st)) (h_traces st) (h_black st)), acc.2)
      end
  end.
Definition hinitial : hstate := HState [] ∅ ∅.
Definition hrun (evs : list hevent) : option (option hstate * list hentry) :=
  foldl (fun acc e => acc ≫= fun acc => hstep acc e) (Some (Some hinitial, [])) evs.
