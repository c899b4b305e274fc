(** Vocabulary for C36-C45: what a record of a run says about one trace. *)
From Coq Require Import Sorted.
From Verif Require Import Base SpanModel TreeModel TreeSpec FinishModel.

(** The run-time system behaves as Go says: map iteration visits every entry once, [sort.Slice] returns a sorted
    permutation; spans hold 64 bit times. *)
Definition valid_tick (k : tick) : Prop :=
  map_order (k_ord k) /\ (forall i m, k_range k i m ≡ₚ map_to_list m) /\ (forall b, k_range_black k b ≡ₚ elements b) /\
  (forall l, k_sort k l ≡ₚ l /\ StronglySorted (fun p q => t_count q.2 <= t_count p.2) (k_sort k l)).
Definition valid_event (e : event) : Prop :=
  match e with
  | ESpan ord _ _ s => map_order ord /\ int64_ok (s_ts s)
  | ETick k => valid_tick k
  | EClose => True
  end.

(** The state of one trace after a record: blacklisted or not; the additions it waits with (with the two clock
    readings). *)
Definition addition : Type := Z * Z * span.
Definition dropped (o : outcome) : bool := match o with TooLarge | TooOld => true | _ => false end.
Definition track (t : Z) (acc : bool * list addition) (e : entry) : bool * list addition :=
  let '(black, pending) := acc in
  match e with
  | LSpan n0 n1 s =>
      if decide (s_trace s = t /\ t <> 0 /\ s_id s <> 0 /\ black = false) then (black, pending ++ [(n0, n1, s)]) else acc
  | LOut t' o => if decide (t' = t) then (black || dropped o, []) else acc
  | LEvict t' => if decide (t' = t) then (false, pending) else acc
  | _ => acc
  end.
Definition status (log : list entry) (t : Z) : bool * list addition := foldl (track t) (false, []) log.
(** Blacklisted: dropped as too large or too old, and not evicted since. *)
Definition blacklisted (log : list entry) (t : Z) : Prop := (status log t).1 = true.
(** Spans received for [t] since it last left the buffer, while it was not blacklisted. *)
Definition pending (log : list entry) (t : Z) : list addition := (status log t).2.

Definition pending_ids (log : list entry) (t : Z) : list Z := map (fun a => s_id a.2) (pending log t).

(** When the trace started and when it was last touched. *)
Definition started (a : list addition) : Z := match a with [] => 0 | (n0, _, _) :: _ => n0 end.
Definition touched (a : list addition) : Z := match last a with None => 0 | Some (_, n1, _) => n1 end.

(** Its spans: the additions merged by id (C28-C30). *)
Definition merged_spans (t : Z) (a : list addition) : list span :=
  t_spans (add_all map_to_list (map (fun a => (a.1.2, a.2)) a) (new_tree 0 t)).
(** The program's counter has 16 bits. *)
Definition counted (t : Z) (a : list addition) : Z := Z.of_nat (length (merged_spans t a)) mod 2^16.

(** The traces that wait, and the number of spans that the program sees. *)
Definition waiting (log : list entry) (ts : list Z) : Prop := NoDup ts /\ forall t, t ∈ ts <-> pending log t <> [].
Definition sum (f : Z -> Z) (ts : list Z) : Z := foldr (fun t n => f t + n) 0 ts.
Definition small (n : Z) : Z := if decide (n <= 8192) then n else 0.

(** How long traces wait when [load] spans are there, in nanoseconds. *)
Definition seconds (n : Z) : Z := n * 1000000000.
Definition patience (load : Z) : Z :=
  if decide (load < 0) then 0
  else if decide (load < 40000) then seconds 8
  else if decide (load < 60000) then seconds 6
  else if decide (load < 80000) then seconds 4
  else seconds 2.

(** The last call of [finishTraces] in a record. *)
Definition last_tick (log : list entry) (n1 n2 load : Z) : Prop :=
  exists before after, log = before ++ LTick n1 n2 load :: after /\ forall a b c, LTick a b c ∉ after.

(** [out] is the trace made of [spans]: possibly one injected span (which lasts as long as the spans below it), a unique
    root, corrected times (C32). *)
Definition injected (t : Z) (spans : list span) (f : span) : Prop :=
  (exists first last cs, f = Span (s_id f) t t (str "fake-root") (str "fake-root") first (wrap64 (last - first)) ∅ (Timings 0 0 0 0) /\
     hull cs first last /\ forall s, s ∈ cs <-> root_candidate spans s) /\
  s_trace f = t /\ s_parent f = t /\ s_id f ∉ ids spans /\
  exists c c', root_candidate spans c /\ root_candidate spans c' /\ c <> c' /\
    forall c, root_candidate spans c -> s_parent c = s_id f.
Definition emission (t : Z) (spans out : list span) : Prop :=
  exists all root, (all = spans \/ exists f, injected t spans f /\ all ≡ₚ f :: spans) /\
    root_candidate all root /\ (forall r, root_candidate all r -> r = root) /\
    Forall2 (fun s s' => exists start dur, s' = retimed s start dur) all out /\
    (forall path i, descends all root path -> all !! i = Some (List.last path root) ->
       out !! i = Some (retimed (List.last path root) (corrected_start root path) (own_duration (List.last path root)))) /\
    (forall i s, all !! i = Some s -> ~ connected all root s -> out !! i = Some s).

(** What an entry of the record says, given the record before it. *)
Definition entry_ok (log : list entry) (e : entry) : Prop :=
  match e with
  | LSpan _ _ s => int64_ok (s_ts s)
  | LTick _ _ load => exists ts, waiting log ts /\ load = sum (fun t => small (counted t (pending log t))) ts
  | LOut t o => pending log t <> [] /\ exists n1 n2 load, last_tick log n1 n2 load /\
      match o with
      | Emitted out => emission t (merged_spans t (pending log t)) out /\ counted t (pending log t) <= 8192 /\
          touched (pending log t) <= n1 - patience load /\ n2 - 5 * patience load <= started (pending log t)
      | TooLarge => 8192 < counted t (pending log t)
      | TooOld => counted t (pending log t) <= 8192 /\ started (pending log t) < n2 - 5 * patience load
      | NoRoot => (~ exists out, emission t (merged_spans t (pending log t)) out) /\ counted t (pending log t) <= 8192 /\
          touched (pending log t) <= n1 - patience load /\ n2 - 5 * patience load <= started (pending log t)
      | Overload => 100000 < load
      | Stuck => False
      end
  | LEvict t => blacklisted log t /\ exists ts, NoDup ts /\ (forall u, u ∈ ts <-> blacklisted log u) /\ 1024 <= Z.of_nat (length ts)
  | LClose => True
  end.

(** All counters together. *)
Definition total (m : gmap Z tree) : Z := foldr (fun p n => t_count p.2 + n) 0 (map_to_list m).

(** The entries for traces that left the buffer other than by overload. *)
Definition finished (e : entry) : bool := match e with LOut _ Overload => false | LOut _ _ => true | _ => false end.
