(** C97: the memory of traces. *)
From Verif Require Import Base SpanModel TreeModel FinishModel FinishSpec FinishWitness SliceModel SliceSpec SliceRun.

(** Whatever the growth of the slices, and whatever the receivers of traces write into them: no index or pointer is
    out of range, and decisions, emitted traces and waiting traces are those of the machine of [FinishModel]. *)
Theorem C97_refines : forall evs, Forall valid_event (own_events evs) ->
  exists st log, hrun evs = Some (st, log) /\ map fst log = (run (own_events evs)).2 /\
    ((fun st => (see (h_mem st) <$> h_traces st, h_black st)) <$> st) = ((fun v => (f_traces v, f_black v)) <$> (run (own_events evs)).1).
Proof. exact slices_refine. Qed.
Print Assumptions C97_refines.

(** No array is sent twice, none that was sent is kept, and no two waiting traces share one. *)
Theorem C97_owned : forall evs st log, Forall valid_event (own_events evs) -> hrun evs = Some (st, log) ->
  NoDup (sent log) /\
  forall st', st = Some st' ->
    (forall t ht a n, h_traces st' !! t = Some ht -> ht_spans ht = Some (a, n) -> a ∉ sent log) /\
    (forall t t' ht ht' a n n', h_traces st' !! t = Some ht -> h_traces st' !! t' = Some ht' -> ht_spans ht = Some (a, n) -> ht_spans ht' = Some (a, n') -> t = t').
Proof. exact slices_owned. Qed.
Print Assumptions C97_owned.

(** The corrector does not write an array after sending it (if nobody else writes during a step, it is as before); the
    slices it sends hold the spans of the trace. *)
Theorem C97_hands_off : forall evs extra others e st log st' log', Forall valid_event (own_events evs) -> valid_event e ->
  undisturbed (HEvent extra others e) -> hrun evs = Some (Some st, log) -> hrun (evs ++ [HEvent extra others e]) = Some (Some st', log') ->
  (forall a, a ∈ sent log -> h_mem st' !! a = h_mem st !! a) /\
  exists new, log' = log ++ new /\
    (forall t out sl, (LOut t (Emitted out), sl) ∈ new -> exists a arr, sl = Some (a, length out) /\ h_mem st' !! a = Some arr /\ take (length out) arr = out) /\
    (forall e a n, (e, Some (a, n)) ∈ new -> exists t out, e = LOut t (Emitted out)).
Proof. exact slices_step. Qed.
Print Assumptions C97_hands_off.

(* ---------- an instance ---------- *)

Definition one (id parent trace ts : Z) : span := Span id parent trace [] [] ts 10 ∅ (Timings 0 0 0 0).
Definition came (room : nat) (s : span) : hevent := HEvent (fun _ => room) (fun _ => []) (ESpan map_to_list 0 0 s).
Definition look (now : Z) : hevent := HEvent (fun _ => 0%nat) (fun _ => []) (ETick (plain_tick now)).

(** Trace 7: the first array is full at once, the second has room for one more.  Trace 8 has no root of its own, so
    that one is injected, which needs a new array.  Both are sent; the receiver of trace 7 writes rubbish and even
    makes the array shorter; then more spans of trace 7 come. *)
Definition before : list hevent :=
  [came 0 (one 1 0 7 100); came 1 (one 3 1 7 120); came 0 (one 2 1 7 110); came 1 (one 5 4 8 50); came 0 (one 6 4 8 60); look (seconds 9)].
Definition rubbish : list hevent := [HOther [(1%nat, [one 9 9 9 9])]].
Definition after : list hevent := [came 2 (one 8 0 7 100); look (seconds 19)].
Definition bare (t : Z) : span := Span 4 t t (str "fake-root") (str "fake-root") 50 20 ∅ (Timings 0 0 0 0).

Example C97_instance :
  let evs := before ++ rubbish ++ after in
  let log0 := map (fun s => (LSpan 0 0 s, None)) [one 1 0 7 100; one 3 1 7 120; one 2 1 7 110; one 5 4 8 50; one 6 4 8 60] ++
    [(LTick (seconds 9) (seconds 9) 5, None);
     (LOut 8 (Emitted [one 6 4 8 50; one 5 4 8 50; bare 8]), Some (3%nat, 3%nat));
     (LOut 7 (Emitted [one 3 1 7 100; one 2 1 7 100; one 1 0 7 100]), Some (1%nat, 3%nat))] in
  let log := log0 ++ [(LSpan 0 0 (one 8 0 7 100), None); (LTick (seconds 19) (seconds 19) 1, None); (LOut 7 (Emitted [one 8 0 7 100]), Some (4%nat, 1%nat))] in
  Forall valid_event (own_events evs) /\
  exists st, hrun evs = Some (Some st, log) /\ map_to_list (h_traces st) = [] /\
    h_mem st = [[one 1 0 7 100]; [one 9 9 9 9]; [one 6 4 8 60; one 5 4 8 50]; [one 6 4 8 50; one 5 4 8 50; bare 8]; [one 8 0 7 100; zero_span; zero_span]].
Proof.
  intros evs log0 log. split.
  - repeat (apply Forall_cons_2; [first [apply plain_valid|split; [by intros m|unfold int64_ok; p2; cbn; lia]]|]). apply Forall_nil_2.
  - eexists. split; [by vm_compute|]. split; by vm_compute.
Qed.

(** Trace 8 is sent first; while trace 7 is finished, the receiver of trace 8 writes its array (number 3), and tries to
    write that of trace 7 (number 1), which it has not got. *)
Example C97_instance_meanwhile :
  let tick := HEvent (fun _ => 0%nat) (fun id => if id =? 7 then [(3%nat, [one 9 9 9 9]); (1%nat, [one 9 9 9 9])] else []) (ETick (plain_tick (seconds 9))) in
  let evs := take 5 before ++ [tick] in
  Forall valid_event (own_events evs) /\
  exists st log, hrun evs = Some (Some st, log) /\ sent log = [3%nat; 1%nat] /\
    h_mem st = [[one 1 0 7 100]; [one 3 1 7 100; one 2 1 7 100; one 1 0 7 100]; [one 6 4 8 60; one 5 4 8 50]; [one 9 9 9 9]].
Proof.
  intros tick evs. split.
  - repeat (apply Forall_cons_2; [first [apply plain_valid|split; [by intros m|unfold int64_ok; p2; cbn; lia]]|]). apply Forall_nil_2.
  - eexists _, _. split; [by vm_compute|]. split; by vm_compute.
Qed.
