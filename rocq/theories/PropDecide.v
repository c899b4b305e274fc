(** Property C101: what a check decides. *)
From Verif Require Import Base SpanModel TreeModel TreeSpec FinishModel FinishSpec FinishProofs FinishWitness DecideSpec DecideProofs.

(** C101: at every check, every trace that waits gets the decision of [DecideSpec], and at most one; what gets none waits on; nothing
    is decided about other traces. *)
Theorem C101_check :
  forall evs k st0 log0, Forall valid_event evs -> valid_tick k -> run evs = (Some st0, log0) ->
  exists load log, (run (evs ++ [ETick k])).2 = log0 ++ LTick (k_now1 k) (k_now2 k) load :: log /\
    (forall ts, waiting log0 ts -> load = sum (fun t => small (counted t (pending log0 t))) ts) /\
    forall t, if decide (pending log0 t = []) then outcomes t log = []
      else decision t (pending log0 t) (k_now1 k) (k_now2 k) load (outcomes t log) /\
        pending (run (evs ++ [ETick k])).2 t = match outcomes t log with [] => pending log0 t | _ => [] end.
Proof. exact check_decides. Qed.
Print Assumptions C101_check.

(** C101: which spans make a trace. *)
Theorem C101_emittable :
  forall t a, Forall (fun x : addition => s_trace x.2 = t /\ int64_ok (s_ts x.2)) a ->
  (emittable t (merged_spans t a) <-> exists out, emission t (merged_spans t a) out).
Proof. exact emittable_is. Qed.
Print Assumptions C101_emittable.

(** C101: they make one trace only, up to the order of its spans. *)
Theorem C101_one_trace :
  forall t a out out', Forall (fun x : addition => s_trace x.2 = t) a -> emission t (merged_spans t a) out -> emission t (merged_spans t a) out' -> out ≡ₚ out'.
Proof. exact emission_one. Qed.
Print Assumptions C101_one_trace.

(** C43, exactly: dropped as too large are the traces whose number of spans, modulo 65536, is greater than 8192. *)
Theorem C43_exact :
  forall evs k st0 log0 t, Forall valid_event evs -> valid_tick k -> run evs = (Some st0, log0) ->
  exists log, (run (evs ++ [ETick k])).2 = log0 ++ log /\
    (LOut t TooLarge ∈ log <-> 8192 < Z.of_nat (length (merged_spans t (pending log0 t))) mod 65536).
Proof. exact too_large_exact. Qed.
Print Assumptions C43_exact.

(** A check at 41 s: trace 9 has a root; of trace 8 two spans name the same missing parent; so do two of trace 4, but one of them has
    the id 4; trace 6 has two roots; trace 5 started at 0 s; trace 3 was touched at 40 s. *)
Example C101_instance :
  let sp id parent t := Span id parent t [] [] 1600000000000000000 10 ∅ (Timings 0 0 0 0) in
  let at_ n s := ESpan map_to_list (seconds n) (seconds n) s in
  let evs := [at_ 0 (sp 1 1 5); at_ 30 (sp 7 0 9); at_ 30 (sp 3 7 9); at_ 30 (sp 5 2 8); at_ 30 (sp 4 2 8); at_ 30 (sp 5 2 4); at_ 30 (sp 4 2 4);
              at_ 30 (sp 2 1 6); at_ 30 (sp 7 3 6); at_ 40 (sp 1 1 3); at_ 40 (sp 2 1 5)] in
  let k := plain_tick (seconds 41) in
  let log0 := (run evs).2 in
  let log := drop (length log0) (run (evs ++ [ETick k])).2 in
  let short o := match o with Emitted l => map s_id l | TooOld => [-1] | NoRoot => [-2] | _ => [-3] end in
  Forall valid_event evs /\ valid_tick k /\
  map (fun t => map short (outcomes t log)) [9; 8; 4; 6; 5; 3; 2] = [[[7; 3]]; [[5; 4; 2]]; [[-2]]; [[-2]]; [[-1]]; []; []] /\
  map (fun t => length (pending (log0 ++ log) t)) [9; 3] = [0%nat; 1%nat].
Proof.
  split; [repeat (apply Forall_cons_2; [split; [apply map_order_list|unfold int64_ok; p2; cbn; lia]|]); apply Forall_nil_2|]. split; [apply plain_valid|]. by vm_compute.
Qed.
