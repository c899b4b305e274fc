(** Property C116: the clocks of the hosts do not show. *)
From Verif Require Import Base SpanModel TreeModel TreeSpec FinishModel FinishSpec FinishWitness ConnectSpec OrderSpec OrderWitness DatadogModel ClockSpec ClockProofs ClockWitness.

(** C116: two runs of the corrector that receive the same reports about a trace, except that the clocks of the hosts differ,
    by any amounts, from host to host.  If the trace is emitted in the first, with a root that was reported, then the second
    does not give it up for want of a root. *)
Theorem C116_fate :
  forall outer inner evs evs' l1 l2 l1' l2' t out r, Forall valid_event evs -> Forall valid_event evs' ->
  (run evs).2 = l1 ++ LOut t (Emitted out) :: l2 -> Forall2 (reclocked outer inner) (reports (pending l1 t)) (reports (pending l1' t)) ->
  one_root out r -> s_id r ∈ ids (reports (pending l1 t)) -> by_host outer inner out r ->
  (run evs').2 = l1' ++ LOut t NoRoot :: l2' -> False.
Proof. exact clocks_fate. Qed.
Print Assumptions C116_fate.

(** C116: the emitted spans are the same, in the same order, with the same starts and durations, except that they record
    what both sides measured. *)
Theorem C116_same :
  forall outer inner evs evs' l1 l2 l1' l2' t out r, Forall valid_event evs -> Forall valid_event evs' ->
  (run evs).2 = l1 ++ LOut t (Emitted out) :: l2 -> Forall2 (reclocked outer inner) (reports (pending l1 t)) (reports (pending l1' t)) ->
  one_root out r -> s_id r ∈ ids (reports (pending l1 t)) -> by_host outer inner out r ->
  forall out', (run evs').2 = l1' ++ LOut t (Emitted out') :: l2' -> (forall x, x ∈ out -> ~ circular out x) -> Forall2 alike out out'.
Proof. exact clocks_same. Qed.
Print Assumptions C116_same.

(** C116: the same, in some order, with an injected root, if the spans directly below it run on hosts whose clocks are right. *)
Theorem C116_injected :
  forall outer inner evs evs' l1 l2 l1' l2' t out r, Forall valid_event evs -> Forall valid_event evs' ->
  (run evs).2 = l1 ++ LOut t (Emitted out) :: l2 -> Forall2 (reclocked outer inner) (reports (pending l1 t)) (reports (pending l1' t)) ->
  one_root out r -> s_id r ∉ ids (reports (pending l1 t)) -> by_host outer inner out r -> (forall c, child out r c -> inner (s_id c) = 0) ->
  forall out', (run evs').2 = l1' ++ LOut t (Emitted out') :: l2' -> (forall x, x ∈ out -> ~ circular out x) -> exists out2, out2 ≡ₚ out' /\ Forall2 alike out out2.
Proof. exact clocks_injected. Qed.
Print Assumptions C116_injected.

(** C116: so Datadog gets the same. *)
Theorem C116_datadog :
  forall out out', Forall2 alike out out' -> map dd_convert out' = map dd_convert out.
Proof. exact alike_datadog. Qed.
Print Assumptions C116_datadog.

(** C116 fails if only the server reports a call: then nothing tells how wrong its clock is. *)
Theorem C116_one_side_refuted :
  exists outer inner evs evs' l1 l2 l1' l2' t out out' r, Forall valid_event evs /\ Forall valid_event evs' /\
    (run evs).2 = l1 ++ LOut t (Emitted out) :: l2 /\ (run evs').2 = l1' ++ LOut t (Emitted out') :: l2' /\
    Forall2 (reclocked outer inner) (reports (pending l1 t)) (reports (pending l1' t)) /\ one_root out r /\ s_id r ∈ ids (reports (pending l1 t)) /\
    outer (s_id r) = 0 /\ (forall p c, p ∈ out -> child out p c -> outer (s_id c) = inner (s_id p)) /\ (forall x, x ∈ out -> ~ circular out x) /\ ~ Forall2 alike out out'.
Proof. exact lonely_shows. Qed.
Print Assumptions C116_one_side_refuted.

(** Two calls, one below the other, with work on both hosts; the clocks are changed by 5000 and by -700. *)
Example C116_instance :
  let log a b := course_log (calls a b) 5 in
  Forall valid_event (course (calls 0 0)) /\ Forall valid_event (course (calls 5000 (-700))) /\
  (run (course (calls 0 0))).2 = log 0 0 ++ [LOut 9 (Emitted (told_right 0 0))] /\
  (run (course (calls 5000 (-700)))).2 = log 5000 (-700) ++ [LOut 9 (Emitted (told_right 5000 (-700)))] /\
  Forall2 (reclocked (caused 5000 (-700)) (ran 5000 (-700))) (reports (pending (log 0 0) 9)) (reports (pending (log 5000 (-700)) 9)) /\
  one_root (told_right 0 0) entrance /\ s_id entrance ∈ ids (reports (pending (log 0 0) 9)) /\
  by_host (caused 5000 (-700)) (ran 5000 (-700)) (told_right 0 0) entrance /\ (forall x, x ∈ told_right 0 0 -> ~ circular (told_right 0 0) x).
Proof.
  cbv zeta. split; [apply calls_valid; lia|]. split; [apply calls_valid; lia|]. split; [vm_compute; reflexivity|]. split; [vm_compute; reflexivity|].
  change (reports (pending (course_log (calls 0 0) 5) 9)) with (calls 0 0).
  change (reports (pending (course_log (calls 5000 (-700)) 5) 9)) with (calls 5000 (-700)).
  split; [apply calls_reclocked; lia|]. split; [apply told_root|]. split; [cbn; rewrite !elem_of_cons; tauto|].
  split; [apply told_hosts|]. intros x. apply told_straight.
Qed.

(** Two spans without their parent, a call below one of them. *)
Example C116_instance_injected :
  let log b := course_log (orphan_calls b) 4 in
  Forall valid_event (course (orphan_calls 0)) /\ Forall valid_event (course (orphan_calls 5000)) /\
  (run (course (orphan_calls 0))).2 = log 0 ++ [LOut 9 (Emitted (orphans_told 0))] /\
  (run (course (orphan_calls 5000))).2 = log 5000 ++ [LOut 9 (Emitted (orphans_told 5000))] /\
  Forall2 (reclocked (far 5000) (there 5000)) (reports (pending (log 0) 9)) (reports (pending (log 5000) 9)) /\
  one_root (orphans_told 0) (injected_at noon 150) /\ s_id (injected_at noon 150) ∉ ids (reports (pending (log 0) 9)) /\
  by_host (far 5000) (there 5000) (orphans_told 0) (injected_at noon 150) /\
  (forall c, child (orphans_told 0) (injected_at noon 150) c -> there 5000 (s_id c) = 0) /\ (forall x, x ∈ orphans_told 0 -> ~ circular (orphans_told 0) x).
Proof.
  cbv zeta. split; [apply orphans_valid; lia|]. split; [apply orphans_valid; lia|]. split; [vm_compute; reflexivity|]. split; [vm_compute; reflexivity|].
  change (reports (pending (course_log (orphan_calls 0) 4) 9)) with (orphan_calls 0).
  change (reports (pending (course_log (orphan_calls 5000) 4) 9)) with (orphan_calls 5000).
  split; [apply orphans_reclocked; lia|]. split; [apply orphans_root|].
  split; [cbn; rewrite !elem_of_cons, elem_of_nil; intros [H|[H|[H|[H|[H|[]]]]]]; discriminate H|].
  split; [apply orphans_hosts|]. split; [apply orphans_hosts|exact orphans_straight].
Qed.
