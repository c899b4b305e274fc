(** Property C109: where time starts does not matter. *)
From Verif Require Import Base SpanModel TreeModel TreeSpec FinishModel FinishSpec ShiftSpec ShiftProofs ShiftWitness.

(** C109: the clock of the program may be ahead by any amount: the same traces leave, for the same reasons, at the same rounds. *)
Theorem C109_clock :
  forall c evs evs', Forall2 (moved_event c 0) evs evs' -> Forall valid_event evs -> (run evs').2 = map (moved_entry c 0) (run evs).2.
Proof. exact clock_run. Qed.
Print Assumptions C109_clock.

(** C109: so may the clocks by which the spans were measured, independently: the same spans leave, later by the same amount and lasting
    as long.  [roomy]: between 2020 and 2116, even if the times between which everything happened are that far apart once for every span. *)
Theorem C109_spans :
  forall c d lo hi evs evs', roomy (S (length evs)) lo hi -> roomy (S (length evs)) (lo + d) (hi + d) ->
  Forall2 (moved_event c d) evs evs' -> Forall valid_event evs -> Forall (event_between lo hi) evs ->
  (run evs').2 = map (moved_entry c d) (run evs).2.
Proof. exact shift_run. Qed.
Print Assumptions C109_spans.

(** C109: it does not hold of times before 2020, even without overflows. *)
Theorem C109_2020_refuted :
  exists evs evs' d, Forall2 (moved_event 0 d) evs evs' /\ Forall valid_event evs /\ Forall valid_event evs' /\
  (exists lo hi, 0 < lo /\ 0 < lo + d /\ hi < 2^62 /\ hi + d < 2^62 /\ Forall (event_between lo hi) evs) /\
  (run evs').2 <> map (moved_entry 0 d) (run evs).2.
Proof. exact party_refuted. Qed.
Print Assumptions C109_2020_refuted.

(** A call whose halves were measured by clocks 102 microseconds apart, with a span below it, and two spans without their parent. *)
Example C109_instance :
  forall c d n, 0 <= d <= 1000000000000000000 ->
  roomy (S (length (order n autumn))) (autumn + 1000) (autumn + 111000) /\
  roomy (S (length (order n autumn))) (autumn + 1000 + d) (autumn + 111000 + d) /\
  Forall2 (moved_event c d) (order n autumn) (order (n + c) (autumn + d)) /\ Forall valid_event (order n autumn) /\
  Forall (event_between (autumn + 1000) (autumn + 111000)) (order n autumn).
Proof.
  intros c d n Hd. split; [rewrite <- (Z.add_0_r (autumn + 1000)), <- (Z.add_0_r (autumn + 111000)); by apply order_roomy|]. split; [by apply order_roomy|].
  split; [by apply order_moved; unfold autumn; lia|]. split; [by apply order_valid; unfold autumn; p2; lia|by apply order_between].
Qed.
(** What leaves: the call lasts as its client says; what is below it is measured by the client's clock. *)
Example C109_instance_log :
  List.filter (fun e => match e with LOut _ _ => true | _ => false end) (run (order 0 autumn)).2 =
  [ LOut 8 (Emitted [ Span 5 3 8 (str "get") (str "shop") (autumn + 6000) 1500 ∅ (Timings 0 0 0 0); Span 4 3 8 (str "get") (str "shop") (autumn + 2000) 1000 ∅ (Timings 0 0 0 0);
                      Span 3 8 8 (str "fake-root") (str "fake-root") (autumn + 2000) 5500 ∅ (Timings 0 0 0 0) ]);
    LOut 7 (Emitted [ Span 2 1 7 (str "query") (str "stock") (autumn + 4000) 3000 ∅ (Timings 0 0 0 0);
                      Span 1 0 7 (str "get") (str "stock") (autumn + 1000) 9000 ∅ (Timings (autumn + 1000) (autumn + 10000) (autumn + 110000) (autumn + 105000)) ]) ].
Proof. by vm_compute. Qed.
