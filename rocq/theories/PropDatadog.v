(** Properties C49-C51 and C75: the Datadog sink. *)
From Verif Require Import Base SpanModel DatadogModel DatadogSpec DatadogProofs DatadogTheorems DatadogDelay.

(** C49: every span sent is the conversion of a received span; groups are not empty and hold one trace. *)
Theorem C49_sent_converted :
  forall evs st log l1 p l2, Forall valid_devent evs -> drun evs = (st, log) -> log = l1 ++ XSend p :: l2 ->
  Forall (fun g => g <> [] /\ exists t, Forall (fun d => d_trace d = t /\ exists s, s ∈ received l1 /\ converted s d) g) p.
Proof. exact sent_converted. Qed.
Print Assumptions C49_sent_converted.

Theorem C49_conversion :
  forall s, span_ok s -> converted s (dd_convert s).
Proof. exact dd_convert_ok. Qed.
Print Assumptions C49_conversion.

(** C49: no two places in the buffered or queued batches share memory. *)
Theorem C49_never_shared :
  forall evs st log, Forall valid_devent evs -> drun evs = (st, log) -> unshared (k_queue st ++ [k_by st]).
Proof. exact never_shared. Qed.
Print Assumptions C49_never_shared.

Definition dspan (id trace : Z) (err : gostring) : span := Span id (-1) trace (str "get") (str "web") (-5) 12 {[ str "error" := err ]} zero_timings.

Example C49_instance :
  span_ok (dspan (-2) 7 (str "boom")) /\
  let d := dd_convert (dspan (-2) 7 (str "boom")) in
  d_span d = 18446744073709551614 /\ d_parent d = 18446744073709551615 /\ d_trace d = 7 /\ d_start d = -5 /\ d_dur d = 1000 /\ d_error d = 1 /\
  d_error (dd_convert (dspan 1 7 (str "0"))) = 0 /\ d_error (dd_convert (new_span [] 1 2 3)) = 0 /\
  d_resource (dd_convert (new_span [] 1 2 3)) = str "(resource empty)".
Proof. split; [unfold span_ok, timings_ok; cbn; unfold int64_ok; p2; lia|]. by vm_compute. Qed.

(** C50: the received spans fall into consecutive pieces, one for each flush, and the rest, which is buffered; each batch is
    its piece, converted and grouped by trace in order. *)
Theorem C50_conservation :
  forall evs st log, Forall valid_devent evs -> drun evs = (st, log) ->
  exists chunks, received log = concat chunks ++ buffered log /\ Forall2 grouped chunks (flushes log).
Proof. exact conservation. Qed.
Print Assumptions C50_conservation.

(** C50: a flush happens when it is due, and only then; its batch is accepted unless eight are waiting. *)
Theorem C50_flush :
  forall evs st log l1 a b now l2, Forall valid_devent evs -> drun evs = (st, log) -> log = l1 ++ XFlush a b now :: l2 ->
  flush_due l1 /\ grouped (buffered l1) b /\ (a = true <-> (length (accepted l1) < sent l1 + 8)%nat).
Proof. exact flush_spec. Qed.
Print Assumptions C50_flush.

Theorem C50_buffered_small :
  forall evs st log, Forall valid_devent evs -> drun evs = (st, log) ->
  Z.of_nat (length (buffered log)) < 1000 /\ ~ flush_due log /\ (sent log <= length (accepted log) <= sent log + 8)%nat.
Proof. exact buffered_small. Qed.
Print Assumptions C50_buffered_small.

(** C50: accepted batches are sent in order, each once; what is not sent yet is in the queue. *)
Theorem C50_sent_in_order :
  forall evs st log l1 p l2, Forall valid_devent evs -> drun evs = (st, log) -> log = l1 ++ XSend p :: l2 ->
  p <> [] /\ exists b, accepted l1 !! sent l1 = Some b /\ p ≡ₚ (map_to_list b).*2.
Proof. exact send_spec. Qed.
Print Assumptions C50_sent_in_order.

Theorem C50_state :
  forall evs st log, Forall valid_devent evs -> drun evs = (st, log) ->
  grouped (buffered log) (deref (k_mem st) (k_by st)) /\ map (deref (k_mem st)) (k_queue st) = drop (sent log) (accepted log).
Proof. exact buffered_state. Qed.
Print Assumptions C50_state.

(** Trace 7 and 8, flushed at the first tick, sent; the second tick comes too early, the third does not. *)
Example C50_instance :
  let evs := [DTrace [dspan 1 7 []; dspan 2 8 []; dspan 3 7 []] 0; DTick 100 100; DTake map_to_list; DTrace [dspan 4 7 []] 200; DTick 1700000000 0;
              DTick 1800000100 1800000100; DTake map_to_list] in
  let ids (e : dentry) := match e with XSend p => [map (map d_span) p] | XFlush a b _ => [[[if a then 1 else 0]]] | _ => [] end in
  concat (map ids (drun evs).2) = [[[1]]; [[2]; [1; 3]]; [[1]]; [[4]]].
Proof. by vm_compute. Qed.

(** C51 is false: a span buffered when the input is closed is never sent. *)
Theorem C51_close_refuted :
  exists evs s st log, Forall valid_devent evs /\ drun evs = (st, log) /\ XTrace [s] ∈ log /\ span_ok s /\ s_id s <> 0 /\ s_trace s <> 0 /\
  forall more, (drun (evs ++ more)).2 = log /\ sent log = 0%nat.
Proof. exact sink_close_loses. Qed.
Print Assumptions C51_close_refuted.

(** C51, guarded: if nothing is buffered when the input is closed, everything accepted is sent. *)
Theorem C51_close_guarded :
  forall evs st log ords, Forall valid_devent evs -> drun evs = (st, log) -> buffered log = [] ->
  Forall valid_devent (map DTake ords) -> (8 <= length ords)%nat ->
  exists st' log' chunks, drun (evs ++ DClose :: map DTake ords) = (st', log') /\
    received log' = concat chunks /\ Forall2 grouped chunks (flushes log') /\ sent log' = length (accepted log') /\ received log' = received log.
Proof. exact sink_close_guarded. Qed.
Print Assumptions C51_close_guarded.

Example C51_instance :
  let evs := [DTrace [dspan 1 7 []; dspan 2 8 []] 0; DTick 100 100] in
  buffered (drun evs).2 = [] /\ sent (drun (evs ++ DClose :: map DTake (replicate 8 map_to_list))).2 = 1%nat /\
  Forall valid_devent (map DTake (replicate 8 map_to_list)).
Proof. split; [by vm_compute|]. split; [by vm_compute|]. rewrite Forall_map. apply Forall_replicate. intros m. reflexivity. Qed.

(** C75: the spans of a trace are in a flushed batch at the latest when a tick comes 1.8 s after the last flush before them. *)
Theorem C75_tick :
  forall evs st log l1 t l2 n l3, Forall valid_devent evs -> drun evs = (st, log) ->
  log = l1 ++ XTrace t :: l2 ++ XTick n :: l3 -> t <> [] -> (forall f, last_flush l1 = Some f -> f + 1800000000 <= n) ->
  exists m1 a b now m2, l2 ++ XTick n :: l3 = m1 ++ XFlush a b now :: m2 /\ (length m1 <= length (l2 ++ [XTick n]))%nat /\
    forall s, s ∈ t -> exists g d, b !! u64 (s_trace s) = Some g /\ d ∈ g /\ converted s d.
Proof. exact one_tick. Qed.
Print Assumptions C75_tick.

(** C75: so if the clock does not go back, two ticks 1.8 s apart are enough. *)
Theorem C75_two_ticks :
  forall evs st log l1 t l2 n1 l3 n2 l4, Forall valid_devent evs -> drun evs = (st, log) ->
  log = l1 ++ XTrace t :: l2 ++ XTick n1 :: l3 ++ XTick n2 :: l4 -> t <> [] -> (forall f, last_flush l1 = Some f -> f <= n1) -> n1 + 1800000000 <= n2 ->
  exists m1 a b now m2, l2 ++ XTick n1 :: l3 ++ XTick n2 :: l4 = m1 ++ XFlush a b now :: m2 /\
    (length m1 <= length (l2 ++ XTick n1 :: l3 ++ [XTick n2]))%nat /\
    forall s, s ∈ t -> exists g d, b !! u64 (s_trace s) = Some g /\ d ∈ g /\ converted s d.
Proof. exact two_ticks. Qed.
Print Assumptions C75_two_ticks.

(** C75: an accepted batch is one of the next eight that the sender sends. *)
Theorem C75_sent :
  forall evs st log l1 b now l2, Forall valid_devent evs -> drun evs = (st, log) -> log = l1 ++ XFlush true b now :: l2 -> (8 <= sent l2)%nat ->
  exists m1 p m2, l2 = m1 ++ XSend p :: m2 /\ (sent m1 < 8)%nat /\ p ≡ₚ (map_to_list b).*2.
Proof. exact sent_within. Qed.
Print Assumptions C75_sent.

(** The first tick after the second trace comes too early, the second one flushes. *)
Example C75_instance :
  let evs := [DTrace [dspan 1 7 []] 0; DTick 100 100; DTrace [dspan 4 7 []] 200; DTick 1700000000 0; DTick 3500000000 3500000000] in
  let what (e : dentry) := match e with XTrace _ => 0 | XTick _ => 1 | XFlush _ _ _ => 2 | _ => 3 end in
  map what (drun evs).2 = [0; 1; 2; 0; 1; 1; 2].
Proof. by vm_compute. Qed.

(** Eight batches wait, the ninth is discarded, and all eight are sent. *)
Example C75_sent_instance :
  let round (i : Z) := [DTrace [dspan i i []] 0; DTick (i * 1900000000) (i * 1900000000)] in
  let evs := concat (map round [1; 2; 3; 4; 5; 6; 7; 8; 9]) ++ map DTake (replicate 8 map_to_list) in
  let what (e : dentry) := match e with XFlush a _ _ => [if a then [1] else [0]] | XSend p => [concat (map (map d_span) p)] | _ => [] end in
  concat (map what (drun evs).2) = replicate 8 [1] ++ [[0]] ++ map (fun i => [i]) [1; 2; 3; 4; 5; 6; 7; 8].
Proof. by vm_compute. Qed.
