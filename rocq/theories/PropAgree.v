(** Property C122: where there is nothing to correct, nothing is changed. *)
From Verif Require Import Base SpanModel TreeModel TreeSpec FinishModel FinishSpec FinishWitness ForwardModel ForwardSpec PipelineModel PipelineSpec SystemModel SystemSpec SystemTheorems
  ConnectSpec OrderSpec OrderWitness UnseenSpec UnseenWitness ClockWitness HostsWitness AgreeSpec AgreeProofs AgreeWitness.

(** C122: if the clocks of all hosts of a trace agree, every span of an emitted trace that was reported alone, and starts in 2020
    or later, is emitted exactly as it was received. *)
Theorem C122_run :
  forall evs l1 l2 t out, Forall valid_event evs -> (run evs).2 = l1 ++ LOut t (Emitted out) :: l2 -> clocks_agree (reports (pending l1 t)) ->
  forall s, s ∈ reports (pending l1 t) -> alone (reports (pending l1 t)) s -> settled s -> s ∈ out /\ forall o, o ∈ out -> s_id o = s_id s -> o = s.
Proof. exact agree_run. Qed.
Print Assumptions C122_run.

(** C122: a request that client and server reported comes out with the start and duration that the client reported. *)
Theorem C122_shared :
  forall evs l1 l2 t out, Forall valid_event evs -> (run evs).2 = l1 ++ LOut t (Emitted out) :: l2 -> clocks_agree (reports (pending l1 t)) -> orderly (reports (pending l1 t)) ->
  forall c s, c ∈ reports (pending l1 t) -> s ∈ reports (pending l1 t) -> two_halves c s ->
  tCS (s_timings c) <> 0 -> tCR (s_timings c) <> 0 -> tSR (s_timings s) <> 0 -> tSS (s_timings s) <> 0 ->
  int64_ok (tCS (s_timings c)) -> int64_ok (tCR (s_timings c) - tCS (s_timings c)) -> ~ before_2020 (tCS (s_timings c)) ->
  forall o, o ∈ out -> s_id o = s_id c -> ~ circular out o ->
  s_ts o = tCS (s_timings c) /\ s_dur o = tCR (s_timings c) - tCS (s_timings c).
Proof. exact agree_shared. Qed.
Print Assumptions C122_shared.

(** C122: so it is in executions of the whole program in which the trace is not disturbed (C115). *)
Theorem C122_system :
  forall (S : Type) cfg (conv : converter S) s0 evs st t p, yreachable cfg conv s0 evs st -> t <> 0 -> undisturbed t p st ->
  forall out, LOut t (Emitted out) ∈ y_log st -> clocks_agree (told t st) ->
  forall s, s ∈ told t st -> alone (told t st) s -> settled s -> s ∈ out /\ forall o, o ∈ out -> s_id o = s_id s -> o = s.
Proof. exact @agree_system. Qed.
Print Assumptions C122_system.

(** C122: and every target gets what the converter makes of exactly this span. *)
Theorem C122_targets :
  forall (S : Type) cfg (conv : converter S) s0 evs st t p, yreachable cfg conv s0 evs st -> t <> 0 -> undisturbed t p st ->
  forall out, LOut t (Emitted out) ∈ y_log st -> clocks_agree (told t st) ->
  forall s, s ∈ told t st -> alone (told t st) s -> settled s ->
  forall h r, positive_caps cfg -> ystopped cfg conv st -> works_as conv h -> (h s).2 = false -> s_id (h s).1 <> 0 -> s_trace (h s).1 <> 0 -> r ∈ p_readers (y_pipe st) ->
  exists trace, trace ∈ rd_log r /\ (h s).1 ∈ trace.
Proof. exact @agree_targets. Qed.
Print Assumptions C122_targets.

(** C122: where clocks do not agree, spans are changed. *)
Theorem C122_ahead_refuted :
  exists evs l1 l2 t out s, Forall valid_event evs /\ (run evs).2 = l1 ++ LOut t (Emitted out) :: l2 /\
  s ∈ reports (pending l1 t) /\ alone (reports (pending l1 t)) s /\ settled s /\ s ∉ out.
Proof. exact ahead_changed. Qed.
Print Assumptions C122_ahead_refuted.

(** Two calls, one below the other, between three hosts whose clocks agree. *)
Example C122_instance_run :
  Forall valid_event (course alike) /\ (run (course alike)).2 = course_log alike 5 ++ [LOut 9 (Emitted (told_right (-1000) 28))] /\
  reports (pending (course_log alike 5) 9) = alike /\ clocks_agree alike /\ second_work 28 ∈ alike /\ alone alike (second_work 28) /\ settled (second_work 28).
Proof.
  split; [apply calls_valid; lia|]. split; [vm_compute; reflexivity|]. split; [vm_compute; reflexivity|]. split; [exact alike_agree|]. split; [left|].
  split; [apply work_alone|exact work_settled].
Qed.

(** The second of these calls. *)
Example C122_instance_shared :
  let c := second_call (-1000) in let s := second_served 28 in orderly alike /\ c ∈ alike /\ s ∈ alike /\ two_halves c s /\
  tCS (s_timings c) <> 0 /\ tCR (s_timings c) <> 0 /\ tSR (s_timings s) <> 0 /\ tSS (s_timings s) <> 0 /\
  int64_ok (tCS (s_timings c)) /\ int64_ok (tCR (s_timings c) - tCS (s_timings c)) /\ ~ before_2020 (tCS (s_timings c)) /\
  second_emitted ∈ told_right (-1000) 28 /\ s_id second_emitted = s_id c /\ ~ circular (told_right (-1000) 28) second_emitted.
Proof.
  cbv zeta. split; [exact alike_orderly|]. split; [unfold alike, calls; rewrite !elem_of_cons; tauto|]. split; [unfold alike, calls; rewrite !elem_of_cons; tauto|].
  split; [exact second_halves|]. do 4 (split; [cbn; unfold noon; lia|]). split; [unfold int64_ok; p2; cbn; unfold noon; lia|]. split; [unfold int64_ok; p2; cbn; unfold noon; lia|].
  split; [unfold before_2020; cbn; unfold noon; lia|]. assert (H : second_emitted ∈ told_right (-1000) 28) by (right; left).
  split; [exact H|]. split; [reflexivity|]. by apply told_straight.
Qed.

(** The whole program: the front and the shop of C117. *)
Example C122_instance :
  let st := after host_course1 in yreachable unseen_config unseen_conv tt host_course1 st /\ undisturbed 9 (seconds 8) st /\
  LOut 9 (Emitted (leaves 0)) ∈ y_log st /\ clocks_agree (told 9 st) /\ labour 0 ∈ told 9 st /\ alone (told 9 st) (labour 0) /\ settled (labour 0) /\
  positive_caps unseen_config /\ ystopped unseen_config unseen_conv st /\ works_as unseen_conv (fun x => (x, false)) /\ length (p_readers (y_pipe st)) = 2%nat.
Proof.
  cbv zeta. split; [exact host_course1_reaches|]. split; [exact host_undisturbed1|]. split; [exact host_emits1|]. rewrite host_told1.
  split; [exact leaves_agree|]. split; [rewrite !elem_of_cons; tauto|]. split; [exact labour_alone|]. split; [exact labour_settled|].
  split; [unfold positive_caps, unseen_config; cbn [z_input z_pipe g_source g_targets]; repeat split; [lia|lia|repeat (constructor; [lia|]); constructor]|].
  split; [apply quiet_stopped, host_quiet1|]. split; [intros s x; reflexivity|]. vm_compute; reflexivity.
Qed.
