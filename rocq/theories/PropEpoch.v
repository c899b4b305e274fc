(** Property C120: when a trace happened does not matter. *)
From Verif Require Import Base SpanModel TreeModel TreeSpec FinishModel FinishSpec FinishWitness ForwardModel ForwardSpec PipelineModel PipelineSpec SystemModel SystemSpec SystemTheorems
  WholeSpec OrderSpec OrderWitness ShiftSpec UnseenSpec UnseenWitness ClockWitness HostsWitness EpochSpec EpochProofs EpochWitness.

(** C120: in any two runs of the corrector, however they differ otherwise: if a trace is emitted in the first, and in the second
    the same was received for it, but [d] nanoseconds later or earlier, the second does not give it up for want of a root, *)
Theorem C120_fate :
  forall d lo hi evs evs' l1 l2 l1' l2' t out, Forall valid_event evs -> Forall valid_event evs' ->
  (run evs).2 = l1 ++ LOut t (Emitted out) :: l2 -> Forall (between lo hi) (reports (pending l1 t)) ->
  roomy (1 + length (reports (pending l1 t))) lo hi -> roomy (1 + length (reports (pending l1 t))) (lo + d) (hi + d) ->
  reports (pending l1' t) = map (moved d) (reports (pending l1 t)) ->
  (run evs').2 = l1' ++ LOut t NoRoot :: l2' -> False.
Proof. exact epoch_fate. Qed.
Print Assumptions C120_fate.

(** C120: and if it emits it, then with the same spans, all as much later or earlier. *)
Theorem C120_same :
  forall d lo hi evs evs' l1 l2 l1' l2' t out, Forall valid_event evs -> Forall valid_event evs' ->
  (run evs).2 = l1 ++ LOut t (Emitted out) :: l2 -> Forall (between lo hi) (reports (pending l1 t)) ->
  roomy (1 + length (reports (pending l1 t))) lo hi -> roomy (1 + length (reports (pending l1 t))) (lo + d) (hi + d) ->
  reports (pending l1' t) = map (moved d) (reports (pending l1 t)) ->
  forall out', (run evs').2 = l1' ++ LOut t (Emitted out') :: l2' -> out' ≡ₚ map (moved d) out.
Proof. exact epoch_same. Qed.
Print Assumptions C120_same.

(** C120: so it is in executions of the whole program in which the trace is not disturbed (C115). *)
Theorem C120_system :
  forall d lo hi (S S' : Type) cfg cfg' (conv : converter S) (conv' : converter S') s0 s0' evs evs' st st' t p p',
  yreachable cfg conv s0 evs st -> yreachable cfg' conv' s0' evs' st' -> t <> 0 -> undisturbed t p st -> undisturbed t p' st' ->
  told t st' = map (moved d) (told t st) -> Forall (between lo hi) (told t st) ->
  roomy (1 + length (told t st)) lo hi -> roomy (1 + length (told t st)) (lo + d) (hi + d) -> forall out, LOut t (Emitted out) ∈ y_log st ->
  forall o', LOut t o' ∈ y_log st' -> match o' with Emitted out' => out' ≡ₚ map (moved d) out | TooOld => True | _ => False end.
Proof. exact @epoch_system. Qed.
Print Assumptions C120_system.

(** C120: every target gets the same spans, all as much later or earlier, if the converter does not look at the time. *)
Theorem C120_targets :
  forall d lo hi (S S' : Type) cfg cfg' (conv : converter S) (conv' : converter S') s0 s0' evs evs' st st' t p p',
  yreachable cfg conv s0 evs st -> yreachable cfg' conv' s0' evs' st' -> t <> 0 -> undisturbed t p st -> undisturbed t p' st' ->
  told t st' = map (moved d) (told t st) -> Forall (between lo hi) (told t st) ->
  roomy (1 + length (told t st)) lo hi -> roomy (1 + length (told t st)) (lo + d) (hi + d) -> forall out, LOut t (Emitted out) ∈ y_log st ->
  forall h out' r r', LOut t (Emitted out') ∈ y_log st' ->
  positive_caps cfg -> positive_caps cfg' -> ystopped cfg conv st -> ystopped cfg' conv' st' -> works_as conv h -> works_as conv' h -> timeless d h ->
  r ∈ p_readers (y_pipe st) -> r' ∈ p_readers (y_pipe st') ->
  kept h out ∈ rd_log r /\ kept h out' ∈ rd_log r' /\ kept h out' ≡ₚ map (moved d) (kept h out).
Proof. exact @epoch_targets. Qed.
Print Assumptions C120_targets.

(** Two calls, one below the other, and the same a day later. *)
Example C120_instance_runs :
  let l := calls 0 0 in let l' := map (moved day) l in
  Forall valid_event (course l) /\ Forall valid_event (course l') /\
  (run (course l)).2 = course_log l 5 ++ [LOut 9 (Emitted (told_right 0 0))] /\
  (run (course l')).2 = course_log l' 5 ++ [LOut 9 (Emitted (map (moved day) (told_right 0 0)))] /\
  reports (pending (course_log l 5) 9) = l /\ reports (pending (course_log l' 5) 9) = l' /\
  Forall (between noon (noon + 1000000)) l /\ roomy (1 + length l) noon (noon + 1000000) /\ roomy (1 + length l) (noon + day) (noon + 1000000 + day).
Proof.
  cbv zeta. split; [apply calls_valid; lia|].
  split; [apply course_valid; unfold calls; cbn [map]; repeat (apply Forall_cons_2; [unfold int64_ok; p2; cbn; unfold noon, day; lia|]); apply Forall_nil_2|].
  split; [vm_compute; reflexivity|]. split; [vm_compute; reflexivity|]. split; [reflexivity|]. split; [reflexivity|].
  split; [unfold calls, between, at_between, entrance, first_call, first_served, first_work, second_call, second_served, second_work, plain, noon;
    repeat (apply Forall_cons_2; [cbn [s_ts s_dur s_timings tCS tCR tSS tSR]; lia|]); apply Forall_nil_2|].
  unfold roomy, noon, day, calls. cbn [length]. p2. split; (split; [lia|]; split; lia).
Qed.

(** The whole program: the front and the shop of C117 a day later, with another trace in between. *)
Example C120_instance :
  let st := after host_course1 in let st' := after epoch_course in
  yreachable unseen_config unseen_conv tt host_course1 st /\ yreachable unseen_config unseen_conv tt epoch_course st' /\
  undisturbed 9 (seconds 8) st /\ undisturbed 9 (seconds 8) st' /\ told 9 st' = map (moved day) (told 9 st) /\
  Forall (between noon (noon + 1000000)) (told 9 st) /\
  roomy (1 + length (told 9 st)) noon (noon + 1000000) /\ roomy (1 + length (told 9 st)) (noon + day) (noon + 1000000 + day) /\
  LOut 9 (Emitted (leaves 0)) ∈ y_log st /\ LOut 9 (Emitted (map (moved day) (leaves 0))) ∈ y_log st' /\
  positive_caps unseen_config /\ ystopped unseen_config unseen_conv st /\ ystopped unseen_config unseen_conv st' /\
  works_as unseen_conv (fun x => (x, false)) /\ timeless day (fun x => (x, false)) /\
  length (p_readers (y_pipe st)) = 2%nat /\ length (p_readers (y_pipe st')) = 2%nat.
Proof.
  cbv zeta. split; [exact host_course1_reaches|]. split; [exact epoch_reaches|]. split; [exact host_undisturbed1|].
  split; [exact epoch_undisturbed|]. split; [exact epoch_told|]. split; [exact epoch_between|]. split; [apply epoch_roomy|]. split; [apply epoch_roomy|].
  split; [exact host_emits1|]. split; [exact epoch_emits|].
  split; [unfold positive_caps, unseen_config; cbn [z_input z_pipe g_source g_targets]; repeat split; [lia|lia|repeat (constructor; [lia|]); constructor]|].
  split; [apply quiet_stopped, host_quiet1|]. split; [apply quiet_stopped, epoch_quiet|]. split; [intros s x; reflexivity|]. split; [intros x; reflexivity|].
  split; vm_compute; reflexivity.
Qed.

(** A converter that drops what is older than a day. *)
Example C120_instance_nosy :
  let h := fun x => (x, s_ts x <? noon + day) in length (kept h (leaves 0)) = 0%nat /\ length (kept h (map (moved day) (leaves 0))) = 3%nat.
Proof. split; vm_compute; reflexivity. Qed.
