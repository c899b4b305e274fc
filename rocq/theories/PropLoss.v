(** Property C121: what is lost does no harm elsewhere. *)
From Verif Require Import Base SpanModel TreeModel TreeSpec FinishModel FinishSpec FinishWitness ForwardModel ForwardSpec PipelineModel PipelineSpec SystemModel SystemSpec SystemTheorems
  ConnectSpec WholeSpec OrderSpec OrderWitness UnseenSpec UnseenWitness ClockWitness HostsWitness LossSpec LossProofs LossWitness.

(** C121: in any two runs of the corrector, however they differ otherwise: a trace is emitted in the first; in the second the same
    was received for it, but without some spans and everything below them. The root is not among these, and if it was injected, none
    of its children. Then the second does not give the trace up for want of a root, *)
Theorem C121_fate :
  forall lost evs evs' l1 l2 l1' l2' t out r, Forall valid_event evs -> Forall valid_event evs' ->
  (run evs).2 = l1 ++ LOut t (Emitted out) :: l2 -> reports (pending l1' t) = spared lost (reports (pending l1 t)) ->
  one_root out r -> s_id r ∉ lost -> with_all_below lost out ->
  s_id r ∈ ids (reports (pending l1 t)) \/ (forall c, child out r c -> s_id c ∉ lost) ->
  (run evs').2 = l1' ++ LOut t NoRoot :: l2' -> False.
Proof. exact loss_fate. Qed.
Print Assumptions C121_fate.

(** C121: and if it emits it, then with exactly the other spans, unchanged. *)
Theorem C121_same :
  forall lost evs evs' l1 l2 l1' l2' t out r, Forall valid_event evs -> Forall valid_event evs' ->
  (run evs).2 = l1 ++ LOut t (Emitted out) :: l2 -> reports (pending l1' t) = spared lost (reports (pending l1 t)) ->
  one_root out r -> s_id r ∉ lost -> with_all_below lost out ->
  s_id r ∈ ids (reports (pending l1 t)) \/ (forall c, child out r c -> s_id c ∉ lost) ->
  forall out', (run evs').2 = l1' ++ LOut t (Emitted out') :: l2' -> out' ≡ₚ spared lost out.
Proof. exact loss_same. Qed.
Print Assumptions C121_same.

(** C121: so it is in executions of the whole program in which the trace is not disturbed (C115). *)
Theorem C121_system :
  forall lost (S S' : Type) cfg cfg' (conv : converter S) (conv' : converter S') s0 s0' evs evs' st st' t p p',
  yreachable cfg conv s0 evs st -> yreachable cfg' conv' s0' evs' st' -> t <> 0 -> undisturbed t p st -> undisturbed t p' st' ->
  told t st' = spared lost (told t st) -> forall out root, LOut t (Emitted out) ∈ y_log st ->
  one_root out root -> s_id root ∉ lost -> with_all_below lost out ->
  s_id root ∈ ids (told t st) \/ (forall c, child out root c -> s_id c ∉ lost) ->
  forall o', LOut t o' ∈ y_log st' -> match o' with Emitted out' => out' ≡ₚ spared lost out | TooOld => True | _ => False end.
Proof. exact @loss_system. Qed.
Print Assumptions C121_system.

(** C121: every target gets the other spans as it would have got them. *)
Theorem C121_targets :
  forall lost (S S' : Type) cfg cfg' (conv : converter S) (conv' : converter S') s0 s0' evs evs' st st' t p p',
  yreachable cfg conv s0 evs st -> yreachable cfg' conv' s0' evs' st' -> t <> 0 -> undisturbed t p st -> undisturbed t p' st' ->
  told t st' = spared lost (told t st) -> forall out root, LOut t (Emitted out) ∈ y_log st ->
  one_root out root -> s_id root ∉ lost -> with_all_below lost out ->
  s_id root ∈ ids (told t st) \/ (forall c, child out root c -> s_id c ∉ lost) ->
  forall h out' r r', LOut t (Emitted out') ∈ y_log st' ->
  positive_caps cfg -> positive_caps cfg' -> ystopped cfg conv st -> ystopped cfg' conv' st' -> works_as conv h -> works_as conv' h ->
  r ∈ p_readers (y_pipe st) -> r' ∈ p_readers (y_pipe st') ->
  kept h out ∈ rd_log r /\ kept h out' ∈ rd_log r' /\ kept h out' ≡ₚ kept h (spared lost out).
Proof. exact @loss_targets. Qed.
Print Assumptions C121_targets.

(** C121: if one report in the middle is lost and what is below it arrives, the whole trace may be given up. *)
Theorem C121_inner_refuted :
  exists lost evs evs' l1 l2 l1' l2' t out r, Forall valid_event evs /\ Forall valid_event evs' /\
  (run evs).2 = l1 ++ LOut t (Emitted out) :: l2 /\ (run evs').2 = l1' ++ LOut t NoRoot :: l2' /\
  reports (pending l1' t) = spared lost (reports (pending l1 t)) /\ one_root out r /\ s_id r ∉ lost /\ s_id r ∈ ids (reports (pending l1 t)) /\ length lost = 1%nat.
Proof. exact middle_lost. Qed.
Print Assumptions C121_inner_refuted.

(** C121: if a child of an injected root is lost, the rest may come out otherwise. *)
Theorem C121_top_refuted :
  exists lost evs evs' l1 l2 l1' l2' t out out' r, Forall valid_event evs /\ Forall valid_event evs' /\
  (run evs).2 = l1 ++ LOut t (Emitted out) :: l2 /\ (run evs').2 = l1' ++ LOut t (Emitted out') :: l2' /\
  reports (pending l1' t) = spared lost (reports (pending l1 t)) /\ one_root out r /\ s_id r ∉ lost /\ with_all_below lost out /\ ~ out' ≡ₚ spared lost out.
Proof. exact top_lost. Qed.
Print Assumptions C121_top_refuted.

(** Two calls; the second and what was done for it is lost. *)
Example C121_instance_runs :
  let l := calls 0 0 in let l' := spared [8; 9] l in Forall valid_event (course l) /\ Forall valid_event (course l') /\
  (run (course l)).2 = course_log l 5 ++ [LOut 9 (Emitted (told_right 0 0))] /\
  (run (course l')).2 = course_log l' 3 ++ [LOut 9 (Emitted (spared [8; 9] (told_right 0 0)))] /\
  reports (pending (course_log l' 3) 9) = spared [8; 9] (reports (pending (course_log l 5) 9)) /\
  one_root (told_right 0 0) entrance /\ s_id entrance ∉ [8; 9] /\ with_all_below [8; 9] (told_right 0 0) /\
  s_id entrance ∈ ids (reports (pending (course_log l 5) 9)) /\ length (spared [8; 9] (told_right 0 0)) = 3%nat.
Proof.
  cbv zeta. split; [apply calls_valid; lia|]. split; [apply spared_valid, calls_ok|]. split; [vm_compute; reflexivity|]. split; [vm_compute; reflexivity|].
  split; [vm_compute; reflexivity|]. split; [apply told_root|]. split; [rewrite !elem_of_cons, elem_of_nil; intros [H|[H|[]]]; discriminate H|].
  split; [exact calls_below|]. split; [|vm_compute; reflexivity].
  change (reports (pending (course_log (calls 0 0) 5) 9)) with (calls 0 0). cbn. rewrite !elem_of_cons. tauto.
Qed.

(** A trace with an injected root; a report further below is lost. *)
Example C121_instance_injected :
  let l := orphan_calls 0 in let l' := spared [7] l in Forall valid_event (course l) /\ Forall valid_event (course l') /\
  (run (course l)).2 = course_log l 4 ++ [LOut 9 (Emitted (orphans_told 0))] /\
  (run (course l')).2 = course_log l' 3 ++ [LOut 9 (Emitted (spared [7] (orphans_told 0)))] /\
  reports (pending (course_log l' 3) 9) = spared [7] (reports (pending (course_log l 4) 9)) /\
  one_root (orphans_told 0) (injected_at noon 150) /\ s_id (injected_at noon 150) ∉ [7] /\ with_all_below [7] (orphans_told 0) /\
  (forall c, child (orphans_told 0) (injected_at noon 150) c -> s_id c ∉ [7]) /\ length (spared [7] (orphans_told 0)) = 4%nat.
Proof.
  cbv zeta. split; [apply orphans_valid; lia|]. split; [apply spared_valid, orphans_ok|]. split; [vm_compute; reflexivity|]. split; [vm_compute; reflexivity|].
  split; [vm_compute; reflexivity|]. split; [apply orphans_root|]. split; [rewrite !elem_of_cons, elem_of_nil; intros [H|[]]; discriminate H|].
  split; [exact orphans_below|]. split; [|vm_compute; reflexivity].
  intros c (Hc & E & _) H. rewrite !elem_of_cons, elem_of_nil in H. destruct H as [H|[]]. unfold orphans_told in Hc. rewrite !elem_of_cons, elem_of_nil in Hc.
  destruct Hc as [->|[->|[->|[->|[->|[]]]]]]; first [discriminate H|discriminate E].
Qed.

(** The whole program: the shop of C117 does not tell of its work, with another trace in between. *)
Example C121_instance :
  let st := after host_course1 in let st' := after loss_course in
  yreachable unseen_config unseen_conv tt host_course1 st /\ yreachable unseen_config unseen_conv tt loss_course st' /\
  undisturbed 9 (seconds 8) st /\ undisturbed 9 (seconds 8) st' /\ told 9 st' = spared [6] (told 9 st) /\
  LOut 9 (Emitted (leaves 0)) ∈ y_log st /\ LOut 9 (Emitted (spared [6] (leaves 0))) ∈ y_log st' /\
  one_root (leaves 0) page /\ s_id page ∉ [6] /\ with_all_below [6] (leaves 0) /\ s_id page ∈ ids (told 9 st) /\
  positive_caps unseen_config /\ ystopped unseen_config unseen_conv st /\ ystopped unseen_config unseen_conv st' /\
  works_as unseen_conv (fun x => (x, false)) /\ length (p_readers (y_pipe st)) = 2%nat /\ length (p_readers (y_pipe st')) = 2%nat /\
  length (spared [6] (leaves 0)) = 2%nat.
Proof.
  cbv zeta. split; [exact host_course1_reaches|]. split; [exact loss_reaches|]. split; [exact host_undisturbed1|]. split; [exact loss_undisturbed|].
  split; [exact loss_told|]. split; [exact host_emits1|]. split; [exact loss_emits|]. split; [apply host_root|].
  split; [rewrite !elem_of_cons, elem_of_nil; intros [H|[]]; discriminate H|]. split; [exact loss_below|]. split; [apply host_root|].
  split; [unfold positive_caps, unseen_config; cbn [z_input z_pipe g_source g_targets]; repeat split; [lia|lia|repeat (constructor; [lia|]); constructor]|].
  split; [apply quiet_stopped, host_quiet1|]. split; [apply quiet_stopped, loss_quiet|]. split; [intros s x; reflexivity|].
  repeat split; vm_compute; reflexivity.
Qed.
