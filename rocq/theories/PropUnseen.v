(** Property C115: neither the schedule nor other requests show in a trace. *)
From Verif Require Import Base SpanModel TreeModel TreeSpec FinishModel FinishSpec ForwardModel ForwardSpec PipelineModel PipelineSpec SystemModel SystemSpec SystemTheorems
  ConnectSpec WholeSpec OrderSpec UnseenSpec UnseenProofs UnseenWitness.

(** C115: two executions of the program, with whatever requests, schedules, capacities and converters, in both of which the
    same spans are reported about trace [t], in any order, any number of times, in any requests.  If the trace is not
    disturbed in either and is emitted in one, it is emitted in the other, or given up there as too old. *)
Theorem C115_fate :
  forall (S S' : Type) cfg cfg' (conv : converter S) (conv' : converter S') s0 s0' evs evs' st st' t p p',
  yreachable cfg conv s0 evs st -> yreachable cfg' conv' s0' evs' st' -> t <> 0 -> undisturbed t p st -> undisturbed t p' st' ->
  orderly (told t st) -> same_reports (told t st) (told t st') ->
  forall out, LOut t (Emitted out) ∈ y_log st ->
  forall o', LOut t o' ∈ y_log st' -> match o' with Emitted _ | TooOld => True | _ => False end.
Proof. exact @unseen_fate. Qed.
Print Assumptions C115_fate.

(** C115: it is emitted once. *)
Theorem C115_once :
  forall (S : Type) cfg (conv : converter S) s0 evs st t p,
  yreachable cfg conv s0 evs st -> t <> 0 -> undisturbed t p st ->
  forall out, LOut t (Emitted out) ∈ y_log st -> forall out', LOut t (Emitted out') ∈ y_log st -> out' = out.
Proof. exact @unseen_once. Qed.
Print Assumptions C115_once.

(** C115: as many spans, the same except for their times. *)
Theorem C115_content :
  forall (S S' : Type) cfg cfg' (conv : converter S) (conv' : converter S') s0 s0' evs evs' st st' t p p',
  yreachable cfg conv s0 evs st -> yreachable cfg' conv' s0' evs' st' -> t <> 0 -> undisturbed t p st -> undisturbed t p' st' ->
  orderly (told t st) -> same_reports (told t st) (told t st') ->
  forall out, LOut t (Emitted out) ∈ y_log st -> forall out', LOut t (Emitted out') ∈ y_log st' ->
  length out' = length out /\ forall x, x ∈ out -> exists start dur, retimed x start dur ∈ out'.
Proof. exact @unseen_content. Qed.
Print Assumptions C115_content.

(** C115: the same spans, if nothing runs in circles and the root was reported or every span is reported once or below
    another one (C96). *)
Theorem C115_same :
  forall (S S' : Type) cfg cfg' (conv : converter S) (conv' : converter S') s0 s0' evs evs' st st' t p p',
  yreachable cfg conv s0 evs st -> yreachable cfg' conv' s0' evs' st' -> t <> 0 -> undisturbed t p st -> undisturbed t p' st' ->
  orderly (told t st) -> same_reports (told t st) (told t st') ->
  forall out, LOut t (Emitted out) ∈ y_log st -> forall out', LOut t (Emitted out') ∈ y_log st' ->
  (exists r, one_root out r /\ s_id r ∈ ids (told t st)) \/ Forall (fun x => alone (told t st) x \/ attached (told t st) x) (told t st) ->
  (forall x, x ∈ out -> ~ circular out x) -> out' ≡ₚ out.
Proof. exact @unseen_same. Qed.
Print Assumptions C115_same.

(** C115: so every target, in both executions, gets the same converted spans of the trace. *)
Theorem C115_targets :
  forall (S S' : Type) cfg cfg' (conv : converter S) (conv' : converter S') s0 s0' evs evs' st st' t p p' g out out' r r',
  yreachable cfg conv s0 evs st -> yreachable cfg' conv' s0' evs' st' -> t <> 0 -> undisturbed t p st -> undisturbed t p' st' ->
  orderly (told t st) -> same_reports (told t st) (told t st') -> LOut t (Emitted out) ∈ y_log st -> LOut t (Emitted out') ∈ y_log st' ->
  (exists r, one_root out r /\ s_id r ∈ ids (told t st)) \/ Forall (fun x => alone (told t st) x \/ attached (told t st) x) (told t st) ->
  (forall x, x ∈ out -> ~ circular out x) ->
  positive_caps cfg -> positive_caps cfg' -> ystopped cfg conv st -> ystopped cfg' conv' st' -> works_as conv g -> works_as conv' g ->
  r ∈ p_readers (y_pipe st) -> r' ∈ p_readers (y_pipe st') ->
  kept g out ∈ rd_log r /\ kept g out' ∈ rd_log r' /\ kept g out' ≡ₚ kept g out.
Proof. exact @unseen_targets. Qed.
Print Assumptions C115_targets.

(** C115 fails for traces with breaks: a part may be emitted alone. *)
Theorem C115_breaks_refuted :
  exists cfg (conv : converter unit) evs evs' st st' t p out out', yreachable cfg conv tt evs st /\ yreachable cfg conv tt evs' st' /\ t <> 0 /\
    undisturbed t p st /\ y_input st' = [] /\ steady (y_log st') /\ calm p (y_log st') /\ orderly (told t st) /\ same_reports (told t st) (told t st') /\
    LOut t (Emitted out) ∈ y_log st /\ LOut t (Emitted out') ∈ y_log st' /\ (exists r, one_root out r /\ s_id r ∈ ids (told t st)) /\
    (forall x, x ∈ out -> ~ circular out x) /\ length out' <> length out.
Proof. exact breaks_show. Qed.
Print Assumptions C115_breaks_refuted.

(** Two executions: two requests whose handlers interleave; four requests one after the other, two of them the same and
    one about another trace, with a check in between. *)
Example C115_instance :
  let st := after course1 in let st' := after course2 in
  yreachable unseen_config unseen_conv tt course1 st /\ yreachable unseen_config unseen_conv tt course2 st' /\
  undisturbed 7 (seconds 8) st /\ undisturbed 7 (seconds 8) st' /\ told 7 st = [top; bottom; middle] /\ told 7 st' = [bottom; top; middle; bottom] /\
  orderly (told 7 st) /\ same_reports (told 7 st) (told 7 st') /\ LOut 7 (Emitted whole) ∈ y_log st /\ LOut 7 (Emitted whole) ∈ y_log st' /\
  (one_root whole top /\ s_id top ∈ ids (told 7 st)) /\ (forall x, x ∈ whole -> ~ circular whole x) /\
  positive_caps unseen_config /\ ystopped unseen_config unseen_conv st /\ ystopped unseen_config unseen_conv st' /\
  works_as unseen_conv (fun x => (x, false)) /\ length (p_readers (y_pipe st)) = 2%nat /\ length (p_readers (y_pipe st')) = 2%nat.
Proof.
  split; [exact course1_reaches|]. split; [exact course2_reaches|]. split; [exact undisturbed1|]. split; [exact undisturbed2|].
  split; [exact told1|]. split; [exact told2|]. split; [exact told_orderly|]. split; [exact same12|]. split; [exact emits1|]. split; [exact emits2|].
  split; [exact whole_root|]. split; [exact whole_straight|].
  split; [unfold positive_caps, unseen_config; cbn [z_input z_pipe g_source g_targets]; repeat split; [lia|lia|repeat (constructor; [lia|]); constructor]|].
  split; [apply quiet_stopped, quiet1|]. split; [apply quiet_stopped, quiet2|]. split; [intros s x; reflexivity|]. split; vm_compute; reflexivity.
Qed.
