(** Property C117: the clocks of the hosts do not reach the targets. *)
From Verif Require Import Base SpanModel TreeModel TreeSpec FinishModel FinishSpec FinishWitness ForwardModel ForwardSpec PipelineModel PipelineSpec SystemModel SystemSpec SystemTheorems
  ConnectSpec WholeSpec OrderSpec OrderWitness DatadogModel UnseenSpec UnseenProofs UnseenWitness ClockSpec HostsSpec HostsProofs HostsWitness.

(** C117: two executions of the program, with whatever requests, schedules, capacities and converters, in both of which the
    same is reported about trace [t], in any order and any number of times, but by hosts with other clocks.  If the trace is
    emitted in the one with a root that was reported, it is emitted in the other, or given up there as too old. *)
Theorem C117_fate :
  forall (S S' : Type) cfg cfg' (conv : converter S) (conv' : converter S') s0 s0' evs evs' st st' t p p' outer inner,
  yreachable cfg conv s0 evs st -> yreachable cfg' conv' s0' evs' st' -> t <> 0 -> undisturbed t p st -> undisturbed t p' st' ->
  forall out r, LOut t (Emitted out) ∈ y_log st -> one_root out r -> by_host outer inner out r ->
  forall o', retold outer inner (told t st) (told t st') -> s_id r ∈ ids (told t st) ->
  LOut t o' ∈ y_log st' -> match o' with Emitted _ | TooOld => True | _ => False end.
Proof. exact @hosts_fate. Qed.
Print Assumptions C117_fate.

(** C117: the same spans, with the same starts and durations, except that they record what both sides measured. *)
Theorem C117_same :
  forall (S S' : Type) cfg cfg' (conv : converter S) (conv' : converter S') s0 s0' evs evs' st st' t p p' outer inner,
  yreachable cfg conv s0 evs st -> yreachable cfg' conv' s0' evs' st' -> t <> 0 -> undisturbed t p st -> undisturbed t p' st' ->
  forall out r, LOut t (Emitted out) ∈ y_log st -> one_root out r -> by_host outer inner out r ->
  forall out', LOut t (Emitted out') ∈ y_log st' -> (forall x, x ∈ out -> ~ circular out x) ->
  retold outer inner (told t st) (told t st') -> s_id r ∈ ids (told t st) -> exists out2, out2 ≡ₚ out' /\ Forall2 alike out out2.
Proof. exact @hosts_own. Qed.
Print Assumptions C117_same.

(** C117: also with an injected root, if every span is reported once or below another one, and those directly below the
    root run on hosts whose clocks are right. *)
Theorem C117_injected :
  forall (S S' : Type) cfg cfg' (conv : converter S) (conv' : converter S') s0 s0' evs evs' st st' t p p' outer inner,
  yreachable cfg conv s0 evs st -> yreachable cfg' conv' s0' evs' st' -> t <> 0 -> undisturbed t p st -> undisturbed t p' st' ->
  forall out r, LOut t (Emitted out) ∈ y_log st -> one_root out r -> by_host outer inner out r ->
  forall out', LOut t (Emitted out') ∈ y_log st' -> (forall x, x ∈ out -> ~ circular out x) ->
  retold_settled outer inner (told t st) (told t st') -> s_id r ∉ ids (told t st) -> (forall c, child out r c -> inner (s_id c) = 0) ->
  exists out2, out2 ≡ₚ out' /\ Forall2 alike out out2.
Proof. exact @hosts_injected. Qed.
Print Assumptions C117_injected.

(** C117: so what every target sends to Datadog of the trace is the same in both executions, if the converter does not look
    at what the two sides measured. *)
Theorem C117_targets :
  forall (S S' : Type) cfg cfg' (conv : converter S) (conv' : converter S') s0 s0' evs evs' st st' t p p' outer inner g out out' root r r',
  yreachable cfg conv s0 evs st -> yreachable cfg' conv' s0' evs' st' -> t <> 0 -> undisturbed t p st -> undisturbed t p' st' ->
  LOut t (Emitted out) ∈ y_log st -> LOut t (Emitted out') ∈ y_log st' -> one_root out root -> by_host outer inner out root ->
  retold outer inner (told t st) (told t st') -> s_id root ∈ ids (told t st) -> (forall x, x ∈ out -> ~ circular out x) ->
  positive_caps cfg -> positive_caps cfg' -> ystopped cfg conv st -> ystopped cfg' conv' st' -> works_as conv g -> works_as conv' g -> overlooks g ->
  r ∈ p_readers (y_pipe st) -> r' ∈ p_readers (y_pipe st') ->
  kept g out ∈ rd_log r /\ kept g out' ∈ rd_log r' /\ map dd_convert (kept g out') ≡ₚ map dd_convert (kept g out).
Proof. exact @hosts_targets. Qed.
Print Assumptions C117_targets.

(** The front calls the shop, whose clock is right, or 5 ms ahead; in the second execution the shop reports first and twice,
    and another trace in between. *)
Example C117_instance :
  let st := after host_course1 in let st' := after host_course2 in
  yreachable unseen_config unseen_conv tt host_course1 st /\ yreachable unseen_config unseen_conv tt host_course2 st' /\
  undisturbed 9 (seconds 8) st /\ undisturbed 9 (seconds 8) st' /\
  told 9 st = [page; served 0; get; labour 0] /\ told 9 st' = [served ahead; labour ahead; page; get; served ahead; labour ahead] /\
  LOut 9 (Emitted (leaves 0)) ∈ y_log st /\ LOut 9 (Emitted (leaves ahead)) ∈ y_log st' /\
  one_root (leaves 0) page /\ s_id page ∈ ids (told 9 st) /\ by_host host_outer host_inner (leaves 0) page /\
  retold host_outer host_inner (told 9 st) (told 9 st') /\ (forall x, x ∈ leaves 0 -> ~ circular (leaves 0) x) /\
  positive_caps unseen_config /\ ystopped unseen_config unseen_conv st /\ ystopped unseen_config unseen_conv st' /\
  works_as unseen_conv (fun x => (x, false)) /\ overlooks (fun x => (x, false)) /\
  length (p_readers (y_pipe st)) = 2%nat /\ length (p_readers (y_pipe st')) = 2%nat.
Proof.
  cbv zeta. split; [exact host_course1_reaches|]. split; [exact host_course2_reaches|]. split; [exact host_undisturbed1|]. split; [exact host_undisturbed2|].
  split; [exact host_told1|]. split; [exact host_told2|]. split; [exact host_emits1|]. split; [exact host_emits2|].
  split; [apply host_root|]. split; [apply host_root|]. split; [exact host_clocks|]. split; [exact host_retold|]. split; [exact host_straight|].
  split; [unfold positive_caps, unseen_config; cbn [z_input z_pipe g_source g_targets]; repeat split; [lia|lia|repeat (constructor; [lia|]); constructor]|].
  split; [apply quiet_stopped, host_quiet1|]. split; [apply quiet_stopped, host_quiet2|]. split; [intros s x; reflexivity|]. split; [exact copy_overlooks|].
  split; vm_compute; reflexivity.
Qed.

(** A converter that looks at them: Datadog would get another number of spans in these executions. *)
Example C117_instance_nosy : length (kept nosy (leaves 0)) = 2%nat /\ length (kept nosy (leaves ahead)) = 3%nat.
Proof. destruct nosy_sees as [-> ->]. split; reflexivity. Qed.

(** The parent of two spans is missing. *)
Example C117_instance_injected :
  let st := after part_course1 in let st' := after part_course2 in let root := injected_at noon 100000 in
  yreachable unseen_config unseen_conv tt part_course1 st /\ yreachable unseen_config unseen_conv tt part_course2 st' /\
  undisturbed 9 (seconds 8) st /\ undisturbed 9 (seconds 8) st' /\
  LOut 9 (Emitted (part_leaves 0)) ∈ y_log st /\ LOut 9 (Emitted (part_leaves ahead)) ∈ y_log st' /\
  one_root (part_leaves 0) root /\ s_id root ∉ ids (told 9 st) /\ by_host host_outer host_inner (part_leaves 0) root /\
  (forall c, child (part_leaves 0) root c -> host_inner (s_id c) = 0) /\
  retold_settled host_outer host_inner (told 9 st) (told 9 st') /\ (forall x, x ∈ part_leaves 0 -> ~ circular (part_leaves 0) x).
Proof.
  cbv zeta. split; [exact part_course1_reaches|]. split; [exact part_course2_reaches|]. split; [exact part_undisturbed1|]. split; [exact part_undisturbed2|].
  split; [exact part_emits1|]. split; [exact part_emits2|]. split; [apply part_root|]. split; [apply part_root|]. split; [apply part_clocks|]. split; [apply part_clocks|].
  split; [exact part_retold|exact part_straight].
Qed.
