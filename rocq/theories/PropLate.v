(** Property C123: what comes late. *)
From Verif Require Import Base SpanModel TreeModel TreeSpec FinishModel FinishSpec FinishWitness ForwardModel ForwardSpec PipelineModel PipelineSpec SystemModel SystemSpec SystemTheorems
  OrderSpec OrderWitness UnseenSpec UnseenWitness HostsWitness ClockWitness AgreeSpec LateSpec LateProofs LateWitness.

(** C123: if, since a trace left, only one span came, once or again and again, it is not given up: it is emitted as a trace of its own,
    unless it is too old by then or dropped under overload. *)
Theorem C123_alone :
  forall evs l1 l2 t o, Forall valid_event evs -> (run evs).2 = l1 ++ LOut t o :: l2 ->
  forall s, s ∈ reports (pending l1 t) -> (forall x, x ∈ reports (pending l1 t) -> x = s) ->
  match o with Emitted out => exists x, out = [x] /\ by_itself s x | TooOld | Overload => True | _ => False end.
Proof. exact late_alone. Qed.
Print Assumptions C123_alone.

(** C123: in every execution of the whole program every target gets it, as the converter leaves it. *)
Theorem C123_targets :
  forall (S : Type) cfg (conv : converter S) s0 evs st t out l1 l2 s h r, yreachable cfg conv s0 evs st -> positive_caps cfg -> ystopped cfg conv st -> works_as conv h ->
  y_log st = l1 ++ LOut t (Emitted out) :: l2 -> s ∈ reports (pending l1 t) -> (forall x, x ∈ reports (pending l1 t) -> x = s) -> r ∈ p_readers (y_pipe st) ->
  exists x, by_itself s x /\ kept h [x] ∈ rd_log r.
Proof. exact @late_targets. Qed.
Print Assumptions C123_targets.

(** C123: several spans of one parent that already left are emitted unchanged under a span that takes its place. *)
Theorem C123_siblings :
  forall evs l1 l2 t o, Forall valid_event evs -> (run evs).2 = l1 ++ LOut t o :: l2 ->
  forall p x y, (forall z, z ∈ reports (pending l1 t) -> alone (reports (pending l1 t)) z /\ s_parent z = p /\ settled z) ->
  p ∉ ids (reports (pending l1 t)) -> t ∉ ids (reports (pending l1 t)) -> x ∈ reports (pending l1 t) -> y ∈ reports (pending l1 t) -> s_id x <> s_id y ->
  match o with
  | Emitted out => exists f, put_above t p (reports (pending l1 t)) f /\ NoDup (ids out) /\ forall z, z ∈ out <-> z = f \/ z ∈ reports (pending l1 t)
  | TooLarge => 8192 < Z.of_nat (length (reports (pending l1 t)))
  | TooOld | Overload => True | _ => False
  end.
Proof. exact late_siblings. Qed.
Print Assumptions C123_siblings.

(** C123: spans of different parents that already left are lost together. *)
Theorem C123_strangers_refuted :
  exists evs l1 l2 t out a b, Forall valid_event evs /\ (run evs).2 = l1 ++ LOut t NoRoot :: l2 /\ LOut t (Emitted out) ∈ l1 /\
  reports (pending l1 t) = [a; b] /\ s_parent a ∈ ids out /\ s_parent b ∈ ids out /\ settled a /\ settled b.
Proof. exact strangers_lost. Qed.
Print Assumptions C123_strangers_refuted.

(** A span below the first call, reported twice after the calls were emitted. *)
Example C123_instance_alone :
  let l := [straggler; straggler] in Forall valid_event (late_course l) /\
  (run (late_course l)).2 = late_log l 1 ++ [LOut 9 (Emitted [straggler])] /\ reports (pending (late_log l 1) 9) = l /\
  straggler ∈ l /\ (forall x, x ∈ l -> x = straggler) /\ by_itself straggler straggler.
Proof.
  cbv zeta. split; [apply late_valid; repeat constructor; apply plain_ok; lia|]. split; [vm_compute; reflexivity|]. split; [vm_compute; reflexivity|]. split; [left|].
  split; [intros x; rewrite !elem_of_cons, elem_of_nil; tauto|]. exists (s_ts straggler), (s_dur straggler). split; [reflexivity|]. split; [|done]. intros (X & _). by destruct X.
Qed.

(** Two of them. *)
Example C123_instance_siblings :
  let l := [straggler; straggler2] in Forall valid_event (late_course l) /\
  (run (late_course l)).2 = late_log l 2 ++ [LOut 9 (Emitted [straggler2; straggler; above])] /\ reports (pending (late_log l 2) 9) = l /\
  (forall z, z ∈ l -> alone l z /\ s_parent z = 4 /\ settled z) /\ 4 ∉ ids l /\ 9 ∉ ids l /\ straggler ∈ l /\ straggler2 ∈ l /\ s_id straggler <> s_id straggler2 /\ put_above 9 4 l above.
Proof.
  cbv zeta. split; [apply late_valid; repeat constructor; apply plain_ok; lia|]. split; [vm_compute; reflexivity|]. split; [vm_compute; reflexivity|]. split.
  { intros z Hz. rewrite !elem_of_cons, elem_of_nil in Hz. destruct Hz as [->|[->|[]]]; (split; [intros y Hy E; rewrite !elem_of_cons, elem_of_nil in Hy; destruct Hy as [->|[->|[]]]; first [reflexivity|discriminate E]|]);
    (split; [reflexivity|apply plain_settled; lia]). }
  split; [cbn; rewrite !elem_of_cons, elem_of_nil; lia|]. split; [cbn; rewrite !elem_of_cons, elem_of_nil; lia|]. split; [left|]. split; [right; left|]. split; [discriminate|].
  exists (noon + 27), (noon + 44). split; [vm_compute; reflexivity|]. split; [exists straggler; split; [left|reflexivity]|]. split; [exists straggler2; split; [right; left|vm_compute; reflexivity]|].
  intros s Hs. rewrite !elem_of_cons, elem_of_nil in Hs. destruct Hs as [->|[->|[]]]; vm_compute; split; discriminate.
Qed.

(** The whole program: the shop of C117 tells of one thing more after the trace was delivered. *)
Example C123_instance_targets :
  let st := after late_system in yreachable unseen_config unseen_conv tt late_system st /\ positive_caps unseen_config /\ ystopped unseen_config unseen_conv st /\
  works_as unseen_conv (fun x => (x, false)) /\ y_log st = late_record ++ [LOut 9 (Emitted [addendum])] /\ reports (pending late_record 9) = [addendum] /\
  length (p_readers (y_pipe st)) = 2%nat.
Proof.
  cbv zeta. split; [exact late_reaches|].
  split; [unfold positive_caps, unseen_config; cbn [z_input z_pipe g_source g_targets]; repeat split; [lia|lia|repeat (constructor; [lia|]); constructor]|].
  split; [apply quiet_stopped, late_quiet|]. split; [intros s x; reflexivity|]. split; [exact late_emits|]. split; [exact late_reports|]. vm_compute; reflexivity.
Qed.
