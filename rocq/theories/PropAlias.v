(** Property C119: names do not reach the targets. *)
From Verif Require Import Base SpanModel TreeModel TreeSpec FinishModel FinishSpec FinishWitness ForwardModel ForwardSpec PipelineModel PipelineSpec SystemModel SystemSpec SystemTheorems
  WholeSpec OrderSpec OrderWitness RenameSpec RenameWitness UnseenSpec UnseenWitness ClockWitness HostsWitness AliasSpec AliasProofs AliasWitness.

(** C119: in any two runs of the corrector, however they differ otherwise: if a trace is emitted in the first, and in the second
    the same was received for a trace under other identifiers, the second does not give it up for want of a root, *)
Theorem C119_fate :
  forall f g, renaming f g -> forall evs evs' l1 l2 l1' l2' t out, Forall valid_event evs -> Forall valid_event evs' ->
  (run evs).2 = l1 ++ LOut t (Emitted out) :: l2 -> reports (pending l1' (f t)) = map (renamed f) (reports (pending l1 t)) ->
  (run evs').2 = l1' ++ LOut (f t) NoRoot :: l2' -> False.
Proof. exact alias_fate. Qed.
Print Assumptions C119_fate.

(** C119: and if it emits it, then with the same spans, starts and durations under the other identifiers. *)
Theorem C119_same :
  forall f g, renaming f g -> forall evs evs' l1 l2 l1' l2' t out, Forall valid_event evs -> Forall valid_event evs' ->
  (run evs).2 = l1 ++ LOut t (Emitted out) :: l2 -> reports (pending l1' (f t)) = map (renamed f) (reports (pending l1 t)) ->
  forall out', (run evs').2 = l1' ++ LOut (f t) (Emitted out') :: l2' -> out' ≡ₚ map (renamed f) out.
Proof. exact alias_same. Qed.
Print Assumptions C119_same.

(** C119: so it is in executions of the whole program in which the two traces are not disturbed (C115). *)
Theorem C119_system :
  forall f g, renaming f g -> forall (S S' : Type) cfg cfg' (conv : converter S) (conv' : converter S') s0 s0' evs evs' st st' t p p',
  yreachable cfg conv s0 evs st -> yreachable cfg' conv' s0' evs' st' -> t <> 0 -> undisturbed t p st -> undisturbed (f t) p' st' ->
  told (f t) st' = map (renamed f) (told t st) -> forall out, LOut t (Emitted out) ∈ y_log st ->
  forall o', LOut (f t) o' ∈ y_log st' -> match o' with Emitted out' => out' ≡ₚ map (renamed f) out | TooOld => True | _ => False end.
Proof. exact @alias_system. Qed.
Print Assumptions C119_system.

(** C119: every target gets the same spans under the other identifiers, if the converter takes identifiers for names. *)
Theorem C119_targets :
  forall f g, renaming f g -> forall (S S' : Type) cfg cfg' (conv : converter S) (conv' : converter S') s0 s0' evs evs' st st' t p p',
  yreachable cfg conv s0 evs st -> yreachable cfg' conv' s0' evs' st' -> t <> 0 -> undisturbed t p st -> undisturbed (f t) p' st' ->
  told (f t) st' = map (renamed f) (told t st) -> forall out, LOut t (Emitted out) ∈ y_log st ->
  forall h out' r r', LOut (f t) (Emitted out') ∈ y_log st' ->
  positive_caps cfg -> positive_caps cfg' -> ystopped cfg conv st -> ystopped cfg' conv' st' -> works_as conv h -> works_as conv' h -> by_name f h ->
  r ∈ p_readers (y_pipe st) -> r' ∈ p_readers (y_pipe st') ->
  kept h out ∈ rd_log r /\ kept h out' ∈ rd_log r' /\ kept h out' ≡ₚ map (renamed f) (kept h out).
Proof. exact @alias_targets. Qed.
Print Assumptions C119_targets.

(** Two calls, one below the other; the order of the names is reversed. *)
Example C119_instance_runs :
  let l := calls 0 0 in let l' := map (renamed mirror) l in renaming mirror mirror /\
  Forall valid_event (course l) /\ Forall valid_event (course l') /\
  (run (course l)).2 = course_log l 5 ++ [LOut 9 (Emitted (told_right 0 0))] /\
  (run (course l')).2 = course_log l' 5 ++ [LOut 91 (Emitted (rev (map (renamed mirror) (told_right 0 0))))] /\
  mirror 9 = 91 /\ reports (pending (course_log l' 5) 91) = map (renamed mirror) (reports (pending (course_log l 5) 9)).
Proof.
  cbv zeta. split; [exact mirror_renaming|]. split; [apply calls_valid; lia|].
  split; [apply course_valid; unfold calls; cbn [map]; repeat (apply Forall_cons_2; [unfold int64_ok; p2; cbn; unfold noon; lia|]); apply Forall_nil_2|].
  split; [vm_compute; reflexivity|]. split; [vm_compute; reflexivity|]. split; [reflexivity|vm_compute; reflexivity].
Qed.

(** The whole program: the front and the shop of C117 under other names, with another trace in between. *)
Example C119_instance :
  let st := after host_course1 in let st' := after alias_course in renaming mirror mirror /\
  yreachable unseen_config unseen_conv tt host_course1 st /\ yreachable unseen_config unseen_conv tt alias_course st' /\
  undisturbed 9 (seconds 8) st /\ mirror 9 = 91 /\ undisturbed 91 (seconds 8) st' /\ told 91 st' = map (renamed mirror) (told 9 st) /\
  LOut 9 (Emitted (leaves 0)) ∈ y_log st /\ LOut 91 (Emitted alias_leaves) ∈ y_log st' /\
  positive_caps unseen_config /\ ystopped unseen_config unseen_conv st /\ ystopped unseen_config unseen_conv st' /\
  works_as unseen_conv (fun x => (x, false)) /\ by_name mirror (fun x => (x, false)) /\
  length (p_readers (y_pipe st)) = 2%nat /\ length (p_readers (y_pipe st')) = 2%nat.
Proof.
  cbv zeta. split; [exact mirror_renaming|]. split; [exact host_course1_reaches|]. split; [exact alias_reaches|]. split; [exact host_undisturbed1|].
  split; [reflexivity|]. split; [exact alias_undisturbed|]. split; [exact alias_told|]. split; [exact host_emits1|]. split; [exact alias_emits|].
  split; [unfold positive_caps, unseen_config; cbn [z_input z_pipe g_source g_targets]; repeat split; [lia|lia|repeat (constructor; [lia|]); constructor]|].
  split; [apply quiet_stopped, host_quiet1|]. split; [apply quiet_stopped, alias_quiet|]. split; [intros s x; reflexivity|]. split; [intros x; reflexivity|].
  split; vm_compute; reflexivity.
Qed.

(** A converter that looks at the names: it keeps spans with small ids only. *)
Example C119_instance_nosy :
  let h := fun x => (x, s_id x >? 50) in length (kept h (leaves 0)) = 3%nat /\ length (kept h alias_leaves) = 0%nat.
Proof. split; vm_compute; reflexivity. Qed.
