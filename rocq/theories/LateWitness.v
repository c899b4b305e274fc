(** Executions for C123. *)
From Verif Require Import Base SpanModel JsonModel CodecModel HandlerModel TreeModel TreeSpec TreeProofs FinishModel FinishSpec FinishProofs FinishWitness
  ForwardModel ForwardSpec PipelineModel PipelineSpec SystemModel SystemSpec WholeSpec WholeProofs OrderSpec OrderWitness UnseenSpec UnseenWitness HostsWitness ClockWitness AgreeSpec LateSpec.

(** The two calls of C116 are emitted; eleven seconds later more arrives. *)
Definition late_course (l : list span) : list event :=
  course (calls 0 0) ++ map (ESpan map_to_list (seconds 20) (seconds 20)) l ++ [ETick (plain_tick (seconds 29))].
Definition late_log (l : list span) (n : Z) : list entry :=
  course_log (calls 0 0) 5 ++ [LOut 9 (Emitted (told_right 0 0))] ++ map (LSpan (seconds 20) (seconds 20)) l ++ [LTick (seconds 29) (seconds 29) n].

Definition straggler : span := plain 10 4 (noon + 27) 3.
Definition straggler2 : span := plain 11 4 (noon + 40) 4.
Definition stranger : span := plain 12 8 (noon + 37) 1.
Definition above : span := Span 4 9 9 (str "fake-root") (str "fake-root") (noon + 27) 17 ∅ (Timings 0 0 0 0).

Lemma late_valid l : Forall (fun s => int64_ok (s_ts s)) l -> Forall valid_event (late_course l).
Proof.
  intros H. apply Forall_app. split; [apply calls_valid; lia|]. apply Forall_app. split; [|constructor; [apply plain_valid|constructor]].
  apply Forall_map. eapply Forall_impl; [exact H|]. intros s Hs. by split; [intros m|].
Qed.
Lemma plain_ok id p ts dur : -1000 <= ts - noon <= 1000 -> int64_ok (s_ts (plain id p ts dur)).
Proof. unfold int64_ok. p2. cbn. unfold noon. lia. Qed.
Lemma plain_settled id p ts dur : 0 <= ts - noon -> 0 <= dur <= 1000 -> settled (plain id p ts dur).
Proof. intros H H'. split; [unfold before_2020; cbn; unfold noon in H; lia|]. split; [unfold int64_ok; p2; cbn; lia|]. intros (X & _). by destruct X. Qed.

(** Two latecomers of different parents. *)
Lemma strangers_lost : exists evs l1 l2 t out a b, Forall valid_event evs /\ (run evs).2 = l1 ++ LOut t NoRoot :: l2 /\ LOut t (Emitted out) ∈ l1 /\
  reports (pending l1 t) = [a; b] /\ s_parent a ∈ ids out /\ s_parent b ∈ ids out /\ settled a /\ settled b.
Proof.
  exists (late_course [straggler; stranger]), (late_log [straggler; stranger] 2), [], 9, (told_right 0 0), straggler, stranger.
  split; [apply late_valid; repeat constructor; apply plain_ok; lia|]. split; [vm_compute; reflexivity|].
  split; [unfold late_log; apply elem_of_app; right; left|]. split; [vm_compute; reflexivity|].
  split; [cbn; rewrite !elem_of_cons; tauto|]. split; [cbn; rewrite !elem_of_cons; tauto|]. split; apply plain_settled; lia.
Qed.

(** The whole program: after the trace of C117 was delivered the shop tells of one thing more. *)
Definition shop_adds : list action := hosts_acts (str "[{""id"":""a"",""traceId"":""9"",""parentId"":""4"",""name"":""log"",""timestamp"":1600000000000040,""duration"":3}]").
Definition late_system : list yevent :=
  host_course1 ++ [YRequest shop_adds; YAct 2; YRecv map_to_list (seconds 20) (seconds 20); YAct 2; YTick (plain_tick (seconds 29))] ++ deliver 1.
Definition addendum : span := Span 10 4 9 (str "log") [] (noon + 40000) 3000 host_tags (Timings 0 0 0 0).
Definition late_record : list entry := take 8 (y_log (after late_system)).

Lemma shop_adds_valid : valid_yevent (YRequest shop_adds).
Proof. eapply host_acts_from. vm_compute. reflexivity. Qed.
Lemma late_reaches : yreachable unseen_config unseen_conv tt late_system (after late_system).
Proof.
  apply reaches; [|vm_compute; reflexivity]. unfold late_system, host_course1. cbn [app deliver map replicate concat].
  repeat (apply Forall_cons_2; [first [exact front_valid|exact shop_valid|exact shop_adds_valid|exact elsewhere_valid|apply plain_valid|apply map_order_list|exact I]|]). apply Forall_nil_2.
Qed.
Lemma late_quiet : quiet (after late_system).
Proof. apply quietb_spec. vm_compute. reflexivity. Qed.
#[local] Instance late_times_dec : EqDecision timings.
Proof. solve_decision. Defined.
#[local] Instance late_span_dec : EqDecision span.
Proof. solve_decision. Defined.
Lemma late_emits : y_log (after late_system) = late_record ++ [LOut 9 (Emitted [addendum])].
Proof. vm_compute. reflexivity. Qed.
Lemma late_reports : reports (pending late_record 9) = [addendum].
Proof. apply (bool_decide_unpack _). vm_compute. exact I. Qed.
