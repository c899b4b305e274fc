(** Executions for C121. *)
From Verif Require Import Base SpanModel JsonModel CodecModel HandlerModel TreeModel TreeSpec TreeProofs FinishModel FinishSpec FinishProofs FinishWitness
  ForwardModel ForwardSpec PipelineModel PipelineSpec SystemModel SystemSpec ConnectSpec ConnectProofs WholeSpec WholeProofs OrderSpec OrderWitness
  UnseenSpec UnseenWitness HostsWitness ClockWitness LossSpec.

Lemma calls_below : with_all_below [8; 9] (told_right 0 0).
Proof.
  intros x y Hx (Hy & E & Hne). unfold told_right in Hx, Hy. rewrite !elem_of_cons, elem_of_nil in Hx, Hy. rewrite !elem_of_cons, elem_of_nil. intros H.
  destruct Hx as [->|[->|[->|[->|[->|[]]]]]]; destruct H as [H|[H|[]]]; try discriminate H;
  destruct Hy as [->|[->|[->|[->|[->|[]]]]]]; first [discriminate E|right; left; reflexivity|left; reflexivity].
Qed.
Lemma orphans_below : with_all_below [7] (orphans_told 0).
Proof.
  intros x y Hx (Hy & E & Hne). unfold orphans_told in Hx, Hy. rewrite !elem_of_cons, elem_of_nil in Hx, Hy. rewrite !elem_of_cons, elem_of_nil. intros H.
  destruct Hx as [->|[->|[->|[->|[->|[]]]]]]; destruct H as [H|[]]; try discriminate H;
  destruct Hy as [->|[->|[->|[->|[->|[]]]]]]; discriminate E.
Qed.
Lemma spared_valid lost l : Forall (fun s => int64_ok (s_ts s)) l -> Forall valid_event (course (spared lost l)).
Proof. intros H. apply course_valid. rewrite Forall_forall in *. intros x Hx. apply elem_of_list_filter in Hx as [_ Hx]. by apply H. Qed.
Lemma calls_ok : Forall (fun s => int64_ok (s_ts s)) (calls 0 0).
Proof. unfold calls. repeat (apply Forall_cons_2; [unfold int64_ok; p2; cbn; unfold noon; lia|]). apply Forall_nil_2. Qed.
Lemma orphans_ok : Forall (fun s => int64_ok (s_ts s)) (orphan_calls 0).
Proof. unfold orphan_calls. repeat (apply Forall_cons_2; [unfold int64_ok; p2; cbn; unfold noon; lia|]). apply Forall_nil_2. Qed.

(** The report in the middle is lost. *)
Lemma middle_lost : exists lost evs evs' l1 l2 l1' l2' t out r, Forall valid_event evs /\ Forall valid_event evs' /\
  (run evs).2 = l1 ++ LOut t (Emitted out) :: l2 /\ (run evs').2 = l1' ++ LOut t NoRoot :: l2' /\
  reports (pending l1' t) = spared lost (reports (pending l1 t)) /\ one_root out r /\ s_id r ∉ lost /\ s_id r ∈ ids (reports (pending l1 t)) /\ length lost = 1%nat.
Proof.
  exists [8], (course (calls 0 0)), (course (spared [8] (calls 0 0))), (course_log (calls 0 0) 5), [], (course_log (spared [8] (calls 0 0)) 4), [], 9, (told_right 0 0), entrance.
  split; [apply calls_valid; lia|]. split; [apply spared_valid, calls_ok|]. split; [vm_compute; reflexivity|]. split; [vm_compute; reflexivity|].
  split; [vm_compute; reflexivity|]. split; [apply told_root|]. split; [rewrite elem_of_cons, elem_of_nil; intros [H|[]]; discriminate H|].
  split; [change (reports (pending (course_log (calls 0 0) 5) 9)) with (calls 0 0); cbn; rewrite !elem_of_cons; tauto|reflexivity].
Qed.
(** One of two reports below an injected root is lost. *)
Lemma top_lost : exists lost evs evs' l1 l2 l1' l2' t out out' r, Forall valid_event evs /\ Forall valid_event evs' /\
  (run evs).2 = l1 ++ LOut t (Emitted out) :: l2 /\ (run evs').2 = l1' ++ LOut t (Emitted out') :: l2' /\
  reports (pending l1' t) = spared lost (reports (pending l1 t)) /\ one_root out r /\ s_id r ∉ lost /\ with_all_below lost out /\ ~ out' ≡ₚ spared lost out.
Proof.
  exists [5], (course (orphan_calls 0)), (course (spared [5] (orphan_calls 0))), (course_log (orphan_calls 0) 4), [], (course_log (spared [5] (orphan_calls 0)) 3), [], 9, (orphans_told 0).
  eexists _, (injected_at noon 150).
  split; [apply orphans_valid; lia|]. split; [apply spared_valid, orphans_ok|]. split; [vm_compute; reflexivity|]. split; [vm_compute; reflexivity|].
  split; [vm_compute; reflexivity|]. split; [apply orphans_root|]. split; [rewrite elem_of_cons, elem_of_nil; intros [H|[]]; discriminate H|]. split.
  - intros x y Hx (Hy & E & Hne). unfold orphans_told in Hx, Hy. rewrite !elem_of_cons, elem_of_nil in Hx, Hy. rewrite !elem_of_cons, elem_of_nil. intros H.
    destruct Hx as [->|[->|[->|[->|[->|[]]]]]]; destruct H as [H|[]]; try discriminate H;
    destruct Hy as [->|[->|[->|[->|[->|[]]]]]]; discriminate E.
  - intros H. apply Permutation_length in H. vm_compute in H. discriminate H.
Qed.

(** The shop of C117 does not report what it did. *)
Definition shop_short : list action := hosts_acts (str "[{""id"":""4"",""traceId"":""9"",""parentId"":""2"",""timestamp"":1600000000000020,""duration"":30,""annotations"":[{""timestamp"":1600000000000020,""value"":""sr""},{""timestamp"":1600000000000050,""value"":""ss""}]}]").
Definition loss_course : list yevent :=
  [YRequest front_says; YRequest elsewhere; YRequest shop_short; YAct 0; YAct 2; YRecv map_to_list 0 0; YRecv map_to_list (seconds 1) (seconds 1); YAct 1; YRecv map_to_list (seconds 2) (seconds 2);
   YAct 0; YRecv map_to_list (seconds 3) (seconds 3);
   YAct 0; YAct 1; YAct 2; YTick (plain_tick (seconds 10))] ++ deliver 1 ++ [YTick (plain_tick (seconds 12))] ++ deliver 2.

#[local] Instance loss_times_dec : EqDecision timings.
Proof. solve_decision. Defined.
#[local] Instance loss_span_dec : EqDecision span.
Proof. solve_decision. Defined.

Lemma shop_short_valid : valid_yevent (YRequest shop_short).
Proof. eapply host_acts_from. vm_compute. reflexivity. Qed.
Lemma loss_reaches : yreachable unseen_config unseen_conv tt loss_course (after loss_course).
Proof.
  apply reaches; [|vm_compute; reflexivity]. unfold loss_course. cbn [app deliver map replicate concat].
  repeat (apply Forall_cons_2; [first [exact front_valid|exact shop_short_valid|exact elsewhere_valid|apply plain_valid|apply map_order_list|exact I]|]). apply Forall_nil_2.
Qed.
Lemma loss_quiet : quiet (after loss_course).
Proof. apply quietb_spec. vm_compute. reflexivity. Qed.
Lemma loss_undisturbed : undisturbed 9 (seconds 8) (after loss_course).
Proof.
  split; [by vm_compute|]. split; [apply ascending_sorted; by vm_compute|]. split; [apply briskb_spec; by vm_compute|].
  split; [apply calmb_spec; by vm_compute|]. by vm_compute.
Qed.
Lemma loss_told : told 9 (after loss_course) = spared [6] (told 9 (after host_course1)).
Proof. apply (bool_decide_unpack _). vm_compute. exact I. Qed.
Lemma loss_emits : LOut 9 (Emitted (spared [6] (leaves 0))) ∈ y_log (after loss_course).
Proof. apply in_emitted. apply (bool_decide_unpack _). by vm_compute. Qed.
Lemma loss_below : with_all_below [6] (leaves 0).
Proof.
  intros x y Hx (Hy & E & Hne). unfold leaves in Hx, Hy. rewrite !elem_of_cons, elem_of_nil in Hx, Hy. rewrite !elem_of_cons, elem_of_nil. intros H.
  destruct Hx as [->|[->|[->|[]]]]; destruct H as [H|[]]; try discriminate H; destruct Hy as [->|[->|[->|[]]]]; discriminate E.
Qed.
