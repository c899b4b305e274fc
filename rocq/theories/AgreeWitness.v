(** Executions for C122. *)
From Verif Require Import Base SpanModel TreeModel TreeSpec FinishModel FinishSpec FinishWitness ForwardModel ForwardSpec PipelineModel PipelineSpec SystemModel SystemSpec
  OrderSpec OrderWitness UnseenSpec UnseenWitness HostsWitness ClockWitness AgreeSpec.

Ltac pick H := unfold calls in H; rewrite !elem_of_cons, elem_of_nil in H; repeat (destruct H as [->|H]); try by destruct H.

(** The clocks of all three hosts go alike. *)
Definition alike : list span := calls (-1000) 28.
Lemma alike_agree : clocks_agree alike.
Proof.
  intros w x y z Hw Hx Hy Hz E1 E2 E3 N1 N2 N3 N4. unfold alike in *.
  pick Hw; try (by destruct N1); pick Hx; try discriminate E1; try (by destruct N2); pick Hy; try discriminate E2; try (by destruct N3); pick Hz; try discriminate E3; try (by destruct N4); vm_compute; reflexivity.
Qed.
Lemma work_settled : settled (second_work 28).
Proof.
  split; [unfold before_2020, second_work; cbn; unfold noon; lia|]. split; [unfold int64_ok; p2; cbn; lia|]. intros (H & _). by destruct H.
Qed.
Lemma work_alone a b : alone (calls a b) (second_work b).
Proof. intros y Hy E. pick Hy; first [reflexivity|discriminate E]. Qed.

Lemma first_halves : two_halves first_call (first_served (-1000)).
Proof. repeat split; try reflexivity; first [by left|left; cbn; unfold noon; lia|cbn; unfold noon; lia|idtac]. Qed.
Lemma second_halves : two_halves (second_call (-1000)) (second_served 28).
Proof. repeat split; try reflexivity; first [by left|left; cbn; unfold noon; lia|cbn; unfold noon; lia|idtac]. Qed.
Lemma alike_orderly : orderly alike.
Proof.
  intros x y Hx Hy E. unfold alike in *. pick Hx; pick Hy; try discriminate E; try (by left);
  first [right; left; exact first_halves|right; right; exact first_halves|right; left; exact second_halves|right; right; exact second_halves].
Qed.
Definition second_emitted : span := Span 8 4 9 (str "put") (str "store") (noon + 32) 10 ∅ (Timings (noon + 1032 - 1000) (noon + 1042 - 1000) (noon + 11 + 28) (noon + 7 + 28)).

Lemma leaves_agree : clocks_agree [page; served 0; get; labour 0].
Proof.
  intros w x y z Hw Hx Hy Hz E1 E2 E3 N1 N2 N3 N4.
  pick Hw; try (by destruct N1); pick Hx; try discriminate E1; try (by destruct N2); pick Hy; try discriminate E2; try (by destruct N3); pick Hz; try discriminate E3; try (by destruct N4); vm_compute; reflexivity.
Qed.
Lemma labour_settled : settled (labour 0).
Proof.
  split; [unfold before_2020, labour; cbn; unfold noon; lia|]. split; [unfold int64_ok; p2; cbn; lia|]. intros (H & _). by destruct H.
Qed.
Lemma labour_alone : alone [page; served 0; get; labour 0] (labour 0).
Proof. intros y Hy E. pick Hy; first [reflexivity|discriminate E]. Qed.

(** The clock of one host is ahead. *)
Lemma ahead_changed : exists evs l1 l2 t out s, Forall valid_event evs /\ (run evs).2 = l1 ++ LOut t (Emitted out) :: l2 /\
  s ∈ reports (pending l1 t) /\ alone (reports (pending l1 t)) s /\ settled s /\ s ∉ out.
Proof.
  exists (course (calls 0 28)), (course_log (calls 0 28) 5), [], 9, (told_right 0 28), (first_work 0). split; [apply calls_valid; lia|]. split; [vm_compute; reflexivity|].
  change (reports (pending (course_log (calls 0 28) 5) 9)) with (calls 0 28). split; [unfold calls; rewrite !elem_of_cons; tauto|].
  split; [intros y Hy E; pick Hy; first [reflexivity|discriminate E]|]. split.
  - split; [unfold before_2020, first_work; cbn; unfold noon; lia|]. split; [unfold int64_ok; p2; cbn; lia|]. intros (H & _). by destruct H.
  - intros H. unfold told_right in H. rewrite !elem_of_cons, elem_of_nil in H.
    repeat (destruct H as [H|H]; [apply (f_equal s_ts) in H; vm_compute in H; discriminate H|]). exact H.
Qed.
