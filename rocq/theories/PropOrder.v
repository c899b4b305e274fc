(** Property C96: the order in which the reports of a trace arrive. *)
From Verif Require Import Base SpanModel TreeModel TreeSpec FinishModel FinishSpec FinishWitness ConnectSpec ConnectProofs OrderSpec OrderProofs OrderRun OrderWitness.

(** C96: the spans of a trace after the same reports, in any two orders and repeated at will, are the same; only start
    and duration may differ, and only of spans for which all four times are known (so that they will be computed). *)
Theorem C96_spans :
  forall t a b, orderly (reports a) -> same_reports (reports a) (reports b) ->
  Forall2 same_but_time (merged_spans t a) (merged_spans t b).
Proof. exact same_trace. Qed.
Print Assumptions C96_spans.

(** C96: it does not depend on the order whether a root is found. *)
Theorem C96_fate :
  forall evs evs' l1 l2 l1' l2' t out, Forall valid_event evs -> Forall valid_event evs' ->
  (run evs).2 = l1 ++ LOut t (Emitted out) :: l2 ->
  orderly (reports (pending l1 t)) -> same_reports (reports (pending l1 t)) (reports (pending l1' t)) ->
  (run evs').2 <> l1' ++ LOut t NoRoot :: l2'.
Proof. exact order_fate. Qed.
Print Assumptions C96_fate.

(** C96: two runs that emit a trace after the same reports emit as many spans, and the same apart from start and
    duration. *)
Theorem C96_content :
  forall evs evs' l1 l2 l1' l2' t out, Forall valid_event evs -> Forall valid_event evs' ->
  (run evs).2 = l1 ++ LOut t (Emitted out) :: l2 ->
  orderly (reports (pending l1 t)) -> same_reports (reports (pending l1 t)) (reports (pending l1' t)) ->
  forall out', (run evs').2 = l1' ++ LOut t (Emitted out') :: l2' ->
  length out' = length out /\ forall x, x ∈ out -> exists st du, retimed x st du ∈ out'.
Proof. exact order_content. Qed.
Print Assumptions C96_content.

(** C96: if the root is a reported span, the spans that do not hang on a circle have the same times, too. *)
Theorem C96_own_root :
  forall evs evs' l1 l2 l1' l2' t out, Forall valid_event evs -> Forall valid_event evs' ->
  (run evs).2 = l1 ++ LOut t (Emitted out) :: l2 ->
  orderly (reports (pending l1 t)) -> same_reports (reports (pending l1 t)) (reports (pending l1' t)) ->
  forall out', (run evs').2 = l1' ++ LOut t (Emitted out') :: l2' ->
  forall r x, one_root out r -> s_id r ∈ ids (reports (pending l1 t)) -> x ∈ out -> ~ circular out x -> x ∈ out'.
Proof. exact order_own. Qed.
Print Assumptions C96_own_root.

(** C96: so they have, whatever the root is, if spans whose parent is missing are reported by one side only. *)
Theorem C96_any_root :
  forall evs evs' l1 l2 l1' l2' t out, Forall valid_event evs -> Forall valid_event evs' ->
  (run evs).2 = l1 ++ LOut t (Emitted out) :: l2 ->
  orderly (reports (pending l1 t)) -> same_reports (reports (pending l1 t)) (reports (pending l1' t)) ->
  forall out', (run evs').2 = l1' ++ LOut t (Emitted out') :: l2' ->
  forall x, Forall (fun x => alone (reports (pending l1 t)) x \/ attached (reports (pending l1 t)) x) (reports (pending l1 t)) ->
  x ∈ out -> ~ circular out x -> x ∈ out'.
Proof. exact order_fake. Qed.
Print Assumptions C96_any_root.

(** C96: traces without circles are emitted as the same spans. *)
Theorem C96_whole :
  forall evs evs' l1 l2 l1' l2' t out, Forall valid_event evs -> Forall valid_event evs' ->
  (run evs).2 = l1 ++ LOut t (Emitted out) :: l2 ->
  orderly (reports (pending l1 t)) -> same_reports (reports (pending l1 t)) (reports (pending l1' t)) ->
  forall out', (run evs').2 = l1' ++ LOut t (Emitted out') :: l2' ->
  (exists r, one_root out r /\ s_id r ∈ ids (reports (pending l1 t))) \/
  Forall (fun x => alone (reports (pending l1 t)) x \/ attached (reports (pending l1 t)) x) (reports (pending l1 t)) ->
  (forall x, x ∈ out -> ~ circular out x) -> out' ≡ₚ out.
Proof. exact order_whole. Qed.
Print Assumptions C96_whole.

(** C96 fails without these conditions.  An injected root takes its times from the uncorrected spans below it. *)
Theorem C96_fake_root_refuted :
  exists evs evs' l1 l2 l1' l2' t out out', Forall valid_event evs /\ Forall valid_event evs' /\
    (run evs).2 = l1 ++ LOut t (Emitted out) :: l2 /\ (run evs').2 = l1' ++ LOut t (Emitted out') :: l2' /\
    orderly (reports (pending l1 t)) /\ same_reports (reports (pending l1 t)) (reports (pending l1' t)) /\
    (forall x, x ∈ out -> ~ circular out x) /\ ~ out' ≡ₚ out.
Proof. exact fake_root_shows. Qed.
Print Assumptions C96_fake_root_refuted.

(** Spans on a circle keep the times of the report that came first. *)
Theorem C96_circle_refuted :
  exists evs evs' l1 l2 l1' l2' t out out' r, Forall valid_event evs /\ Forall valid_event evs' /\
    (run evs).2 = l1 ++ LOut t (Emitted out) :: l2 /\ (run evs').2 = l1' ++ LOut t (Emitted out') :: l2' /\
    orderly (reports (pending l1 t)) /\ same_reports (reports (pending l1 t)) (reports (pending l1' t)) /\
    one_root out r /\ s_id r ∈ ids (reports (pending l1 t)) /\ ~ out' ≡ₚ out.
Proof. exact circle_shows. Qed.
Print Assumptions C96_circle_refuted.

(** So do spans of which one of the four times is missing. *)
Theorem C96_half_refuted :
  exists evs evs' l1 l2 l1' l2' t out out' c s, Forall valid_event evs /\ Forall valid_event evs' /\
    (run evs).2 = l1 ++ LOut t (Emitted out) :: l2 /\ (run evs').2 = l1' ++ LOut t (Emitted out') :: l2' /\
    reports (pending l1 t) = [c; s] /\ reports (pending l1' t) = [s; c] /\
    s_id c = s_id s /\ s_trace c = s_trace s /\ s_parent c = s_parent s /\ client_half c /\ server_half s /\
    ~ out' ≡ₚ out.
Proof. exact half_shows. Qed.
Print Assumptions C96_half_refuted.

(** A page, a request with the reports of both sides on different clocks, a query on the server.  The second run sees
    the query first, the server before the client and its report twice; both runs emit the query at the same, corrected
    time. *)
Example C96_instance :
  let q := plain 6 4 (noon + 1030) 10 in
  let r := plain 2 2 noon 100 in
  let first := [client_report; server_report; r; q] in
  let second := [q; server_report; r; server_report; client_report] in
  let out := [plain 6 4 (noon + 30) 10; joint (noon + 10) 50; r] in
  Forall valid_event (course first) /\ Forall valid_event (course second) /\
  (run (course first)).2 = course_log first 3 ++ [LOut 9 (Emitted out)] /\
  (run (course second)).2 = course_log second 3 ++ [LOut 9 (Emitted out)] /\
  orderly (reports (pending (course_log first 3) 9)) /\
  same_reports (reports (pending (course_log first 3) 9)) (reports (pending (course_log second 3) 9)) /\
  one_root out r /\ s_id r ∈ ids (reports (pending (course_log first 3) 9)) /\
  Forall (fun x => alone (reports (pending (course_log first 3) 9)) x \/ attached (reports (pending (course_log first 3) 9)) x) (reports (pending (course_log first 3) 9)) /\
  (forall x, x ∈ out -> ~ circular out x).
Proof.
  intros q r first second out.
  split; [apply course_valid; repeat (apply Forall_cons_2; [unfold int64_ok; p2; cbn; unfold noon; lia|]); apply Forall_nil_2|].
  split; [apply course_valid; repeat (apply Forall_cons_2; [unfold int64_ok; p2; cbn; unfold noon; lia|]); apply Forall_nil_2|].
  split; [by vm_compute|]. split; [by vm_compute|].
  change (reports (pending (course_log first 3) 9)) with first. change (reports (pending (course_log second 3) 9)) with second.
  unfold first, second. split; [|split; [|split; [|split; [|split]]]].
  - apply orderly_cons; [apply orderly_cons; [apply orderly_cons; [apply orderly_cons; [apply orderly_nil|]|]|]|].
    + intros y Hy. by apply elem_of_nil in Hy.
    + intros y Hy E. apply elem_of_list_singleton in Hy as ->. done.
    + intros y Hy E. apply elem_of_cons in Hy as [->|Hy]; [done|]. apply elem_of_list_singleton in Hy as ->. done.
    + intros y Hy E. apply elem_of_cons in Hy as [->|Hy]; [right; left; apply reports_halves|].
      apply elem_of_cons in Hy as [->|Hy]; [done|]. apply elem_of_list_singleton in Hy as ->. done.
  - intros s. rewrite !elem_of_cons. tauto.
  - split.
    + split; [by do 2 apply elem_of_list_further; apply elem_of_list_here|]. by left.
    + intros y [Hy Hr]. apply elem_of_cons in Hy as [->|Hy]; [exfalso|].
      * destruct Hr as [Hr|Hr]; [done|]. apply Hr. cbn. by apply elem_of_list_further, elem_of_list_here.
      * apply elem_of_cons in Hy as [->|Hy]; [exfalso|].
        -- destruct Hr as [Hr|Hr]; [done|]. apply Hr. cbn. by do 2 apply elem_of_list_further; apply elem_of_list_here.
        -- by apply elem_of_list_singleton in Hy.
  - cbn. by do 2 apply elem_of_list_further; apply elem_of_list_here.
  - assert (Hc : attached [client_report; server_report; r; q] client_report).
    { exists client_report. split; [apply elem_of_list_here|]. split; [done|]. split; [|done]. cbn. by do 2 apply elem_of_list_further; apply elem_of_list_here. }
    apply Forall_cons_2; [right; exact Hc|]. apply Forall_cons_2; [right; exact Hc|].
    apply Forall_cons_2; [|apply Forall_cons_2; [|apply Forall_nil_2]]; left; intros y Hy E;
      repeat (apply elem_of_cons in Hy as [->|Hy]; [done|]); by apply elem_of_nil in Hy.
  - intros y Hy. apply ranked_not_circular with (rank := fun s => s_id s). intros p c Hp (Hc & E & Hne).
    repeat (apply elem_of_cons in Hc as [->|Hc]; [apply elem_of_cons in Hp as [->|Hp]; [|apply elem_of_cons in Hp as [->|Hp]; [|apply elem_of_list_singleton in Hp as ->]]; cbn in E, Hne |- *; lia|]).
    by apply elem_of_nil in Hc.
Qed.

(** Two spans below a missing one, each reported once, in both orders. *)
Example C96_instance_fake :
  let a := plain 4 2 noon 100 in
  let b := plain 5 2 (noon + 50) 100 in
  let out := [b; a; injected_at noon 150] in
  (run (course [a; b])).2 = course_log [a; b] 2 ++ [LOut 9 (Emitted out)] /\
  (run (course [b; a])).2 = course_log [b; a] 2 ++ [LOut 9 (Emitted out)] /\
  orderly [a; b] /\ same_reports (reports (pending (course_log [a; b] 2) 9)) (reports (pending (course_log [b; a] 2) 9)) /\
  Forall (fun x => alone (reports (pending (course_log [a; b] 2) 9)) x \/ attached (reports (pending (course_log [a; b] 2) 9)) x) (reports (pending (course_log [a; b] 2) 9)).
Proof.
  intros a b out. split; [by vm_compute|]. split; [by vm_compute|].
  change (reports (pending (course_log [a; b] 2) 9)) with [a; b]. change (reports (pending (course_log [b; a] 2) 9)) with [b; a]. split; [|split].
  - apply orderly_cons; [apply orderly_cons; [apply orderly_nil|]|].
    + intros y Hy. by apply elem_of_nil in Hy.
    + intros y Hy E. by apply elem_of_list_singleton in Hy as ->.
  - apply perm_reports. constructor.
  - apply Forall_cons_2; [|apply Forall_cons_2; [|apply Forall_nil_2]]; left; intros y Hy E;
      repeat (apply elem_of_cons in Hy as [->|Hy]; [done|]); by apply elem_of_nil in Hy.
Qed.
