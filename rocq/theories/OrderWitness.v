(** Counterexamples for C96: what the order of arrival does show in. *)
From Verif Require Import Base SpanModel TreeModel TreeSpec TreeProofs FinishModel FinishSpec FinishProofs FinishWitness ConnectSpec ConnectProofs OrderSpec.

Definition noon : Z := 1600000000000000000.
(** The spans arrive, and nine seconds later the corrector looks. *)
Definition course (l : list span) : list event := map (ESpan map_to_list 0 0) l ++ [ETick (plain_tick (seconds 9))].
Definition course_log (l : list span) (n : Z) : list entry := map (LSpan 0 0) l ++ [LTick (seconds 9) (seconds 9) n].

Lemma course_valid l : Forall (fun s => int64_ok (s_ts s)) l -> Forall valid_event (course l).
Proof.
  intros H. apply Forall_app. split; [|constructor; [apply plain_valid|constructor]]. apply Forall_map. eapply Forall_impl; [exact H|].
  intros s Hs. by split; [intros m|].
Qed.

Definition client_report : span := Span 4 2 9 (str "get") (str "client") (noon + 10) 50 ∅ (Timings (noon + 10) (noon + 60) 0 0).
Definition server_report : span := Span 4 2 9 [] (str "server") (noon + 1020) 30 ∅ (Timings 0 0 (noon + 1050) (noon + 1020)).
Definition plain (id parent ts dur : Z) : span := Span id parent 9 [] [] ts dur ∅ (Timings 0 0 0 0).

Lemma reports_halves : two_halves client_report server_report.
Proof.
  split; [done|]. split; [done|]. split; [by left|]. split; [done|]. split.
  - split; [done|]. split; [done|]. split; [done|]. split; [done|]. by left.
  - by left.
Qed.

(** Pairs of reports, one by one. *)
Lemma orderly_cons x l : orderly l -> (forall y, y ∈ l -> s_id x = s_id y -> x = y \/ two_halves x y \/ two_halves y x) -> orderly (x :: l).
Proof.
  intros Hl Hx a b Ha Hb E. apply elem_of_cons in Ha as [->|Ha], Hb as [-> |Hb]; [by left|by apply Hx| |by apply Hl].
  destruct (Hx a Ha) as [->|[?|?]]; [done|by left|by right; right|by right; left].
Qed.
Lemma orderly_nil : orderly [].
Proof. intros x y Hx. by apply elem_of_nil in Hx. Qed.

Lemma perm_reports (a b : list span) : a ≡ₚ b -> same_reports a b.
Proof. intros H s. by rewrite H. Qed.

(** One span fewer in common. *)
Lemma not_perm (a b : list span) x : x ∈ a -> (forall y, y ∈ b -> s_id y = s_id x -> s_ts y <> s_ts x) -> ~ b ≡ₚ a.
Proof. intros Hx Hb Hp. apply (Hb x); [by rewrite Hp|done|done]. Qed.

Definition injected_at (ts dur : Z) : span := Span 2 9 9 (str "fake-root") (str "fake-root") ts dur ∅ (Timings 0 0 0 0).
Definition joint (ts dur : Z) : span := Span 4 2 9 (str "get") (str "server") ts dur ∅ (Timings (noon + 10) (noon + 60) (noon + 1050) (noon + 1020)).

Lemma fake_root_shows :
  exists evs evs' l1 l2 l1' l2' t out out', Forall valid_event evs /\ Forall valid_event evs' /\
    (run evs).2 = l1 ++ LOut t (Emitted out) :: l2 /\ (run evs').2 = l1' ++ LOut t (Emitted out') :: l2' /\
    orderly (reports (pending l1 t)) /\ same_reports (reports (pending l1 t)) (reports (pending l1' t)) /\
    (forall x, x ∈ out -> ~ circular out x) /\ ~ out' ≡ₚ out.
Proof.
  set (x := plain 5 2 (noon + 500) 40).
  exists (course [client_report; server_report; x]), (course [server_report; client_report; x]).
  exists (course_log [client_report; server_report; x] 2), [], (course_log [server_report; client_report; x] 2), [], 9.
  exists [x; joint (noon + 10) 50; injected_at (noon + 10) 530], [x; joint (noon + 10) 50; injected_at (noon + 500) 550].
  split; [apply course_valid; repeat (apply Forall_cons_2; [unfold int64_ok; p2; cbn; unfold noon; lia|]); apply Forall_nil_2|].
  split; [apply course_valid; repeat (apply Forall_cons_2; [unfold int64_ok; p2; cbn; unfold noon; lia|]); apply Forall_nil_2|].
  split; [by vm_compute|]. split; [by vm_compute|].
  change (reports (pending (course_log [client_report; server_report; x] 2) 9)) with [client_report; server_report; x].
  change (reports (pending (course_log [server_report; client_report; x] 2) 9)) with [server_report; client_report; x].
  split; [|split; [|split]].
  - apply orderly_cons; [apply orderly_cons; [apply orderly_cons; [apply orderly_nil|]|]|].
    + intros y Hy. by apply elem_of_nil in Hy.
    + intros y Hy E. apply elem_of_list_singleton in Hy as ->. done.
    + intros y Hy E. apply elem_of_cons in Hy as [->|Hy]; [right; left; apply reports_halves|]. apply elem_of_list_singleton in Hy as ->. done.
  - apply perm_reports. constructor.
  - intros y Hy. apply ranked_not_circular with (rank := fun s => s_id s). intros p c Hp (Hc & E & Hne).
    repeat (apply elem_of_cons in Hc as [->|Hc]; [apply elem_of_cons in Hp as [->|Hp]; [|apply elem_of_cons in Hp as [->|Hp]; [|apply elem_of_list_singleton in Hp as ->]]; cbn in E |- *; lia|]).
    by apply elem_of_nil in Hc.
  - apply (not_perm _ _ (injected_at (noon + 10) 530)); [by apply elem_of_list_further, elem_of_list_further, elem_of_list_here|].
    intros y Hy E. repeat (apply elem_of_cons in Hy as [->|Hy]; [cbn in E |- *; unfold noon in *; lia|]). by apply elem_of_nil in Hy.
Qed.

Lemma circle_shows :
  exists evs evs' l1 l2 l1' l2' t out out' r, Forall valid_event evs /\ Forall valid_event evs' /\
    (run evs).2 = l1 ++ LOut t (Emitted out) :: l2 /\ (run evs').2 = l1' ++ LOut t (Emitted out') :: l2' /\
    orderly (reports (pending l1 t)) /\ same_reports (reports (pending l1 t)) (reports (pending l1' t)) /\
    ConnectSpec.one_root out r /\ s_id r ∈ ids (reports (pending l1 t)) /\ ~ out' ≡ₚ out.
Proof.
  set (x := plain 2 4 (noon + 500) 40). set (r := plain 7 0 noon 10).
  exists (course [client_report; server_report; x; r]), (course [server_report; client_report; x; r]).
  exists (course_log [client_report; server_report; x; r] 3), [], (course_log [server_report; client_report; x; r] 3), [], 9.
  exists [r; joint (noon + 10) 50; x], [r; joint (noon + 1020) 30; x], r.
  split; [apply course_valid; repeat (apply Forall_cons_2; [unfold int64_ok; p2; cbn; unfold noon; lia|]); apply Forall_nil_2|].
  split; [apply course_valid; repeat (apply Forall_cons_2; [unfold int64_ok; p2; cbn; unfold noon; lia|]); apply Forall_nil_2|].
  split; [by vm_compute|]. split; [by vm_compute|].
  change (reports (pending (course_log [client_report; server_report; x; r] 3) 9)) with [client_report; server_report; x; r].
  change (reports (pending (course_log [server_report; client_report; x; r] 3) 9)) with [server_report; client_report; x; r].
  split; [|split; [|split; [|split]]].
  - apply orderly_cons; [apply orderly_cons; [apply orderly_cons; [apply orderly_cons; [apply orderly_nil|]|]|]|].
    + intros y Hy. by apply elem_of_nil in Hy.
    + intros y Hy E. apply elem_of_list_singleton in Hy as ->. done.
    + intros y Hy E. apply elem_of_cons in Hy as [->|Hy]; [done|]. apply elem_of_list_singleton in Hy as ->. done.
    + intros y Hy E. apply elem_of_cons in Hy as [->|Hy]; [right; left; apply reports_halves|].
      apply elem_of_cons in Hy as [->|Hy]; [done|]. apply elem_of_list_singleton in Hy as ->. done.
  - apply perm_reports. constructor.
  - split.
    + split; [apply elem_of_list_here|]. right. cbn. rewrite !elem_of_cons. intros [?|[?|[?|H]]]; [done..|by apply elem_of_nil in H].
    + intros y [Hy Hr]. apply elem_of_cons in Hy as [->|Hy]; [done|]. exfalso. apply elem_of_cons in Hy as [->|Hy].
      * destruct Hr as [Hr|Hr]; [done|]. apply Hr. cbn. by apply elem_of_list_further, elem_of_list_further, elem_of_list_here.
      * apply elem_of_list_singleton in Hy as ->. destruct Hr as [Hr|Hr]; [done|]. apply Hr. cbn. by apply elem_of_list_further, elem_of_list_here.
  - cbn. by do 3 apply elem_of_list_further; apply elem_of_list_here.
  - apply (not_perm _ _ (joint (noon + 10) 50)); [by apply elem_of_list_further, elem_of_list_here|].
    intros y Hy E. repeat (apply elem_of_cons in Hy as [->|Hy]; [cbn in E |- *; unfold noon in *; lia|]). by apply elem_of_nil in Hy.
Qed.

(** Two halves of which one lacks a time: the report that came first decides. *)
Lemma half_shows :
  exists evs evs' l1 l2 l1' l2' t out out' c s, Forall valid_event evs /\ Forall valid_event evs' /\
    (run evs).2 = l1 ++ LOut t (Emitted out) :: l2 /\ (run evs').2 = l1' ++ LOut t (Emitted out') :: l2' /\
    reports (pending l1 t) = [c; s] /\ reports (pending l1' t) = [s; c] /\
    s_id c = s_id s /\ s_trace c = s_trace s /\ s_parent c = s_parent s /\ client_half c /\ server_half s /\
    ~ out' ≡ₚ out.
Proof.
  set (c := Span 4 0 9 [] [] (noon + 10) 50 ∅ (Timings (noon + 10) 0 0 0)). set (s := Span 4 0 9 [] [] (noon + 1020) 30 ∅ (Timings 0 0 (noon + 1050) (noon + 1020))).
  exists (course [c; s]), (course [s; c]), (course_log [c; s] 1), [], (course_log [s; c] 1), [], 9.
  exists [Span 4 0 9 [] [] (noon + 10) 50 ∅ (Timings (noon + 10) 0 (noon + 1050) (noon + 1020))],
    [Span 4 0 9 [] [] (noon + 1020) 30 ∅ (Timings (noon + 10) 0 (noon + 1050) (noon + 1020))], c, s.
  split; [apply course_valid; repeat (apply Forall_cons_2; [unfold int64_ok; p2; cbn; unfold noon; lia|]); apply Forall_nil_2|].
  split; [apply course_valid; repeat (apply Forall_cons_2; [unfold int64_ok; p2; cbn; unfold noon; lia|]); apply Forall_nil_2|].
  split; [by vm_compute|]. split; [by vm_compute|]. split; [done|]. split; [done|]. split; [done|]. split; [done|]. split; [done|]. split; [done|]. split.
  - split; [done|]. split; [done|]. split; [done|]. split; [done|]. by left.
  - eapply not_perm; [apply elem_of_list_here|]. intros y Hy _. apply elem_of_list_singleton in Hy as ->. cbn. unfold noon. lia.
Qed.
