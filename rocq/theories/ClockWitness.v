(** Executions for C116. *)
From Verif Require Import Base SpanModel TreeModel TreeSpec TreeProofs FinishModel FinishSpec FinishProofs FinishWitness ConnectSpec ConnectProofs OrderSpec OrderWitness ClockSpec.

(** A request that calls a host whose clock is ahead by [a], which calls one whose clock is ahead by [b]. *)
Definition entrance : span := plain 2 2 noon 100.
Definition first_call : span := Span 4 2 9 (str "get") (str "front") (noon + 10) 50 ∅ (Timings (noon + 10) (noon + 60) 0 0).
Definition first_served (a : Z) : span := Span 4 2 9 [] (str "shop") (noon + 1020 + a) 30 ∅ (Timings 0 0 (noon + 1050 + a) (noon + 1020 + a)).
Definition first_work (a : Z) : span := plain 6 4 (noon + 1025 + a) 5.
Definition second_call (a : Z) : span := Span 8 4 9 (str "put") (str "shop") (noon + 1032 + a) 10 ∅ (Timings (noon + 1032 + a) (noon + 1042 + a) 0 0).
Definition second_served (b : Z) : span := Span 8 4 9 [] (str "store") (noon + 7 + b) 4 ∅ (Timings 0 0 (noon + 11 + b) (noon + 7 + b)).
Definition second_work (b : Z) : span := plain 9 8 (noon + 8 + b) 2.
Definition calls (a b : Z) : list span := [second_work b; first_call; first_served a; first_work a; second_served b; second_call a; entrance].

Definition caused (a b i : Z) : Z := if i =? 6 then a else if i =? 8 then a else if i =? 9 then b else 0.
Definition ran (a b i : Z) : Z := if i =? 4 then a else if i =? 6 then a else if i =? 8 then b else if i =? 9 then b else 0.

(** What leaves: by the clock of the first host. *)
Definition told_right (a b : Z) : list span :=
  [ plain 9 8 (noon + 36) 2;
    Span 8 4 9 (str "put") (str "store") (noon + 32) 10 ∅ (Timings (noon + 1032 + a) (noon + 1042 + a) (noon + 11 + b) (noon + 7 + b));
    plain 6 4 (noon + 25) 5;
    Span 4 2 9 (str "get") (str "shop") (noon + 10) 50 ∅ (Timings (noon + 10) (noon + 60) (noon + 1050 + a) (noon + 1020 + a));
    entrance ].

Lemma calls_valid a b : -1000000000 <= a <= 1000000000 -> -1000000000 <= b <= 1000000000 -> Forall valid_event (course (calls a b)).
Proof.
  intros Ha Hb. apply course_valid. unfold calls. repeat (apply Forall_cons_2; [unfold int64_ok; p2; cbn; unfold noon; lia|]). apply Forall_nil_2.
Qed.

Ltac redate := first [left; split; reflexivity|right; p2; unfold noon; repeat split; lia].
Ltac reclock := split; [reflexivity|]; cbn [s_id s_ts s_timings tCS tCR tSS tSR caused ran Z.eqb Pos.eqb entrance first_call first_served first_work second_call second_served second_work plain];
  split; [first [left; unfold noon; lia|right; unfold noon; lia]|]; split; [redate|]; split; [redate|]; split; redate.
Lemma calls_reclocked a b : -1000000000 <= a <= 1000000000 -> -1000000000 <= b <= 1000000000 ->
  Forall2 (reclocked (caused a b) (ran a b)) (calls 0 0) (calls a b).
Proof. intros Ha Hb. unfold calls. repeat (constructor; [reclock|]). constructor. Qed.

Lemma told_root a b : one_root (told_right a b) entrance.
Proof.
  split.
  - split; [unfold told_right; do 4 apply elem_of_list_further; apply elem_of_list_here|]. left. reflexivity.
  - intros y [Hy Hr]. unfold told_right in Hy. rewrite !elem_of_cons, elem_of_nil in Hy.
    destruct Hy as [->|[->|[->|[->|[->|[]]]]]]; [..|reflexivity]; exfalso; (destruct Hr as [Hr|Hr]; [discriminate Hr|]); apply Hr; cbn;
      rewrite !elem_of_cons; tauto.
Qed.
Lemma told_hosts a b : by_host (caused a b) (ran a b) (told_right 0 0) entrance.
Proof.
  split; [reflexivity|]. split.
  - intros p c Hp (Hc & E & Hne). unfold told_right in Hp, Hc. rewrite !elem_of_cons, elem_of_nil in Hp, Hc.
    destruct Hp as [->|[->|[->|[->|[->|[]]]]]], Hc as [->|[->|[->|[->|[->|[]]]]]]; first [discriminate E|reflexivity|exfalso; apply Hne; reflexivity].
  - intros x Hx Hf. unfold told_right in Hx. rewrite !elem_of_cons, elem_of_nil in Hx.
    destruct Hx as [->|[->|[->|[->|[->|[]]]]]]; first [reflexivity|exfalso; apply Hf; unfold four_timings, noon; cbn; lia].
Qed.
Lemma told_straight a b x : x ∈ told_right a b -> ~ circular (told_right a b) x.
Proof.
  intros _. apply ranked_not_circular with (rank := fun s => s_id s). intros p c Hp (Hc & E & Hne).
  unfold told_right in Hp, Hc. rewrite !elem_of_cons, elem_of_nil in Hp, Hc.
  destruct Hp as [->|[->|[->|[->|[->|[]]]]]], Hc as [->|[->|[->|[->|[->|[]]]]]]; first [discriminate E|reflexivity|exfalso; apply Hne; reflexivity].
Qed.

(** A server whose caller reports nothing: its clock shows. *)
Definition lonely (a : Z) : span := Span 4 2 9 (str "get") (str "shop") (noon + 1020 + a) 30 ∅ (Timings 0 0 (noon + 1050 + a) (noon + 1020 + a)).
Lemma lonely_shows :
  exists outer inner evs evs' l1 l2 l1' l2' t out out' r, Forall valid_event evs /\ Forall valid_event evs' /\
    (run evs).2 = l1 ++ LOut t (Emitted out) :: l2 /\ (run evs').2 = l1' ++ LOut t (Emitted out') :: l2' /\
    Forall2 (reclocked outer inner) (reports (pending l1 t)) (reports (pending l1' t)) /\ one_root out r /\ s_id r ∈ ids (reports (pending l1 t)) /\
    outer (s_id r) = 0 /\ (forall p c, p ∈ out -> child out p c -> outer (s_id c) = inner (s_id p)) /\ (forall x, x ∈ out -> ~ circular out x) /\ ~ Forall2 alike out out'.
Proof.
  exists (fun _ => 0), (fun i => if i =? 4 then 5000 else 0), (course [entrance; lonely 0]), (course [entrance; lonely 5000]).
  exists (course_log [entrance; lonely 0] 2), [], (course_log [entrance; lonely 5000] 2), [], 9, [lonely 0; entrance], [lonely 5000; entrance], entrance.
  split; [apply course_valid; repeat (apply Forall_cons_2; [unfold int64_ok; p2; cbn; unfold noon; lia|]); apply Forall_nil_2|].
  split; [apply course_valid; repeat (apply Forall_cons_2; [unfold int64_ok; p2; cbn; unfold noon; lia|]); apply Forall_nil_2|].
  split; [vm_compute; reflexivity|]. split; [vm_compute; reflexivity|].
  change (reports (pending (course_log [entrance; lonely 0] 2) 9)) with [entrance; lonely 0].
  change (reports (pending (course_log [entrance; lonely 5000] 2) 9)) with [entrance; lonely 5000].
  split; [|split; [|split; [|split; [|split; [|split]]]]].
  - constructor; [|constructor; [|constructor]]; (split; [reflexivity|]); cbn [s_id s_ts s_timings tCS tCR tSS tSR Z.eqb Pos.eqb entrance lonely plain];
      (split; [first [left; unfold noon; lia|right; unfold noon; lia]|]); (split; [redate|]); (split; [redate|]); split; redate.
  - split.
    + split; [apply elem_of_list_further, elem_of_list_here|]. left. reflexivity.
    + intros y [Hy Hr]. rewrite !elem_of_cons, elem_of_nil in Hy. destruct Hy as [->|[->|[]]]; [|reflexivity]. exfalso.
      destruct Hr as [Hr|Hr]; [discriminate Hr|]. apply Hr. cbn. apply elem_of_list_further, elem_of_list_here.
  - cbn. apply elem_of_list_here.
  - reflexivity.
  - intros p c Hp (Hc & E & Hne). rewrite !elem_of_cons, elem_of_nil in Hp, Hc.
    destruct Hp as [->|[->|[]]], Hc as [->|[->|[]]]; first [discriminate E|reflexivity|exfalso; apply Hne; reflexivity].
  - intros x _. apply ranked_not_circular with (rank := fun s => s_id s). intros p c Hp (Hc & E & Hne). rewrite !elem_of_cons, elem_of_nil in Hp, Hc.
    destruct Hp as [->|[->|[]]], Hc as [->|[->|[]]]; first [discriminate E|reflexivity|exfalso; apply Hne; reflexivity].
  - intros H. apply Forall2_cons in H as [H _]. discriminate H.
Qed.

(** Two spans whose parent nobody reports; the first one calls a host whose clock is ahead by [b]. *)
Definition orphan1 : span := plain 4 2 noon 100.
Definition orphan2 : span := plain 5 2 (noon + 50) 100.
Definition far_work (b : Z) : span := plain 7 8 (noon + 8 + b) 2.
Definition orphan_calls (b : Z) : list span := [orphan2; far_work b; second_served b; second_call (-1000); orphan1].
Definition far (b i : Z) : Z := if i =? 7 then b else 0.
Definition there (b i : Z) : Z := if i =? 8 then b else if i =? 7 then b else 0.
Definition orphans_told (b : Z) : list span :=
  [ Span 8 4 9 (str "put") (str "store") (noon + 32) 10 ∅ (Timings (noon + 32) (noon + 42) (noon + 11 + b) (noon + 7 + b));
    plain 7 8 (noon + 36) 2; orphan2; orphan1; injected_at noon 150 ].

Lemma orphans_valid b : -1000000000 <= b <= 1000000000 -> Forall valid_event (course (orphan_calls b)).
Proof.
  intros Hb. apply course_valid. unfold orphan_calls. repeat (apply Forall_cons_2; [unfold int64_ok; p2; cbn; unfold noon; lia|]). apply Forall_nil_2.
Qed.
Lemma orphans_reclocked b : -1000000000 <= b <= 1000000000 -> Forall2 (reclocked (far b) (there b)) (orphan_calls 0) (orphan_calls b).
Proof.
  intros Hb. unfold orphan_calls. repeat (constructor; [split; [reflexivity|]; cbn [s_id s_ts s_timings tCS tCR tSS tSR far there Z.eqb Pos.eqb orphan1 orphan2 second_call second_served far_work plain];
    split; [first [left; unfold noon; lia|right; unfold noon; lia]|]; split; [redate|]; split; [redate|]; split; redate|]). constructor.
Qed.
Lemma orphans_root : one_root (orphans_told 0) (injected_at noon 150).
Proof.
  split.
  - split; [unfold orphans_told; do 4 apply elem_of_list_further; apply elem_of_list_here|]. right. cbn. rewrite !elem_of_cons, elem_of_nil.
    intros [H|[H|[H|[H|[H|[]]]]]]; discriminate H.
  - intros y [Hy Hr]. unfold orphans_told in Hy. rewrite !elem_of_cons, elem_of_nil in Hy.
    destruct Hy as [->|[->|[->|[->|[->|[]]]]]]; [..|reflexivity]; exfalso; (destruct Hr as [Hr|Hr]; [discriminate Hr|]); apply Hr; cbn; rewrite !elem_of_cons; tauto.
Qed.
Lemma orphans_hosts b : by_host (far b) (there b) (orphans_told 0) (injected_at noon 150) /\
  forall c, child (orphans_told 0) (injected_at noon 150) c -> there b (s_id c) = 0.
Proof.
  split; [split; [reflexivity|]; split|].
  - intros p c Hp (Hc & E & Hne). unfold orphans_told in Hp, Hc. rewrite !elem_of_cons, elem_of_nil in Hp, Hc.
    destruct Hp as [->|[->|[->|[->|[->|[]]]]]], Hc as [->|[->|[->|[->|[->|[]]]]]]; first [discriminate E|reflexivity|exfalso; apply Hne; reflexivity].
  - intros x Hx Hf. unfold orphans_told in Hx. rewrite !elem_of_cons, elem_of_nil in Hx.
    destruct Hx as [->|[->|[->|[->|[->|[]]]]]]; first [reflexivity|exfalso; apply Hf; unfold four_timings, noon; cbn; lia].
  - intros c (Hc & E & _). unfold orphans_told in Hc. rewrite !elem_of_cons, elem_of_nil in Hc.
    destruct Hc as [->|[->|[->|[->|[->|[]]]]]]; first [discriminate E|reflexivity].
Qed.
Lemma orphans_straight x : x ∈ orphans_told 0 -> ~ circular (orphans_told 0) x.
Proof.
  intros _. apply ranked_not_circular with (rank := fun s => if s_id s =? 7 then 10 else s_id s). intros p c Hp (Hc & E & Hne).
  unfold orphans_told in Hp, Hc. rewrite !elem_of_cons, elem_of_nil in Hp, Hc.
  destruct Hp as [->|[->|[->|[->|[->|[]]]]]], Hc as [->|[->|[->|[->|[->|[]]]]]]; first [discriminate E|reflexivity|exfalso; apply Hne; reflexivity].
Qed.
