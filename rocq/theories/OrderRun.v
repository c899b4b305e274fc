(** C96 for runs of the corrector. *)
From Coq Require Import Sorted.
From Verif Require Import Base IdModel SpanModel TreeModel TreeSpec TreeProofs CorrectProofs RootProofs FinishModel FinishSpec FinishProofs FinishRun FinishTheorems
  FinishWitness ReplaySpec ReplayProofs ConnectSpec ConnectProofs OrderSpec OrderProofs.

Lemma pending_id_nonzero log t : 0 ∉ ids (reports (pending log t)).
Proof.
  unfold pending. induction log as [|e log IH] using rev_ind; [apply not_elem_of_nil|]. rewrite status_snoc. destruct (status log t) as [b p].
  cbn [snd] in IH. destruct e as [n0 n1 s|? ? ?|t' o|t'|]; cbn [track]; try done.
  - destruct (decide (s_trace s = t /\ t <> 0 /\ s_id s <> 0 /\ b = false)) as [(_ & _ & Hs & _)|_]; [|done]. cbn [snd]. unfold reports, ids in *.
    rewrite !map_app. cbn [map]. rewrite elem_of_app, elem_of_list_singleton. intros [H|H]; [done|]. by symmetry in H.
  - destruct (decide (t' = t)); [apply not_elem_of_nil|done].
  - by destruct (decide (t' = t)).
Qed.

Lemma not_circular_connected out r x : ConnectSpec.one_root out r -> x ∈ out -> ~ circular out x -> connected out r x.
Proof.
  intros [_ Hu] Hx Hc. destruct (connected_or_circular out x Hx) as [(r' & Hr & H)|H]; [|done]. by rewrite <- (Hu r' Hr).
Qed.

Lemma emission_length t s1 s2 out1 out2 : NoDup (ids s1) -> Forall2 same_but_time s1 s2 -> emission t s1 out1 -> emission t s2 out2 -> length out1 = length out2.
Proof.
  intros Hn Hs (all1 & root1 & Ha1 & Hc1 & Hu1 & HF1 & _) (all2 & root2 & Ha2 & Hc2 & Hu2 & HF2 & _).
  assert (Hn2 : NoDup (ids s2)) by (by rewrite <- (rel_ids _ _ Hs)).
  rewrite <- (Forall2_length _ _ _ HF1), <- (Forall2_length _ _ _ HF2). pose proof (Forall2_length _ _ _ Hs) as Hl.
  destruct Ha1 as [->|(f & Hf & Ha1)], Ha2 as [->|(g & Hg & Ha2)]; [done| | |by rewrite Ha1, Ha2; cbn; rewrite Hl]; exfalso.
  - destruct Hg as (_ & _ & _ & _ & c & c' & Hc & Hc' & Hcc & _).
    destruct (two_candidates s2 s1 c c' Hn2 (same_but_time_sym _ _ Hs) Hc Hc' Hcc) as (d & d' & Hd & Hd' & Hne). apply Hne. by rewrite (Hu1 d), (Hu1 d').
  - destruct Hf as (_ & _ & _ & _ & c & c' & Hc & Hc' & Hcc & _).
    destruct (two_candidates s1 s2 c c' Hn Hs Hc Hc' Hcc) as (d & d' & Hd & Hd' & Hne). apply Hne. by rewrite (Hu2 d), (Hu2 d').
Qed.

Lemma emission_content t s1 s2 out1 out2 x : NoDup (ids s1) -> Forall2 same_but_time s1 s2 -> emission t s1 out1 -> emission t s2 out2 ->
  x ∈ out1 -> exists st du, retimed x st du ∈ out2.
Proof.
  intros Hn Hs (all1 & root1 & Ha1 & Hc1 & Hu1 & HF1 & _) (all2 & root2 & Ha2 & Hc2 & Hu2 & HF2 & _) Hx.
  apply elem_of_list_lookup in Hx as [i Hi]. destruct (Forall2_lookup_r _ _ _ _ _ HF1 Hi) as (s & Hsi & st0 & du0 & ->).
  apply elem_of_list_lookup_2 in Hsi.
  assert (Hgo : forall s', s' ∈ all2 -> (exists a b, s' = retimed s a b) -> exists st du, retimed (retimed s st0 du0) st du ∈ out2).
  { intros s' Hs' (a & b & ->). apply elem_of_list_lookup in Hs' as [j Hj]. destruct (Forall2_lookup_l _ _ _ _ _ HF2 Hj) as (y & Hy & st & du & ->).
    exists st, du. apply elem_of_list_lookup. exists j. exact Hy. }
  assert (Hsub : forall y, y ∈ s2 -> y ∈ all2).
  { intros y Hy. destruct Ha2 as [->|(g & _ & Ha2)]; [done|]. rewrite Ha2. by apply elem_of_list_further. }
  assert (Hold : s ∈ s1 -> exists st du, retimed (retimed s st0 du0) st du ∈ out2).
  { intros Hin. apply elem_of_list_lookup in Hin as [k Hk]. destruct (Forall2_lookup_l _ _ _ _ _ Hs Hk) as (s' & Hk' & R).
    apply (Hgo s'); [apply Hsub; by eapply elem_of_list_lookup_2|]. destruct R as [<-|(_ & a & b & ->)]; [exists (s_ts s), (s_dur s); by destruct s|by exists a, b]. }
  destruct Ha1 as [->|(f & Hf & Ha1)]; [by apply Hold|]. rewrite Ha1 in Hsi. apply elem_of_cons in Hsi as [->|Hsi]; [|by apply Hold].
  destruct Ha2 as [->|(g & Hg & Ha2)].
  { exfalso. destruct Hf as (_ & _ & _ & _ & c & c' & Hc & Hc' & Hcc & _).
    destruct (two_candidates s1 s2 c c' Hn Hs Hc Hc' Hcc) as (d & d' & Hd & Hd' & Hne). apply Hne. by rewrite (Hu2 d), (Hu2 d'). }
  apply (Hgo g); [rewrite Ha2; apply elem_of_list_here|].
  destruct Hf as ((f1 & l1 & cs1 & Ef & _) & _ & _ & _ & c & _ & Hc & _ & _ & Hpar).
  destruct Hg as ((f2 & l2 & cs2 & Eg & _) & _ & _ & _ & _ & _ & _ & _ & _ & Hpar').
  exists f2, (wrap64 (l2 - f2)). rewrite Ef, Eg. unfold retimed. cbn [s_id s_parent s_trace s_name s_service s_ts s_dur s_tags s_timings]. f_equal.
  destruct (candidate_rel _ _ _ Hs Hc) as (c' & Hc' & R). destruct (rel_own _ _ R) as (_ & E & _). rewrite <- (Hpar c Hc), <- (Hpar' c' Hc'). done.
Qed.

Section Runs.
  Context (evs evs' : list event) (l1 l2 l1' l2' : list entry) (t : Z) (out : list span).
  Context (Hv : Forall valid_event evs) (Hv' : Forall valid_event evs').
  Context (E : (run evs).2 = l1 ++ LOut t (Emitted out) :: l2).
  Context (Ho : orderly (reports (pending l1 t))) (Hs : same_reports (reports (pending l1 t)) (reports (pending l1' t))).

  Lemma order_fate : (run evs').2 = l1' ++ LOut t NoRoot :: l2' -> False.
  Proof.
    intros E'. destruct (emitted_is _ _ _ _ _ Hv E) as [_ He].
    pose proof (run_entry _ _ _ _ Hv' E') as (_ & n1 & n2 & load & _ & Hno & _). pose proof (run_prefix _ _ _ Hv' E') as Hg.
    destruct (merged_ok l1' t Hg) as [Ht Hok]. apply Hno. apply (emission_exists t (pending l1 t)); try done. by exists out.
  Qed.

  Context (out' : list span) (E' : (run evs').2 = l1' ++ LOut t (Emitted out') :: l2').

  Lemma order_content : length out' = length out /\ forall x, x ∈ out -> exists st du, retimed x st du ∈ out'.
  Proof.
    destruct (emitted_is _ _ _ _ _ Hv E) as [_ He]. destruct (emitted_is _ _ _ _ _ Hv' E') as [_ He'].
    pose proof (same_trace t _ _ Ho Hs) as HF. pose proof (merged_NoDup t (pending l1 t)) as Hn. split.
    - symmetry. by apply (emission_length t _ _ _ _ Hn HF).
    - intros x. by apply (emission_content t _ _ _ _ x Hn HF).
  Qed.

  Lemma order_own r x : ConnectSpec.one_root out r -> s_id r ∈ ids (reports (pending l1 t)) -> x ∈ out -> ~ circular out x -> x ∈ out'.
  Proof.
    intros Hr Hin Hx Hc. destruct (emitted_is _ _ _ _ _ Hv E) as [_ He]. destruct (emitted_is _ _ _ _ _ Hv' E') as [_ He'].
    apply (own_root_same t _ _ _ _ r x (merged_NoDup t (pending l1 t)) (same_trace t _ _ Ho Hs) He He' Hr); [|done|by apply not_circular_connected].
    by apply merged_report_ids.
  Qed.

  Lemma order_fake x : Forall (fun x => alone (reports (pending l1 t)) x \/ attached (reports (pending l1 t)) x) (reports (pending l1 t)) ->
    x ∈ out -> ~ circular out x -> x ∈ out'.
  Proof.
    intros Hall Hx Hc. destruct (emitted_is _ _ _ _ _ Hv E) as [_ He]. destruct (emitted_is _ _ _ _ _ Hv' E') as [_ He'].
    destruct (emitted_trace _ _ _ _ _ Hv E) as (_ & Hno & _). destruct (emission_one_root _ _ _ He Hno) as (r & Hr).
    assert (Halone : forall c, alone (reports (pending l1 t)) c <-> alone (reports (pending l1' t)) c).
    { intros c. unfold alone. split; intros H y Hy; apply H; by apply Hs. }
    apply (any_root_same t _ _ out out' r x (merged_NoDup t (pending l1 t)) (same_trace t _ _ Ho Hs)); [| |done|done|done|done|by apply not_circular_connected].
    - intros c Hcand. destruct (candidate_alone t (pending l1 t) c Ho (pending_id_nonzero _ _) Hall Hcand) as [H1 H2].
      apply alone_held; [by apply Hs|by apply Halone].
    - intros c Hcand. destruct (candidate_alone t (pending l1' t) c) as [H1 H2].
      + intros a b Ha Hb. apply Ho; by apply Hs.
      + apply pending_id_nonzero.
      + apply Forall_forall. intros a Ha. rewrite Forall_forall in Hall. destruct (Hall a) as [H|(y & Hy & Ey & Hp & Hne)]; [by apply Hs|left; by apply Halone|right].
        exists y. split; [by apply Hs|]. split; [done|]. split; [|done]. unfold ids in *. apply elem_of_list_fmap in Hp as (z & -> & Hz). apply elem_of_list_fmap_1. by apply Hs.
      + done.
      + apply alone_held; [by apply Hs|by apply Halone].
  Qed.

  (** Traces without circles: the same spans. *)
  Lemma all_of_them : (forall x, x ∈ out -> x ∈ out') -> out' ≡ₚ out.
  Proof.
    intros Hsub. destruct (emitted_trace _ _ _ _ _ Hv E) as (_ & Hno & _). destruct order_content as [Hl _]. symmetry.
    apply submseteq_Permutation_length_le; [lia|]. apply NoDup_submseteq; [|done]. unfold ids in Hno. by apply NoDup_fmap_1 in Hno.
  Qed.

  Lemma order_whole :
    (exists r, ConnectSpec.one_root out r /\ s_id r ∈ ids (reports (pending l1 t))) \/
    Forall (fun x => alone (reports (pending l1 t)) x \/ attached (reports (pending l1 t)) x) (reports (pending l1 t)) ->
    (forall x, x ∈ out -> ~ circular out x) -> out' ≡ₚ out.
  Proof.
    intros [(r & Hr & Hin)|Hall] Hc; apply all_of_them; intros x Hx.
    - apply (order_own r x); auto.
    - apply (order_fake x); auto.
  Qed.
End Runs.
