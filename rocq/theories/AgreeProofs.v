(** Proofs for C122. *)
From Verif Require Import Base IdModel SpanModel TreeModel TreeSpec TreeProofs RootProofs CorrectProofs FinishModel FinishSpec FinishProofs FinishRun FinishTheorems DecideProofs ForwardModel ForwardSpec PipelineModel PipelineSpec
  SystemModel SystemSpec SystemTheorems ContentSpec ContentProofs ConnectSpec ConnectProofs WholeSpec OrderSpec OrderProofs OrderRun ShiftProofs RenameProofs RenameRun ClockProofs UnseenSpec UnseenProofs AgreeSpec.

#[local] Instance agree_times_dec : EqDecision timings.
Proof. solve_decision. Defined.
#[local] Instance agree_span_dec : EqDecision span.
Proof. solve_decision. Defined.

Lemma agree_skew t a x : clocks_agree (reports a) -> x ∈ merged_spans t a -> skew x = 0.
Proof.
  intros Ha Hx. apply merged_told in Hx. unfold skew. destruct (decide (four_timings x)) as [(H1 & H2 & H3 & H4)|]; [|done].
  destruct (told_timing _ _ Hx tCS) as (w & Hw & Ew); [left|]. destruct (told_timing _ _ Hx tCR) as (r & Hr & Er); [right; left|].
  destruct (told_timing _ _ Hx tSS) as (z & Hz & Ez); [right; right; left|]. destruct (told_timing _ _ Hx tSR) as (y & Hy & Ey); [right; right; right; left|].
  unfold ContentSpec.reports in *. apply elem_of_list_filter in Hw as [Iw Hw], Hr as [Ir Hr], Hz as [Iz Hz], Hy as [Iy Hy].
  rewrite Ew, Er, Ez, Ey in *. rewrite (Ha w r y z); try done; try congruence. rewrite Z.sub_diag. reflexivity.
Qed.

Lemma agree_path st l s : Forall (fun x => skew x = 0) l -> l <> [] -> own_start (List.last l s) 0 = s_ts (List.last l s) -> ~ before_2020 (s_ts (List.last l s)) ->
  path_start st 0 l = s_ts (List.last l s).
Proof.
  intros H. revert st s. induction H as [|c l Hc _ IH]; intros st s Hne Ho Hb; [done|]. cbn [path_start]. rewrite Hc, Z.add_0_r. rewrite last_cons in *.
  destruct l as [|d l]; [|by apply IH]. cbn [path_start List.last] in *. rewrite decide_False by (by rewrite Ho). done.
Qed.

Lemma agree_path_own st l s : Forall (fun x => skew x = 0) l -> l <> [] -> ~ before_2020 (own_start (List.last l s) 0) -> path_start st 0 l = own_start (List.last l s) 0.
Proof.
  intros H. revert st s. induction H as [|c l Hc _ IH]; intros st s Hne Hb; [done|]. cbn [path_start]. rewrite Hc, Z.add_0_r. rewrite last_cons in *.
  destruct l as [|d l]; [|by apply IH]. cbn [path_start List.last] in *. by rewrite decide_False by done.
Qed.

Lemma agree_emission t a out s : clocks_agree (reports a) -> emission t (merged_spans t a) out -> s ∈ merged_spans t a -> int64_ok (s_ts s) -> settled s -> s ∈ out.
Proof.
  intros Ha (all & root & Hall & Hr & Hu & HF & H1 & H2) Hs Hts (Hb & Hd & Hf).
  assert (Hsk : forall x, x ∈ all -> skew x = 0).
  { intros x Hx. destruct Hall as [->|(f & Hi & Hp)]; [by apply (agree_skew t a)|]. rewrite Hp in Hx. apply elem_of_cons in Hx as [->|Hx]; [|by apply (agree_skew t a)].
    destruct Hi as ((? & ? & ? & -> & _) & _). unfold skew. rewrite decide_False; [done|]. intros (H & _). by apply H. }
  assert (Hsa : s ∈ all) by (destruct Hall as [->|(f & _ & ->)]; [done|by right]).
  apply elem_of_list_lookup in Hsa as [i Hi]. destruct (Forall2_lookup_l _ _ _ _ _ HF Hi) as (s' & Hs' & st & du & E).
  destruct (decide (s' = s)) as [->|Hne]; [by eapply elem_of_list_lookup_2|]. exfalso.
  assert (Hno : ~ connected all root s).
  { intros (q & Hq & El). apply Hne. rewrite <- El in Hi. rewrite (H1 q i Hq Hi) in Hs'. injection Hs' as <-. rewrite El in *.
    assert (Eo : own_start s 0 = s_ts s).
    { unfold own_start. rewrite Z.add_0_r. destruct (decide (four_timings s)) as [H4|]; [destruct (Hf H4) as [<- _]|]; by apply wrap64_id. }
    assert (Ed : own_duration s = s_dur s).
    { unfold own_duration. destruct (decide (four_timings s)) as [H4|]; [|done]. destruct (Hf H4) as [_ <-]. by apply wrap64_id. }
    assert (Es : corrected_start root q = s_ts s).
    { unfold corrected_start. rewrite (Hsk root) by (by destruct Hr). destruct q as [|c q]; [cbn [List.last] in El; subst root; done|].
      rewrite (agree_path _ (c :: q) root); rewrite ?El; try done. clear -Hq Hsk. revert root Hq. generalize (c :: q). induction l as [|x l IH]; intros p Hq; [constructor|].
      destruct Hq as [(Hx & _) Hq]. constructor; [by apply Hsk|by apply (IH x)]. }
    rewrite Ed, Es. by destruct s. }
  apply Hne. rewrite (H2 i s Hi Hno) in Hs'. by injection Hs'.
Qed.

Lemma agree_run evs l1 l2 t out : Forall valid_event evs -> (run evs).2 = l1 ++ LOut t (Emitted out) :: l2 -> clocks_agree (reports (pending l1 t)) ->
  forall s, s ∈ reports (pending l1 t) -> alone (reports (pending l1 t)) s -> settled s -> s ∈ out /\ forall o, o ∈ out -> s_id o = s_id s -> o = s.
Proof.
  intros Hv E Ha s Hs Hal Hse. destruct (emitted_is _ _ _ _ _ Hv E) as [_ He]. pose proof (run_prefix _ _ _ Hv E) as Hg. pose proof (pending_ok _ t Hg) as Hok.
  assert (Hi : int64_ok (s_ts s)).
  { unfold reports in Hs. apply elem_of_list_fmap in Hs as (x & -> & Hx). rewrite Forall_forall in Hok. by destruct (Hok x Hx). }
  assert (Ho : s ∈ out) by (apply (agree_emission t (pending l1 t)); try done; by apply alone_held).
  split; [done|]. intros o Hoo Eid.
  assert (Hn : NoDup (ids out)).
  { apply (emission_ids t (merged_spans t (pending l1 t)) out); [done|apply merged_NoDup|]. apply merged_forall; [eapply Forall_impl; [exact Hok|]; by intros x [Hx _]|].
    intros x new Hx _. by destruct (updated_keeps x new) as [-> _]. }
  apply elem_of_list_lookup in Ho as [i Ho], Hoo as [j Hoo]. assert (i = j) as ->; [|congruence].
  apply (NoDup_lookup _ _ _ (s_id s) Hn); unfold ids; rewrite list_lookup_fmap; [by rewrite Ho|rewrite Hoo; cbn; by rewrite Eid].
Qed.

(** Spans of two hosts. *)
Lemma shared_held t a c s x : orderly (reports a) -> two_halves c s -> c ∈ reports a -> s ∈ reports a -> x ∈ merged_spans t a -> s_id x = s_id c ->
  s_timings x = Timings (tCS (s_timings c)) (tCR (s_timings c)) (tSS (s_timings s)) (tSR (s_timings s)).
Proof.
  intros Ho H Hc Hs Hx Ex. pose proof (merged_held _ _ _ Hx) as Hh. rewrite held_merged, held_list, Ex in Hh.
  destruct (List.filter _ (reports a)) as [|y k] eqn:E; [done|]. injection Hh as Hh.
  destruct (reports_of_id _ _ _ _ Ho E) as [[A1 _]|(c' & s' & H' & Hc' & Hs' & _ & Hid & A)].
  - exfalso. assert (G : forall z, z ∈ reports a -> s_id z = s_id c -> z = y).
    { intros z Hz Ez. assert (Hzk : z ∈ y :: k) by (rewrite <- E; by apply in_filter). apply elem_of_cons in Hzk as [->|Hzk]; [done|]. rewrite Forall_forall in A1. by apply A1. }
    apply (halves_differ c s H). rewrite (G c), (G s); [done|done|by destruct H as (-> & _)|done|done].
  - destruct (both_unique _ c s c' s' Ho H H' Hc Hs Hc' Hs' (eq_sym Hid)) as [<- <-]. by rewrite <- Hh, A.
Qed.

Lemma agree_shared evs l1 l2 t out : Forall valid_event evs -> (run evs).2 = l1 ++ LOut t (Emitted out) :: l2 -> clocks_agree (reports (pending l1 t)) -> orderly (reports (pending l1 t)) ->
  forall c s, c ∈ reports (pending l1 t) -> s ∈ reports (pending l1 t) -> two_halves c s ->
  tCS (s_timings c) <> 0 -> tCR (s_timings c) <> 0 -> tSR (s_timings s) <> 0 -> tSS (s_timings s) <> 0 ->
  int64_ok (tCS (s_timings c)) -> int64_ok (tCR (s_timings c) - tCS (s_timings c)) -> ~ before_2020 (tCS (s_timings c)) ->
  forall o, o ∈ out -> s_id o = s_id c -> ~ circular out o ->
  s_ts o = tCS (s_timings c) /\ s_dur o = tCR (s_timings c) - tCS (s_timings c).
Proof.
  intros Hv E Ha Hord c s Hc Hs H N1 N2 N3 N4 I1 I2 Hb o Ho Eo Hnc.
  destruct (emitted_trace _ _ _ _ _ Hv E) as (_ & Hn & _). destruct (emitted_tree _ _ _ _ _ Hv E) as (r & Hone & Htree).
  destruct (Htree o Ho) as [[(q' & Hq' & El') _]|[Hci _]]; [|by destruct (Hnc Hci)].
  destruct (emitted_is _ _ _ _ _ Hv E) as [_ (all & root & Hall & Hr & Hu & HF & H1 & _)].
  assert (HF' : Forall2 same_ids all out) by (eapply Forall2_impl; [exact HF|]; intros a b (st & du & ->); by split).
  assert (HB : Forall2 same_ids out all) by (apply Forall2_flip; eapply Forall2_impl; [exact HF'|]; intros a b [? ?]; by split).
  assert (Hna : NoDup (ids all)) by (by rewrite <- (same_ids_ids _ _ HF')).
  destruct (one_root_transfer all out root Hna HF') as (r' & Hrr & Hr' & _); [done|]. rewrite (proj2 Hone _ Hr') in Hrr.
  destruct (descends_transfer out all r q' root HB Hq') as (q & Hq & HL); [by destruct Hrr; split|]. rewrite El' in HL.
  pose proof Ho as Ho'. apply elem_of_list_lookup in Ho' as [i Hi]. destruct (Forall2_lookup_r _ _ _ _ _ HF' Hi) as (a & Hai & Hao).
  assert (El : List.last q root = a).
  { apply (same_id all Hna); [apply descends_in; [by destruct Hr|done]|by eapply elem_of_list_lookup_2|]. destruct HL as [HL _], Hao as [Hao _]. congruence. }
  assert (Hsk : forall x, x ∈ all -> skew x = 0).
  { intros x Hx. destruct Hall as [->|(f & Hif & Hp)]; [by apply (agree_skew t (pending l1 t))|]. rewrite Hp in Hx. apply elem_of_cons in Hx as [->|Hx]; [|by apply (agree_skew t (pending l1 t))].
    destruct Hif as ((? & ? & ? & -> & _) & _). unfold skew. rewrite decide_False; [done|]. intros (X & _). by apply X. }
  assert (Eid : s_id a = s_id c) by (destruct Hao as [Hao _]; congruence).
  assert (Ham : a ∈ merged_spans t (pending l1 t)).
  { apply elem_of_list_lookup_2 in Hai. destruct Hall as [->|(f & Hif & Hp)]; [done|]. rewrite Hp in Hai. apply elem_of_cons in Hai as [->|Hai]; [|done].
    exfalso. destruct Hif as (_ & _ & _ & Hid & _). apply Hid. rewrite Eid. apply merged_report_ids. unfold ids. by apply elem_of_list_fmap_1. }
  pose proof (shared_held _ _ _ _ _ Hord H Hc Hs Ham Eid) as Et.
  assert (H4 : four_timings a) by (unfold four_timings; rewrite Et; done).
  rewrite <- El in Hai. rewrite (H1 q i Hq Hai), El in Hi. injection Hi as <-. cbn [retimed s_ts s_dur].
  assert (Eo' : own_start a 0 = tCS (s_timings c)) by (unfold own_start; rewrite decide_True by done; rewrite Z.add_0_r, Et; by apply wrap64_id).
  split; [|unfold own_duration; rewrite decide_True by done; rewrite Et; by apply wrap64_id].
  unfold corrected_start. rewrite (Hsk root) by (by destruct Hr).
  assert (Hfq : Forall (fun x => skew x = 0) q).
  { clear -Hq Hsk. revert root Hq. induction q as [|x l IH]; intros p Hq; [constructor|]. destruct Hq as [(Hx & _) Hq]. constructor; [by apply Hsk|by apply (IH x)]. }
  destruct q as [|d q]; [cbn [List.last] in El; by subst root|].
  rewrite <- Eo', <- El. apply agree_path_own; [done|done|]. by rewrite El, Eo'.
Qed.

Section Whole.
  Context {S : Type} (cfg : sysconfig) (conv : converter S) (s0 : S) (evs : list yevent) (st : ystate S) (t p : Z).
  Context (Hr : yreachable cfg conv s0 evs st) (Ht : t <> 0) (Hu : undisturbed t p st).
  Context (out : list span) (He : LOut t (Emitted out) ∈ y_log st) (Ha : clocks_agree (UnseenSpec.told t st)).
  Context (s : span) (Hs : s ∈ UnseenSpec.told t st) (Hal : alone (UnseenSpec.told t st) s) (Hse : settled s).

  Lemma agree_system : s ∈ out /\ forall o, o ∈ out -> s_id o = s_id s -> o = s.
  Proof.
    destruct (one_record t Ht _ _ _ _ _ _ _ Hr Hu He) as (v & l1 & l2 & Hv & E & _ & _ & _ & Hp & _).
    apply (agree_run v l1 l2 t out); rewrite ?Hp; done.
  Qed.
  Lemma agree_targets h r : positive_caps cfg -> ystopped cfg conv st -> works_as conv h -> (h s).2 = false -> s_id (h s).1 <> 0 -> s_trace (h s).1 <> 0 -> r ∈ p_readers (y_pipe st) ->
    exists trace, trace ∈ rd_log r /\ (h s).1 ∈ trace.
  Proof.
    intros Hp Hst Hw Hk Hk1 Hk2 Hrd. exists (kept h out). split; [by apply (got_it cfg conv s0 evs st t)|].
    unfold kept. apply elem_of_list_omap. exists s. split; [by apply agree_system|]. by rewrite decide_True by done.
  Qed.
End Whole.
