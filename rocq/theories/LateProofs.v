(** Proofs for C123. *)
From Verif Require Import Base IdModel SpanModel TreeModel TreeSpec TreeProofs RootProofs CorrectProofs FinishModel FinishSpec FinishProofs FinishRun FinishTheorems DecideSpec DecideProofs
  ForwardModel ForwardSpec PipelineModel PipelineSpec SystemModel SystemSpec SystemTheorems ConnectSpec ConnectProofs WholeSpec OrderSpec OrderProofs OrderRun UnseenSpec UnseenProofs AgreeSpec LateSpec.

Lemma late_merged t a : (forall x, x ∈ reports a -> alone (reports a) x) -> (forall x, x ∈ merged_spans t a <-> x ∈ reports a).
Proof.
  intros Ha x. split; intros Hx; [|apply alone_held; [done|by apply Ha]].
  assert (Hi : s_id x ∈ ids (reports a)) by (apply (merged_report_ids t); unfold ids; by apply elem_of_list_fmap_1).
  unfold ids in Hi. apply elem_of_list_fmap in Hi as (y & Ey & Hy). assert (x = y) as ->; [|done].
  apply (sorted_unique (merged_spans t a)); [apply merged_descending|done|by apply alone_held; [|apply Ha]|done].
Qed.

Lemma late_length t a : (length (merged_spans t a) <= length (reports a))%nat.
Proof.
  transitivity (length (ids (merged_spans t a))); [unfold ids; by rewrite map_length|]. transitivity (length (ids (reports a))); [|unfold ids; by rewrite map_length].
  apply submseteq_length, NoDup_submseteq; [apply merged_NoDup|]. intros i Hi. by apply merged_report_ids in Hi.
Qed.

Section Late.
  Context (evs : list event) (l1 l2 : list entry) (t : Z) (o : outcome).
  Context (Hv : Forall valid_event evs) (E : (run evs).2 = l1 ++ LOut t o :: l2).
  Notation R := (reports (pending l1 t)).
  Notation M := (merged_spans t (pending l1 t)).

  Lemma late_ts x : x ∈ R -> int64_ok (s_ts x).
  Proof.
    intros Hx. pose proof (run_prefix _ _ _ Hv E) as Hg. pose proof (pending_ok _ t Hg) as Hok. unfold reports in Hx. apply elem_of_list_fmap in Hx as (y & -> & Hy). rewrite Forall_forall in Hok. by destruct (Hok y Hy).
  Qed.

  Lemma late_alone s : s ∈ R -> (forall x, x ∈ R -> x = s) ->
    match o with Emitted out => exists x, out = [x] /\ by_itself s x | TooOld | Overload => True | _ => False end.
  Proof.
    intros Hs Hall. pose proof (run_prefix _ _ _ Hv E) as Hg. pose proof (run_entry _ _ _ _ Hv E) as (_ & n1 & n2 & load & _ & Ho). pose proof (late_ts s Hs) as Hts.
    assert (Ha : forall x, x ∈ R -> alone R x) by (intros x Hx y Hy _; by rewrite (Hall x Hx), (Hall y Hy)).
    assert (HM : M = [s]).
    { assert (Hm : forall x, x ∈ M <-> x = s) by (intros x; rewrite (late_merged t (pending l1 t)) by done; split; [apply Hall|by intros ->]).
      apply Permutation_singleton_r. apply NoDup_Permutation; [apply (NoDup_fmap_1 s_id), merged_NoDup|apply NoDup_singleton|]. intros x. by rewrite Hm, elem_of_list_singleton. }
    assert (Hc : counted t (pending l1 t) = 1) by (unfold counted; rewrite HM; reflexivity).
    assert (Hcand : root_candidate [s] s).
    { split; [left|]. cbn. destruct (decide (s_parent s = s_id s)); [by left|right]. by rewrite elem_of_list_singleton. }
    destruct o as [out| | | | |]; try done.
    - destruct Ho as [(all & root & Hal & Hr & Hu & HF & H1 & _) _]. rewrite HM in Hal.
      assert (all = [s]) as ->.
      { destruct Hal as [?|(f & (_ & _ & _ & _ & c & c' & [Hc1 _] & [Hc2 _] & Hne & _) & _)]; [done|]. exfalso. apply Hne. apply elem_of_list_singleton in Hc1, Hc2. congruence. }
      assert (root = s) as -> by (destruct Hr as [Hr _]; by apply elem_of_list_singleton in Hr).
      specialize (H1 [] 0%nat I eq_refl). cbn [List.last] in H1. destruct out as [|x out]; [done|]. apply Forall2_length in HF. destruct out as [|y out]; [|done].
      cbn in H1. injection H1 as ->. eexists. split; [done|]. eexists _, _. split; [done|]. unfold corrected_start, own_duration, own_start. cbn [path_start]. rewrite Z.add_0_r.
      split; intros H; [by rewrite !decide_True by done|rewrite !decide_False by done; split; [by apply wrap64_id|done]].
    - rewrite Hc in Ho. lia.
    - destruct Ho as (Hno & _). apply Hno. apply (emittable_exact l1 t Hg). rewrite HM. left. exists s. split; [done|]. intros r [Hr _]. by apply elem_of_list_singleton in Hr.
  Qed.

  Lemma late_siblings p x y : (forall z, z ∈ R -> alone R z /\ s_parent z = p /\ settled z) -> p ∉ ids R -> t ∉ ids R -> x ∈ R -> y ∈ R -> s_id x <> s_id y ->
    match o with
    | Emitted out => exists f, put_above t p R f /\ NoDup (ids out) /\ forall z, z ∈ out <-> z = f \/ z ∈ R
    | TooLarge => 8192 < Z.of_nat (length R)
    | TooOld | Overload => True | _ => False
    end.
  Proof.
    intros Hall Hp Ht Hx Hy Hxy. pose proof late_ts as Hts. pose proof (run_prefix _ _ _ Hv E) as Hg. pose proof (run_entry _ _ _ _ Hv E) as (_ & n1 & n2 & load & _ & Ho).
    assert (Hm : forall z, z ∈ M <-> z ∈ R) by (intros z; apply (late_merged t (pending l1 t)); intros w Hw; by apply Hall).
    assert (Hi : forall i, i ∈ ids M <-> i ∈ ids R) by (intros i; apply merged_report_ids).
    assert (Hcand : forall z, root_candidate M z <-> z ∈ R).
    { intros z. unfold root_candidate. rewrite Hm, Hi. split; [by intros [? _]|]. intros Hz. split; [done|]. right. by destruct (Hall z Hz) as (_ & -> & _). }
    assert (Hne : x <> y) by congruence.
    destruct o as [out| | | | |]; try done.
    - pose proof (emitted_trace _ _ _ _ _ Hv E) as (_ & Hn & _). destruct Ho as [(all & root & Hal & Hr & Hu & HF & H1 & _) _].
      destruct Hal as [->|(f & Hf & Hperm)]; [exfalso; apply Hne; rewrite (Hu x), (Hu y); [done|by apply Hcand|by apply Hcand]|].
      destruct (injected_is_root _ _ _ _ _ (merged_NoDup _ _) Hf Hperm Hr) as (Er & _ & _). subst root.
      pose proof Hf as ((first & lst & cs & F1 & F2 & F3) & _ & _ & F6 & c & c' & Hc1 & _ & _ & Hpar).
      assert (Efid : s_id f = p) by (rewrite <- (Hpar x) by (by apply Hcand); by destruct (Hall x Hx) as (_ & ? & _)).
      assert (Hh : hull R first lst).
      { destruct F2 as ((u & Hu1 & Hu2) & (w & Hw1 & Hw2) & F). split; [exists u; split; [|done]; by apply Hcand, F3|]. split; [exists w; split; [|done]; by apply Hcand, F3|].
        intros z Hz. apply F. by apply F3, Hcand. }
      assert (Hfirst : int64_ok first) by (destruct Hh as ((u & Hu1 & <-) & _); by apply Hts).
      assert (Hfull : ~ four_timings f) by (rewrite F1; intros (X & _); by apply X).
      assert (Hfo : f ∈ out).
      { assert (Hfa : f ∈ all) by (rewrite Hperm; left). apply elem_of_list_lookup in Hfa as [i Hfi]. specialize (H1 [] i I Hfi). cbn [List.last] in H1.
        assert (Ef : retimed f (corrected_start f []) (own_duration f) = f); [|rewrite Ef in H1; by eapply elem_of_list_lookup_2].
        unfold corrected_start, own_duration, own_start. cbn [path_start]. rewrite Z.add_0_r, !decide_False by done.
        assert (s_ts f = first) as -> by (by rewrite F1). rewrite wrap64_id by done. rewrite F1. done. }
      assert (Hzo : forall z, z ∈ R -> z ∈ out).
      { intros z Hz. destruct (Hall z Hz) as (_ & Hzp & Hb & Hd & H4). assert (Hza : z ∈ all) by (rewrite Hperm; right; by apply Hm).
        pose proof Hza as Hza'. apply elem_of_list_lookup in Hza' as [i Hzi]. assert (Hd1 : descends all f [z]).
        { split; [|done]. split; [done|]. split; [by rewrite Efid|]. intros X. apply Hp. rewrite <- Hzp, X. unfold ids. by apply elem_of_list_fmap_1. }
        specialize (H1 [z] i Hd1 Hzi). cbn [List.last] in H1. assert (Ez : retimed z (corrected_start f [z]) (own_duration z) = z); [|rewrite Ez in H1; by eapply elem_of_list_lookup_2].
        assert (Es : own_start z 0 = s_ts z).
        { unfold own_start. rewrite Z.add_0_r. destruct (decide (four_timings z)) as [X|]; [destruct (H4 X) as [<- _]|]; by apply wrap64_id, Hts. }
        assert (Ed : own_duration z = s_dur z) by (unfold own_duration; destruct (decide (four_timings z)) as [X|]; [destruct (H4 X) as [_ <-]; by apply wrap64_id|done]).
        assert (Hsk : skew f = 0) by (unfold skew; by rewrite decide_False by done). unfold corrected_start. cbn [path_start]. rewrite Hsk, Es, decide_False, Ed by done. by destruct z. }
      exists f. split; [exists first, lst; split; [by rewrite F1 at 1; rewrite Efid|done]|]. split; [done|]. intros z. split.
      + intros Hz. apply elem_of_list_lookup in Hz as [i Hz]. destruct (Forall2_lookup_r _ _ _ _ _ HF Hz) as (w & Hw & st & du & Ew).
        apply elem_of_list_lookup_2 in Hw, Hz. rewrite Hperm in Hw. apply elem_of_cons in Hw as [->|Hw].
        * left. apply (same_id out Hn); [done|done|by rewrite Ew].
        * right. apply Hm in Hw. assert (z = w) as ->; [|done]. apply (same_id out Hn); [done|by apply Hzo|by rewrite Ew].
      + intros [->|Hz]; [done|by apply Hzo].
    - unfold counted in Ho. pose proof (late_length t (pending l1 t)). pose proof (Z.mod_le (Z.of_nat (length M)) (2^16) ltac:(lia) ltac:(lia)). lia.
    - destruct Ho as (Hno & _). apply Hno. apply (emittable_exact l1 t Hg). right. split; [by rewrite Hi|]. split; [exists x, y; by rewrite !Hcand|].
      exists p. intros c Hc. apply Hcand in Hc. by destruct (Hall c Hc) as (_ & ? & _).
  Qed.
End Late.

Lemma late_targets {S} cfg (conv : converter S) s0 evs st t out l1 l2 s h r : yreachable cfg conv s0 evs st -> positive_caps cfg -> ystopped cfg conv st -> works_as conv h ->
  y_log st = l1 ++ LOut t (Emitted out) :: l2 -> s ∈ reports (pending l1 t) -> (forall x, x ∈ reports (pending l1 t) -> x = s) -> r ∈ p_readers (y_pipe st) ->
  exists x, by_itself s x /\ kept h [x] ∈ rd_log r.
Proof.
  intros Hr Hp Hst Hw E Hs Hall Hrd. destruct (system_record _ _ _ _ _ Hr) as (fevs & Hv & Er).
  assert (El : (run fevs).2 = l1 ++ LOut t (Emitted out) :: l2) by (by rewrite Er).
  destruct (late_alone fevs l1 l2 t (Emitted out) Hv El s Hs Hall) as (x & -> & Hx). exists x. split; [done|].
  apply (got_it cfg conv s0 evs st t); try done. rewrite E. apply elem_of_app. right. left.
Qed.
