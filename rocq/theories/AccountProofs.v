(** C95: the meters add up. *)
From Verif Require Import Base IdModel SpanModel TreeModel TreeSpec TreeProofs FinishModel FinishSpec FinishProofs FinishRun FinishTheorems FinishWitness
  MetricsModel MetricsSpec MetricsProofs MetricsTheorems AccountSpec.

Definition tally (f : list entry -> entry -> list Z) (log : list entry) : Z := addup (collect f log).
Lemma tally_snoc f log e : tally f (log ++ [e]) = tally f log + addup (f log e).
Proof. unfold tally. by rewrite collect_snoc, addup_app. Qed.

Definition len (t : Z) (a : list addition) : Z := Z.of_nat (length (merged_spans t a)).

Lemma len_snoc t a n0 n1 s : len t (a ++ [(n0, n1, s)]) = len t a + (if decide (s_id s ∈ map (fun x => s_id x.2) a) then 0 else 1).
Proof.
  unfold len. assert (Em : merged_spans t (a ++ [(n0, n1, s)]) = t_spans (add_span map_to_list n1 s (add_all map_to_list (adds a) (new_tree 0 t)))).
  { unfold merged_spans. rewrite map_app. cbn [map fst snd]. by rewrite add_all_snoc. }
  rewrite Em. clear Em. destruct (tree_contents map_to_list 0 t (adds a) map_order_list) as (T1 & _).
  change (merged_spans t a) with (t_spans (add_all map_to_list (adds a) (new_tree 0 t))).
  assert (Hids : forall i, i ∈ ids (t_spans (add_all map_to_list (adds a) (new_tree 0 t))) <-> i ∈ map (fun x => s_id x.2) a) by (intros i; apply (merged_ids t a)).
  destruct (add_span_cases map_to_list n1 s (add_all map_to_list (adds a) (new_tree 0 t)) map_order_list T1) as [(l1 & l2 & E1 & Hnot & E2 & _)|(l1 & y & l2 & E1 & Hid & E2 & _)];
    rewrite E2; cbn [t_spans].
  - rewrite decide_False by (by rewrite <- Hids). rewrite E1, !app_length. cbn. lia.
  - rewrite decide_True; [rewrite E1, !app_length; cbn; lia|]. apply Hids. rewrite E1. unfold ids. rewrite map_app. apply elem_of_app. right. cbn. rewrite Hid. left.
Qed.

Lemma sum_ext f g ts : (forall t, t ∈ ts -> f t = g t) -> sum f ts = sum g ts.
Proof. unfold sum. induction ts as [|t ts IH]; intros H; [done|]. cbn. rewrite IH by (intros u Hu; apply H; by right). rewrite H by left. done. Qed.

Lemma sum_change f g u ts : NoDup ts -> u ∈ ts -> (forall t, t <> u -> f t = g t) -> sum f ts = sum g ts + f u - g u.
Proof.
  intros Hn Hu H. induction ts as [|t ts IH]; [by apply elem_of_nil in Hu|]. apply NoDup_cons in Hn as [Ht Hn]. change (sum f (t :: ts)) with (f t + sum f ts). change (sum g (t :: ts)) with (g t + sum g ts).
  apply elem_of_cons in Hu as [<-|Hu].
  - rewrite (sum_ext f g ts); [lia|]. intros v Hv. apply H. by intros ->.
  - rewrite IH by done. rewrite (H t); [lia|]. by intros ->.
Qed.

Definition goes (before : list entry) (e : entry) : list Z := match e with LOut t _ => [len t (pending before t)] | _ => [] end.

Lemma pending_span log n0 n1 s t : pending (log ++ [LSpan n0 n1 s]) t =
  if decide (s_trace s = t /\ t <> 0 /\ s_id s <> 0 /\ (status log t).1 = false) then pending log t ++ [(n0, n1, s)] else pending log t.
Proof. unfold pending. rewrite status_snoc. destruct (status log t) as [b p]. cbn [track fst snd]. by destruct (decide (s_trace s = t /\ t <> 0 /\ s_id s <> 0 /\ b = false)). Qed.
Lemma pending_out log t o u : pending (log ++ [LOut t o]) u = if decide (t = u) then [] else pending log u.
Proof. unfold pending. rewrite status_snoc. destruct (status log u) as [b p]. cbn [track]. by destruct (decide (t = u)). Qed.
Lemma pending_rest log e t : match e with LSpan _ _ _ | LOut _ _ => False | _ => True end -> pending (log ++ [e]) t = pending log t.
Proof. intros H. unfold pending. rewrite status_snoc. destruct (status log t), e; cbn [track]; try done; by destruct (decide _). Qed.

(** Any measure of waiting additions: what comes is what goes and what stays. *)
Lemma balance (m : Z -> list addition -> Z) (come : list entry -> entry -> list Z) :
  (forall t, m t [] = 0) -> (forall log e, match e with LSpan _ _ _ => True | _ => come log e = [] end) ->
  (forall log n0 n1 s, addup (come log (LSpan n0 n1 s)) = m (s_trace s) (pending (log ++ [LSpan n0 n1 s]) (s_trace s)) - m (s_trace s) (pending log (s_trace s))) ->
  forall log ts, NoDup ts -> (forall t, pending log t <> [] -> t ∈ ts) ->
  tally come log = tally (fun before e => match e with LOut t _ => [m t (pending before t)] | _ => [] end) log + sum (fun t => m t (pending log t)) ts.
Proof.
  intros Hm0 Hc0 Hc. induction log as [|e log IH] using rev_ind; intros ts Hn Hts.
  { unfold tally. cbn. rewrite (sum_ext _ (fun _ => 0)) by (intros; apply Hm0). clear. unfold sum. induction ts; cbn in *; lia. }
  rewrite !tally_snoc. destruct e as [n0 n1 s|a b c|t o|t|].
  - rewrite Hc. rewrite (IH ts Hn).
    2: { intros t Ht. apply Hts. rewrite pending_span. destruct (decide _); [by destruct (pending log t)|done]. }
    change (addup []) with 0. destruct (decide (s_trace s ∈ ts)) as [Hin|Hin].
    + rewrite (sum_change (fun t => m t (pending (log ++ [LSpan n0 n1 s]) t)) (fun t => m t (pending log t)) (s_trace s) ts Hn Hin); [lia|].
      intros t Ht. rewrite pending_span, decide_False; [done|]. intros (? & _). congruence.
    + assert (E : pending (log ++ [LSpan n0 n1 s]) (s_trace s) = []) by (destruct (pending (log ++ [LSpan n0 n1 s]) (s_trace s)) eqn:E; [done|]; exfalso; apply Hin, Hts; by rewrite E).
      assert (E0 : pending log (s_trace s) = []) by (revert E; rewrite pending_span; destruct (decide _); [by destruct (pending log (s_trace s))|done]).
      rewrite E, E0. rewrite (sum_ext (fun t => m t (pending (log ++ [LSpan n0 n1 s]) t)) (fun t => m t (pending log t)) ts); [lia|].
      intros t Ht. rewrite pending_span, decide_False; [done|]. intros (? & _). congruence.
  - pose proof (Hc0 log (LTick a b c)) as E. cbn in E. rewrite E. rewrite (IH ts Hn) by (intros u Hu; apply Hts; by rewrite pending_rest). change (addup []) with 0.
    rewrite (sum_ext (fun u => m u (pending (log ++ [LTick a b c]) u)) (fun u => m u (pending log u)) ts); [lia|]. intros u _. by rewrite pending_rest.
  - pose proof (Hc0 log (LOut t o)) as E. cbn in E. rewrite E. change (addup []) with 0. change (addup [m t (pending log t)]) with (m t (pending log t) + 0).
    destruct (decide (t ∈ ts)) as [Hin|Hin].
    + rewrite (IH ts Hn).
      2: { intros u Hu. destruct (decide (t = u)) as [<-|]; [done|]. apply Hts. rewrite pending_out. by rewrite decide_False. }
      rewrite (sum_change (fun u => m u (pending (log ++ [LOut t o]) u)) (fun u => m u (pending log u)) t ts Hn Hin).
      2: { intros u Hu. by rewrite pending_out, decide_False. }
      rewrite pending_out, decide_True by done. rewrite Hm0. lia.
    + rewrite (IH (t :: ts)).
      2: { by apply NoDup_cons. }
      2: { intros u Hu. apply elem_of_cons. destruct (decide (t = u)) as [<-|]; [by left|]. right. apply Hts. rewrite pending_out. by rewrite decide_False. }
      rewrite (sum_ext (fun u => m u (pending (log ++ [LOut t o]) u)) (fun u => m u (pending log u)) ts).
      2: { intros u Hu. rewrite pending_out, decide_False; [done|]. by intros <-. }
      change (sum (fun t0 => m t0 (pending log t0)) (t :: ts)) with (m t (pending log t) + sum (fun t0 => m t0 (pending log t0)) ts). lia.
  - pose proof (Hc0 log (LEvict t)) as E. cbn in E. rewrite E. rewrite (IH ts Hn) by (intros u Hu; apply Hts; by rewrite pending_rest). change (addup []) with 0.
    rewrite (sum_ext (fun u => m u (pending (log ++ [LEvict t]) u)) (fun u => m u (pending log u)) ts); [lia|]. intros u _. by rewrite pending_rest.
  - pose proof (Hc0 log LClose) as E. cbn in E. rewrite E. rewrite (IH ts Hn) by (intros u Hu; apply Hts; by rewrite pending_rest). change (addup []) with 0.
    rewrite (sum_ext (fun u => m u (pending (log ++ [LClose]) u)) (fun u => m u (pending log u)) ts); [lia|]. intros u _. by rewrite pending_rest.
Qed.

(** Spans. *)
Lemma balance_spans log ts : NoDup ts -> (forall t, pending log t <> [] -> t ∈ ts) ->
  tally proper log = tally (counts MBlacklisted) log + tally (counts MMerged) log + tally goes log + sum (fun t => len t (pending log t)) ts.
Proof.
  intros Hn Hts. set (come := fun (before : list entry) (e : entry) => match e with LSpan _ _ s =>
    if decide (s_trace s <> 0 /\ s_id s <> 0 /\ (status before (s_trace s)).1 = false /\ s_id s ∉ pending_ids before (s_trace s)) then [1] else [] | _ => [] end).
  assert (H : tally come log = tally goes log + sum (fun t => len t (pending log t)) ts).
  { apply (balance len come); [done|by intros ? []| |done|done]. intros l n0 n1 s. rewrite pending_span. unfold come.
    destruct (decide (s_trace s = s_trace s /\ _)) as [(_ & H1 & H2 & H3)|H].
    - rewrite len_snoc. fold (pending_ids l (s_trace s)). destruct (decide (s_id s ∈ pending_ids l (s_trace s))); [rewrite decide_False by tauto|rewrite decide_True by tauto]; unfold addup; cbn [foldr]; lia.
    - rewrite decide_False by tauto. unfold addup. cbn. lia. }
  enough (E : tally proper log = tally (counts MBlacklisted) log + tally (counts MMerged) log + tally come log) by lia.
  clear. induction log as [|e log IH] using rev_ind; [done|]. rewrite !tally_snoc, IH. destruct e as [n0 n1 s| | | |]; try (unfold addup; cbn; lia).
  unfold proper, counts, come. destruct (decide (s_trace s <> 0 /\ s_id s <> 0)) as [[H1 H2]|H].
  - destruct ((status log (s_trace s)).1).
    + rewrite decide_True by done. rewrite !decide_False by (intros (_ & _ & ? & _); done). unfold addup. cbn. lia.
    + rewrite (decide_False (P := s_trace s <> 0 /\ s_id s <> 0 /\ false = true)) by (intros (_ & _ & ?); done).
      destruct (decide (s_id s ∈ pending_ids log (s_trace s))).
      * rewrite decide_True by done. rewrite decide_False by tauto. unfold addup. cbn. lia.
      * rewrite decide_False by tauto. rewrite decide_True by done. unfold addup. cbn. lia.
  - rewrite !decide_False by tauto. unfold addup. cbn. lia.
Qed.

(** Traces. *)
Lemma balance_traces log ts : waiting log ts -> good log ->
  tally opened log = tally left_ log + Z.of_nat (length ts).
Proof.
  intros [Hn Hts] Hg. set (m := fun (_ : Z) (a : list addition) => if a then 0 else 1).
  assert (H : tally opened log = tally (fun before e => match e with LOut t _ => [m t (pending before t)] | _ => [] end) log + sum (fun t => m t (pending log t)) ts).
  { apply balance; [done|by intros ? []| |done|by intros t; apply Hts]. intros l n0 n1 s. rewrite pending_span. unfold opened, m.
    destruct (decide (s_trace s = s_trace s /\ _)) as [(_ & H1 & H2 & H3)|H].
    - destruct (pending l (s_trace s)) as [|a p] eqn:Ep; cbn [app].
      + rewrite decide_True by done. done.
      + rewrite decide_False by (intros (_ & _ & _ & ?); done). done.
    - rewrite decide_False by tauto. unfold addup. cbn. lia. }
  rewrite H. f_equal.
  - revert Hg. clear. induction log as [|e log IH] using rev_ind; intros Hg; [done|]. rewrite !tally_snoc, IH.
    2: { intros l1 e' l2 ->. apply (Hg l1 e' (l2 ++ [e])). by rewrite <- app_assoc. }
    destruct e as [| |t o| |]; try done. destruct (Hg log (LOut t o) [] eq_refl) as [Hne _]. unfold m. cbn [left_]. by destruct (pending log t).
  - rewrite (sum_ext _ (fun _ => 1)).
    + clear. unfold sum. induction ts as [|t ts IH]; [done|]. cbn [foldr length]. lia.
    + intros t Ht. apply Hts in Ht. unfold m. by destruct (pending log t).
Qed.

Lemma countable_counted log t : countable log -> counted t (pending log t) = len t (pending log t).
Proof. intros H. unfold counted. specialize (H log [] t ltac:(by rewrite app_nil_r)). unfold len. rewrite Z.mod_small; lia. Qed.

Lemma countable_prefix log e : countable (log ++ [e]) -> countable log.
Proof. intros H l1 l2 t ->. apply (H l1 (l2 ++ [e])). by rewrite <- app_assoc. Qed.

Lemma goes_counted log : countable log -> tally goes log = addup (collect sizes log) + tally (counts MSpansLost) log.
Proof.
  induction log as [|e log IH] using rev_ind; intros H; [done|]. pose proof (countable_prefix _ _ H) as H'. specialize (IH H').
  rewrite !tally_snoc, collect_snoc, addup_app, IH. destruct e as [| |t o| |]; try (unfold addup; cbn; lia). cbn [goes].
  rewrite <- (countable_counted log t H'). destruct o; unfold addup; cbn; lia.
Qed.

Lemma spans_accounted evs ts : Forall valid_event evs -> let log := (run evs).2 in countable log -> waiting log ts ->
  addup (collect proper log) = marks MBlacklisted (run_ops evs) + marks MMerged (run_ops evs) + addup (size_updates (run_ops evs)) + marks MSpansLost (run_ops evs) +
    sum (fun t => counted t (pending log t)) ts.
Proof.
  intros Hv log Hc [Hn Hts]. rewrite !meters, histogram by done. fold log.
  pose proof (balance_spans log ts Hn (fun t => proj2 (Hts t))) as H. rewrite (goes_counted log Hc) in H. unfold tally in H.
  rewrite (sum_ext (fun t => counted t (pending log t)) (fun t => len t (pending log t))) by (intros t _; by apply countable_counted). lia.
Qed.

Lemma traces_accounted evs ts : Forall valid_event evs -> let log := (run evs).2 in waiting log ts ->
  addup (collect opened log) = marks MFinished (run_ops evs) + marks MNoRoot (run_ops evs) + marks MTooLarge (run_ops evs) + marks MTooOld (run_ops evs) + lost log + Z.of_nat (length ts).
Proof.
  intros Hv log Hw. rewrite !meters by done. fold log. pose proof (balance_traces log ts Hw (proj1 (run_inv evs Hv))) as H. unfold tally in H. rewrite H.
  assert (E : tally left_ log = tally (counts MFinished) log + tally (counts MNoRoot) log + tally (counts MTooLarge) log + tally (counts MTooOld) log + tally (counts MTracesLost) log).
  { pose proof (proj1 (run_inv evs Hv)) as Hg. fold log in Hg. clearbody log. revert Hg. clear. induction log as [|e log IH] using rev_ind; intros Hg; [done|]. rewrite !tally_snoc, IH.
    2: { intros l1 e' l2 ->. apply (Hg l1 e' (l2 ++ [e])). by rewrite <- app_assoc. }
    destruct e as [| |t o| |]; try destruct o; cbn [left_ counts]; unfold addup; cbn [foldr]; try lia. destruct (Hg log (LOut t Stuck) [] eq_refl) as (_ & ? & ? & ? & _ & []). }
  unfold tally in E. unfold lost. lia.
Qed.

(** The counter of 16 bits. *)
Lemma overflown : exists evs ts, Forall valid_event evs /\ let log := (run evs).2 in waiting log ts /\ 
  addup (collect proper log) = 2^16 + (marks MBlacklisted (run_ops evs) + marks MMerged (run_ops evs) + addup (size_updates (run_ops evs)) + marks MSpansLost (run_ops evs) +
    sum (fun t => counted t (pending log t)) ts).
Proof.
  assert (HN : exists N, Z.of_nat N = 2^16) by (exists (Z.to_nat (2^16)); lia). destruct HN as [N HN]. set (evs := crowd [1] N).
  destruct (crowd_run [1] N) as (st & log & E & Hno & _ & Hst); [apply NoDup_singleton|by intros ?%elem_of_list_singleton|].
  pose proof (crowd_valid [1] N) as Hv. fold evs in E, Hv. exists evs, [1]. split; [done|]. rewrite E. cbn [snd].
  assert (Hp : forall t, pending log t = if decide (t ∈ [1]) then map (fun s => (0, 0, s)) (leaves t N) else []) by (intros t; unfold pending; by rewrite Hst).
  assert (Hw : waiting log [1]).
  { split; [apply NoDup_singleton|]. intros t. rewrite Hp. split.
    - intros Ht. rewrite decide_True by done. apply leaves_times. lia.
    - by destruct (decide (t ∈ [1])). }
  split; [done|]. rewrite !meters, histogram by done. rewrite E. cbn [snd]. destruct Hw as [Hn Hts].
  pose proof (balance_spans log [1] Hn (fun t => proj2 (Hts t))) as H.
  assert (Hl : len 1 (pending log 1) = 2^16) by (rewrite Hp, decide_True by (by apply elem_of_list_singleton); unfold len; by rewrite leaves_length).
  assert (Hc : counted 1 (pending log 1) = 0) by (change (counted 1 (pending log 1)) with (len 1 (pending log 1) mod 2^16); by rewrite Hl).
  assert (H0 : tally goes log = 0 /\ addup (collect sizes log) = 0 /\ tally (counts MSpansLost) log = 0).
  { revert Hno. clear. induction log as [|e log IH] using rev_ind; intros Hno; [done|]. destruct IH as (A & B & C); [intros t o Ho; apply (Hno t o), elem_of_app; by left|].
    rewrite !tally_snoc, collect_snoc, addup_app, A, B, C. destruct e as [| |t o| |]; try done. exfalso. apply (Hno t o), elem_of_app. right. by apply elem_of_list_singleton. }
  destruct H0 as (A & B & C). unfold tally in *. unfold sum in *. cbn [foldr] in *. rewrite Hl in H. rewrite Hc, B, C. lia.
Qed.

(** Short records are countable. *)
Lemma len_le t a : len t a <= Z.of_nat (length a).
Proof.
  induction a as [|[[n0 n1] s] a IH] using rev_ind; [done|]. rewrite len_snoc, app_length. cbn [length]. destruct (decide _); lia.
Qed.
Lemma pending_le log t : (length (pending log t) <= length log)%nat.
Proof.
  induction log as [|e log IH] using rev_ind; [done|]. rewrite app_length. cbn [length]. destruct e as [n0 n1 s|a b c|u o|u|].
  - rewrite pending_span. destruct (decide _); [rewrite app_length; cbn [length]; lia|lia].
  - rewrite pending_rest by done. lia.
  - rewrite pending_out. destruct (decide _); cbn [length]; lia.
  - rewrite pending_rest by done. lia.
  - rewrite pending_rest by done. lia.
Qed.
Lemma countable_short log : Z.of_nat (length log) < 2^16 -> countable log.
Proof.
  intros H l1 l2 t ->. rewrite app_length in H. pose proof (len_le t (pending l1 t)) as H1. pose proof (pending_le l1 t) as H2. unfold len in H1. lia.
Qed.

(** The traces in the state are those that wait. *)
Lemma waiting_state evs st : Forall valid_event evs -> (run evs).1 = Some st -> waiting (run evs).2 (map_to_list (f_traces st)).*1.
Proof. intros Hv E. destruct (run_inv evs Hv) as [_ Hi]. rewrite E in Hi. by apply waiting_of. Qed.
