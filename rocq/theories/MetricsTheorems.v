(** C62: what a run reports. *)
From Verif Require Import Base SpanModel TreeModel TreeSpec TreeProofs FinishModel FinishSpec FinishProofs FinishRun FinishTheorems FinishWitness MetricsModel MetricsSpec MetricsProofs.

Lemma run_ops_fst evs : forall st ops, (foldl (fun acc e => ((step acc.1 e).1, acc.2 ++ step_ops acc.1 e)) (st, ops) evs).1 =
  (foldl (fun acc e => let '(st, log) := step acc.1 e in (st, acc.2 ++ log)) (st, []) evs).1.
Proof.
  assert (H : forall l l' st st', st = st' -> forall evs, (foldl (fun acc e => ((step acc.1 e).1, acc.2 ++ step_ops acc.1 e)) (st, l) evs).1 =
    (foldl (fun acc e => let '(st, log) := step acc.1 e in (st, acc.2 ++ log)) (st', l') evs).1); [|intros; by apply H].
  intros l l' st st' -> evs0. revert st' l l'. induction evs0 as [|e evs0 IH]; intros st l l'; [done|]. cbn [foldl fst snd]. destruct (step st e) as [st1 l1]. cbn [fst]. apply IH.
Qed.

Lemma run_ops_snoc evs e : run_ops (evs ++ [e]) = run_ops evs ++ step_ops (run evs).1 e.
Proof.
  unfold run_ops. rewrite foldl_app. cbn [foldl snd]. f_equal. f_equal. rewrite run_ops_fst. done.
Qed.

Lemma reported evs m : Forall valid_event evs -> m <> MTracesLost ->
  agree m (run evs).2 (run_ops evs) /\ collect sizes (run evs).2 = size_updates (run_ops evs).
Proof.
  intros Hv Hm. induction evs as [|e evs IH] using rev_ind; [done|]. apply Forall_app in Hv as [Hv He]. rewrite Forall_singleton in He.
  destruct (IH Hv) as [Ha Hs]. destruct (run_inv evs Hv) as [Hg Hi]. rewrite run_snoc, run_ops_snoc.
  destruct (run evs) as [[st|] log0]; cbn [fst snd] in *; [|cbn [step step_ops fst snd]; by rewrite !app_nil_r].
  destruct e as [ord n0 n1 s|k|]; cbn [step step_ops snd].
  - split; [apply agree_step; [done|]; by apply receive_ops_spec|]. rewrite collect_snoc, size_updates_app, receive_ops_sizes, Hs. done.
  - destruct (finish_ops_spec k st log0 m (run_ops evs) He Hi Hg Hm Ha Hs) as (st' & log & load & -> & A & B & _). done.
  - rewrite app_nil_r. unfold agree in *. rewrite !collect_snoc, addup_app, Hs. cbn [sizes]. rewrite app_nil_r. split; [|done]. rewrite Ha. destruct m; cbn; lia.
Qed.

Lemma meters evs m : Forall valid_event evs -> m <> MTracesLost -> marks m (run_ops evs) = addup (collect (counts m) (run evs).2).
Proof. intros Hv Hm. by apply reported. Qed.
Lemma histogram evs : Forall valid_event evs -> size_updates (run_ops evs) = collect sizes (run evs).2.
Proof. intros Hv. symmetry. by apply (reported evs MMerged). Qed.

Lemma gauge_values evs k st0 log0 ts ts' : Forall valid_event evs -> valid_tick k -> run evs = (Some st0, log0) ->
  let log := (run (evs ++ [ETick k])).2 in waiting log0 ts -> waiting log ts' ->
  gauges (run_ops (evs ++ [ETick k])) = Some (sum (fun t => small (counted t (pending log0 t))) ts, Z.of_nat (length ts') + (lost log - lost log0)).
Proof.
  intros Hv Hk E log Hw Hw'. destruct (run_inv evs Hv) as [Hg Hi]. destruct (reported evs MMerged Hv) as [Ha Hs]; [done|].
  assert (Hv' : Forall valid_event (evs ++ [ETick k])) by (apply Forall_app; split; [done|by apply Forall_singleton]).
  destruct (run_inv _ Hv') as [_ Hi']. unfold log in *. rewrite run_ops_snoc, run_snoc in *. rewrite E in *. cbn [fst snd step step_ops] in *.
  destruct (finish_ops_spec k st0 log0 MMerged (run_ops evs) Hk Hi Hg ltac:(done) Ha Hs) as (st' & log' & load & EF & _ & _ & Hl & G).
  rewrite EF in *. cbn [fst snd] in *. rewrite G. f_equal. f_equal.
  - rewrite Hl. apply (sum_waiting log0); [by apply waiting_of|done].
  - f_equal. f_equal. pose proof (waiting_of _ _ Hi') as [Hn1 Hw1]. destruct Hw' as [Hn2 Hw2].
    assert ((map_to_list (f_traces st')).*1 ≡ₚ ts') as HP by (apply NoDup_Permutation; [done|done|]; intros t; by rewrite Hw1, Hw2).
    rewrite <- HP, fmap_length. done.
Qed.

Lemma discarded_same evs : marks MTracesLost (run_ops evs) = marks MSpansLost (run_ops evs).
Proof.
  induction evs as [|e evs IH] using rev_ind; [done|]. rewrite run_ops_snoc, !marks_app, IH. f_equal.
  destruct (run evs).1 as [st|]; [|done]. destruct e as [ord n0 n1 s|k|]; cbn [step_ops]; [|apply finish_ops_lost|done].
  unfold receive_ops, add_ops. destruct (_ || _); [done|]. destruct (bool_decide _); [done|]. by destruct (get_span_ref _ _).
Qed.

(* ---------- the meter traces.discarded ---------- *)

Definition crowd (ts : list Z) (N : nat) : list event := concat (map (fun t => arrive (leaves t N)) ts).

Lemma crowd_valid ts N : Forall valid_event (crowd ts N).
Proof. unfold crowd. induction ts as [|t ts IH]; [constructor|]. cbn [map concat]. apply Forall_app. split; [apply arrive_valid|done]. Qed.

Lemma crowd_run ts N : NoDup ts -> 0 ∉ ts -> exists st log, run (crowd ts N) = (Some st, log) /\
  (forall t o, LOut t o ∉ log) /\ noticks log /\
  forall t, status log t = (false, if decide (t ∈ ts) then map (fun s => (0, 0, s)) (leaves t N) else []).
Proof.
  induction ts as [|t ts IH] using rev_ind; intros Hn H0.
  { exists initial, []. split; [done|]. split; [intros t o H; by apply elem_of_nil in H|]. split; [apply noticks_nil|]. done. }
  apply NoDup_app in Hn as (Hn & Hd & _). destruct IH as (st & log & E & Hno & Hnt & Hst); [done|intros H; apply H0, elem_of_app; by left|].
  unfold crowd in *. rewrite map_app, concat_app. cbn [map concat]. rewrite app_nil_r.
  destruct (run_arrive _ st (leaves t N) (f_equal fst E)) as [st' E']. rewrite E' , E. cbn [snd]. eexists _, _. split; [done|]. split; [|split].
  - intros u o [H|H]%elem_of_app; [by apply (Hno u o)|]. apply elem_of_list_fmap in H as (? & ? & _). done.
  - apply noticks_app; [done|]. intros a b c H. apply elem_of_list_fmap in H as (? & ? & _). done.
  - intros u. assert (Ht : t ∉ ts) by (intros H; apply (Hd t H), elem_of_list_here). destruct (decide (u = t)) as [->|Hu].
    + rewrite status_arrive.
      * rewrite decide_True by (apply elem_of_app; right; apply elem_of_list_here). unfold pending. rewrite Hst, decide_False by done. done.
      * intros ->. apply H0, elem_of_app. right. apply elem_of_list_here.
      * by rewrite Hst.
    + rewrite status_other by done. rewrite Hst. f_equal. destruct (decide (u ∈ ts)) as [Hin|Hin].
      * rewrite decide_True; [done|]. apply elem_of_app. by left.
      * rewrite decide_False; [done|]. rewrite elem_of_app, elem_of_list_singleton. tauto.
Qed.

Lemma pending_after log0 log t : (forall n0 n1 s, LSpan n0 n1 s ∉ log) -> pending (log0 ++ log) t = pending log0 t \/ pending (log0 ++ log) t = [].
Proof.
  induction log as [|x l' IH] using rev_ind; intros Hns; [left; by rewrite app_nil_r|].
  assert (IH' : pending (log0 ++ l') t = pending log0 t \/ pending (log0 ++ l') t = []) by (apply IH; intros n0 n1 s Hin; apply (Hns n0 n1 s), elem_of_app; by left).
  unfold pending in *. rewrite app_assoc, status_snoc. destruct (status (log0 ++ l') t) as [b p]. cbn [snd] in IH'.
  destruct x as [n0 n1 s|? ? ?|t' o|t'|]; cbn [track]; try done.
  - exfalso. apply (Hns n0 n1 s), elem_of_app. right. apply elem_of_list_here.
  - destruct (decide _); [by right|done].
  - by destruct (decide _).
Qed.

Lemma equal_losses log c : (forall l1 t l2, log = l1 ++ LOut t Overload :: l2 -> counted t (pending l1 t) = c) ->
  addup (collect (counts MSpansLost) log) = c * lost log.
Proof.
  unfold lost. induction log as [|e log IH] using rev_ind; intros H; [cbn; lia|]. rewrite !collect_snoc, !addup_app, IH.
  - destruct e as [? ? ?|? ? ?|t o|?|]; cbn [counts]; try (unfold addup; cbn; lia). destruct o; cbn [counts]; try (unfold addup; cbn; lia).
    rewrite (H log t [] eq_refl). unfold addup. cbn [foldr]. lia.
  - intros l1 t l2 ->. apply (H l1 t (l2 ++ [e])). by rewrite <- app_assoc.
Qed.

Lemma no_losses log : (forall t, LOut t Overload ∉ log) -> lost log = 0.
Proof.
  unfold lost. induction log as [|e log IH] using rev_ind; intros H; [done|]. rewrite collect_snoc, addup_app, IH.
  - destruct e as [? ? ?|? ? ?|t o|?|]; try done. destruct o; try done. exfalso. apply (H t), elem_of_app. right. apply elem_of_list_here.
  - intros t Ht. apply (H t), elem_of_app. by left.
Qed.
Lemma some_loss log t : LOut t Overload ∈ log -> 0 < lost log.
Proof.
  assert (Hn : forall log, 0 <= lost log).
  { unfold lost. clear. intros log. induction log as [|e log IH] using rev_ind; [done|]. rewrite collect_snoc, addup_app. destruct e as [? ? ?|? ? ?|t' o|?|]; cbn [counts]; try (unfold addup in *; cbn [foldr]; lia). destruct o; unfold addup in *; cbn [counts foldr]; lia. }
  induction log as [|e log IH] using rev_ind; intros H; [by apply elem_of_nil in H|]. unfold lost in *. rewrite collect_snoc, addup_app.
  apply elem_of_app in H as [H|H%elem_of_list_singleton].
  - specialize (IH H). destruct e as [? ? ?|? ? ?|t' o|?|]; cbn [counts]; try (unfold addup in *; cbn [foldr]; lia). destruct o; unfold addup in *; cbn [counts foldr]; lia.
  - subst e. specialize (Hn log). unfold addup in *. cbn [counts foldr]. lia.
Qed.

Lemma size_exists : exists N, Z.of_nat N = 8192.
Proof. exists (Z.to_nat 8192). lia. Qed.

Lemma discarded_wrong : exists evs, Forall valid_event evs /\ 0 < lost (run evs).2 /\ marks MTracesLost (run_ops evs) = 8192 * lost (run evs).2.
Proof.
  destruct size_exists as [N HN]. set (ts := map Z.of_nat (seq 1 13)).
  assert (Hnd : NoDup ts) by (eapply bool_decide_unpack; vm_compute; exact I). assert (H0 : 0 ∉ ts) by (eapply bool_decide_unpack; vm_compute; exact I).
  destruct (crowd_run ts N Hnd H0) as (st0 & log0 & E & Hno & Hnt & Hst). pose proof (crowd_valid ts N) as Hv. set (evs := crowd ts N) in *.
  assert (Hp : forall t, pending log0 t = if decide (t ∈ ts) then map (fun s => (0, 0, s)) (leaves t N) else []) by (intros t; unfold pending; by rewrite Hst).
  assert (Hc : forall t, t ∈ ts -> counted t (pending log0 t) = 8192).
  { intros t Ht. rewrite Hp, decide_True by done. unfold counted. rewrite leaves_length, HN. done. }
  assert (Hpos : (0 < N)%nat) by lia.
  assert (Hw : waiting log0 ts).
  { split; [done|]. intros t. rewrite Hp. split.
    - intros Ht. rewrite decide_True by done. by apply leaves_times.
    - destruct (decide (t ∈ ts)); done. }
  set (k := plain_tick 0). pose proof (plain_valid 0 : valid_tick k) as Hk.
  assert (Hv' : Forall valid_event (evs ++ [ETick k])) by (apply Forall_app; split; [done|by apply Forall_singleton]).
  destruct (tick_step _ _ _ _ Hv Hk E) as (Hi & Hg & st1 & log1 & EF & ER).
  pose proof (finish_no_spans k st0 log0 st1 log1 Hk Hi Hg EF) as Hns.
  destruct (finish_traces_spec _ st0 log0 Hk Hi Hg) as (st' & log' & load & EF' & Hi' & Hg' & Hld & (x & y & Hlog & Hx) & _).
  rewrite EF in EF'. injection EF' as <- <-.
  exists (evs ++ [ETick k]). split; [done|]. rewrite discarded_same, meters by done. rewrite ER. cbn [snd].
  assert (Hone : forall l1 t o l2, log0 ++ log1 = l1 ++ LOut t o :: l2 -> t ∈ ts /\ pending l1 t = pending log0 t).
  { intros l1 t o l2 El. assert (Hsub : exists l, l1 = log0 ++ l /\ forall n0 n1 s, LSpan n0 n1 s ∉ l).
    { apply app_eq_inv in El as [(l & Ea & Eb)|(l & Ea & Eb)].
      - destruct l as [|a l].
        + exists []. rewrite !app_nil_r in *. split; [done|]. intros n0 n1 s H. by apply elem_of_nil in H.
        + exfalso. injection Eb as <- Eb. apply (Hno t o). rewrite Ea. apply elem_of_app. right. apply elem_of_list_here.
      - exists l. split; [done|]. intros n0 n1 s H. apply (Hns n0 n1 s). rewrite Eb. apply elem_of_app. by left. }
    destruct Hsub as (l & -> & Hnl). destruct (Hg' _ _ _ El) as [Hne _]. destruct (pending_after log0 l t Hnl) as [Hpl|Hpl]; [|done].
    split; [|done]. apply Hw. by rewrite <- Hpl. }
  split.
  - destruct (decide (Exists (fun t => pending (log0 ++ log1) t = []) ts)) as [Hex|Hex].
    + apply Exists_exists in Hex as (t & Ht & Hgone). destruct (first_out log0 t log1) as (l1 & o & l2 & Elog & Epend); [by apply Hw|done|done|].
      assert (Eall : log0 ++ log1 = (log0 ++ l1) ++ LOut t o :: l2) by (by rewrite Elog, <- app_assoc).
      destruct (Hg' _ _ _ Eall) as (_ & n1 & n2 & load' & Hlt & Hok). rewrite Epend in Hok.
      assert (Htick : n1 = 0 /\ n2 = 0 /\ load' = load).
      { destruct Hlt as (b1 & b2 & Eb & _). rewrite Hlog in Elog.
        assert (Hin : LTick n1 n2 load' ∈ log0 ++ l1) by (rewrite Eb; apply elem_of_app; right; apply elem_of_list_here).
        apply elem_of_app in Hin as [Hin|Hin]; [by apply Hnt in Hin|].
        assert (Hin' : LTick n1 n2 load' ∈ l1 ++ LOut t o :: l2) by (apply elem_of_app; by left). rewrite <- Elog in Hin'. apply elem_of_cons in Hin' as [Hin'|Hin'].
        - by injection Hin' as -> -> ->.
        - exfalso. revert Hin'. apply noticks_app; [apply verdicts_noticks|]. apply noticks_app; [apply overloads_noticks|apply evicts_noticks]. }
      destruct Htick as (-> & -> & ->). assert (Hl0 : 0 <= load).
      { rewrite Hld. generalize (map_to_list (f_traces st0)).*1. intros us. unfold sum. induction us as [|u us IHu]; cbn [foldr]; [done|].
        pose proof (counted_nonneg u (pending log0 u)). assert (0 <= small (counted u (pending log0 u))) by (unfold small; destruct (decide _); lia). lia. }
      assert (Hpat : 0 < patience load) by (unfold patience, seconds; repeat (destruct (decide _)); lia).
      rewrite (Hc t Ht) in Hok. rewrite (Hp t), decide_True in Hok by done. destruct (leaves_times t N Hpos) as (L1 & L2 & _). rewrite L1, L2 in Hok.
      destruct o; try (exfalso; destruct_and?; (done || lia)).
      apply (some_loss _ t). rewrite Elog, !elem_of_app. right. right. apply elem_of_list_here.
    + exfalso. assert (Hsame : forall t, t ∈ ts -> pending (log0 ++ log1) t = pending log0 t).
      { intros t Ht. destruct (pending_after log0 log1 t Hns) as [H|H]; [done|]. exfalso. apply Hex, Exists_exists. eauto. }
      assert (Hw' : waiting (log0 ++ log1) ts).
      { split; [done|]. intros t. split; [intros Ht; rewrite Hsame by done; by apply Hw|].
        intros H. apply Hw. destruct (pending_after log0 log1 t Hns) as [Hpl|Hpl]; [by rewrite <- Hpl|done]. }
      pose proof (inflight_bound evs k st0 log0 ts Hv Hk E) as Hb. cbv zeta in Hb. rewrite ER in Hb. cbn [snd] in Hb. specialize (Hb Hw').
      assert (Hsum : sum (fun t => counted t (pending (log0 ++ log1) t)) ts = Z.of_nat (length ts) * 8192).
      { assert (Hin : forall t, t ∈ ts -> counted t (pending (log0 ++ log1) t) = 8192) by (intros t Ht; rewrite Hsame by done; by apply Hc).
        revert Hin. generalize (log0 ++ log1). intros l. generalize ts. intros us. induction us as [|t us IH]; intros Hin; [done|].
        cbn [sum foldr length]. unfold sum in IH. rewrite IH by (intros u Hu; apply Hin; by apply elem_of_list_further). rewrite Hin by apply elem_of_list_here. lia. }
      rewrite Hsum in Hb. change (Z.of_nat (length ts)) with 13 in Hb. lia.
  - apply equal_losses. intros l1 t l2 El. destruct (Hone _ _ _ _ El) as [Ht ->]. by apply Hc.
Qed.
