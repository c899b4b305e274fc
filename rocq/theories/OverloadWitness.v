(** A run in which traces are discarded because there are too many spans (an instance for C42). *)
From Coq Require Import Sorted.
From Verif Require Import Base IdModel SpanModel TreeModel TreeSpec TreeProofs FinishModel FinishSpec FinishProofs FinishRun FinishTheorems FinishWitness.

Definition crowd (n : nat) (ts : list Z) : list event := concat (map (fun t => arrive (leaves t n)) ts).
Definition crowd_log (n : nat) (ts : list Z) : list entry := concat (map (fun t => map (LSpan 0 0) (leaves t n)) ts).

Lemma crowd_valid n ts : Forall valid_event (crowd n ts).
Proof. unfold crowd. apply Forall_concat, Forall_map, Forall_forall. intros t _. apply arrive_valid. Qed.

Lemma run_crowd n ts : exists st, run (crowd n ts) = (Some st, crowd_log n ts).
Proof.
  induction ts as [|t ts [st IH]] using rev_ind; [by exists initial|].
  destruct (run_arrive (crowd n ts) st (leaves t n)) as [st' E]; [by rewrite IH|]. exists st'.
  unfold crowd, crowd_log. rewrite !map_app, !concat_app. cbn [map concat]. rewrite !app_nil_r. fold (crowd n ts) (crowd_log n ts). rewrite E, IH. done.
Qed.

Lemma crowd_status n ts t : NoDup ts -> 0 ∉ ts ->
  status (crowd_log n ts) t = (false, if decide (t ∈ ts) then map (fun s => (0, 0, s)) (leaves t n) else []).
Proof.
  induction ts as [|u ts IH] using rev_ind; intros Hn H0; [done|]. apply NoDup_app in Hn as (Hn & Hd & _). rewrite elem_of_app, elem_of_list_singleton in H0.
  specialize (IH Hn ltac:(tauto)). unfold crowd_log in *. rewrite map_app, concat_app. cbn [map concat]. rewrite app_nil_r.
  destruct (decide (u = t)) as [->|Hne].
  - rewrite status_arrive; [|intros ->; apply H0; by right|by rewrite IH]. unfold pending. rewrite IH. cbn [snd].
    rewrite (decide_False (P := t ∈ ts)); [|intros Hin; apply (Hd _ Hin); apply elem_of_list_here]. rewrite decide_True; [done|]. apply elem_of_app. right. apply elem_of_list_here.
  - rewrite status_other by done. rewrite IH. f_equal. destruct (decide (t ∈ ts)) as [H|H].
    + rewrite decide_True; [done|]. apply elem_of_app. by left.
    + rewrite decide_False; [done|]. rewrite elem_of_app, elem_of_list_singleton. intros [?|?]; [done|]. by subst.
Qed.

Lemma same_or_gone l0 l t : (forall n0 n1 s, LSpan n0 n1 s ∉ l) -> pending (l0 ++ l) t = pending l0 t \/ pending (l0 ++ l) t = [].
Proof.
  induction l as [|x l IH] using rev_ind; intros Hns; [left; by rewrite app_nil_r|].
  assert (IH' : pending (l0 ++ l) t = pending l0 t \/ pending (l0 ++ l) t = []) by (apply IH; intros n0 n1 s Hin; apply (Hns n0 n1 s), elem_of_app; by left).
  unfold pending in *. rewrite app_assoc, status_snoc. destruct (status (l0 ++ l) t) as [b p]. cbn [snd] in IH'.
  destruct x as [n0 n1 s|? ? ?|t' o|t'|]; cbn [track]; try done.
  - exfalso. apply (Hns n0 n1 s), elem_of_app. right. apply elem_of_list_here.
  - destruct (decide _); [by right|done].
  - by destruct (decide _).
Qed.

Definition crowd_ids : list Z := [1; 2; 3; 4; 5; 6; 7; 8; 9; 10; 11; 12; 13].

(** 13 traces with 8000 spans each; a check right after. *)
Lemma overload_happens : exists evs k st0 log0 a t b, Forall valid_event evs /\ valid_tick k /\ run evs = (Some st0, log0) /\
  (run (evs ++ [ETick k])).2 = log0 ++ a ++ LOut t Overload :: b.
Proof.
  assert (exists N, Z.of_nat N = 8000) as [N HN] by (exists (Z.to_nat 8000); lia).
  set (log0 := crowd_log N crowd_ids). set (k := plain_tick 0). destruct (run_crowd N crowd_ids) as [st0 E]. fold log0 in E.
  pose proof (crowd_valid N crowd_ids) as Hv. pose proof (plain_valid 0 : valid_tick k) as Hk.
  assert (Hnd : NoDup crowd_ids) by (unfold crowd_ids; apply (bool_decide_unpack _); vm_compute; exact I).
  assert (Hz : 0 ∉ crowd_ids) by (unfold crowd_ids; apply (bool_decide_unpack _); vm_compute; exact I).
  assert (HP : forall t, pending log0 t = if decide (t ∈ crowd_ids) then map (fun s => (0, 0, s)) (leaves t N) else []).
  { intros t. unfold pending, log0. by rewrite crowd_status. }
  assert (HPin : forall t, t ∈ crowd_ids -> pending log0 t = map (fun s => (0, 0, s)) (leaves t N)) by (intros t Ht; rewrite HP; by rewrite decide_True).
  assert (HN0 : (0 < N)%nat) by lia.
  assert (Hcount : forall t, t ∈ crowd_ids -> counted t (pending log0 t) = 8000).
  { intros t Ht. rewrite HPin by done. unfold counted. by rewrite leaves_length, HN. }
  assert (Hne : forall t, t ∈ crowd_ids -> pending log0 t <> []) by (intros t Ht; rewrite HPin by done; by apply leaves_times).
  assert (Hw0 : waiting log0 crowd_ids).
  { split; [done|]. intros t. split; [apply Hne|]. intros H. rewrite HP in H. by destruct (decide _). }
  destruct (tick_step _ _ _ _ Hv Hk E) as (Hi & Hg & st1 & log1 & EF & ER).
  pose proof (finish_no_spans k st0 log0 st1 log1 Hk Hi Hg EF) as Hns.
  destruct (decide (Exists (fun t => pending (log0 ++ log1) t = []) crowd_ids)) as [Hex|Hno].
  - apply Exists_exists in Hex as (t & Ht & Hp). destruct (first_out log0 t log1) as (l1 & o & l2 & Elog & Epend); [by apply Hne|done|done|].
    assert (Hv' : Forall valid_event (crowd N crowd_ids ++ [ETick k])) by (apply Forall_app; split; [done|by apply Forall_singleton]).
    assert (Eall : (run (crowd N crowd_ids ++ [ETick k])).2 = (log0 ++ l1) ++ LOut t o :: l2) by (rewrite ER; cbn [snd]; by rewrite Elog, <- app_assoc).
    pose proof (outcome_reason _ _ _ _ _ Hv' Eall) as (_ & n1 & n2 & load & Hlt & Hok). rewrite Epend, (Hcount t Ht), (HPin t Ht) in Hok.
    assert (Hn : n1 = 0 /\ n2 = 0 /\ load = 104000).
    { destruct Hlt as (b1 & b2 & Eb & _). assert (Hin : LTick n1 n2 load ∈ log0 ++ l1) by (rewrite Eb; apply elem_of_app; right; apply elem_of_list_here).
      apply elem_of_app in Hin as [Hin|Hin].
      - unfold log0, crowd_log in Hin. apply elem_of_list_In, in_concat in Hin as (x & Hx & Hin). apply in_map_iff in Hx as (u & <- & _). apply in_map_iff in Hin as (? & ? & _). done.
      - destruct (finish_traces_spec k st0 log0 Hk Hi Hg) as (st' & log' & load' & EF' & _ & _ & Hld & (x & y & Hlog & _) & _). rewrite EF in EF'. injection EF' as <- <-.
        rewrite (sum_waiting log0 _ _ crowd_ids (waiting_of _ _ Hi) Hw0) in Hld.
        assert (Hin' : LTick n1 n2 load ∈ l1 ++ LOut t o :: l2) by (apply elem_of_app; by left). rewrite <- Elog, Hlog in Hin'. apply elem_of_cons in Hin' as [Hin'|Hin'].
        + injection Hin' as -> -> ->. split; [done|]. split; [done|]. rewrite Hld.
          assert (Hall : forall ts, (forall t, t ∈ ts -> t ∈ crowd_ids) -> sum (fun t => small (counted t (pending log0 t))) ts = 8000 * Z.of_nat (length ts)).
          { clear -Hcount. induction ts as [|u ts IH]; intros Hts; [done|]. cbn [sum foldr length]. unfold sum in IH. rewrite IH by (intros t Ht; apply Hts; by right).
            rewrite Hcount by (apply Hts; by left). change (small 8000) with 8000. lia. }
          by rewrite Hall.
        + exfalso. revert Hin'. apply noticks_app; [apply verdicts_noticks|]. apply noticks_app; [apply overloads_noticks|apply evicts_noticks]. }
    destruct Hn as (-> & -> & ->). destruct (leaves_times t N HN0) as (L1 & L2 & _). rewrite L1, ?L2 in Hok. change (patience 104000) with 2000000000 in Hok.
    exists (crowd N crowd_ids), k, st0, log0, l1, t, l2. split; [done|]. split; [done|]. split; [done|].
    assert (o = Overload) as -> by (destruct o; [lia..|done|done]). rewrite Eall. by rewrite <- app_assoc.
  - exfalso. apply not_Exists_Forall in Hno; [|intros x; apply _]. rewrite Forall_forall in Hno.
    assert (Hsame : forall t, t ∈ crowd_ids -> pending (log0 ++ log1) t = pending log0 t) by (intros t Ht; destruct (same_or_gone log0 log1 t Hns) as [->|H]; [done|by apply Hno in H]).
    assert (Hw : waiting (run (crowd N crowd_ids ++ [ETick k])).2 crowd_ids).
    { rewrite ER. cbn [snd]. split; [done|]. intros t. split; [intros Ht; rewrite Hsame by done; by apply Hne|]. intros Hp.
      destruct (decide (t ∈ crowd_ids)) as [|Ht]; [done|]. exfalso. apply Hp. destruct (same_or_gone log0 log1 t Hns) as [->| ->]; [|done]. by rewrite HP, decide_False. }
    pose proof (inflight_bound _ k _ _ _ Hv Hk E Hw) as Hb. rewrite ER in Hb. cbn [snd] in Hb.
    assert (Hall : forall ts, (forall t, t ∈ ts -> t ∈ crowd_ids) -> sum (fun t => counted t (pending (log0 ++ log1) t)) ts = 8000 * Z.of_nat (length ts)).
    { induction ts as [|u ts IH]; intros Hts; [done|]. cbn [sum foldr length]. unfold sum in IH. rewrite IH by (intros t Ht; apply Hts; by right).
      rewrite Hsame, Hcount by (apply Hts; by left). lia. }
    rewrite Hall in Hb by done. cbn in Hb. lia.
Qed.
