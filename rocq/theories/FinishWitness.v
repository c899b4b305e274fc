(** Counterexamples for C41, C43, C44. *)
From Coq Require Import Sorted.
From stdpp Require Import sorting.
From Verif Require Import Base IdModel SpanModel TreeModel TreeSpec TreeProofs CorrectProofs RootProofs FinishModel FinishSpec FinishProofs FinishRun FinishTheorems.

(* ---------- a run-time system ---------- *)

Definition larger (p q : Z * tree) : Prop := t_count q.2 <= t_count p.2.
Global Instance larger_dec p q : Decision (larger p q).
Proof. unfold larger. apply _. Defined.
Global Instance larger_trans : Transitive larger.
Proof. intros p q r. unfold larger. lia. Qed.
Global Instance larger_total : Total larger.
Proof. intros p q. unfold larger. lia. Qed.
Definition plain_tick (now : Z) : tick :=
  Tick now now (fun _ => now) map_to_list (fun _ m => map_to_list m) elements (merge_sort larger).

Lemma plain_valid now : valid_tick (plain_tick now).
Proof.
  split; [apply map_order_list|]. split; [done|]. split; [done|]. intros l. split; [apply merge_sort_Permutation|].
  apply (StronglySorted_merge_sort larger).
Qed.

(* ---------- many spans ---------- *)

Definition leaf (t i : Z) : span := Span i 1 t [] [] 0 0 ∅ (Timings 0 0 0 0).
Definition leaves (t : Z) (n : nat) : list span := map (fun i => leaf t (Z.of_nat i + 1)) (seq 0 n).
Definition arrive (l : list span) : list event := map (ESpan map_to_list 0 0) l.

Lemma arrive_valid t n : Forall valid_event (arrive (leaves t n)).
Proof.
  unfold arrive, leaves. rewrite map_map, Forall_map. apply Forall_forall. intros i _. cbn. split; [apply map_order_list|]. unfold int64_ok. p2. lia.
Qed.

Lemma run_arrive evs st l : (run evs).1 = Some st -> exists st', run (evs ++ arrive l) = (Some st', (run evs).2 ++ map (LSpan 0 0) l).
Proof.
  induction l as [|s l IH] using rev_ind; intros E.
  - exists st. unfold arrive. cbn [map]. rewrite !app_nil_r, <- E. by destruct (run evs).
  - destruct (IH E) as [st' E']. unfold arrive. rewrite map_app. cbn [map]. rewrite app_assoc, run_snoc. fold (arrive l). rewrite E'. cbn [fst snd step].
    eexists. rewrite map_app. by rewrite <- app_assoc.
Qed.

Lemma status_arrive log t n : t <> 0 -> (status log t).1 = false ->
  status (log ++ map (LSpan 0 0) (leaves t n)) t = (false, pending log t ++ map (fun s => (0, 0, s)) (leaves t n)).
Proof.
  intros Ht Hb. unfold leaves. induction n as [|n IH].
  - cbn [seq map]. rewrite !app_nil_r. unfold pending. rewrite <- Hb. by destruct (status log t).
  - rewrite seq_S, !map_app, app_assoc. cbn [map]. rewrite status_snoc, IH. cbn [track]. rewrite decide_True.
    + by rewrite <- app_assoc.
    + cbn. split; [done|]. split; [done|]. split; [lia|done].
Qed.

Lemma status_other log t t' n : t' <> t -> status (log ++ map (LSpan 0 0) (leaves t' n)) t = status log t.
Proof.
  intros Ht. unfold leaves. induction n as [|n IH].
  - cbn [seq map]. by rewrite app_nil_r.
  - rewrite seq_S, !map_app, app_assoc. cbn [map]. rewrite status_snoc, IH. destruct (status log t). cbn [track]. rewrite decide_False; [done|]. intros (? & _). done.
Qed.

Lemma leaves_ids t n : map s_id (leaves t n) = map (fun i => Z.of_nat i + 1) (seq 0 n).
Proof. unfold leaves. by rewrite map_map. Qed.

Lemma merged_length t l : NoDup (map s_id l) -> length (merged_spans t (map (fun s => (0, 0, s)) l)) = length l.
Proof.
  intros Hn. rewrite <- (map_length s_id l), <- (map_length s_id (merged_spans _ _)). apply Permutation_length.
  apply NoDup_Permutation; [apply merged_NoDup|done|]. intros id. rewrite (merged_ids t). by rewrite map_map.
Qed.

Lemma leaves_length t n : length (merged_spans t (map (fun s => (0, 0, s)) (leaves t n))) = n.
Proof.
  rewrite merged_length.
  - unfold leaves. by rewrite map_length, seq_length.
  - rewrite leaves_ids. apply NoDup_fmap_2_strong; [|apply NoDup_seq]. intros i j _ _ H. lia.
Qed.

Lemma leaves_parent t n : Forall (fun s => s_parent s = 1) (merged_spans t (map (fun s => (0, 0, s)) (leaves t n))).
Proof.
  apply merged_forall.
  - unfold leaves. rewrite map_map, Forall_map. apply Forall_forall. done.
  - intros s new Hs Hnew. unfold updated_span. destruct (Z.eqb_spec (s_parent s) 0); [lia|]. unfold merged. by destruct (decide _).
Qed.

Lemma N_exists : exists N, Z.of_nat N = 65537.
Proof. exists (Z.to_nat 65537). lia. Qed.

Lemma counted_N' t N : Z.of_nat N = 65537 -> counted t (map (fun s => (0, 0, s)) (leaves t N)) = 1.
Proof. intros H. unfold counted. by rewrite leaves_length, H. Qed.

Lemma leaves_times t n : (0 < n)%nat -> started (map (fun s => (0, 0, s)) (leaves t n)) = 0 /\ touched (map (fun s => (0, 0, s)) (leaves t n)) = 0 /\
  map (fun s => (0, 0, s)) (leaves t n) <> [].
Proof.
  intros Hn. destruct n as [|n]; [lia|]. split; [done|]. split; [|done]. unfold touched, leaves. rewrite seq_S, !map_app. cbn [map]. by rewrite last_snoc.
Qed.

(* ---------- C41: more spans than the limit ---------- *)

Lemma inflight_unbounded : exists evs k st0 log0 ts, Forall valid_event evs /\ valid_tick k /\ run evs = (Some st0, log0) /\
  let log := (run (evs ++ [ETick k])).2 in
  waiting log ts /\ 100000 < sum (fun t => Z.of_nat (length (merged_spans t (pending log t)))) ts.
Proof.
  destruct N_exists as [N N_val]. assert (counted_N : forall t, counted t (map (fun s => (0, 0, s)) (leaves t N)) = 1) by (intros t; by apply counted_N').
  set (evs := (([] ++ arrive (leaves 1 N)) ++ arrive (leaves 2 N))).
  assert (Hv : Forall valid_event evs) by (unfold evs; apply Forall_app; split; [apply Forall_app; split; [constructor|]|]; apply arrive_valid).
  destruct (run_arrive [] initial (leaves 1 N) eq_refl) as [sta Ea].
  destruct (run_arrive ([] ++ arrive (leaves 1 N)) sta (leaves 2 N)) as [st0 E0]; [by rewrite Ea|]. rewrite Ea in E0. cbn [snd run foldl app] in E0.
  set (log0 := map (LSpan 0 0) (leaves 1 N) ++ map (LSpan 0 0) (leaves 2 N)).
  assert (E : run evs = (Some st0, log0)) by exact E0. clear Ea E0.
  assert (P1 : pending log0 1 = map (fun s => (0, 0, s)) (leaves 1 N)).
  { unfold pending, log0. rewrite status_other by lia. rewrite <- (app_nil_l (map (LSpan 0 0) _)). rewrite status_arrive by (done || lia). done. }
  assert (P2 : pending log0 2 = map (fun s => (0, 0, s)) (leaves 2 N)).
  { unfold pending, log0. rewrite status_arrive; [|lia|].
    - cbn [snd]. unfold pending. rewrite <- (app_nil_l (map (LSpan 0 0) _)), status_other by lia. done.
    - rewrite <- (app_nil_l (map (LSpan 0 0) _)), status_other by lia. done. }
  assert (P3 : forall t, t <> 1 -> t <> 2 -> pending log0 t = []).
  { intros t H1 H2. unfold pending, log0. rewrite status_other by done. rewrite <- (app_nil_l (map (LSpan 0 0) _)), status_other by done. done. }
  assert (HN : (0 < N)%nat) by (pose proof N_val; lia).
  assert (Hw : waiting log0 [1; 2]).
  { split; [apply NoDup_cons; split; [rewrite elem_of_list_singleton; lia|apply NoDup_singleton]|]. intros t. rewrite elem_of_cons, elem_of_list_singleton.
    split; [intros [-> | ->]; [rewrite P1|rewrite P2]; by apply leaves_times|]. intros H.
    destruct (decide (t = 1)); [by left|]. destruct (decide (t = 2)); [by right|]. by rewrite P3 in H. }
  exists evs, (plain_tick 0), st0, log0, [1; 2]. split; [done|]. split; [apply plain_valid|]. split; [done|].
  destruct (tick_step _ _ _ _ Hv (plain_valid 0) E) as (Hi & Hg & st1 & log1 & EF & ER). rewrite ER. cbn [snd].
  destruct (finish_traces_spec _ st0 log0 (plain_valid 0) Hi Hg) as (st' & log' & load & EF' & Hi' & _ & Hld & _ & (mid & Hmid & Htr) & _).
  rewrite EF in EF'. injection EF' as <- <-.
  assert (El : load = 2).
  { rewrite Hld. rewrite (sum_waiting log0 _ _ [1; 2] (waiting_of _ _ Hi) Hw). unfold sum. cbn [foldr]. rewrite P1, P2, !counted_N. done. }
  assert (Hsame : forall t, tree_at t (pending (log0 ++ log1) t) = tree_at t (pending log0 t)).
  { intros t. destruct Hi as [_ Hi], Hi' as [_ Hi']. rewrite <- Hi, <- Hi', Htr, El. cbn [Z.ltb Z.compare]. change (100000 <? 2) with false. cbv iota.
    rewrite Hmid. destruct (f_traces st0 !! t) as [tr|] eqn:Et; [|done].
    assert (Hk : kept (k_now1 (plain_tick 0) - patience load) (k_now2 (plain_tick 0) - 5 * patience load) tr = true); [|by rewrite Hk].
    rewrite Hi in Et. apply tree_at_fields in Et as (_ & _ & Ec & Es & Eu & _ & Hne).
    assert (t = 1 \/ t = 2) as Ht by (destruct (decide (t = 1)); [by left|]; destruct (decide (t = 2)); [by right|]; by rewrite P3 in Hne).
    assert (t_count tr = 1 /\ t_started tr = 0 /\ t_updated tr = 0) as (E1 & E2 & E3).
    { destruct Ht as [-> | ->]; rewrite Ec, Es, Eu; [rewrite P1|rewrite P2]; destruct (leaves_times 1 N HN) as (L1 & L2 & _), (leaves_times 2 N HN) as (L3 & L4 & _); by rewrite counted_N. }
    unfold kept, too_large. rewrite E1, E2, E3, El. done. }
  assert (Hpend : forall t, pending (log0 ++ log1) t <> [] <-> pending log0 t <> []).
  { intros t. specialize (Hsame t). unfold tree_at in Hsame. destruct (pending (log0 ++ log1) t) as [|[[? ?] ?] ?], (pending log0 t) as [|[[? ?] ?] ?]; done. }
  assert (Hlen : forall t, pending log0 t <> [] -> merged_spans t (pending (log0 ++ log1) t) = merged_spans t (pending log0 t)).
  { intros t Ht. specialize (Hsame t). destruct (tree_at t (pending log0 t)) as [tr|] eqn:Et; [|destruct (pending log0 t) as [|[[? ?] ?] ?]; done].
    apply tree_at_fields in Et as (_ & <- & _). apply tree_at_fields in Hsame as (_ & <- & _). done. }
  split.
  - destruct Hw as [Hn Hw]. split; [done|]. intros t. rewrite Hpend. apply Hw.
  - unfold sum. cbn [foldr]. rewrite !Hlen by (rewrite ?P1, ?P2; by apply leaves_times). rewrite P1, P2, !leaves_length, N_val. lia.
Qed.

(* ---------- C43: an oversized trace is emitted ---------- *)

Lemma first_out l0 t l : pending l0 t <> [] -> pending (l0 ++ l) t = [] -> (forall n0 n1 s, LSpan n0 n1 s ∉ l) ->
  exists l1 o l2, l = l1 ++ LOut t o :: l2 /\ pending (l0 ++ l1) t = pending l0 t.
Proof.
  intros Hne. induction l as [|e l IH] using rev_ind; intros H Hns; [by rewrite app_nil_r in H|].
  destruct (decide (pending (l0 ++ l) t = [])) as [Hp|Hp].
  - destruct (IH Hp) as (l1 & o & l2 & -> & E).
    + intros n0 n1 s Hin. apply (Hns n0 n1 s). apply elem_of_app. by left.
    + exists l1, o, (l2 ++ [e]). split; [by rewrite <- app_assoc|done].
  - assert (Hsame : forall l', l' `prefix_of` l -> pending (l0 ++ l') t = pending l0 t \/ pending (l0 ++ l') t = []).
    { clear -Hns. intros l' [l'' ->]. assert (Hns' : forall n0 n1 s, LSpan n0 n1 s ∉ l').
      { intros n0 n1 s Hin. apply (Hns n0 n1 s). rewrite <- app_assoc. apply elem_of_app. by left. } clear Hns l''.
      induction l' as [|x l' IH] using rev_ind; [left; by rewrite app_nil_r|]. 
      assert (IH' : pending (l0 ++ l') t = pending l0 t \/ pending (l0 ++ l') t = []) by (apply IH; intros n0 n1 s Hin; apply (Hns' n0 n1 s), elem_of_app; by left).
      unfold pending in *. rewrite app_assoc, status_snoc. destruct (status (l0 ++ l') t) as [b p]. cbn [snd] in IH'.
      destruct x as [n0 n1 s|? ? ?|t' o|t'|]; cbn [track]; try done.
      - exfalso. apply (Hns' n0 n1 s), elem_of_app. right. apply elem_of_list_here.
      - destruct (decide _); [by right|done].
      - by destruct (decide _). }
    destruct (Hsame l) as [Hs|Hs]; [done| |done].
    rewrite app_assoc in H. unfold pending in H, Hp. rewrite status_snoc in H. destruct (status (l0 ++ l) t) as [b p]. cbn [snd] in Hp.
    destruct e as [n0 n1 s|? ? ?|t' o|t'|]; cbn [track] in H; try done.
    + exfalso. apply (Hns n0 n1 s), elem_of_app. right. apply elem_of_list_here.
    + destruct (decide (t' = t)) as [->|]; [|done]. exists l, o, []. done.
    + by destruct (decide _).
Qed.

Lemma finish_no_spans k st log0 st1 log1 : valid_tick k -> inv st log0 -> good log0 -> finish_traces k st = (st1, log1) -> forall n0 n1 s, LSpan n0 n1 s ∉ log1.
Proof.
  intros Hk Hi Hg EF n0 n1 s. destruct (finish_traces_spec k st log0 Hk Hi Hg) as (st' & log' & load & EF' & _ & _ & _ & (x & y & Hlog & _) & _).
  rewrite EF in EF'. injection EF' as <- <-. rewrite Hlog. intros Hin. apply elem_of_cons in Hin as [?|Hin]; [done|].
  apply elem_of_app in Hin as [Hin|Hin].
  - clear Hlog EF. induction (k_range k 1 (f_traces st)) as [|p l IH]; [by apply elem_of_nil in Hin|]. cbn [map concat] in Hin. apply elem_of_app in Hin as [Hin|Hin]; [|by apply IH].
    pose proof (verdict_finished k (k_now1 k - patience load) (k_now2 k - 5 * patience load) p) as H. rewrite Forall_forall in H. by apply H in Hin.
  - apply elem_of_app in Hin as [Hin|Hin]; apply elem_of_list_fmap in Hin as (? & ? & _); done.
Qed.

Lemma oversized_emitted : exists evs l1 t out l2, Forall valid_event evs /\ (run evs).2 = l1 ++ LOut t (Emitted out) :: l2 /\
  8192 < Z.of_nat (length (merged_spans t (pending l1 t))) /\ 8192 < Z.of_nat (length out).
Proof.
  destruct N_exists as [N N_val]. assert (counted_N : forall t, counted t (map (fun s => (0, 0, s)) (leaves t N)) = 1) by (intros t; by apply counted_N').
  set (evs := ([] ++ arrive (leaves 1 N))). pose proof (arrive_valid 1 N : Forall valid_event evs) as Hv.
  destruct (run_arrive [] initial (leaves 1 N) eq_refl) as [st0 E]. cbn [snd run foldl app] in E. set (log0 := map (LSpan 0 0) (leaves 1 N)) in E. fold evs in E.
  assert (P1 : pending log0 1 = map (fun s => (0, 0, s)) (leaves 1 N)).
  { unfold pending, log0. rewrite <- (app_nil_l (map (LSpan 0 0) _)). rewrite status_arrive by (done || lia). done. }
  assert (P3 : forall t, t <> 1 -> pending log0 t = []).
  { intros t H1. unfold pending, log0. rewrite <- (app_nil_l (map (LSpan 0 0) _)), status_other by done. done. }
  assert (HN : (0 < N)%nat) by (pose proof N_val; lia). destruct (leaves_times 1 N HN) as (L1 & L2 & L3).
  assert (Hw : waiting log0 [1]).
  { split; [apply NoDup_singleton|]. intros t. rewrite elem_of_list_singleton. split; [intros ->; by rewrite P1|]. intros H. destruct (decide (t = 1)); [done|]. by rewrite P3 in H. }
  set (k := plain_tick (10 * 1000000000)). pose proof (plain_valid (10 * 1000000000) : valid_tick k) as Hk.
  destruct (tick_step _ _ _ _ Hv Hk E) as (Hi & Hg & st1 & log1 & EF & ER).
  destruct (finish_traces_spec _ st0 log0 Hk Hi Hg) as (st' & log' & load & EF' & Hi' & Hg' & Hld & (x & y & Hlog & Hx) & (mid & Hmid & Htr) & _).
  rewrite EF in EF'. injection EF' as <- <-.
  assert (El : load = 1).
  { rewrite Hld. rewrite (sum_waiting log0 _ _ [1] (waiting_of _ _ Hi) Hw). unfold sum. cbn [foldr]. rewrite P1, counted_N. done. }
  assert (Hgone : pending (log0 ++ log1) 1 = []).
  { destruct Hi as [_ Hi], Hi' as [_ Hi']. specialize (Hi' 1). rewrite Htr, El in Hi'. change (100000 <? 1) with false in Hi'. cbv iota in Hi'. rewrite Hmid in Hi'.
    destruct (f_traces st0 !! 1) as [tr|] eqn:Et.
    - rewrite Hi in Et. apply tree_at_fields in Et as (_ & _ & Ec & Es & Eu & _). rewrite P1 in *. rewrite counted_N in Ec. rewrite L1 in Es. rewrite L2 in Eu.
      assert (Hkf : kept (k_now1 k - patience load) (k_now2 k - 5 * patience load) tr = false) by (unfold kept, too_large; rewrite Ec, Es, Eu, El; done).
      rewrite Hkf in Hi'. unfold tree_at in Hi'. by destruct (pending (log0 ++ log1) 1) as [|[[? ?] ?] ?].
    - unfold tree_at in Hi'. by destruct (pending (log0 ++ log1) 1) as [|[[? ?] ?] ?]. }
  destruct (first_out log0 1 log1) as (l1 & o & l2 & Elog & Epend); [by rewrite P1|done|by apply (finish_no_spans k st0 log0 st1 log1)|].
  assert (Hv' : Forall valid_event (evs ++ [ETick k])) by (apply Forall_app; split; [done|by apply Forall_singleton]).
  assert (Eall : (run (evs ++ [ETick k])).2 = (log0 ++ l1) ++ LOut 1 o :: l2) by (rewrite ER; cbn [snd]; by rewrite Elog, <- app_assoc).
  pose proof (run_entry _ _ _ _ Hv' Eall) as (_ & n1 & n2 & load' & Hlt & Hok). rewrite Epend, P1 in Hok.
  assert (Htick : n1 = 10 * 1000000000 /\ n2 = 10 * 1000000000 /\ load' = 1).
  { destruct Hlt as (b1 & b2 & Eb & Hno). 
    assert (Hlog0 : noticks log0) by (intros a b c H; apply elem_of_list_fmap in H as (? & ? & _); done).
    rewrite Hlog, El in Elog.
    assert (Hin : LTick n1 n2 load' ∈ log0 ++ l1) by (rewrite Eb; apply elem_of_app; right; apply elem_of_list_here).
    apply elem_of_app in Hin as [Hin|Hin]; [by apply Hlog0 in Hin|].
    assert (Hin' : LTick n1 n2 load' ∈ l1 ++ LOut 1 o :: l2) by (apply elem_of_app; by left). rewrite <- Elog in Hin'. apply elem_of_cons in Hin' as [Hin'|Hin'].
    - by injection Hin' as -> -> ->.
    - exfalso. revert Hin'. apply noticks_app; [apply verdicts_noticks|]. apply noticks_app; [apply overloads_noticks|apply evicts_noticks]. }
  destruct Htick as (-> & -> & ->).
  assert (Hem : exists out, emission 1 (merged_spans 1 (map (fun s => (0, 0, s)) (leaves 1 N))) out).
  { set (sp := merged_spans 1 _) in *. assert (Hn : NoDup (ids sp)) by apply merged_NoDup.
    assert (Hids : forall id, id ∈ ids sp <-> exists i, id = Z.of_nat i + 1 /\ (i < N)%nat).
    { intros id. unfold sp. rewrite merged_ids, map_map. cbn [snd]. rewrite leaves_ids, elem_of_list_fmap. split; intros (i & -> & H); exists i; (split; [done|]); [apply elem_of_seq in H; lia|apply elem_of_seq; lia]. }
    assert (H1 : 1 ∈ ids sp) by (apply Hids; exists 0%nat; split; [done|lia]).
    pose proof (leaves_parent 1 N) as Hpar. fold sp in Hpar. rewrite Forall_forall in Hpar.
    apply elem_of_list_fmap in H1 as (root & Er & Hroot).
    assert (Hr : root_candidate sp root) by (split; [done|left; rewrite Hpar by done; done]).
    assert (Hu : forall r, root_candidate sp r -> r = root).
    { intros r [Hrin [Hr1|Hr1]]; rewrite (Hpar r Hrin) in Hr1.
      - apply (same_id sp Hn); [done..|congruence].
      - exfalso. apply Hr1. rewrite Er. by apply elem_of_list_fmap_1. }
    destruct (unique_root_index sp root Hn Hr Hu) as (i & Hri & _).
    assert (Hok64 : Forall (fun s => int64_ok (s_ts s)) sp).
    { assert (Hgg : good log0) by done. destruct (merged_ok log0 1 Hgg) as [_ H]. rewrite P1 in H. exact H. }
    destruct (emission_of 1 sp sp i (length sp)) as (out & _ & _ & Hem); try done; [by left|]. by exists out. }
  destruct o as [out| | | | |].
  - exists (evs ++ [ETick k]), (log0 ++ l1), 1, out, l2. split; [done|]. split; [done|]. rewrite Epend, P1, leaves_length, N_val. split; [lia|].
    destruct Hok as ((all & root & Hall & _ & _ & Hre & _) & _). apply Forall2_length in Hre. rewrite <- Hre.
    pose proof (leaves_length 1 N) as HL. pose proof N_val. destruct Hall as [->|(f & _ & Hp)]; [lia|]. apply Permutation_length in Hp. cbn [length] in Hp. lia.
  - rewrite counted_N in Hok. lia.
  - destruct Hok as [_ Hok]. rewrite L1 in Hok. assert (Ep : patience 1 = 8000000000) by done. lia.
  - by destruct Hok as [Hok _].
  - lia.
  - done.
Qed.

(* ---------- C44: closing ---------- *)

Lemma closed_stays evs log : run evs = (None, log) -> forall more, run (evs ++ more) = (None, log).
Proof.
  intros E more. induction more as [|e more IH] using rev_ind; [by rewrite app_nil_r|]. rewrite app_assoc, run_snoc, IH. cbn [fst snd step]. by rewrite app_nil_r.
Qed.

Lemma close_loses : exists evs l1 n0 n1 s l2, Forall valid_event evs /\ run evs = (None, l1 ++ LSpan n0 n1 s :: l2) /\
  s_trace s <> 0 /\ s_id s <> 0 /\ ~ blacklisted l1 (s_trace s) /\
  forall more, run (evs ++ more) = run evs /\ forall o, LOut (s_trace s) o ∉ (run (evs ++ more)).2.
Proof.
  set (s := Span 2 0 1 [] [] 0 0 ∅ (Timings 0 0 0 0)).
  exists [ESpan map_to_list 0 0 s; EClose], [], 0, 0, s, [LClose].
  assert (E : run [ESpan map_to_list 0 0 s; EClose] = (None, [LSpan 0 0 s; LClose])) by done.
  split; [repeat constructor; [apply map_order_list|by vm_compute..]|]. split; [done|]. split; [done|]. split; [done|]. split; [by vm_compute|].
  intros more. rewrite (closed_stays _ _ E). split; [done|]. cbn [snd]. intros o H. repeat (apply elem_of_cons in H as [?|H]; [done|]). by apply elem_of_nil in H.
Qed.
