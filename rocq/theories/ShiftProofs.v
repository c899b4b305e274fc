(** Proofs for C109: every function of the corrector commutes with moving the clocks. *)
From Verif Require Import Base IdModel SpanModel TreeModel TreeSpec TreeProofs RootProofs CorrectProofs FinishModel FinishSpec FinishProofs ShiftSpec.
From Verif Require TagHeapProofs.

Section move.
Context (c d : Z) (P : span -> Prop) (N : nat).
Notation M := (moved d).
Hypothesis Hpar : forall p s, P s -> P (set_parent p s).
Hypothesis Hmerge : forall s new, P s -> P new -> P (merged s new) /\ M (merged s new) = merged (M s) (M new).
Hypothesis Hfake : forall s0 l, P s0 -> Forall P l -> P (create_fake_root s0 l) /\ M (create_fake_root s0 l) = create_fake_root (M s0) (map M l).
Hypothesis Hcorr : forall l r, NoDup (ids l) -> Forall P l -> (length l <= N)%nat -> roots l = [r] ->
  correct (length l) (map M l) r None 0 = (fun p => (map M p.1, p.2)) <$> correct (length l) l r None 0.

(** What holds of a trace with at most [n] spans. *)
Definition fine (n : nat) (t : tree) : Prop := descending (ids (t_spans t)) /\ Forall P (t_spans t) /\ (length (t_spans t) <= n)%nat.

Lemma moved_ids l : map s_id (map M l) = map s_id l.
Proof. by rewrite map_map. Qed.
Lemma moved_position id l : position id (map M l) = position id l.
Proof. unfold position, id_at. by rewrite moved_ids, map_length. Qed.
Lemma moved_ref id l : get_span_ref id (map M l) = get_span_ref id l.
Proof. unfold get_span_ref, id_at. by rewrite moved_position, moved_ids, map_length. Qed.
Lemma moved_lookup l i : map M l !! i = M <$> l !! i.
Proof. apply list_lookup_fmap. Qed.
Lemma moved_skel l : skel (map M l) = skel l.
Proof. unfold skel. by rewrite map_map. Qed.
Lemma moved_roots l : roots (map M l) = roots l.
Proof. unfold roots. rewrite moved_ids. apply indices_skel; [apply moved_skel|]. intros s s' H1 H2. unfold is_root. by rewrite H1, H2. Qed.

Lemma moved_update ord ord' s new : map_order ord -> map_order ord' -> P s -> P new ->
  M (merge_spans ord (if id_is_unknown (s_parent s) then set_parent (s_parent new) s else s) new) =
  merge_spans ord' (if id_is_unknown (s_parent (M s)) then set_parent (s_parent (M new)) (M s) else M s) (M new).
Proof.
  intros Ho Ho' Hs Hn. rewrite !merge_spec by done. change (s_parent (M s)) with (s_parent s). destruct (id_is_unknown (s_parent s)).
  - by rewrite (proj2 (Hmerge _ _ (Hpar (s_parent new) s Hs) Hn)).
  - by rewrite (proj2 (Hmerge _ _ Hs Hn)).
Qed.

Lemma moved_add ord ord' now s t n : map_order ord -> map_order ord' -> fine n t -> P s ->
  fine (S n) (add_span ord now s t) /\ moved_tree c d (add_span ord now s t) = add_span ord' (now + c) (M s) (moved_tree c d t).
Proof.
  intros Ho Ho' (Hd & HP & Hl) Hs. split.
  - destruct (add_span_cases ord now s t Ho Hd) as [(l1 & l2 & E & _ & E' & Hd')|(l1 & x & l2 & E & _ & E' & Hi)]; rewrite E'; unfold fine; cbn [t_spans];
      rewrite E in HP, Hl; rewrite app_length in *; cbn [length] in *; apply Forall_app in HP as [H1 H2].
    + split; [done|]. split; [|lia]. apply Forall_app. split; [done|]. by constructor.
    + split; [by rewrite Hi|]. split; [|lia]. apply Forall_app. apply Forall_cons in H2 as [Hx H2]. split; [done|]. constructor; [|done].
      unfold updated_span. destruct (_ =? 0); apply Hmerge; auto.
  - unfold add_span, moved_tree. cbn [t_spans t_id t_started t_updated t_count].
    change (s_id (M s)) with (s_id s). rewrite moved_ref. destruct (get_span_ref (s_id s) (t_spans t)) as [i|]; cbn [t_spans t_id t_started t_updated t_count].
    + f_equal. apply list_eq. intros j. rewrite moved_lookup. destruct (decide (i = j)) as [<-|Hj].
      * rewrite !list_lookup_alter, moved_lookup. destruct (t_spans t !! i) as [x|] eqn:Ex; [|done]. cbn [fmap option_fmap option_map]. f_equal.
        apply moved_update; [done|done| |done]. rewrite Forall_forall in HP. by eapply HP, elem_of_list_lookup_2.
      * rewrite !list_lookup_alter_ne by done. by rewrite moved_lookup.
    + f_equal. unfold append_span. change (s_id (M s)) with (s_id s). rewrite moved_position, map_app. cbn [map]. by rewrite firstn_map, skipn_map.
Qed.

Lemma moved_same s0 l : all_the_same_parent (M s0) (map M l) = all_the_same_parent s0 l.
Proof. unfold all_the_same_parent. cbn [forallb]. f_equal. induction l as [|s l IH]; [done|]. cbn [map forallb]. by rewrite IH. Qed.

Lemma moved_find ord ord' now t n : map_order ord -> map_order ord' -> fine n t ->
  fine (S n) (find_roots ord now t).1 /\ (find_roots ord now t).2 = roots (t_spans (find_roots ord now t).1) /\
  find_roots ord' (now + c) (moved_tree c d t) = (moved_tree c d (find_roots ord now t).1, (find_roots ord now t).2).
Proof.
  intros Ho Ho' Hf. assert (Hf' : fine (S n) t) by (destruct Hf as (? & ? & ?); split_and!; [done|done|lia]).
  unfold find_roots. change (t_spans (moved_tree c d t)) with (map M (t_spans t)). rewrite moved_roots.
  replace (omap (fun i => map M (t_spans t) !! i) (roots (t_spans t))) with (map M (omap (fun i => t_spans t !! i) (roots (t_spans t)))).
  2: { generalize (roots (t_spans t)). intros rs. induction rs as [|i rs IH]; [done|]. cbn [omap list_omap]. rewrite moved_lookup. destruct (t_spans t !! i); cbn; [f_equal|]; apply IH. }
  assert (HP : Forall P (omap (fun i => t_spans t !! i) (roots (t_spans t)))).
  { destruct Hf as (_ & HP & _). rewrite Forall_forall in *. intros x Hx. apply elem_of_list_omap in Hx as (i & _ & Hi). by eapply HP, elem_of_list_lookup_2. }
  destruct (omap (fun i => t_spans t !! i) (roots (t_spans t))) as [|s0 [|s1 rest]]; [done|done|]. cbn [map].
  change (M s1 :: map M rest) with (map M (s1 :: rest)). rewrite moved_same. destruct (all_the_same_parent s0 (s1 :: rest)); [|done]. cbn [fst snd].
  apply Forall_cons in HP as [H0 HP]. destruct (Hfake s0 (s1 :: rest) H0 HP) as [HF EF]. rewrite <- EF.
  destruct (moved_add ord ord' now _ t n Ho Ho' Hf HF) as [A B]. split; [done|]. split; [done|]. rewrite <- B.
  f_equal. change (t_spans (moved_tree c d ?x)) with (map M (t_spans x)). by rewrite moved_roots.
Qed.

Definition moved_state (st : fstate) : fstate := FState (moved_traces c d (f_traces st)) (f_black st).
Definition fine_traces (n : nat) (ts : gmap Z tree) : Prop := forall id t, ts !! id = Some t -> fine n t.
Notation ME := (moved_entry c d).
Notation MP := (moved_pair c d).

Lemma moved_receive ord ord' n0 n1 s st n : map_order ord -> map_order ord' -> P s -> fine_traces n (f_traces st) ->
  fine_traces (S n) (f_traces (receive ord n0 n1 s st)) /\
  moved_state (receive ord n0 n1 s st) = receive ord' (n0 + c) (n1 + c) (M s) (moved_state st).
Proof.
  intros Ho Ho' Hs Hf. assert (Hw : fine_traces (S n) (f_traces st)).
  { intros id t Hi. destruct (Hf id t Hi) as (? & ? & ?). split_and!; [done|done|lia]. }
  unfold receive. change (s_trace (M s)) with (s_trace s). change (s_id (M s)) with (s_id s). change (f_black (moved_state st)) with (f_black st).
  destruct (_ || _); [done|]. destruct (bool_decide _); [done|].
  set (t := match f_traces st !! s_trace s with Some t => t | None => new_tree n0 (s_trace s) end).
  assert (Ht : fine n t).
  { unfold t. destruct (f_traces st !! s_trace s) eqn:E; [by eapply Hf|]. split; [constructor|]. split; [constructor|]. cbn. lia. }
  destruct (moved_add ord ord' n1 s t n Ho Ho' Ht Hs) as [A B]. split.
  - intros id u. cbn [f_traces]. destruct (decide (id = s_trace s)) as [->|Hne]; [rewrite lookup_insert; by intros [= <-]|rewrite lookup_insert_ne by done; apply Hw].
  - unfold moved_state. cbn [f_traces f_black]. f_equal. unfold moved_traces. rewrite fmap_insert. f_equal. rewrite B. f_equal.
    rewrite lookup_fmap. unfold t. by destruct (f_traces st !! s_trace s).
Qed.

Lemma moved_delete id ts : moved_traces c d (delete id ts) = delete id (moved_traces c d ts).
Proof. apply fmap_delete. Qed.

Lemma moved_finish_one k k' du ds st log p n : map_order (k_ord k) -> map_order (k_ord k') -> (forall t, k_fake k' t = k_fake k t + c) -> (S n <= N)%nat -> fine n p.2 ->
  finish_one k' (du + c) (ds + c) (moved_state st, map ME log) (MP p) =
  (moved_state (finish_one k du ds (st, log) p).1, map ME (finish_one k du ds (st, log) p).2).
Proof.
  intros Ho Ho' Hf Hn Hfi. destruct p as [id t]. unfold finish_one, moved_pair. cbn [fst snd] in *.
  change (too_large (moved_tree c d t)) with (too_large t). change (t_updated (moved_tree c d t)) with (t_updated t + c). change (t_started (moved_tree c d t)) with (t_started t + c).
  replace (du + c <? t_updated t + c) with (du <? t_updated t) by (destruct (Z.ltb_spec du (t_updated t)), (Z.ltb_spec (du + c) (t_updated t + c)); lia).
  replace (t_started t + c <? ds + c) with (t_started t <? ds) by (destruct (Z.ltb_spec (t_started t) ds), (Z.ltb_spec (t_started t + c) (ds + c)); lia).
  destruct (_ && _ && _); [done|]. change (f_black (moved_state st)) with (f_black st). change (f_traces (moved_state st)) with (moved_traces c d (f_traces st)).
  assert (Hs : forall b, moved_state (FState (delete id (f_traces st)) b) = FState (delete id (moved_traces c d (f_traces st))) b).
  { intros b. unfold moved_state. cbn [f_traces f_black]. by rewrite moved_delete. }
  destruct (too_large t); [cbn [fst snd]; by rewrite map_app, Hs|]. destruct (_ <? ds); [cbn [fst snd]; by rewrite map_app, Hs|].
  destruct (moved_find (k_ord k) (k_ord k') (k_fake k id) t n Ho Ho' Hfi) as (A & B & E). rewrite Hf, E. clear E.
  destruct (find_roots (k_ord k) (k_fake k id) t) as [t' rs]. cbn [fst snd] in *.
  destruct rs as [|r [|r2 rs]]; try (cbn [fst snd]; by rewrite map_app, Hs).
  change (t_spans (moved_tree c d t')) with (map M (t_spans t')). destruct A as (A1 & A2 & A3). rewrite map_length, Hcorr; [|by apply descending_NoDup|done|lia|done].
  destruct (correct (length (t_spans t')) (t_spans t') r None 0) as [[spans seen]|]; cbn [fmap option_fmap option_map fst snd]; by rewrite map_app, Hs.
Qed.

Lemma finish_one_traces k du ds st log p n : fine_traces n (f_traces st) -> fine_traces n (f_traces (finish_one k du ds (st, log) p).1).
Proof.
  intros Hf. assert (Hd : forall id, fine_traces n (delete id (f_traces st))).
  { intros id i t Hi. apply lookup_delete_Some in Hi as [_ Hi]. by eapply Hf. }
  destruct p as [id t]. unfold finish_one. destruct (_ && _ && _); [done|]. destruct (too_large t); [apply Hd|]. destruct (_ <? ds); [apply Hd|].
  destruct (find_roots _ _ t) as [t' [|r [|r2 rs]]]; try apply Hd. destruct (correct _ _ _ _ _) as [[? ?]|]; apply Hd.
Qed.

Lemma moved_finish_all k k' du ds n : map_order (k_ord k) -> map_order (k_ord k') -> (forall t, k_fake k' t = k_fake k t + c) -> (S n <= N)%nat -> forall l st log,
  (forall p, p ∈ l -> fine n p.2) -> fine_traces n (f_traces st) ->
  fine_traces n (f_traces (foldl (finish_one k du ds) (st, log) l).1) /\
  foldl (finish_one k' (du + c) (ds + c)) (moved_state st, map ME log) (map MP l) =
    (moved_state (foldl (finish_one k du ds) (st, log) l).1, map ME (foldl (finish_one k du ds) (st, log) l).2).
Proof.
  intros Ho Ho' Hf Hn. induction l as [|p l IH]; intros st log Hl Hst; [done|]. cbn [map foldl].
  rewrite (moved_finish_one k k' du ds st log p n) by (try done; apply Hl, elem_of_list_here).
  pose proof (finish_one_traces k du ds st log p n Hst) as Hst'.
  destruct (finish_one k du ds (st, log) p) as [st1 log1]. cbn [fst snd] in *. apply IH; [|done]. intros q Hq. by apply Hl, elem_of_list_further.
Qed.

Lemma moved_fold (f : Z -> tree -> Z) l : (forall n t, f n (moved_tree c d t) = f n t) -> forall n, foldl (fun n p => f n p.2) n (map MP l) = foldl (fun n p => f n p.2) n l.
Proof. intros Hf. induction l as [|p l IH]; intros n; [done|]. cbn [map foldl]. rewrite IH. cbn [moved_pair snd]. by rewrite Hf. Qed.

Lemma moved_discard_loop l : forall n ts log,
  discard_loop (map MP l) n (moved_traces c d ts) (map ME log) = (moved_traces c d (discard_loop l n ts log).1, map ME (discard_loop l n ts log).2).
Proof.
  induction l as [|[id t] l IH]; intros n ts log; [done|]. cbn [map discard_loop moved_pair fst snd]. destruct (n <? maxSpans); [done|].
  change (t_count (moved_tree c d t)) with (t_count t). rewrite <- moved_delete. change [LOut id Overload] with (map ME [LOut id Overload]). rewrite <- map_app. apply IH.
Qed.
Lemma discard_loop_traces l n : forall m ts log, fine_traces n ts -> fine_traces n (discard_loop l m ts log).1.
Proof.
  induction l as [|[id t] l IH]; intros m ts log Hf; [done|]. cbn [discard_loop]. destruct (m <? maxSpans); [done|]. apply IH.
  intros i u Hi. apply lookup_delete_Some in Hi as [_ Hi]. by eapply Hf.
Qed.

Lemma moved_evict l : forall b log, map ME log = log -> map ME (evict l b log).2 = (evict l b log).2.
Proof. induction l as [|x l IH]; intros b log H; [done|]. cbn [evict]. destruct (_ <? 1024); [done|]. apply IH. by rewrite map_app, H. Qed.

Lemma moved_finish k k' st n : moved_tick c d k k' -> valid_tick k -> (S n <= N)%nat -> fine_traces n (f_traces st) ->
  fine_traces n (f_traces (finish_traces k st).1) /\
  finish_traces k' (moved_state st) = (moved_state (finish_traces k st).1, map ME (finish_traces k st).2).
Proof.
  intros (E1 & E2 & Hf & Ho & Ho' & Hr & Hb & Hs) (_ & Hv & _) Hn Hst. unfold finish_traces.
  change (f_traces (moved_state st)) with (moved_traces c d (f_traces st)). rewrite !Hr, E1, E2.
  assert (Ec : count_spans (map MP (k_range k 0 (f_traces st))) = count_spans (k_range k 0 (f_traces st))).
  { unfold count_spans. by apply (moved_fold (fun n t => if too_large t then n else n + t_count t)). }
  rewrite Ec. set (m := count_spans _). clearbody m.
  replace (k_now1 k + c - buffer_time m) with (k_now1 k - buffer_time m + c) by lia. replace (k_now2 k + c - 5 * buffer_time m) with (k_now2 k - 5 * buffer_time m + c) by lia.
  destruct (moved_finish_all k k' (k_now1 k - buffer_time m) (k_now2 k - 5 * buffer_time m) n Ho Ho' Hf Hn (k_range k 1 (f_traces st)) st [LTick (k_now1 k) (k_now2 k) m]) as [A B]; [|done|].
  { intros [id t] Hp. rewrite Hv in Hp. apply elem_of_map_to_list in Hp. by eapply Hst. }
  change [LTick (k_now1 k + c) (k_now2 k + c) m] with (map ME [LTick (k_now1 k) (k_now2 k) m]). rewrite B. clear B.
  destruct (foldl (finish_one k _ _) _ _) as [st1 log1]. cbn [fst snd] in *. change (f_traces (moved_state st1)) with (moved_traces c d (f_traces st1)). change (f_black (moved_state st1)) with (f_black st1).
  assert (D : fine_traces n (if maxSpans <? m then discard k (f_traces st1) else (f_traces st1, [])).1 /\
    (if maxSpans <? m then discard k' (moved_traces c d (f_traces st1)) else (moved_traces c d (f_traces st1), [])) =
    (moved_traces c d (if maxSpans <? m then discard k (f_traces st1) else (f_traces st1, [])).1, map ME (if maxSpans <? m then discard k (f_traces st1) else (f_traces st1, [])).2)).
  { destruct (maxSpans <? m); [|done]. unfold discard. rewrite Hr, Hs, (moved_fold (fun n t => n + t_count t)) by done.
    destruct (_ <? maxSpans); [done|]. split; [by apply discard_loop_traces|]. apply (moved_discard_loop _ _ _ []). }
  destruct D as [D1 D2]. rewrite D2. clear D2. destruct (if maxSpans <? m then discard k (f_traces st1) else (f_traces st1, [])) as [tr logd]. cbn [fst snd] in *.
  rewrite Hb. pose proof (moved_evict (k_range_black k (f_black st1)) (f_black st1) [] eq_refl) as Ee.
  destruct (evict (k_range_black k (f_black st1)) (f_black st1) []) as [black loge]. cbn [fst snd] in *. split; [done|]. by rewrite !map_app, Ee.
Qed.

Definition event_fine (e : event) : Prop := match e with ESpan _ _ _ s => P s | _ => True end.

Lemma moved_run evs evs' : Forall2 (moved_event c d) evs evs' -> Forall valid_event evs -> Forall event_fine evs -> (S (length evs) <= N)%nat ->
  (run evs').2 = map ME (run evs).2.
Proof.
  intros H Hv HP HN. unfold run.
  assert (G : forall evs evs', Forall2 (moved_event c d) evs evs' -> Forall valid_event evs -> Forall event_fine evs -> forall n st log, (S (n + length evs) <= N)%nat ->
    (forall s, st = Some s -> fine_traces n (f_traces s)) ->
    let f := fun acc e => let '(st, log) := step acc.1 e in (st, acc.2 ++ log) in
    (foldl f (moved_state <$> st, map ME log) evs').2 = map ME (foldl f (st, log) evs).2).
  { clear evs evs' H Hv HP HN. induction 1 as [|e e' evs evs' He _ IH]; intros Hv HP n st log HN Hst; [done|]. cbn [foldl fst snd length] in *.
    apply Forall_cons in Hv as [Hv Hvs], HP as [HP HPs].
    assert (S1 : exists st1 log1, step st e = (st1, log1) /\ step (moved_state <$> st) e' = (moved_state <$> st1, map ME log1) /\ forall s, st1 = Some s -> fine_traces (S n) (f_traces s)).
    { destruct st as [st|]; [|by exists None, []]. specialize (Hst st eq_refl). cbn [fmap option_fmap option_map].
      destruct e as [ord n0 n1 s|k|], e' as [ord' n0' n1' s'|k'|]; try done.
      - destruct He as (Ho & Ho' & -> & -> & ->). destruct (moved_receive ord ord' n0 n1 s st n Ho Ho' HP Hst) as [A B]. cbn [step]. eexists _, _. split; [done|].
        rewrite <- B. split; [done|]. by intros ? [= <-].
      - destruct (moved_finish k k' st n He Hv) as [A B]; [lia|done|]. cbn [step]. rewrite B. destruct (finish_traces k st) as [st1 l1]. cbn [fst snd] in *. eexists _, _. split; [done|].
        split; [done|]. intros ? [= <-]. intros id t Hi. destruct (A id t Hi) as (? & ? & ?). split_and!; [done|done|lia].
      - by exists None, [LClose]. }
    destruct S1 as (st1 & log1 & E & E' & Hst1). rewrite E, E', <- map_app. apply (IH Hvs HPs (S n)); [lia|done]. }
  assert (Ei : Some initial = moved_state <$> Some initial).
  { cbn. f_equal. unfold moved_state, initial. cbn [f_traces f_black]. f_equal. unfold moved_traces. by rewrite fmap_empty. }
  rewrite Ei at 1. change (@nil entry) with (map ME []) at 1. apply (G evs evs' H Hv HP 0%nat); [lia|]. intros s [= <-] id t Hi. change ((∅ : gmap Z tree) !! id = Some t) in Hi. by rewrite lookup_empty in Hi.
Qed.
End move.

(* ---------- the clock of the program ---------- *)

Lemma moved_0 s : moved 0 s = s.
Proof.
  destruct s as [? ? ? ? ? ? ? ? [t1 t2 t3 t4]]. unfold moved, later. cbn. rewrite !Z.add_0_r. destruct (decide (t1 = 0)), (decide (t2 = 0)), (decide (t3 = 0)), (decide (t4 = 0)); by subst.
Qed.
Lemma map_moved_0 l : map (moved 0) l = l.
Proof. induction l as [|s l IH]; [done|]. cbn [map]. by rewrite moved_0, IH. Qed.

Lemma clock_run c evs evs' : Forall2 (moved_event c 0) evs evs' -> Forall valid_event evs -> (run evs').2 = map (moved_entry c 0) (run evs).2.
Proof.
  intros H Hv. apply (moved_run c 0 (fun _ => True) (S (length evs))); try done.
  - intros s new _ _. split; [done|]. by rewrite !moved_0.
  - intros s0 l _ _. split; [done|]. by rewrite !moved_0, map_moved_0.
  - intros l r _ _ _ _. rewrite map_moved_0. destruct (correct _ _ _ _ _) as [[m s]|]; [|done]. cbn. by rewrite map_moved_0.
  - apply Forall_true. by intros [].
Qed.

(* ---------- the times in the spans ---------- *)

Section shift.
Context (d lo hi : Z) (N : nat) (R1 : roomy N lo hi) (R2 : roomy N (lo + d) (hi + d)).
Notation M := (moved d).
Notation P := (between lo hi).

Lemma lo_pos : 0 < lo /\ 0 < lo + d /\ lo <= hi.
Proof. destruct R1 as (? & ? & ?), R2 as (? & ? & ?). assert (0 <= Z.of_nat N * (hi - lo)) by (apply Z.mul_nonneg_nonneg; lia). assert (0 <= Z.of_nat N * (hi + d - (lo + d))) by (apply Z.mul_nonneg_nonneg; lia). lia. Qed.
Lemma hi_small : hi < 2^62 /\ hi + d < 2^62.
Proof. destruct R1 as (? & ? & ?), R2 as (? & ? & ?). assert (0 <= Z.of_nat N * (hi - lo)) by (apply Z.mul_nonneg_nonneg; lia). assert (0 <= Z.of_nat N * (hi + d - (lo + d))) by (apply Z.mul_nonneg_nonneg; lia). lia. Qed.

Lemma later_known t : at_between lo hi t -> (later d t = 0 <-> t = 0).
Proof. pose proof lo_pos. unfold later. intros [->|H']; destruct (decide _); lia. Qed.
Lemma later_valid t : at_between lo hi t -> (0 <? later d t) = (0 <? t).
Proof. pose proof lo_pos. unfold later. intros [->|H']; destruct (decide _); [done|done|lia|]. destruct (Z.ltb_spec 0 (t + d)), (Z.ltb_spec 0 t); lia. Qed.
Lemma later_at t : lo <= t -> later d t = t + d.
Proof. pose proof lo_pos. unfold later. intros. rewrite decide_False by lia. done. Qed.

Lemma shift_four s : P s -> (four_timings (M s) <-> four_timings s).
Proof. intros (_ & _ & _ & H1 & H2 & H3 & H4). unfold four_timings, moved. cbn [s_timings tCS tCR tSS tSR]. by rewrite !later_known. Qed.
Lemma shift_server s : P s -> (from_server (M s) <-> from_server s).
Proof.
  intros (_ & _ & _ & H1 & H2 & H3 & H4). unfold from_server, moved. cbn [s_timings tCS tCR tSS tSR].
  pose proof (later_valid _ H3). pose proof (later_valid _ H4). lia.
Qed.

Lemma shift_parent p s : P s -> P (set_parent p s).
Proof. done. Qed.
Lemma shift_merge s new : P s -> P new -> P (merged s new) /\ M (merged s new) = merged (M s) (M new).
Proof.
  intros Hs Hn. pose proof (shift_server new Hn) as Hf. destruct Hs as (A1 & A2 & A3 & A4 & A5 & A6 & A7). destruct Hn as (_ & _ & _ & B4 & B5 & B6 & B7). unfold merged.
  change (s_timings (M new)) with (Timings (later d (tCS (s_timings new))) (later d (tCR (s_timings new))) (later d (tSS (s_timings new))) (later d (tSR (s_timings new)))).
  change (s_timings (M s)) with (Timings (later d (tCS (s_timings s))) (later d (tCR (s_timings s))) (later d (tSS (s_timings s))) (later d (tSR (s_timings s)))).
  cbn [tCS tCR tSS tSR]. rewrite !later_valid by done.
  destruct (decide (from_server new)) as [H|H]; [rewrite (decide_True (P := from_server (M new))) by (by apply Hf)|rewrite (decide_False (P := from_server (M new))) by (by rewrite Hf)].
  - split.
    + unfold between. cbn [s_ts s_dur s_timings tCS tCR tSS tSR]. split_and!; try done; destruct (0 <? _); done.
    + unfold moved. cbn [s_id s_parent s_trace s_name s_service s_ts s_dur s_tags s_timings tCS tCR tSS tSR]. destruct (0 <? tSS _), (0 <? tSR _); done.
  - split.
    + unfold between. cbn [s_ts s_dur s_timings tCS tCR tSS tSR]. split_and!; try done; destruct (0 <? _); done.
    + unfold moved. cbn [s_id s_parent s_trace s_name s_service s_ts s_dur s_tags s_timings tCS tCR tSS tSR]. destruct (0 <? tCS _), (0 <? tCR _); done.
Qed.

Lemma shift_end s : P s -> ts_add (s_ts s) (s_dur s) = s_ts s + s_dur s /\ ts_add (s_ts (M s)) (s_dur (M s)) = s_ts s + s_dur s + d.
Proof.
  intros (A1 & A2 & A3 & _). pose proof lo_pos. pose proof hi_small. unfold ts_add. cbn [moved s_ts s_dur]. rewrite !wrap64_id; [lia| |]; unfold int64_ok; lia.
Qed.
Definition hull_step (acc : Z * Z) (s : span) : Z * Z :=
  let first := if s_ts s <? acc.1 then s_ts s else acc.1 in
  let e := ts_add (s_ts s) (s_dur s) in
  let last := if acc.2 <? e then e else acc.2 in
  (first, last).
Lemma shift_hull l : Forall P l -> forall a b, lo <= a -> a <= b -> b <= hi ->
  let r := foldl hull_step (a, b) l in
  lo <= r.1 /\ r.1 <= r.2 /\ r.2 <= hi /\ foldl hull_step (a + d, b + d) (map M l) = (r.1 + d, r.2 + d).
Proof.
  induction 1 as [|s l Hs _ IH]; intros a b Ha Hab Hb; [done|]. cbn [map foldl].
  destruct (shift_end s Hs) as [E1 E2]. destruct Hs as (A1 & A2 & A3 & _).
  set (a' := if s_ts s <? a then s_ts s else a). set (b' := if b <? s_ts s + s_dur s then s_ts s + s_dur s else b).
  assert (G1 : hull_step (a, b) s = (a', b')) by (unfold hull_step; cbn [fst snd]; by rewrite E1).
  assert (G2 : hull_step (a + d, b + d) (M s) = (a' + d, b' + d)).
  { unfold hull_step. cbn [fst snd]. rewrite E2. change (s_ts (M s)) with (s_ts s + d). unfold a', b'. f_equal.
    - destruct (Z.ltb_spec (s_ts s) a), (Z.ltb_spec (s_ts s + d) (a + d)); lia.
    - destruct (Z.ltb_spec b (s_ts s + s_dur s)), (Z.ltb_spec (b + d) (s_ts s + s_dur s + d)); lia. }
  rewrite G1, G2. unfold a', b'.
  apply IH; destruct (Z.ltb_spec (s_ts s) a), (Z.ltb_spec b (s_ts s + s_dur s)); lia.
Qed.

Lemma shift_fake s0 l : P s0 -> Forall P l -> P (create_fake_root s0 l) /\ M (create_fake_root s0 l) = create_fake_root (M s0) (map M l).
Proof.
  intros H0 Hl. destruct (shift_end s0 H0) as [E1 E2]. pose proof lo_pos. pose proof hi_small. destruct H0 as (A1 & A2 & A3 & _).
  unfold create_fake_root. fold hull_step. rewrite E1, E2.
  change (s_ts (M s0)) with (s_ts s0 + d). change (s_trace (M s0)) with (s_trace s0). change (s_parent (M s0)) with (s_parent s0).
  destruct (shift_hull l Hl (s_ts s0) (s_ts s0 + s_dur s0)) as (B1 & B2 & B3 & B4); [lia..|].
  change (fun acc s => ((if s_ts s <? acc.1 then s_ts s else acc.1), (if acc.2 <? ts_add (s_ts s) (s_dur s) then ts_add (s_ts s) (s_dur s) else acc.2))) with hull_step.
  rewrite B4. destruct (foldl hull_step (s_ts s0, s_ts s0 + s_dur s0) l) as [first last]. cbn [fst snd] in *. replace (last + d - (first + d)) with (last - first) by lia.
  split; [|done]. unfold between. cbn [s_ts s_dur s_timings set_ts set_dur set_service new_root_span new_span zero_timings tCS tCR tSS tSR].
  rewrite wrap64_id by (unfold int64_ok; lia). unfold at_between. lia.
Qed.

(* ---------- correcting ---------- *)

Lemma shift_middle a b : lo <= a <= hi -> lo <= b <= hi -> middle (a + d) (b + d) = middle a b + d /\ lo <= middle a b <= hi.
Proof.
  intros Ha Hb. pose proof lo_pos. pose proof hi_small. unfold middle. rewrite !wrap64_id by (unfold int64_ok; lia).
  rewrite !Z.quot_div_nonneg by lia. replace (a + d + (b + d)) with (a + b + d * 2) by lia. rewrite Z.div_add by lia. split; [done|].
  split; [apply Z.div_le_lower_bound; lia|apply Z.div_le_upper_bound; lia].
Qed.
Lemma four_at s : P s -> four_timings s -> lo <= tCS (s_timings s) <= hi /\ lo <= tCR (s_timings s) <= hi /\ lo <= tSS (s_timings s) <= hi /\ lo <= tSR (s_timings s) <= hi.
Proof. intros (_ & _ & _ & H1 & H2 & H3 & H4) (F1 & F2 & F3 & F4). unfold at_between in *. lia. Qed.

Lemma shift_skew s : P s -> skew (M s) = skew s /\ Z.abs (skew s) <= hi - lo.
Proof.
  intros Hs. pose proof lo_pos. pose proof hi_small. unfold skew. pose proof (shift_four s Hs) as Hf. destruct (decide (four_timings s)) as [H4|H4].
  - rewrite (decide_True (P := four_timings (M s))) by (by apply Hf). destruct (four_at s Hs H4) as (A1 & A2 & A3 & A4).
    unfold moved. cbn [s_timings tCS tCR tSS tSR]. rewrite !later_at by lia.
    destruct (shift_middle _ _ A1 A2) as [-> B1]. destruct (shift_middle _ _ A4 A3) as [-> B2]. rewrite !wrap64_id by (unfold int64_ok; lia). lia.
  - rewrite (decide_False (P := four_timings (M s))) by (by rewrite Hf). lia.
Qed.
Lemma shift_duration s : P s -> own_duration (M s) = own_duration s.
Proof.
  intros Hs. pose proof lo_pos. unfold own_duration. pose proof (shift_four s Hs) as Hf. destruct (decide (four_timings s)) as [H4|H4].
  - rewrite (decide_True (P := four_timings (M s))) by (by apply Hf). destruct (four_at s Hs H4) as (A1 & A2 & A3 & A4).
    unfold moved. cbn [s_timings tCS tCR tSS tSR]. rewrite !later_at by lia. f_equal. lia.
  - by rewrite (decide_False (P := four_timings (M s))) by (by rewrite Hf).
Qed.
Lemma shift_own s off : P s -> Z.abs off <= Z.of_nat N * (hi - lo) ->
  own_start (M s) off = own_start s off + d /\ ~ before_2020 (own_start s off) /\ ~ before_2020 (own_start (M s) off).
Proof.
  intros Hs Ho. destruct R1 as (X1 & X2 & X3), R2 as (Y1 & Y2 & Y3). replace (hi + d - (lo + d)) with (hi - lo) in * by lia.
  unfold own_start. pose proof (shift_four s Hs) as Hf. unfold before_2020.
  assert (E : exists x, lo <= x <= hi /\ (if decide (four_timings s) then tCS (s_timings s) else s_ts s) = x /\ (if decide (four_timings (M s)) then tCS (s_timings (M s)) else s_ts (M s)) = x + d).
  { destruct (decide (four_timings s)) as [H4|H4].
    - rewrite (decide_True (P := four_timings (M s))) by (by apply Hf). destruct (four_at s Hs H4) as (A1 & _). eexists. split; [exact A1|]. split; [done|]. unfold moved. cbn [s_timings tCS]. apply later_at. lia.
    - rewrite (decide_False (P := four_timings (M s))) by (by rewrite Hf). exists (s_ts s). destruct Hs as (A1 & A2 & A3 & _). split; [lia|done]. }
  destruct E as (x & Hx & -> & ->). rewrite !wrap64_id by (unfold int64_ok; lia). lia.
Qed.

Lemma shift_path l : Forall P l -> forall st off, Z.abs off + Z.of_nat (length l) * (hi - lo) <= Z.of_nat N * (hi - lo) ->
  path_start (st + d) off (map M l) = path_start st off l + d.
Proof.
  pose proof lo_pos as (_ & _ & Hlh). induction 1 as [|s l Hs _ IH]; intros st off Ho; [done|]. cbn [map path_start length] in *.
  destruct (shift_own s off Hs) as (E1 & E2 & E3). { pose proof (Z.mul_nonneg_nonneg (Z.of_nat (S (length l))) (hi - lo)). lia. }
  destruct (shift_skew s Hs) as [S1 S2]. rewrite S1, E1 in *. rewrite !decide_False by done. apply IH.
  rewrite Nat2Z.inj_succ in Ho. rewrite Z.mul_succ_l in Ho. lia.
Qed.

Lemma correct_skel fuel : forall mem mem' node parent off off', skel mem = skel mem' ->
  match correct fuel mem node parent off, correct fuel mem' node parent off' with
  | Some (m, s), Some (m', s') => skel m = skel m' /\ s = s'
  | None, None => True
  | _, _ => False
  end.
Proof.
  assert (Hn : forall s p o, s_id (correct_node s p o).1 = s_id s /\ s_parent (correct_node s p o).1 = s_parent s).
  { intros s p o. unfold correct_node. destruct (o =? 0), p, (has_timings _); cbn; try destruct (_ <? _); done. }
  induction fuel as [|fuel IH]; intros mem mem' node parent off off' E; [done|]. rewrite !TagHeapProofs.correct_S.
  destruct (mem !! node) as [s|] eqn:Es.
  2: { destruct (mem' !! node) as [s'|] eqn:Es'; [|done]. apply (skel_lookup mem' mem) in Es' as (x & Hx & _); [|done]. congruence. }
  destruct (skel_lookup mem mem' node s E Es) as (s' & Es' & H1 & H2). rewrite Es'.
  pose proof (Hn s (parent ≫= fun p => mem !! p) off) as [N1 N2]. pose proof (Hn s' (parent ≫= fun p => mem' !! p) off') as [N1' N2'].
  destruct (correct_node s _ off) as [t o], (correct_node s' _ off') as [t' o']. cbn [fst] in *.
  assert (Ei : skel (<[node := t]> mem) = skel (<[node := t']> mem')).
  { rewrite (skel_insert node s), (skel_insert node s') by done. done. }
  rewrite N1, N1', H1, (children_skel _ _ _ Ei). generalize (children_of (s_id s) (<[node:=t']> mem')) as cs. revert Ei. generalize (<[node:=t]> mem) as a, (<[node:=t']> mem') as b. generalize [node] as seen.
  clear -IH. intros seen a b Ei cs. revert a b Ei seen. induction cs as [|x cs IHc]; intros a b Ei seen; [by cbn|]. rewrite !TagHeapProofs.correct_children_cons.
  pose proof (IH a b x (Some node) o o' Ei) as H. destruct (correct fuel a x _ o) as [[a2 s2]|], (correct fuel b x _ o') as [[b2 s2']|]; try done.
  destruct H as [H ->]. by apply IHc.
Qed.

Lemma shift_descends l p q : descends l p q -> descends (map M l) (M p) (map M q).
Proof.
  revert p. induction q as [|x q IH]; intros p; [done|]. cbn [map descends]. intros [(H1 & H2 & H3) Hq]. split; [|by apply IH].
  split; [by apply elem_of_list_fmap_1|done].
Qed.
Lemma descends_all l p q : descends l p q -> Forall (fun x => x ∈ l) q.
Proof. revert p. induction q as [|x q IH]; intros p; [constructor|]. cbn [descends]. intros [(H1 & _) Hq]. constructor; [done|]. by eapply IH. Qed.
Lemma shift_last l p : List.last (map M l) (M p) = M (List.last l p).
Proof. revert p. induction l as [|x l IH]; intros p; [done|]. cbn [map]. rewrite !last_cons. apply IH. Qed.

Lemma shift_correct l r : NoDup (ids l) -> Forall P l -> (length l <= N)%nat -> roots l = [r] ->
  correct (length l) (map M l) r None 0 = (fun p => (map M p.1, p.2)) <$> correct (length l) l r None 0.
Proof.
  intros Hnd HP HN Hr. destruct (one_root l r Hr) as (root & Hroot & Hc & _).
  assert (Hnd' : NoDup (ids (map M l))) by (unfold ids; by rewrite map_map).
  assert (Hroot' : map M l !! r = Some (M root)) by (by rewrite moved_lookup, Hroot).
  assert (Hc' : root_candidate (map M l) (M root)).
  { destruct Hc as [_ Hc]. split; [by eapply elem_of_list_lookup_2|]. unfold ids. rewrite map_map. exact Hc. }
  pose proof lo_pos as (Hl1 & Hl2 & Hl3). pose proof hi_small as [Hh1 Hh2].
  assert (Hok : Forall (fun s => int64_ok (s_ts s)) l).
  { eapply Forall_impl; [exact HP|]. intros s (A1 & A2 & A3 & _). unfold int64_ok. lia. }
  assert (Hok' : Forall (fun s => int64_ok (s_ts s)) (map M l)).
  { apply Forall_fmap. eapply Forall_impl; [exact HP|]. intros s (A1 & A2 & A3 & _). unfold int64_ok. cbn [moved s_ts compose]. lia. }
  destruct (correct_spec l root Hnd Hc Hok (length l) [] r root l None None 0) as (m & seen & E & Hsk & Hout & Hin & _ & Hs); try done.
  destruct (correct_spec (map M l) (M root) Hnd' Hc' Hok' (length l) [] r (M root) (map M l) None None 0) as (m' & seen' & E' & Hsk' & Hout' & Hin' & _ & Hs'); try done.
  { rewrite map_length. cbn. lia. }
  change (wrap64 0) with 0 in *. pose proof (correct_skel (length l) l (map M l) r None 0 0 (eq_sym (moved_skel d l))) as Hk. rewrite E, E' in *. destruct Hk as [_ <-].
  cbn [fmap option_fmap option_map fst snd]. f_equal. f_equal. apply list_eq. intros i. rewrite moved_lookup.
  destruct (decide (i ∈ seen)) as [Hi|Hi].
  - apply Hs in Hi as (q & Hq & Hqi). rewrite (Hin q i) by done. cbn [fmap option_fmap option_map].
    rewrite (Hin' (map M q) i). 2: { split; [by apply shift_descends|]. by rewrite moved_lookup, Hqi, shift_last. }
    f_equal. unfold final. cbn [node_start]. rewrite shift_last.
    assert (Pr : P root) by (rewrite Forall_forall in HP; by eapply HP, elem_of_list_lookup_2).
    assert (Pl : P (List.last q root)) by (rewrite Forall_forall in HP; by eapply HP, elem_of_list_lookup_2).
    assert (Pq : Forall P q) by (eapply Forall_impl; [by eapply descends_all|]; cbn; intros; rewrite Forall_forall in HP; by apply HP).
    rewrite (shift_duration _ Pl). destruct (shift_skew root Pr) as [S1 S2]. rewrite S1.
    destruct (shift_own root 0 Pr) as [O1 _]. { pose proof (Z.mul_nonneg_nonneg (Z.of_nat N) (hi - lo)). lia. }
    rewrite O1, shift_path; [done|done|]. pose proof (path_short l root Hnd Hc q Hq) as Hsh.
    assert (Z.of_nat (S (length q)) * (hi - lo) <= Z.of_nat N * (hi - lo)) by (apply Z.mul_le_mono_nonneg_r; lia). rewrite Nat2Z.inj_succ, Z.mul_succ_l in H. lia.
  - rewrite Hout, Hout'; [by rewrite moved_lookup| |]; intros q Hq; apply Hi; [apply Hs'|apply Hs]; by exists q.
Qed.
End shift.

Lemma shift_run c d lo hi evs evs' : roomy (S (length evs)) lo hi -> roomy (S (length evs)) (lo + d) (hi + d) ->
  Forall2 (moved_event c d) evs evs' -> Forall valid_event evs -> Forall (event_between lo hi) evs -> (run evs').2 = map (moved_entry c d) (run evs).2.
Proof.
  intros R1 R2 H Hv HP. apply (moved_run c d (between lo hi) (S (length evs))); try done.
  - by apply (shift_merge d lo hi (S (length evs))).
  - by apply (shift_fake d lo hi (S (length evs))).
  - by apply (shift_correct d lo hi (S (length evs))).
Qed.
