(** Proofs for C62. *)
From Verif Require Import Base SpanModel TreeModel TreeSpec TreeProofs RootProofs FinishModel FinishSpec FinishProofs FinishRun FinishTheorems MetricsModel MetricsSpec.

(* ---------- lists ---------- *)

Lemma collect_from_app {A} (f : list entry -> entry -> list A) l1 : forall pre l2,
  collect_from f pre (l1 ++ l2) = collect_from f pre l1 ++ collect_from f (pre ++ l1) l2.
Proof.
  induction l1 as [|e l1 IH]; intros pre l2; cbn [app collect_from]; [by rewrite app_nil_r|].
  rewrite IH, <- !app_assoc. done.
Qed.
Lemma collect_snoc {A} (f : list entry -> entry -> list A) log e : collect f (log ++ [e]) = collect f log ++ f log e.
Proof. unfold collect. rewrite collect_from_app. cbn [collect_from app]. by rewrite app_nil_r. Qed.

Lemma addup_app l l' : addup (l ++ l') = addup l + addup l'.
Proof. unfold addup. induction l as [|x l IH]; cbn [app foldr]; lia. Qed.
Lemma marks_app m l l' : marks m (l ++ l') = marks m l + marks m l'.
Proof. unfold marks. by rewrite map_app, concat_app, addup_app. Qed.
Lemma marks_nil m : marks m [] = 0.
Proof. done. Qed.
Lemma size_updates_app l l' : size_updates (l ++ l') = size_updates l ++ size_updates l'.
Proof. unfold size_updates. by rewrite map_app, concat_app. Qed.

(** What is told to meter [m], and what it should count. *)
Definition agree (m : meter) (log : list entry) (ops : list mop) : Prop := marks m ops = addup (collect (counts m) log).

(* ---------- one span ---------- *)

Lemma add_ops_spec new t : descending (ids (t_spans t)) ->
  add_ops new t = if decide (s_id new ∈ ids (t_spans t)) then [Mark MMerged 1] else [].
Proof.
  intros Hd. unfold add_ops. pose proof (get_span_ref_iff (s_id new) (t_spans t) Hd) as H.
  destruct (get_span_ref (s_id new) (t_spans t)) as [i|], (decide _) as [Hin|Hin]; try done.
  - exfalso. apply Hin, H. eauto.
  - apply H in Hin. by destruct Hin.
Qed.

Lemma receive_ops_spec n0 n1 s st log m : inv st log -> marks m (receive_ops s st) = addup (counts m log (LSpan n0 n1 s)).
Proof.
  intros [Hb Ht]. unfold receive_ops.
  destruct (Z.eqb_spec (s_trace s) 0) as [E0|E0]; cbn [orb].
  { destruct m; cbn [counts]; try done; (rewrite decide_False; [done|intros (? & ? & _); done]). }
  destruct (Z.eqb_spec (s_id s) 0) as [E1|E1]; cbn [orb].
  { destruct m; cbn [counts]; try done; (rewrite decide_False; [done|intros (? & ? & _); done]). }
  specialize (Hb (s_trace s)). specialize (Ht (s_trace s)). unfold blacklisted in Hb.
  destruct (bool_decide _) eqn:Eb.
  { apply bool_decide_eq_true in Eb. apply Hb in Eb. destruct m; cbn [counts]; try done.
    - rewrite decide_False; [done|]. rewrite Eb. by intros (_ & _ & ? & _).
    - by rewrite decide_True. }
  apply bool_decide_eq_false in Eb. rewrite Hb in Eb. apply not_true_is_false in Eb.
  set (t := match f_traces st !! s_trace s with Some t => t | None => _ end).
  assert (descending (ids (t_spans t)) /\ (s_id s ∈ ids (t_spans t) <-> s_id s ∈ pending_ids log (s_trace s))) as [Hd Hin].
  { unfold t. rewrite Ht. destruct (tree_at _ _) as [tr|] eqn:E.
    - apply tree_at_fields in E as (_ & Es & _ & _ & _ & Hd & _). split; [done|]. rewrite Es. apply merged_ids.
    - split; [constructor|]. unfold tree_at in E. unfold pending_ids. destruct (pending log (s_trace s)) as [|[[? ?] ?] ?]; [done|done]. }
  rewrite (add_ops_spec s t Hd). destruct m; cbn [counts]; try by destruct (decide _).
  - destruct (decide (s_id s ∈ ids _)) as [H|H].
    + rewrite decide_True; [done|]. split; [done|]. split; [done|]. split; [done|]. by apply Hin.
    + rewrite decide_False; [done|]. intros (_ & _ & _ & H'). by apply H, Hin.
  - rewrite (decide_False (P := _ /\ _ /\ _)); [by destruct (decide _)|]. rewrite Eb. intros (_ & _ & ?). done.
Qed.

Lemma receive_ops_sizes s st : size_updates (receive_ops s st) = [].
Proof.
  unfold receive_ops, add_ops. destruct (_ || _); [done|]. destruct (bool_decide _); [done|]. by destruct (get_span_ref _ _).
Qed.

(* ---------- one trace ---------- *)

Lemma find_roots_ops_spec t : descending (ids (t_spans t)) -> find_roots_ops t = [].
Proof.
  intros Hd. unfold find_roots_ops. change (omap _ _) with (candidates (t_spans t)).
  pose proof (descending_NoDup _ Hd) as Hn. pose proof (candidates_length (t_spans t)) as Hl.
  destruct (candidates (t_spans t)) as [|s0 [|s1 rest]] eqn:Ec; [done|done|].
  destruct (all_the_same_parent s0 (s1 :: rest)) eqn:Ea; [|done]. rewrite (add_ops_spec _ _ Hd), decide_False; [done|].
  replace (s_id (create_fake_root s0 (s1 :: rest))) with (s_parent s0) by (unfold create_fake_root; by destruct (foldl _ _ _)).
  apply shared_parent_absent; [done| |].
  - rewrite <- Hl. cbn. lia.
  - intros s Hs. apply (proj1 (all_same_spec s0 (s1 :: rest)) Ea). rewrite <- Ec. by apply elem_of_candidates.
Qed.

Lemma agree_step m log ops e ops' : agree m log ops -> marks m ops' = addup (counts m log e) -> agree m (log ++ [e]) (ops ++ ops').
Proof. unfold agree. intros H H'. by rewrite collect_snoc, addup_app, marks_app, H, H'. Qed.

Lemma finish_one_ops_spec k n1 n2 load st log0 log id tr m ops ops' :
  let du := n1 - patience load in let ds := n2 - 5 * patience load in
  map_order (k_ord k) -> inv st (log0 ++ log) -> good (log0 ++ log) -> last_tick (log0 ++ log) n1 n2 load -> f_traces st !! id = Some tr ->
  agree m (log0 ++ log) ops -> collect sizes (log0 ++ log) = size_updates ops' ->
  let log' := log ++ verdict k du ds (id, tr) in
  agree m (log0 ++ log') (ops ++ finish_one_ops k du ds (id, tr)) /\
  collect sizes (log0 ++ log') = size_updates (ops' ++ finish_one_ops k du ds (id, tr)).
Proof.
  intros du ds Ho Hi Hg Hl Hid Ha Hs log'.
  destruct (finish_one_spec k n1 n2 load st log0 log id tr Ho Hi Hg Hl Hid) as (st' & log1 & E & _ & Hg' & _).
  pose proof (finish_one_verdict k du ds st log (id, tr)) as V. fold du ds in E. rewrite E in V. cbn [snd] in V. rewrite V in Hg'. clear E V.
  destruct Hi as [_ Ht]. rewrite Ht in Hid. apply tree_at_fields in Hid as (_ & _ & Ec & _ & _ & Hd & _).
  rewrite size_updates_app. unfold log', verdict, finish_one_ops in *. fold (kept du ds tr). destruct (kept du ds tr).
  { rewrite !app_nil_r. split; [done|]. cbn. by rewrite ?app_nil_r. }
  rewrite (find_roots_ops_spec tr Hd). cbn [app] in *.
  assert (Hone : forall o rest, o <> Overload ->
    marks m rest = addup (counts m (log0 ++ log) (LOut id o)) -> size_updates rest = [] ->
    agree m (log0 ++ log ++ [LOut id o]) (ops ++ Size (t_count tr) :: rest) /\
    collect sizes (log0 ++ log ++ [LOut id o]) = size_updates ops' ++ size_updates (Size (t_count tr) :: rest)).
  { intros o rest Ho' Hm Hr. rewrite app_assoc. split.
    - apply agree_step; [done|]. rewrite <- Hm. done.
    - rewrite collect_snoc, Hs. f_equal. unfold size_updates in *. cbn [map concat app]. rewrite Hr, Ec. destruct o; done. }
  destruct (too_large tr); [by apply Hone; [|destruct m|]|]. destruct (t_started tr <? ds); [by apply Hone; [|destruct m|]|].
  destruct (find_roots (k_ord k) (k_fake k id) tr) as [tr' [|r [|r' rs]]]; cbn [snd]; [by apply Hone; [|destruct m|]| |by apply Hone; [|destruct m|]].
  destruct (correct _ _ _ _ _) as [[spans ?]|].
  - apply Hone; [done| |done]. by destruct m.
  - exfalso. rewrite app_assoc in Hg'. apply good_snoc in Hg' as [_ [_ (? & ? & ? & _ & [])]].
Qed.

Lemma finish_loop_ops k n1 n2 load log0 m l : forall st log ops ops',
  let du := n1 - patience load in let ds := n2 - 5 * patience load in
  map_order (k_ord k) -> inv st (log0 ++ log) -> good (log0 ++ log) -> last_tick (log0 ++ log) n1 n2 load -> NoDup l.*1 ->
  (forall id tr, (id, tr) ∈ l -> f_traces st !! id = Some tr) ->
  agree m (log0 ++ log) ops -> collect sizes (log0 ++ log) = size_updates ops' ->
  let log' := (foldl (finish_one k du ds) (st, log) l).2 in
  agree m (log0 ++ log') (ops ++ concat (map (finish_one_ops k du ds) l)) /\
  collect sizes (log0 ++ log') = size_updates (ops' ++ concat (map (finish_one_ops k du ds) l)).
Proof.
  induction l as [|[id tr] l IH]; intros st log ops ops' du ds Ho Hi Hg Hl Hn Hin Ha Hs log'.
  - unfold log'. cbn [foldl map concat snd]. by rewrite !app_nil_r.
  - unfold log'. cbn [foldl map concat]. assert (Hid : f_traces st !! id = Some tr) by (apply Hin, elem_of_list_here).
    destruct (finish_one_spec k n1 n2 load st log0 log id tr) as (st1 & log1 & E & Hi1 & Hg1 & Hl1 & Et); try done.
    pose proof (finish_one_verdict k du ds st log (id, tr)) as V. fold du ds in E, Et. rewrite E in V. cbn [snd] in V.
    destruct (finish_one_ops_spec k n1 n2 load st log0 log id tr m ops ops' Ho Hi Hg Hl Hid Ha Hs) as [Ha1 Hs1]. fold du ds in Ha1, Hs1. rewrite <- V in Ha1, Hs1.
    rewrite E, !(app_assoc _ _ (concat _)). cbn [fmap list_fmap fst] in Hn. apply NoDup_cons in Hn as [Hnid Hn].
    apply IH; try done. intros id' tr' Hin'. rewrite Et.
    assert (id' <> id) by (intros ->; apply Hnid; apply elem_of_list_fmap; by exists (id, tr')).
    assert (f_traces st !! id' = Some tr') by (by apply Hin, elem_of_list_further). destruct (kept du ds tr); [done|]. by rewrite lookup_delete_ne.
Qed.

(* ---------- discarding ---------- *)

Lemma discard_loop_ops log0 black m l : forall n traces log acc,
  m <> MTracesLost -> inv (FState traces black) (log0 ++ log) -> NoDup l.*1 -> (forall id tr, (id, tr) ∈ l -> traces !! id = Some tr) ->
  let '(traces', log') := discard_loop l n traces log in
  addup (collect (counts m) (log0 ++ log')) =
    addup (collect (counts m) (log0 ++ log)) + (if decide (m = MSpansLost) then discard_count l n acc - acc else 0) /\
  collect sizes (log0 ++ log') = collect sizes (log0 ++ log) /\
  (size traces + length log = size traces' + length log')%nat.
Proof.
  induction l as [|[id tr] l IH]; intros n traces log acc Hm Hi Hn Hin; cbn [discard_loop discard_count].
  { split; [destruct (decide _); lia|done]. }
  destruct (n <? maxSpans). { split; [destruct (decide _); lia|done]. }
  cbn [fmap list_fmap fst] in Hn. apply NoDup_cons in Hn as [Hid Hn].
  assert (Hid' : traces !! id = Some tr) by apply Hin, elem_of_list_here.
  assert (Hc : t_count tr = counted id (pending (log0 ++ log) id)).
  { destruct Hi as [_ Ht]. specialize (Ht id). cbn [f_traces] in Ht. rewrite Hid' in Ht. symmetry in Ht. apply tree_at_fields in Ht as (_ & _ & Ec & _). done. }
  specialize (IH (n - t_count tr) (delete id traces) (log ++ [LOut id Overload]) (acc + t_count tr) Hm).
  destruct (discard_loop _ _ _ _) as [traces' log']. destruct IH as (A & B & C).
  - rewrite app_assoc. apply (inv_out (FState traces black) _ id Overload Hi).
  - done.
  - intros id' tr' Hin'. assert (id' <> id) by (intros ->; apply Hid; apply elem_of_list_fmap; by exists (id, tr')).
    rewrite lookup_delete_ne by done. by apply Hin, elem_of_list_further.
  - rewrite app_assoc, collect_snoc, addup_app in A. rewrite app_assoc, collect_snoc in B. rewrite A, B. split; [|split].
    + destruct (decide (m = MSpansLost)) as [->|Hms].
      * unfold addup. cbn [counts foldr]. rewrite <- Hc. lia.
      * destruct m; cbn [counts]; unfold addup; cbn [foldr]; try done; lia.
    + cbn [sizes]. by rewrite app_nil_r.
    + rewrite app_length in C. cbn [length] in C. rewrite map_size_delete_Some in C by eauto.
      assert (size traces <> 0%nat); [|lia]. intros Hz. apply map_size_empty_inv in Hz. by rewrite Hz, lookup_empty in Hid'.
Qed.

Lemma collect_evicts log0 m y : addup (collect (counts m) (log0 ++ map LEvict y)) = addup (collect (counts m) log0) /\ collect sizes (log0 ++ map LEvict y) = collect sizes log0.
Proof.
  induction y as [|t y IH] using rev_ind; [cbn [map]; by rewrite app_nil_r|].
  rewrite map_app, app_assoc. cbn [map]. rewrite !collect_snoc, addup_app. destruct IH as [-> ->]. cbn [sizes]. rewrite app_nil_r. split; [|done]. destruct m; cbn; lia.
Qed.

(* ---------- a tick ---------- *)


Lemma gauges_app l l' : gauges (l ++ l') = foldl (fun acc o => match o with
    | Spans n => Some (n, default 0 (snd <$> acc)) | Traces n => Some (default 0 (fst <$> acc), n) | _ => acc end) (gauges l) l'.
Proof. unfold gauges. by rewrite foldl_app. Qed.
Lemma gauges_skip l x : (forall n, Spans n ∉ x) -> (forall n, Traces n ∉ x) -> gauges (l ++ x) = gauges l.
Proof.
  intros H1 H2. induction x as [|o x IH] using rev_ind; [by rewrite app_nil_r|]. rewrite app_assoc, gauges_app. cbn [foldl]. rewrite IH.
  - destruct o as [| |n|n]; try done; exfalso; [apply (H1 n)|apply (H2 n)]; apply elem_of_app; right; apply elem_of_list_here.
  - intros n Hn. apply (H1 n), elem_of_app. by left.
  - intros n Hn. apply (H2 n), elem_of_app. by left.
Qed.

Lemma discard_ops_spec k log0 black traces log m : valid_tick k -> m <> MTracesLost -> inv (FState traces black) (log0 ++ log) ->
  let '(traces', log') := discard k traces in
  addup (collect (counts m) (log0 ++ log ++ log')) = addup (collect (counts m) (log0 ++ log)) + marks m (discard_ops k traces) /\
  collect sizes (log0 ++ log ++ log') = collect sizes (log0 ++ log) /\
  (size traces = size traces' + length log')%nat.
Proof.
  intros (_ & Hr & _ & Hs) Hm Hi. unfold discard, discard_ops. destruct (_ <? maxSpans).
  { rewrite app_nil_r. split; [by rewrite marks_nil, Z.add_0_r|]. cbn. split; [done|lia]. }
  destruct (Hs (k_range k 2 traces)) as [Hp _].
  assert (Hp' : k_sort k (k_range k 2 traces) ≡ₚ map_to_list traces) by (by rewrite Hp).
  pose proof (discard_loop_ops (log0 ++ log) black m (k_sort k (k_range k 2 traces)) (foldl (λ (n : Z) (p : Z * tree), n + t_count p.2) 0 (k_range k 2 traces)) traces [] 0 Hm) as H.
  rewrite app_nil_r in H. destruct (discard_loop _ _ _ _) as [traces' log']. rewrite <- !app_assoc in H. destruct H as (A & B & C).
  - done.
  - rewrite Hp'. apply NoDup_fst_map_to_list.
  - intros id tr Hin. rewrite Hp' in Hin. by apply elem_of_map_to_list.
  - split; [|split; [done|cbn [length] in C; lia]]. rewrite A. f_equal. unfold marks. cbn [map concat app].
    destruct (decide (m = MSpansLost)) as [->|Hms].
    + rewrite decide_True by done. rewrite decide_False by done. unfold addup. cbn [app foldr]. lia.
    + rewrite !decide_False by done. done.
Qed.

Lemma discard_ops_lost k traces : marks MTracesLost (discard_ops k traces) = marks MSpansLost (discard_ops k traces).
Proof. unfold discard_ops. destruct (_ <? _); [done|]. cbv zeta. generalize (discard_count (k_sort k (k_range k 2 traces)) (foldl (fun n (p : Z * tree) => n + t_count p.2) 0 (k_range k 2 traces)) 0). intros n. reflexivity. Qed.

Lemma finish_ops_kind k du ds p : (forall n, Spans n ∉ finish_one_ops k du ds p) /\ (forall n, Traces n ∉ finish_one_ops k du ds p) /\
  marks MTracesLost (finish_one_ops k du ds p) = 0 /\ marks MSpansLost (finish_one_ops k du ds p) = 0.
Proof.
  assert (Hf : forall t, find_roots_ops t = [] \/ find_roots_ops t = [Mark MMerged 1]).
  { intros t. unfold find_roots_ops, add_ops. destruct (omap _ _) as [|? [|? ?]]; [by left|by left|]. destruct (all_the_same_parent _ _); [|by left]. destruct (get_span_ref _ _); [by right|by left]. }
  destruct p as [id t]. unfold finish_one_ops. destruct (_ && _ && _); [split; [|split; [|done]]; intros n Hn; by apply elem_of_nil in Hn|].
  assert (HE : exists a b, a = Size (t_count t) /\ (b = [Mark MTooLarge 1] \/ b = [Mark MTooOld 1] \/ b = [Mark MCorrected 1; Mark MFinished 1] \/ b = [Mark MNoRoot 1] \/
     b = [Mark MMerged 1; Mark MCorrected 1; Mark MFinished 1] \/ b = [Mark MMerged 1; Mark MNoRoot 1]) /\
     (Size (t_count t) :: (if too_large t then [Mark MTooLarge 1] else if t_started t <? ds then [Mark MTooOld 1] else find_roots_ops t ++
       match (find_roots (k_ord k) (k_fake k id) t).2 with [_] => [Mark MCorrected 1; Mark MFinished 1] | _ => [Mark MNoRoot 1] end)) = a :: b).
  { eexists _, _. split; [done|]. split; [|done]. destruct (too_large t); [tauto|]. destruct (_ <? _); [tauto|]. destruct (Hf t) as [-> | ->]; destruct (find_roots _ _ _).2 as [|? [|? ?]]; cbn [app]; tauto. }
  destruct HE as (a & b & Ea & Hb & ->). rewrite Ea.
  split; [|split].
  - intros n Hn. repeat destruct Hb as [Hb|Hb]; subst b; repeat (apply elem_of_cons in Hn as [Hn|Hn]; [done|]); by apply elem_of_nil in Hn.
  - intros n Hn. repeat destruct Hb as [Hb|Hb]; subst b; repeat (apply elem_of_cons in Hn as [Hn|Hn]; [done|]); by apply elem_of_nil in Hn.
  - repeat destruct Hb as [Hb|Hb]; subst b; done.
Qed.

Lemma loop_ops_kind k du ds l : (forall n, Spans n ∉ concat (map (finish_one_ops k du ds) l)) /\ (forall n, Traces n ∉ concat (map (finish_one_ops k du ds) l)) /\
  marks MTracesLost (concat (map (finish_one_ops k du ds) l)) = 0 /\ marks MSpansLost (concat (map (finish_one_ops k du ds) l)) = 0.
Proof.
  induction l as [|p l (A & B & C & D)]; [split; [|split; [|done]]; intros n Hn; by apply elem_of_nil in Hn|].
  destruct (finish_ops_kind k du ds p) as (A' & B' & C' & D'). cbn [map concat]. rewrite !marks_app. split; [|split; [|lia]]; intros n [Hn|Hn]%elem_of_app.
  - by apply (A' n). - by apply (A n). - by apply (B' n). - by apply (B n).
Qed.

Lemma finish_ops_lost k st : marks MTracesLost (finish_traces_ops k st) = marks MSpansLost (finish_traces_ops k st).
Proof.
  unfold finish_traces_ops. destruct (foldl _ _ _) as [st' ?]. rewrite !marks_app.
  destruct (loop_ops_kind k (k_now1 k - buffer_time (count_spans (k_range k 0 (f_traces st)))) (k_now2 k - 5 * buffer_time (count_spans (k_range k 0 (f_traces st)))) (k_range k 1 (f_traces st))) as (_ & _ & -> & ->).
  f_equal. destruct (_ <? _); [|done]. by rewrite discard_ops_lost.
Qed.

Lemma verdict_lost_none k du ds l pre : lost (pre ++ concat (map (verdict k du ds) l)) = lost pre.
Proof.
  revert pre. induction l as [|p l IH]; intros pre; cbn [map concat]; [by rewrite app_nil_r|].
  rewrite app_assoc, IH. unfold verdict. destruct p as [id t]. unfold lost.
  destruct (kept du ds t); [by rewrite app_nil_r|]. destruct (too_large t); [by rewrite collect_snoc, addup_app, Z.add_0_r|].
  destruct (_ <? _); [by rewrite collect_snoc, addup_app, Z.add_0_r|]. destruct (find_roots _ _ _) as [tr' [|r [|r' rs]]]; [by rewrite collect_snoc, addup_app, Z.add_0_r| |by rewrite collect_snoc, addup_app, Z.add_0_r].
  destruct (correct _ _ _ _ _) as [[? ?]|]; by rewrite collect_snoc, addup_app, Z.add_0_r.
Qed.

Lemma lost_overloads pre (x : list (Z * tree)) : lost (pre ++ map (fun p => LOut p.1 Overload) x) = lost pre + Z.of_nat (length x).
Proof.
  revert pre. induction x as [|p x IH]; intros pre; cbn [map length]; [rewrite app_nil_r; lia|].
  change (LOut p.1 Overload :: ?l) with ([LOut p.1 Overload] ++ l). rewrite app_assoc, IH. unfold lost. rewrite collect_snoc, addup_app. change (addup (counts MTracesLost pre (LOut p.1 Overload))) with 1. lia.
Qed.

Lemma finish_ops_spec k st log0 m ops : valid_tick k -> inv st log0 -> good log0 -> m <> MTracesLost -> agree m log0 ops -> collect sizes log0 = size_updates ops ->
  exists st' log load, finish_traces k st = (st', log) /\
    agree m (log0 ++ log) (ops ++ finish_traces_ops k st) /\ collect sizes (log0 ++ log) = size_updates (ops ++ finish_traces_ops k st) /\
    load = sum (fun t => small (counted t (pending log0 t))) (map_to_list (f_traces st)).*1 /\
    gauges (ops ++ finish_traces_ops k st) = Some (load, Z.of_nat (size (f_traces st')) + (lost (log0 ++ log) - lost log0)).
Proof.
  intros Hk Hi Hg Hm Ha Hsz. assert (Hk' := Hk). destruct Hk' as (Ho & Hr & Hrb & Hs). unfold finish_traces, finish_traces_ops.
  rewrite (count_spans_spec st log0 _ Hi (Hr 0%nat (f_traces st))).
  set (load := sum _ _). rewrite buffer_time_spec. set (n1 := k_now1 k). set (n2 := k_now2 k).
  assert (Hpre : inv st (log0 ++ [LTick n1 n2 load]) /\ good (log0 ++ [LTick n1 n2 load]) /\ last_tick (log0 ++ [LTick n1 n2 load]) n1 n2 load /\
    NoDup (k_range k 1 (f_traces st)).*1 /\ (forall id tr, (id, tr) ∈ k_range k 1 (f_traces st) -> f_traces st !! id = Some tr) /\
    agree m (log0 ++ [LTick n1 n2 load]) ops /\ collect sizes (log0 ++ [LTick n1 n2 load]) = size_updates ops).
  { split; [|split; [|split; [|split; [|split; [|split]]]]].
    - apply inv_other; [done|]. intros t. cbn. by destruct (status log0 t).
    - apply good_snoc. split; [done|]. exists (map_to_list (f_traces st)).*1. split; [by apply waiting_of|done].
    - exists log0, []. split; [done|]. intros a b c H. by apply elem_of_nil in H.
    - rewrite Hr. apply NoDup_fst_map_to_list.
    - intros id tr Hin. rewrite Hr in Hin. by apply elem_of_map_to_list.
    - unfold agree in *. rewrite collect_snoc, addup_app, Ha. destruct m; cbn [counts addup foldr]; by rewrite Z.add_0_r.
    - rewrite collect_snoc, Hsz. cbn [sizes]. by rewrite app_nil_r. }
  destruct Hpre as (P1 & P2 & P3 & P4 & P5 & P6 & P7).
  destruct (finish_loop k n1 n2 load log0 (k_range k 1 (f_traces st)) st [LTick n1 n2 load] Ho P1 P2 P3 P4 P5) as (st1 & log1 & E & Hi1 & Hg1 & Hl1 & _).
  destruct (finish_loop_ops k n1 n2 load log0 m (k_range k 1 (f_traces st)) st [LTick n1 n2 load] ops ops Ho P1 P2 P3 P4 P5 P6 P7) as [Ha1 Hs1].
  pose proof (finish_loop_verdict k (n1 - patience load) (n2 - 5 * patience load) (k_range k 1 (f_traces st)) st [LTick n1 n2 load]) as V.
  rewrite E in Ha1, Hs1, V. cbn [snd] in Ha1, Hs1, V.
  assert (E' : (foldl (finish_one k (n1 - patience load) (n2 - 5 * patience load)) (st, []) (k_range k 1 (f_traces st))).1 = st1).
  { assert (HH : forall l s a b, (foldl (finish_one k (n1 - patience load) (n2 - 5 * patience load)) (s, a) l).1 = (foldl (finish_one k (n1 - patience load) (n2 - 5 * patience load)) (s, b) l).1).
    { intros l. induction l as [|p l IH]; intros s a b; [done|]. cbn [foldl].
      assert (exists s' a' b', finish_one k (n1 - patience load) (n2 - 5 * patience load) (s, a) p = (s', a') /\ finish_one k (n1 - patience load) (n2 - 5 * patience load) (s, b) p = (s', b')) as (s' & a' & b' & -> & ->); [|apply IH].
      unfold finish_one. destruct p as [id t]. repeat (match goal with |- context [if ?c then _ else _] => destruct c end; [by eauto 10|]).
      destruct (find_roots _ _ _) as [? [|? [|? ?]]]; try by eauto 10. destruct (correct _ _ _ _ _) as [[? ?]|]; by eauto 10. }
    rewrite (HH _ _ _ [LTick n1 n2 load]), E. done. }
  rewrite E. destruct (foldl (finish_one k (n1 - patience load) (n2 - 5 * patience load)) (st, []) (k_range k 1 (f_traces st))) as [st1' ?]. cbn [fst] in E'. subst st1'.
  set (L := concat (map (finish_one_ops k (n1 - patience load) (n2 - 5 * patience load)) (k_range k 1 (f_traces st)))) in *.
  assert (Hd : exists traces logd, (if maxSpans <? load then discard k (f_traces st1) else (f_traces st1, [])) = (traces, logd) /\
    addup (collect (counts m) (log0 ++ log1 ++ logd)) = addup (collect (counts m) (log0 ++ log1)) + marks m (if maxSpans <? load then discard_ops k (f_traces st1) else []) /\
    collect sizes (log0 ++ log1 ++ logd) = collect sizes (log0 ++ log1) /\ (size (f_traces st1) = size traces + length logd)%nat /\
    exists x : list (Z * tree), logd = map (fun p => LOut p.1 Overload) x).
  { destruct (maxSpans <? load).
    - pose proof (discard_ops_spec k log0 (f_black st1) (f_traces st1) log1 m Hk Hm) as H'. pose proof (discard_log k (f_traces st1)) as Hdl. destruct (discard k (f_traces st1)) as [traces logd].
      exists traces, logd. split; [done|]. destruct H' as (A & B & C); [by destruct st1|]. done.
    - exists (f_traces st1), []. rewrite app_nil_r. split; [done|]. split; [by rewrite marks_nil, Z.add_0_r|]. split; [done|]. split; [cbn; lia|]. by exists []. }
  destruct Hd as (traces & logd & -> & Hc & Hsd & Hn & x & Hx).
  pose proof (evict_log (k_range_black k (f_black st1)) (f_black st1) []) as Hev.
  destruct (evict _ _ _) as [black loge]. cbn [snd app] in Hev. destruct Hev as [y Hy].
  eexists _, _, load. split; [reflexivity|]. cbn [f_traces].
  destruct (collect_evicts (log0 ++ log1 ++ logd) m y) as [Ey Ey']. destruct (collect_evicts (log0 ++ log1 ++ logd) MTracesLost y) as [Ez _]. rewrite <- Hy in Ey, Ey', Ez. rewrite <- !app_assoc in Ey, Ey', Ez.
  split; [|split; [|split; [done|]]].
  - unfold agree in *. rewrite !marks_app in *. rewrite Ey, Hc, <- Ha1. change (marks m [Spans load; Traces (Z.of_nat (size (f_traces st1)))]) with 0. lia.
  - rewrite Ey', Hsd, Hs1, !size_updates_app. f_equal.
    assert (size_updates (if maxSpans <? load then discard_ops k (f_traces st1) else []) = []) as ->; [|by rewrite !app_nil_r].
    destruct (_ <? _); [|done]. unfold discard_ops. by destruct (_ <? _).
  - rewrite !app_assoc. rewrite gauges_skip.
    + rewrite gauges_app. cbn [foldl fmap option_fmap option_map default fst]. do 2 f_equal. fold (lost (log0 ++ log1 ++ logd ++ loge)) in Ez. unfold lost in Ez at 1. rewrite <- !app_assoc. unfold lost at 1. rewrite Ez.
      fold (lost (log0 ++ log1 ++ logd)). rewrite Hx, app_assoc, lost_overloads, V, app_assoc, verdict_lost_none. unfold lost at 1. rewrite collect_snoc, addup_app. cbn [counts]. fold (lost log0). rewrite Hn, Hx, map_length. unfold addup. cbn [foldr]. lia.
    + intros n H. destruct (_ <? _); [|by apply elem_of_nil in H]. unfold discard_ops in H. destruct (_ <? _); [by apply elem_of_nil in H|].
      repeat (apply elem_of_cons in H as [H|H]; [done|]). by apply elem_of_nil in H.
    + intros n H. destruct (_ <? _); [|by apply elem_of_nil in H]. unfold discard_ops in H. destruct (_ <? _); [by apply elem_of_nil in H|].
      repeat (apply elem_of_cons in H as [H|H]; [done|]). by apply elem_of_nil in H.
Qed.
