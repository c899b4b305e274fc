(** Proofs for C99: every function of the corrector commutes with masks. *)
From Verif Require Import Base IdModel SpanModel TreeModel TreeSpec TreeProofs FinishModel MaskSpec.
From Verif Require TagHeapProofs.

Lemma without_honest K : honest (without K).
Proof.
  split; [done|]. split; [done|]. split; [done|]. split; [done|]. cbn [m_tags without]. split; [apply map_filter_empty|].
  intros a b. apply map_eq. intros k. apply option_eq. intros v.
  rewrite map_filter_lookup_Some, !lookup_union_Some_raw, !map_filter_lookup_Some, map_filter_lookup_None. cbn. split.
  - intros [[H1|[H1 H2]] H]; [by left|]. right. split; [by left|done].
  - intros [[H1 H2]|[[H1|H1] [H2 H3]]]; [split; [by left|done]| |].
    + split; [right; done|done].
    + split; [|done]. destruct (a !! k) as [x|] eqn:E; [|by right]. exfalso. by apply (H1 x).
Qed.
Lemma faceless_honest : honest faceless.
Proof.
  split; [intros []; done|]. split; [intros []; done|]. split; [done|]. split; [done|]. split; [done|]. intros a b. cbn. by rewrite (left_id_L ∅ (∪)).
Qed.

Section mask.
Context (m : mask) (Hm : honest m).
Notation M := (masked m).

Lemma mask_name n : m_name m n = [] <-> n = []. Proof. apply Hm. Qed.
Lemma mask_service n : m_service m n = [] <-> n = []. Proof. apply Hm. Qed.

Lemma if_name {A} n (x y : A) : (if decide (m_name m n = []) then x else y) = (if decide (n = []) then x else y).
Proof. destruct (decide (n = [])) as [H|H]; [rewrite decide_True; [done|]|rewrite decide_False; [done|]]; by rewrite mask_name. Qed.
Lemma if_service {A} n (x y : A) : (if decide (m_service m n = []) then x else y) = (if decide (n = []) then x else y).
Proof. destruct (decide (n = [])) as [H|H]; [rewrite decide_True; [done|]|rewrite decide_False; [done|]]; by rewrite mask_service. Qed.

Lemma mask_first_name a b : m_name m (first_nonempty a b) = first_nonempty (m_name m a) (m_name m b).
Proof. unfold first_nonempty. rewrite if_name. by destruct (decide (a = [])). Qed.
Lemma mask_first_service a b : m_service m (first_nonempty a b) = first_nonempty (m_service m a) (m_service m b).
Proof. unfold first_nonempty. rewrite if_service. by destruct (decide (a = [])). Qed.

Lemma masked_merge ord ord' s new : map_order ord -> map_order ord' -> M (merge_spans ord s new) = merge_spans ord' (M s) (M new).
Proof.
  intros Ho Ho'. rewrite !merge_spec by done. destruct Hm as (_ & _ & _ & _ & _ & Hu). unfold merged.
  change (s_timings (M new)) with (s_timings new). change (s_timings (M s)) with (s_timings s).
  destruct (decide (from_server new)) as [H|H].
  - rewrite decide_True by exact H. unfold masked. cbn [s_id s_parent s_trace s_name s_service s_ts s_dur s_tags s_timings]. by rewrite mask_first_name, mask_first_service, Hu.
  - rewrite decide_False by exact H. unfold masked. cbn [s_id s_parent s_trace s_name s_service s_ts s_dur s_tags s_timings]. by rewrite mask_first_name, mask_first_service, Hu.
Qed.

(* ---------- one trace ---------- *)

Lemma masked_ids l : map s_id (map M l) = map s_id l.
Proof. by rewrite map_map. Qed.
Lemma masked_position id l : position id (map M l) = position id l.
Proof. unfold position, id_at. by rewrite masked_ids, map_length. Qed.
Lemma masked_ref id l : get_span_ref id (map M l) = get_span_ref id l.
Proof. unfold get_span_ref, id_at. by rewrite masked_position, masked_ids, map_length. Qed.
Lemma masked_lookup l i : map M l !! i = M <$> l !! i.
Proof. apply list_lookup_fmap. Qed.

Lemma masked_add ord ord' now s t : map_order ord -> map_order ord' ->
  masked_tree m (add_span ord now s t) = add_span ord' now (M s) (masked_tree m t).
Proof.
  intros Ho Ho'. unfold add_span, masked_tree. cbn [t_spans t_id t_started t_updated t_count].
  change (s_id (M s)) with (s_id s). rewrite masked_ref. destruct (get_span_ref (s_id s) (t_spans t)) as [i|]; cbn [t_spans t_id t_started t_updated t_count].
  - f_equal. apply list_eq. intros j. rewrite masked_lookup. destruct (decide (i = j)) as [<-|Hj].
    + rewrite !list_lookup_alter, masked_lookup. destruct (t_spans t !! i) as [x|]; [|done]. cbn. f_equal.
      rewrite (masked_merge ord ord') by done. f_equal. change (s_parent (M x)) with (s_parent x). by destruct (id_is_unknown (s_parent x)).
    + rewrite !list_lookup_alter_ne by done. by rewrite masked_lookup.
  - f_equal. unfold append_span. change (s_id (M s)) with (s_id s). rewrite masked_position, map_app. cbn [map]. by rewrite firstn_map, skipn_map.
Qed.

Lemma masked_indices test l : (forall s, test (M s) = test s) -> indices test (map M l) = indices test l.
Proof.
  intros H. unfold indices.
  assert (G : forall (g : nat -> nat) l, map fst (List.filter (fun p => test p.2) (imap (fun i s => (g i, s)) (map M l))) =
    map fst (List.filter (fun p => test p.2) (imap (fun i s => (g i, s)) l))).
  { clear l. intros g l. revert g. induction l as [|s l IH]; intros g; [done|]. cbn [map imap List.filter snd]. rewrite H.
    specialize (IH (g ∘ S)). destruct (test s); cbn [map fst]; [f_equal|]; exact IH. }
  apply (G (fun i => i) l).
Qed.
Lemma masked_children id l : children_of id (map M l) = children_of id l.
Proof. by apply masked_indices. Qed.
Lemma masked_roots l : roots (map M l) = roots l.
Proof. unfold roots. rewrite masked_ids. by apply masked_indices. Qed.

Lemma masked_fake s0 l : M (create_fake_root s0 l) = create_fake_root (M s0) (map M l).
Proof.
  unfold create_fake_root. change (s_ts (M s0)) with (s_ts s0). change (s_dur (M s0)) with (s_dur s0). change (s_trace (M s0)) with (s_trace s0). change (s_parent (M s0)) with (s_parent s0).
  match goal with |- M (let '(_, _) := ?x in _) = (let '(_, _) := ?y in _) => assert (E : y = x) end.
  { match goal with |- foldl _ ?x _ = _ => generalize x end. induction l as [|s l IH]; intros acc; [done|]. cbn [map foldl]. apply IH. }
  rewrite E. match goal with |- M (let '(_, _) := ?x in _) = _ => destruct x end. destruct Hm as (_ & _ & H1 & H2 & H3 & _).
  unfold masked, new_root_span, new_span, set_service, set_ts, set_dur. cbn [s_id s_parent s_trace s_name s_service s_ts s_dur s_tags s_timings]. by rewrite H1, H2, H3.
Qed.
Lemma masked_same s0 l : all_the_same_parent (M s0) (map M l) = all_the_same_parent s0 l.
Proof. unfold all_the_same_parent. cbn [forallb]. f_equal. induction l as [|s l IH]; [done|]. cbn [map forallb]. by rewrite IH. Qed.

Lemma masked_find ord ord' now t : map_order ord -> map_order ord' ->
  find_roots ord' now (masked_tree m t) = (masked_tree m (find_roots ord now t).1, (find_roots ord now t).2).
Proof.
  intros Ho Ho'. unfold find_roots. change (t_spans (masked_tree m t)) with (map M (t_spans t)). rewrite masked_roots.
  replace (omap (fun i => map M (t_spans t) !! i) (roots (t_spans t))) with (map M (omap (fun i => t_spans t !! i) (roots (t_spans t)))).
  2: { generalize (roots (t_spans t)). intros rs. induction rs as [|i rs IH]; [done|]. cbn [omap list_omap]. rewrite masked_lookup. destruct (t_spans t !! i); cbn; [f_equal|]; apply IH. }
  destruct (omap (fun i => t_spans t !! i) (roots (t_spans t))) as [|s0 [|s1 rest]]; [done|done|]. cbn [map].
  change (M s1 :: map M rest) with (map M (s1 :: rest)). rewrite masked_same. destruct (all_the_same_parent s0 (s1 :: rest)); [|done]. cbn [fst snd].
  rewrite <- masked_fake, <- (masked_add ord ord') by done. f_equal. change (t_spans (masked_tree m ?x)) with (map M (t_spans x)). by rewrite masked_roots.
Qed.

(* ---------- correcting ---------- *)

Lemma masked_node s par off : correct_node (M s) (M <$> par) off = (M (correct_node s par off).1, (correct_node s par off).2).
Proof.
  destruct s as [s1 s2 s3 s4 s5 s6 s7 s8 s9]. unfold correct_node, masked. cbn [s_timings s_id s_parent s_trace s_name s_service s_ts s_dur s_tags].
  destruct (off =? 0), par as [p|]; cbn [s_timings set_ts fmap option_fmap option_map]; unfold has_timings; cbn [s_timings]; destruct (_ && _); cbn [s_ts set_ts set_dur];
    try (destruct (to_millis _ <? _)); reflexivity.
Qed.

Lemma masked_correct fuel : forall mem node parent offset,
  correct fuel (map M mem) node parent offset = (fun p => (map M p.1, p.2)) <$> correct fuel mem node parent offset.
Proof.
  induction fuel as [|fuel IH]; intros mem node parent offset; [done|]. rewrite !TagHeapProofs.correct_S, masked_lookup. destruct (mem !! node) as [s|]; [|done]. cbn [fmap option_fmap option_map].
  assert (Hp : parent ≫= (fun p => map M mem !! p) = M <$> (parent ≫= fun p => mem !! p)) by (destruct parent as [p|]; [apply masked_lookup|done]).
  rewrite Hp, masked_node. destruct (correct_node s (parent ≫= fun p => mem !! p) offset) as [s' off']. cbn [fst snd].
  assert (Hi : <[node := M s']> (map M mem) = map M (<[node := s']> mem)) by (symmetry; apply (list_fmap_insert M)).
  rewrite Hi, masked_children. change (s_id (M s')) with (s_id s').
  generalize (children_of (s_id s') (<[node:=s']> mem)) as cs. generalize (<[node:=s']> mem) as mem'. generalize [node] as seen.
  intros seen mem' cs. revert mem' seen. induction cs as [|c cs IHc]; intros mem' seen; [done|]. rewrite !TagHeapProofs.correct_children_cons, IH.
  destruct (correct fuel mem' c (Some node) off') as [[mem2 seen2]|]; [|done]. cbn [fmap option_fmap option_map fst snd]. apply IHc.
Qed.

(* ---------- the corrector ---------- *)

Definition masked_state (st : fstate) : fstate := FState (masked_traces m (f_traces st)) (f_black st).
Notation ME := (masked_entry m).
Notation MP := (masked_pair m).

Lemma masked_receive ord ord' n0 n1 s st : map_order ord -> map_order ord' ->
  masked_state (receive ord n0 n1 s st) = receive ord' n0 n1 (M s) (masked_state st).
Proof.
  intros Ho Ho'. unfold receive. change (s_trace (M s)) with (s_trace s). change (s_id (M s)) with (s_id s). change (f_black (masked_state st)) with (f_black st).
  destruct (_ || _); [done|]. destruct (bool_decide _); [done|]. unfold masked_state. cbn [f_traces f_black]. f_equal. unfold masked_traces. rewrite fmap_insert. f_equal.
  rewrite (masked_add ord ord') by done. f_equal. rewrite lookup_fmap. by destruct (f_traces st !! s_trace s).
Qed.

Lemma masked_delete id ts : masked_traces m (delete id ts) = delete id (masked_traces m ts).
Proof. apply fmap_delete. Qed.

Lemma masked_finish_one k k' du ds st log p : map_order (k_ord k) -> map_order (k_ord k') -> (forall t, k_fake k t = k_fake k' t) ->
  finish_one k' du ds (masked_state st, map ME log) (MP p) =
  (masked_state (finish_one k du ds (st, log) p).1, map ME (finish_one k du ds (st, log) p).2).
Proof.
  intros Ho Ho' Hf. destruct p as [id t]. unfold finish_one, masked_pair. cbn [fst snd].
  change (too_large (masked_tree m t)) with (too_large t). change (t_updated (masked_tree m t)) with (t_updated t). change (t_started (masked_tree m t)) with (t_started t).
  destruct (_ && _ && _); [done|]. change (f_black (masked_state st)) with (f_black st). change (f_traces (masked_state st)) with (masked_traces m (f_traces st)).
  assert (Hs : forall b, masked_state (FState (delete id (f_traces st)) b) = FState (delete id (masked_traces m (f_traces st))) b).
  { intros b. unfold masked_state. cbn [f_traces f_black]. by rewrite masked_delete. }
  destruct (too_large t); [cbn [fst snd]; by rewrite map_app, Hs|]. destruct (_ <? ds); [cbn [fst snd]; by rewrite map_app, Hs|].
  rewrite (masked_find (k_ord k) (k_ord k')), Hf by done. destruct (find_roots (k_ord k) (k_fake k' id) t) as [t' rs]. cbn [fst snd].
  destruct rs as [|r [|r2 rs]]; try (cbn [fst snd]; by rewrite map_app, Hs).
  change (t_spans (masked_tree m t')) with (map M (t_spans t')). rewrite map_length, masked_correct.
  destruct (correct (length (t_spans t')) (t_spans t') r None 0) as [[spans seen]|]; cbn [fmap option_fmap option_map fst snd]; by rewrite map_app, Hs.
Qed.

Lemma masked_finish_all k k' du ds : map_order (k_ord k) -> map_order (k_ord k') -> (forall t, k_fake k t = k_fake k' t) -> forall l l' st log st' log',
  map MP l = map MP l' -> masked_state st = masked_state st' -> map ME log = map ME log' ->
  let r := foldl (finish_one k du ds) (st, log) l in
  let r' := foldl (finish_one k' du ds) (st', log') l' in
  masked_state r.1 = masked_state r'.1 /\ map ME r.2 = map ME r'.2.
Proof.
  intros Ho Ho' Hf. induction l as [|p l IH]; intros [|p' l'] st log st' log' El Es Eg; try done. cbn [map] in El. apply (inj2 cons) in El as [Ep' El]. cbn [foldl].
  pose proof (masked_finish_one k k du ds st log p Ho Ho (fun _ => eq_refl)) as H1.
  pose proof (masked_finish_one k' k du ds st' log' p' Ho' Ho (fun t => eq_sym (Hf t))) as H2.
  rewrite Es, Eg, Ep', H2 in H1. apply (inj2 pair) in H1 as [H1 H1'].
  destruct (finish_one k du ds (st, log) p) as [st1 log1], (finish_one k' du ds (st', log') p') as [st1' log1']. cbn [fst snd] in *.
  by apply IH.
Qed.

Lemma masked_counts (f : Z -> tree -> Z) l l' : (forall n t, f n (masked_tree m t) = f n t) -> map MP l = map MP l' ->
  forall n, foldl (fun n p => f n p.2) n l = foldl (fun n p => f n p.2) n l'.
Proof.
  intros Hf. revert l'. induction l as [|p l IH]; intros [|p' l'] El n; try done. cbn [map] in El. apply (inj2 cons) in El as [[_ Et]%(inj2 pair) El]. cbn [foldl].
  rewrite <- (Hf n p.2), Et, Hf. by apply IH.
Qed.

Lemma masked_discard_loop l : forall l' n ts ts' log log', map MP l = map MP l' -> masked_traces m ts = masked_traces m ts' -> map ME log = map ME log' ->
  masked_traces m (discard_loop l n ts log).1 = masked_traces m (discard_loop l' n ts' log').1 /\
  map ME (discard_loop l n ts log).2 = map ME (discard_loop l' n ts' log').2.
Proof.
  induction l as [|[id t] l IH]; intros [|[id' t'] l'] n ts ts' log log' El Et Eg; try done. cbn [map] in El. apply (inj2 cons) in El as [[Ei Ep]%(inj2 pair) El]. cbn in Ei. subst id'. cbn [discard_loop].
  destruct (n <? maxSpans); [done|]. change (t_count t) with (t_count (masked_tree m t)). cbn [snd] in Ep. rewrite Ep. change (t_count (masked_tree m t')) with (t_count t'). apply IH; [done| |]; [by rewrite !masked_delete, Et|by rewrite !map_app, Eg].
Qed.

Lemma masked_finish k k' st st' : same_tick m k k' -> masked_state st = masked_state st' ->
  masked_state (finish_traces k st).1 = masked_state (finish_traces k' st').1 /\ map ME (finish_traces k st).2 = map ME (finish_traces k' st').2.
Proof.
  intros (E1 & E2 & Hf & Ho & Ho' & Hr & Hb & Hs) Es. assert (Et : masked_traces m (f_traces st) = masked_traces m (f_traces st')) by (by injection Es).
  unfold finish_traces. assert (Ec : count_spans (k_range k 0 (f_traces st)) = count_spans (k_range k' 0 (f_traces st'))).
  { unfold count_spans. apply (masked_counts (fun n t => if too_large t then n else n + t_count t)); [done|]. by apply Hr. }
  rewrite Ec, E1, E2. set (n := count_spans _).
  pose proof (masked_finish_all k k' (k_now1 k' - buffer_time n) (k_now2 k' - 5 * buffer_time n) Ho Ho' Hf _ _ st [LTick (k_now1 k') (k_now2 k') n] st' [LTick (k_now1 k') (k_now2 k') n]
    (Hr 1%nat _ _ Et) Es eq_refl) as (A & B).
  destruct (foldl (finish_one k _ _) _ _) as [st1 log1], (foldl (finish_one k' _ _) _ _) as [st1' log1']. cbn [fst snd] in A, B.
  assert (At : masked_traces m (f_traces st1) = masked_traces m (f_traces st1')) by (by injection A). assert (Ab : f_black st1 = f_black st1') by (by injection A).
  assert (D : masked_traces m (if maxSpans <? n then discard k (f_traces st1) else (f_traces st1, [])).1 = masked_traces m (if maxSpans <? n then discard k' (f_traces st1') else (f_traces st1', [])).1 /\
    map ME (if maxSpans <? n then discard k (f_traces st1) else (f_traces st1, [])).2 = map ME (if maxSpans <? n then discard k' (f_traces st1') else (f_traces st1', [])).2).
  { destruct (maxSpans <? n); [|done]. unfold discard.
    rewrite (masked_counts (fun n t => n + t_count t) (k_range k 2 (f_traces st1)) (k_range k' 2 (f_traces st1'))); [|done|by apply Hr].
    destruct (_ <? maxSpans); [done|]. apply masked_discard_loop; [by apply Hs, Hr|done|done]. }
  destruct (if maxSpans <? n then discard k (f_traces st1) else (f_traces st1, [])) as [tr logd],
    (if maxSpans <? n then discard k' (f_traces st1') else (f_traces st1', [])) as [tr' logd']. cbn [fst snd] in D. destruct D as [D1 D2].
  rewrite Hb, Ab. destruct (evict (k_range_black k' (f_black st1')) (f_black st1') []) as [black loge] eqn:Ee. cbn [fst snd]. split.
  - unfold masked_state. cbn [f_traces f_black]. by rewrite D1.
  - by rewrite !map_app, B, D2.
Qed.

Definition masked_ostate (st : option fstate) : option fstate := masked_state <$> st.
Lemma masked_step st st' e e' : same_event m e e' -> masked_ostate st = masked_ostate st' ->
  masked_ostate (step st e).1 = masked_ostate (step st' e').1 /\ map ME (step st e).2 = map ME (step st' e').2.
Proof.
  intros He Es. destruct st as [st|], st' as [st'|]; try done. injection Es as Et Eb. assert (Es : masked_state st = masked_state st') by (unfold masked_state; congruence). clear Et Eb.
  destruct e as [ord n0 n1 s|k|], e' as [ord' n0' n1' s'|k'|]; try done.
  - destruct He as (Ho & Ho' & <- & <- & He). cbn [step fst snd map masked_entry]. rewrite He. split; [|done]. unfold masked_ostate. cbn [fmap option_fmap option_map].
    rewrite (masked_receive ord ord), (masked_receive ord' ord) by done. by rewrite He, Es.
  - cbn [step]. destruct (masked_finish k k' st st' He Es) as [A B]. destruct (finish_traces k st) as [st1 l1], (finish_traces k' st') as [st1' l1']. cbn [fst snd] in *.
    split; [|done]. unfold masked_ostate. cbn [fmap option_fmap option_map]. by rewrite A.
Qed.

Lemma masked_run evs evs' : Forall2 (same_event m) evs evs' -> map ME (run evs).2 = map ME (run evs').2.
Proof.
  intros H. unfold run.
  assert (G : forall evs evs', Forall2 (same_event m) evs evs' -> forall acc acc', masked_ostate acc.1 = masked_ostate acc'.1 -> map ME acc.2 = map ME acc'.2 ->
    let f := fun acc e => let '(st, log) := step acc.1 e in (st, acc.2 ++ log) in
    map ME (foldl f acc evs).2 = map ME (foldl f acc' evs').2).
  { clear evs evs' H. induction 1 as [|e e' evs evs' He _ IH]; intros [st log] [st' log'] Es El; [done|]. cbn [foldl fst snd] in *.
    destruct (masked_step st st' e e' He Es) as [A B]. destruct (step st e) as [st1 l1], (step st' e') as [st1' l1']. cbn [fst snd] in *.
    apply IH; cbn [fst snd]; [done|]. by rewrite !map_app, El, B. }
  by apply G.
Qed.
End mask.

Lemma tags_run K evs evs' : Forall2 (same_event (without K)) evs evs' ->
  map (masked_entry (without K)) (run evs).2 = map (masked_entry (without K)) (run evs').2.
Proof. apply masked_run, without_honest. Qed.
Lemma faceless_run evs evs' : Forall2 (same_event faceless) evs evs' -> map (masked_entry faceless) (run evs).2 = map (masked_entry faceless) (run evs').2.
Proof. apply masked_run, faceless_honest. Qed.
