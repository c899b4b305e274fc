(** Proofs for C118: what the corrector decides, it decides by the ids. *)
From Verif Require Import Base IdModel SpanModel TreeModel TreeSpec TreeProofs FinishModel FinishSpec FinishRun FinishProofs FinishTheorems ForwardModel SystemModel SystemSpec SystemProofs ConnectSpec ConnectProofs WholeSpec WholeProofs OrderSpec OrderProofs DecideSpec DecideProofs UnseenSpec UnseenProofs ClockSpec ShapeSpec.
From Verif Require TagHeapProofs.
Notation M := shape.

Lemma shape_shape s : M (M s) = M s.
Proof. done. Qed.
Lemma shape_merge ord s new : map_order ord -> M (merge_spans ord s new) = M s.
Proof. intros Ho. rewrite merge_spec by done. unfold merged. destruct (decide (from_server new)); reflexivity. Qed.
Lemma merge_shapes ord s new : map_order ord -> merge_spans ord (M s) (M new) = M s.
Proof.
  intros Ho. rewrite merge_spec by done. unfold merged. destruct (decide (from_server (M new))) as [H|H]; [destruct H as [H|H]; discriminate H|].
  unfold shape. cbn [s_id s_parent s_trace s_name s_service s_ts s_dur s_tags s_timings tCS tCR tSS tSR]. f_equal. by rewrite (left_id_L ∅ (∪)).
Qed.

(* ---------- one trace ---------- *)

Lemma shaped_ids l : map s_id (map M l) = map s_id l.
Proof. by rewrite map_map. Qed.
Lemma shaped_position id l : position id (map M l) = position id l.
Proof. unfold position, id_at. by rewrite shaped_ids, map_length. Qed.
Lemma shaped_ref id l : get_span_ref id (map M l) = get_span_ref id l.
Proof. unfold get_span_ref, id_at. by rewrite shaped_position, shaped_ids, map_length. Qed.
Lemma shaped_lookup l i : map M l !! i = M <$> l !! i.
Proof. apply list_lookup_fmap. Qed.

Lemma shaped_add ord ord' now s t : map_order ord -> map_order ord' ->
  shape_tree (add_span ord now s t) = add_span ord' now (M s) (shape_tree t).
Proof.
  intros Ho Ho'. unfold add_span, shape_tree. cbn [t_spans t_id t_started t_updated t_count].
  change (s_id (M s)) with (s_id s). rewrite shaped_ref. destruct (get_span_ref (s_id s) (t_spans t)) as [i|]; cbn [t_spans t_id t_started t_updated t_count].
  - f_equal. apply list_eq. intros j. rewrite shaped_lookup. destruct (decide (i = j)) as [<-|Hj].
    + rewrite !list_lookup_alter, shaped_lookup. destruct (t_spans t !! i) as [x|]; [|done]. cbn. f_equal.
      rewrite (shape_merge ord) by done. destruct (id_is_unknown (s_parent x)); symmetry; [exact (merge_shapes ord' (set_parent (s_parent s) x) s Ho')|exact (merge_shapes ord' x s Ho')].
    + rewrite !list_lookup_alter_ne by done. by rewrite shaped_lookup.
  - f_equal. unfold append_span. change (s_id (M s)) with (s_id s). rewrite shaped_position, map_app. cbn [map]. by rewrite firstn_map, skipn_map.
Qed.

Lemma shaped_indices test l : (forall s, test (M s) = test s) -> indices test (map M l) = indices test l.
Proof.
  intros H. unfold indices.
  assert (G : forall (g : nat -> nat) l, map fst (List.filter (fun p => test p.2) (imap (fun i s => (g i, s)) (map M l))) =
    map fst (List.filter (fun p => test p.2) (imap (fun i s => (g i, s)) l))).
  { clear l. intros g l. revert g. induction l as [|s l IH]; intros g; [done|]. cbn [map imap List.filter snd]. rewrite H.
    specialize (IH (g ∘ S)). destruct (test s); cbn [map fst]; [f_equal|]; exact IH. }
  apply (G (fun i => i) l).
Qed.
Lemma shaped_children id l : children_of id (map M l) = children_of id l.
Proof. by apply shaped_indices. Qed.
Lemma shaped_roots l : roots (map M l) = roots l.
Proof. unfold roots. rewrite shaped_ids. by apply shaped_indices. Qed.

Lemma shaped_fake s0 l : M (create_fake_root s0 l) = M (create_fake_root (M s0) (map M l)).
Proof. unfold create_fake_root. destruct (foldl _ _ l), (foldl _ _ (map M l)). done. Qed.
Lemma shaped_same s0 l : all_the_same_parent (M s0) (map M l) = all_the_same_parent s0 l.
Proof. unfold all_the_same_parent. cbn [forallb]. f_equal. induction l as [|s l IH]; [done|]. cbn [map forallb]. by rewrite IH. Qed.

Lemma shaped_find ord ord' now t : map_order ord -> map_order ord' ->
  shape_tree (find_roots ord' now (shape_tree t)).1 = shape_tree (find_roots ord now t).1 /\ (find_roots ord' now (shape_tree t)).2 = (find_roots ord now t).2.
Proof.
  intros Ho Ho'. unfold find_roots. change (t_spans (shape_tree t)) with (map M (t_spans t)). rewrite shaped_roots.
  assert (Ht : shape_tree (shape_tree t) = shape_tree t).
  { unfold shape_tree. cbn [t_id t_spans t_started t_updated t_count]. f_equal. rewrite map_map. by apply map_ext. }
  replace (omap (fun i => map M (t_spans t) !! i) (roots (t_spans t))) with (map M (omap (fun i => t_spans t !! i) (roots (t_spans t)))).
  2: { generalize (roots (t_spans t)). intros rs. induction rs as [|i rs IH]; [done|]. cbn [omap list_omap]. rewrite shaped_lookup. destruct (t_spans t !! i); cbn; [f_equal|]; apply IH. }
  destruct (omap (fun i => t_spans t !! i) (roots (t_spans t))) as [|s0 [|s1 rest]]; [done|done|]. cbn [map].
  change (M s1 :: map M rest) with (map M (s1 :: rest)). rewrite shaped_same. destruct (all_the_same_parent s0 (s1 :: rest)); [|done]. cbn [fst snd].
  set (f := create_fake_root s0 (s1 :: rest)). set (f' := create_fake_root (M s0) (map M (s1 :: rest))).
  assert (E : shape_tree (add_span ord' now f' (shape_tree t)) = shape_tree (add_span ord now f t)).
  { rewrite (shaped_add ord' ord'), (shaped_add ord ord'), Ht by done. f_equal. symmetry. apply shaped_fake. }
  split; [exact E|]. rewrite <- (shaped_roots (t_spans (add_span ord' now f' (shape_tree t)))), <- (shaped_roots (t_spans (add_span ord now f t))).
  by injection E as _ -> _ _ _.
Qed.

(* ---------- correcting ---------- *)

Lemma shaped_node s par off : M (correct_node s par off).1 = M s.
Proof.
  unfold correct_node. destruct (off =? 0), par as [p|]; destruct (has_timings _); try (destruct (to_millis _ <? _)); reflexivity.
Qed.
Lemma node_of_shape s par : correct_node (M s) (M <$> par) 0 = (M s, 0).
Proof. unfold correct_node. cbn [Z.eqb]. change (has_timings (M s)) with false. destruct par as [p|]; [|done]. cbn [fmap option_fmap option_map]. destruct (to_millis _ <? _); done. Qed.

Lemma shaped_correct fuel : forall mem node parent offset,
  correct fuel (map M mem) node parent 0 = (fun p => (map M p.1, p.2)) <$> correct fuel mem node parent offset.
Proof.
  induction fuel as [|fuel IH]; intros mem node parent offset; [done|]. rewrite !TagHeapProofs.correct_S, shaped_lookup. destruct (mem !! node) as [s|]; [|done]. cbn [fmap option_fmap option_map].
  assert (Hp : parent ≫= (fun p => map M mem !! p) = M <$> (parent ≫= fun p => mem !! p)) by (destruct parent as [p|]; [apply shaped_lookup|done]).
  rewrite Hp, node_of_shape. pose proof (shaped_node s (parent ≫= fun p => mem !! p) offset) as Hn.
  destruct (correct_node s (parent ≫= fun p => mem !! p) offset) as [s' off']. cbn [fst snd] in Hn.
  rewrite <- Hn. assert (Hi : <[node := M s']> (map M mem) = map M (<[node := s']> mem)) by (symmetry; apply (list_fmap_insert M)).
  rewrite Hi, shaped_children. change (s_id (M s')) with (s_id s').
  generalize (children_of (s_id s') (<[node:=s']> mem)) as cs. generalize (<[node:=s']> mem) as mem'. generalize [node] as seen.
  intros seen mem' cs. revert mem' seen. induction cs as [|c cs IHc]; intros mem' seen; [done|]. rewrite !TagHeapProofs.correct_children_cons, (IH _ _ _ off').
  destruct (correct fuel mem' c (Some node) off') as [[mem2 seen2]|]; [|done]. cbn [fmap option_fmap option_map fst snd]. apply IHc.
Qed.
Lemma same_correct mem mem' node : map M mem = map M mem' ->
  (fun p : list span * list nat => (map M p.1, p.2)) <$> correct (length mem) mem node None 0 = (fun p => (map M p.1, p.2)) <$> correct (length mem') mem' node None 0.
Proof. intros E. rewrite <- !shaped_correct, E. f_equal. apply (f_equal length) in E. by rewrite !map_length in E. Qed.

(* ---------- the corrector ---------- *)

Definition shaped_state (st : fstate) : fstate := FState (shape_traces (f_traces st)) (f_black st).
Notation ME := shape_entry.
Notation MP := shape_pair.

Lemma shaped_receive ord ord' n0 n1 s st : map_order ord -> map_order ord' ->
  shaped_state (receive ord n0 n1 s st) = receive ord' n0 n1 (M s) (shaped_state st).
Proof.
  intros Ho Ho'. unfold receive. change (s_trace (M s)) with (s_trace s). change (s_id (M s)) with (s_id s). change (f_black (shaped_state st)) with (f_black st).
  destruct (_ || _); [done|]. destruct (bool_decide _); [done|]. unfold shaped_state. cbn [f_traces f_black]. f_equal. unfold shape_traces. rewrite fmap_insert. f_equal.
  rewrite (shaped_add ord ord') by done. f_equal. rewrite lookup_fmap. by destruct (f_traces st !! s_trace s).
Qed.

Lemma shaped_delete id ts : shape_traces (delete id ts) = delete id (shape_traces ts).
Proof. apply fmap_delete. Qed.

Lemma shaped_finish_one k k' du ds st log p st' log' p' : map_order (k_ord k) -> map_order (k_ord k') -> (forall t, k_fake k t = k_fake k' t) ->
  MP p = MP p' -> shaped_state st = shaped_state st' -> map ME log = map ME log' ->
  shaped_state (finish_one k du ds (st, log) p).1 = shaped_state (finish_one k' du ds (st', log') p').1 /\
  map ME (finish_one k du ds (st, log) p).2 = map ME (finish_one k' du ds (st', log') p').2.
Proof.
  intros Ho Ho' Hf Ep Es El. destruct p as [id t], p' as [id' t']. unfold shape_pair in Ep. apply (inj2 pair) in Ep as [Ei Et]. cbn [fst snd] in Ei, Et. subst id'. unfold finish_one.
  assert (Ec : too_large t = too_large t') by (unfold too_large; by injection Et as _ _ _ _ ->).
  assert (E1 : t_updated t = t_updated t') by (by injection Et). assert (E2 : t_started t = t_started t') by (by injection Et).
  assert (E3 : shape_traces (f_traces st) = shape_traces (f_traces st')) by (by injection Es). assert (E4 : f_black st = f_black st') by (by injection Es).
  rewrite Ec, E1, E2. destruct (_ && _ && _); [done|].
  assert (Hs : forall b, shaped_state (FState (delete id (f_traces st)) b) = shaped_state (FState (delete id (f_traces st')) b)).
  { intros b. unfold shaped_state. cbn [f_traces f_black]. by rewrite !shaped_delete, E3. }
  rewrite E4. destruct (too_large t'); [cbn [fst snd]; by rewrite !map_app, Hs, El|]. destruct (_ <? ds); [cbn [fst snd]; by rewrite !map_app, Hs, El|].
  destruct (shaped_find (k_ord k) (k_ord k) (k_fake k id) t Ho Ho) as [F1 F2]. destruct (shaped_find (k_ord k') (k_ord k) (k_fake k id) t' Ho' Ho) as [G1 G2].
  rewrite Et in F1, F2. rewrite G1 in F1. rewrite G2 in F2. rewrite <- Hf.
  destruct (find_roots (k_ord k) (k_fake k id) t) as [u rs], (find_roots (k_ord k') (k_fake k id) t') as [u' rs']. cbn [fst snd] in F1, F2. subst rs'.
  destruct rs as [|r [|r2 rs]]; try (cbn [fst snd]; by rewrite !map_app, Hs, El).
  assert (Hc := same_correct (t_spans u) (t_spans u') r). assert (Hu : map M (t_spans u) = map M (t_spans u')) by (by injection F1). specialize (Hc Hu).
  destruct (correct (length (t_spans u)) _ _ _ _) as [[m1 n1]|], (correct (length (t_spans u')) _ _ _ _) as [[m2 n2]|]; cbn [fmap option_fmap option_map fst snd] in Hc |- *; try done;
    rewrite !map_app, Hs, El; [|done]. injection Hc as Hc _. cbn [map shape_entry shape_outcome]. by rewrite Hc.
Qed.

Lemma shaped_finish_all k k' du ds : map_order (k_ord k) -> map_order (k_ord k') -> (forall t, k_fake k t = k_fake k' t) -> forall l l' st log st' log',
  map MP l = map MP l' -> shaped_state st = shaped_state st' -> map ME log = map ME log' ->
  let r := foldl (finish_one k du ds) (st, log) l in
  let r' := foldl (finish_one k' du ds) (st', log') l' in
  shaped_state r.1 = shaped_state r'.1 /\ map ME r.2 = map ME r'.2.
Proof.
  intros Ho Ho' Hf. induction l as [|p l IH]; intros [|p' l'] st log st' log' El Es Eg; try done. cbn [map] in El. apply (inj2 cons) in El as [Ep El]. cbn [foldl].
  destruct (shaped_finish_one k k' du ds st log p st' log' p' Ho Ho' Hf Ep Es Eg) as [H1 H2].
  destruct (finish_one k du ds (st, log) p) as [st1 log1], (finish_one k' du ds (st', log') p') as [st1' log1']. cbn [fst snd] in *. by apply IH.
Qed.

Lemma shaped_counts (f : Z -> tree -> Z) l l' : (forall n t, f n (shape_tree t) = f n t) -> map MP l = map MP l' ->
  forall n, foldl (fun n p => f n p.2) n l = foldl (fun n p => f n p.2) n l'.
Proof.
  intros Hf. revert l'. induction l as [|p l IH]; intros [|p' l'] El n; try done. cbn [map] in El. apply (inj2 cons) in El as [[_ Et]%(inj2 pair) El]. cbn [foldl].
  rewrite <- (Hf n p.2), Et, Hf. by apply IH.
Qed.

Lemma shaped_discard_loop l : forall l' n ts ts' log log', map MP l = map MP l' -> shape_traces ts = shape_traces ts' -> map ME log = map ME log' ->
  shape_traces (discard_loop l n ts log).1 = shape_traces (discard_loop l' n ts' log').1 /\
  map ME (discard_loop l n ts log).2 = map ME (discard_loop l' n ts' log').2.
Proof.
  induction l as [|[id t] l IH]; intros [|[id' t'] l'] n ts ts' log log' El Et Eg; try done. cbn [map] in El. apply (inj2 cons) in El as [[Ei Ep]%(inj2 pair) El]. cbn in Ei. subst id'. cbn [discard_loop].
  destruct (n <? maxSpans); [done|]. change (t_count t) with (t_count (shape_tree t)). cbn [snd] in Ep. rewrite Ep. change (t_count (shape_tree t')) with (t_count t'). apply IH; [done| |]; [by rewrite !shaped_delete, Et|by rewrite !map_app, Eg].
Qed.

Lemma shaped_finish k k' st st' : same_shape_tick k k' -> shaped_state st = shaped_state st' ->
  shaped_state (finish_traces k st).1 = shaped_state (finish_traces k' st').1 /\ map ME (finish_traces k st).2 = map ME (finish_traces k' st').2.
Proof.
  intros (E1 & E2 & Hf & Ho & Ho' & Hr & Hb & Hs) Es. assert (Et : shape_traces (f_traces st) = shape_traces (f_traces st')) by (by injection Es).
  unfold finish_traces. assert (Ec : count_spans (k_range k 0 (f_traces st)) = count_spans (k_range k' 0 (f_traces st'))).
  { unfold count_spans. apply (shaped_counts (fun n t => if too_large t then n else n + t_count t)); [done|]. by apply Hr. }
  rewrite Ec, E1, E2. set (n := count_spans _).
  pose proof (shaped_finish_all k k' (k_now1 k' - buffer_time n) (k_now2 k' - 5 * buffer_time n) Ho Ho' Hf _ _ st [LTick (k_now1 k') (k_now2 k') n] st' [LTick (k_now1 k') (k_now2 k') n]
    (Hr 1%nat _ _ Et) Es eq_refl) as (A & B).
  destruct (foldl (finish_one k _ _) _ _) as [st1 log1], (foldl (finish_one k' _ _) _ _) as [st1' log1']. cbn [fst snd] in A, B.
  assert (At : shape_traces (f_traces st1) = shape_traces (f_traces st1')) by (by injection A). assert (Ab : f_black st1 = f_black st1') by (by injection A).
  assert (D : shape_traces (if maxSpans <? n then discard k (f_traces st1) else (f_traces st1, [])).1 = shape_traces (if maxSpans <? n then discard k' (f_traces st1') else (f_traces st1', [])).1 /\
    map ME (if maxSpans <? n then discard k (f_traces st1) else (f_traces st1, [])).2 = map ME (if maxSpans <? n then discard k' (f_traces st1') else (f_traces st1', [])).2).
  { destruct (maxSpans <? n); [|done]. unfold discard.
    rewrite (shaped_counts (fun n t => n + t_count t) (k_range k 2 (f_traces st1)) (k_range k' 2 (f_traces st1'))); [|done|by apply Hr].
    destruct (_ <? maxSpans); [done|]. apply shaped_discard_loop; [by apply Hs, Hr|done|done]. }
  destruct (if maxSpans <? n then discard k (f_traces st1) else (f_traces st1, [])) as [tr logd],
    (if maxSpans <? n then discard k' (f_traces st1') else (f_traces st1', [])) as [tr' logd']. cbn [fst snd] in D. destruct D as [D1 D2].
  rewrite Hb, Ab. destruct (evict (k_range_black k' (f_black st1')) (f_black st1') []) as [black loge] eqn:Ee. cbn [fst snd]. split.
  - unfold shaped_state. cbn [f_traces f_black]. by rewrite D1.
  - by rewrite !map_app, B, D2.
Qed.

Definition shaped_ostate (st : option fstate) : option fstate := shaped_state <$> st.
Lemma shaped_step st st' e e' : same_shape e e' -> shaped_ostate st = shaped_ostate st' ->
  shaped_ostate (step st e).1 = shaped_ostate (step st' e').1 /\ map ME (step st e).2 = map ME (step st' e').2.
Proof.
  intros He Es. destruct st as [st|], st' as [st'|]; try done. injection Es as Et Eb. assert (Es : shaped_state st = shaped_state st') by (unfold shaped_state; congruence). clear Et Eb.
  destruct e as [ord n0 n1 s|k|], e' as [ord' n0' n1' s'|k'|]; try done.
  - destruct He as (Ho & Ho' & <- & <- & He). cbn [step fst snd map shape_entry]. rewrite He. split; [|done]. unfold shaped_ostate. cbn [fmap option_fmap option_map].
    rewrite (shaped_receive ord ord), (shaped_receive ord' ord) by done. by rewrite He, Es.
  - cbn [step]. destruct (shaped_finish k k' st st' He Es) as [A B]. destruct (finish_traces k st) as [st1 l1], (finish_traces k' st') as [st1' l1']. cbn [fst snd] in *.
    split; [|done]. unfold shaped_ostate. cbn [fmap option_fmap option_map]. by rewrite A.
Qed.

Lemma shaped_run evs evs' : Forall2 (same_shape) evs evs' -> map ME (run evs).2 = map ME (run evs').2.
Proof.
  intros H. unfold run.
  assert (G : forall evs evs', Forall2 (same_shape) evs evs' -> forall acc acc', shaped_ostate acc.1 = shaped_ostate acc'.1 -> map ME acc.2 = map ME acc'.2 ->
    let f := fun acc e => let '(st, log) := step acc.1 e in (st, acc.2 ++ log) in
    map ME (foldl f acc evs).2 = map ME (foldl f acc' evs').2).
  { clear evs evs' H. induction 1 as [|e e' evs evs' He _ IH]; intros [st log] [st' log'] Es El; [done|]. cbn [foldl fst snd] in *.
    destruct (shaped_step st st' e e' He Es) as [A B]. destruct (step st e) as [st1 l1], (step st' e') as [st1' l1']. cbn [fst snd] in *.
    apply IH; cbn [fst snd]; [done|]. by rewrite !map_app, El, B. }
  by apply G.
Qed.

(* ---------- other runs ---------- *)

Lemma shaped_adds t a b : map M (reports a) = map M (reports b) -> map M (merged_spans t a) = map M (merged_spans t b).
Proof.
  unfold merged_spans. assert (G : forall a b T T', map M (reports a) = map M (reports b) -> map M (t_spans T) = map M (t_spans T') ->
    map M (t_spans (add_all map_to_list (map (fun a => (a.1.2, a.2)) a) T)) = map M (t_spans (add_all map_to_list (map (fun a => (a.1.2, a.2)) b) T'))).
  { clear a b. induction a as [|x a IH]; intros [|y b] T T' E ET; try done. unfold reports in E. cbn [map] in E. apply (inj2 cons) in E as [Exy E]. cbn [map add_all foldl fst snd].
    apply IH; [exact E|].
    assert (A : forall n s T, map M (t_spans (add_span map_to_list n s T)) = t_spans (add_span map_to_list 0 (M s) (Tree 0 (map M (t_spans T)) 0 0 0))).
    { intros n s U. change (map M (t_spans ?x)) with (t_spans (shape_tree x)). rewrite (shaped_add map_to_list map_to_list) by apply map_order_list.
      unfold add_span. cbn [t_spans shape_tree]. by destruct (get_span_ref _ _). }
    by rewrite !A, Exy, ET. }
  intros E. by apply G.
Qed.

Lemma shapes_ids l m : map M l = map M m -> Forall2 same_ids l m.
Proof.
  revert m. induction l as [|x l IH]; intros [|y m] E; try done. cbn [map] in E. apply (inj2 cons) in E as [Exy E].
  constructor; [|by apply IH]. unfold shape in Exy. injection Exy as E1 E2 _. by split.
Qed.
Lemma shape_candidate l m x : map M l = map M m -> root_candidate l x -> exists y, M y = M x /\ root_candidate m y.
Proof.
  intros E [Hin Hr]. pose proof (shapes_ids _ _ E) as HI. apply elem_of_list_lookup in Hin as [i Hi]. destruct (Forall2_lookup_l _ _ _ _ _ HI Hi) as (y & Hy & E1 & E2).
  exists y. split.
  - assert (H : map M l !! i = map M m !! i) by (by rewrite E). rewrite !shaped_lookup, Hi, Hy in H. change (Some (M x) = Some (M y)) in H. apply (inj Some) in H. by symmetry.
  - split; [by eapply elem_of_list_lookup_2|]. by rewrite E1, E2, (same_ids_ids _ _ HI).
Qed.
Lemma shape_apart l x y : NoDup (ids l) -> x ∈ l -> y ∈ l -> M x = M y -> x = y.
Proof.
  intros Hn Hx Hy E. assert (Ei : s_id x = s_id y) by (unfold shape in E; by injection E). apply elem_of_list_lookup in Hx as [i Hi], Hy as [j Hj].
  assert (i = j) as ->; [|congruence]. apply (NoDup_lookup (ids l) i j (s_id x) Hn); unfold ids; change (map s_id) with (fmap (M := list) s_id); rewrite list_lookup_fmap; [by rewrite Hi|by rewrite Hj, Ei].
Qed.
Lemma shape_emittable t l m : NoDup (ids l) -> NoDup (ids m) -> map M l = map M m -> emittable t l -> emittable t m.
Proof.
  intros Hl Hm E [(r & Hr & Hu)|(Ht & (c & c' & Hc & Hc' & Hne) & p & Hp)].
  - left. destruct (shape_candidate l m r E Hr) as (r' & Er & Hr'). exists r'. split; [done|]. intros x Hx. destruct (shape_candidate m l x (eq_sym E) Hx) as (y & Ey & Hy).
    apply (shape_apart m); [done|by destruct Hx|by destruct Hr'|]. rewrite <- Ey, Er. by rewrite (Hu y Hy).
  - right. split; [by rewrite (same_ids_ids _ _ (shapes_ids _ _ E))|]. split.
    + destruct (shape_candidate l m c E Hc) as (d & Ed & Hd), (shape_candidate l m c' E Hc') as (d' & Ed' & Hd'). exists d, d'. split; [done|]. split; [done|].
      intros Hdd. apply Hne. apply (shape_apart l); [done|by destruct Hc|by destruct Hc'|]. by rewrite <- Ed, <- Ed', Hdd.
    + exists p. intros x Hx. destruct (shape_candidate m l x (eq_sym E) Hx) as (y & Ey & Hy). rewrite <- (Hp y Hy). unfold shape in Ey. by injection Ey.
Qed.

Lemma shape_retimed l m : Forall2 (fun s s' => exists start dur, s' = retimed s start dur) l m -> map M m = map M l.
Proof. induction 1 as [|x y l m (? & ? & ->) _ IH]; [done|]. cbn [map]. by rewrite IH. Qed.

Lemma shape_emission t l m out out' : NoDup (ids l) -> NoDup (ids m) -> map M l = map M m -> emission t l out -> emission t m out' -> map M out ≡ₚ map M out'.
Proof.
  intros Hl Hm E (all & r & Ha & Hc & Hu & HF & _) (all' & r' & Ha' & Hc' & Hu' & HF' & _). rewrite (shape_retimed _ _ HF), (shape_retimed _ _ HF').
  assert (Hno : forall l m a, NoDup (ids l) -> NoDup (ids m) -> map M l = map M m -> (forall x y, root_candidate l x -> root_candidate l y -> x = y) -> injected t m a -> False).
  { clear. intros l m a Hl Hm E Hu (_ & _ & _ & _ & c & c' & Hc & Hc' & Hne & _).
    destruct (shape_candidate m l c (eq_sym E) Hc) as (d & Ed & Hd), (shape_candidate m l c' (eq_sym E) Hc') as (d' & Ed' & Hd').
    apply Hne, (shape_apart m); [done|by destruct Hc|by destruct Hc'|]. by rewrite <- Ed, <- Ed', (Hu d d' Hd Hd'). }
  destruct Ha as [->|(f & Hf & Hp)], Ha' as [->|(f' & Hf' & Hp')].
  - by rewrite E.
  - exfalso. apply (Hno l m f'); try done. intros x y Hx Hy. by rewrite (Hu x Hx), (Hu y Hy).
  - exfalso. apply (Hno m l f); try done. intros x y Hx Hy. by rewrite (Hu' x Hx), (Hu' y Hy).
  - rewrite Hp, Hp'. cbn [map]. rewrite E. assert (Ef : M f = M f'); [|by rewrite Ef].
    destruct Hf as (_ & T1 & P1 & _ & c & c' & Hcc & _ & _ & Hpar), Hf' as (_ & T2 & P2 & _ & _ & _ & _ & _ & _ & Hpar').
    destruct (shape_candidate l m c E Hcc) as (d & Ed & Hd). assert (Ep : s_parent d = s_parent c) by (unfold shape in Ed; by injection Ed).
    unfold shape. rewrite T1, T2, P1, P2. by rewrite <- (Hpar c Hcc), <- (Hpar' d Hd), Ep.
Qed.

Section Runs.
  Context (evs evs' : list event) (l1 l2 l1' l2' : list entry) (t : Z) (out : list span).
  Context (Hv : Forall valid_event evs) (Hv' : Forall valid_event evs').
  Context (E : (run evs).2 = l1 ++ LOut t (Emitted out) :: l2).
  Context (Hs : map M (reports (pending l1 t)) = map M (reports (pending l1' t))).

  Lemma shape_fate : (run evs').2 = l1' ++ LOut t NoRoot :: l2' -> False.
  Proof.
    intros E'. destruct (emitted_is _ _ _ _ _ Hv E) as [_ He]. pose proof (run_prefix _ _ _ Hv E) as Hg.
    pose proof (run_entry _ _ _ _ Hv' E') as (_ & n1 & n2 & load & _ & Hno & _). pose proof (run_prefix _ _ _ Hv' E') as Hg'.
    apply Hno, emittable_is; [by apply pending_ok|]. apply (shape_emittable t (merged_spans t (pending l1 t))); [apply merged_NoDup|apply merged_NoDup|by apply shaped_adds|].
    apply emittable_is; [by apply pending_ok|]. by exists out.
  Qed.
  Lemma shape_tree_same out' : (run evs').2 = l1' ++ LOut t (Emitted out') :: l2' -> map M out ≡ₚ map M out'.
  Proof.
    intros E'. destruct (emitted_is _ _ _ _ _ Hv E) as [_ He]. destruct (emitted_is _ _ _ _ _ Hv' E') as [_ He'].
    apply (shape_emission t (merged_spans t (pending l1 t)) (merged_spans t (pending l1' t))); [apply merged_NoDup|apply merged_NoDup|by apply shaped_adds|done|done].
  Qed.
End Runs.

Section Two.
  Context {S S' : Type} (cfg cfg' : sysconfig) (conv : converter S) (conv' : converter S') (s0 : S) (s0' : S').
  Context (evs evs' : list yevent) (st : ystate S) (st' : ystate S') (t p p' : Z).
  Context (Hr : yreachable cfg conv s0 evs st) (Hr' : yreachable cfg' conv' s0' evs' st') (Ht : t <> 0).
  Context (Hu : undisturbed t p st) (Hu' : undisturbed t p' st') (Hs : map M (told t st) = map M (told t st')).
  Context (out : list span) (He : LOut t (Emitted out) ∈ y_log st).

  Lemma shape_system o' : LOut t o' ∈ y_log st' -> match o' with Emitted out' => map M out ≡ₚ map M out' | TooOld => True | _ => False end.
  Proof.
    intros Hin. destruct (one_record t Ht _ _ _ _ _ _ _ Hr Hu He) as (f & l1 & l2 & Hv & E & _ & _ & _ & Hp & _).
    destruct (one_record t Ht _ _ _ _ _ _ _ Hr' Hu' Hin) as (f' & l1' & l2' & Hv' & E' & _ & _ & _ & Hp' & Hm).
    assert (Hs' : map M (reports (pending l1 t)) = map M (reports (pending l1' t))) by (by rewrite Hp, Hp').
    destruct o' as [out'| | | | |]; try done; [by apply (shape_tree_same f f' l1 l2 l1' l2' t)|by apply (shape_fate f f' l1 l2 l1' l2' t out)].
  Qed.
End Two.

Lemma reclocked_shapes outer inner l m : Forall2 (reclocked outer inner) l m -> map M l = map M m.
Proof. induction 1 as [|x y l m (H & _) _ IH]; [done|]. cbn [map]. rewrite IH, H. done. Qed.
Lemma shape_clocks {S S' : Type} cfg cfg' (conv : converter S) (conv' : converter S') s0 s0' evs evs' st st' t p p' outer inner :
  yreachable cfg conv s0 evs st -> yreachable cfg' conv' s0' evs' st' -> t <> 0 -> undisturbed t p st -> undisturbed t p' st' ->
  Forall2 (reclocked outer inner) (told t st) (told t st') -> forall out, LOut t (Emitted out) ∈ y_log st ->
  forall o', LOut t o' ∈ y_log st' -> match o' with Emitted out' => map M out ≡ₚ map M out' | TooOld => True | _ => False end.
Proof. intros Hr Hr' Ht Hu Hu' Hs. apply (shape_system cfg cfg' conv conv' s0 s0' evs evs' st st' t p p'); try done. by apply (reclocked_shapes outer inner). Qed.
