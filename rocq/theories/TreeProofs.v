(** Proofs for C28-C30: the ordered list of spans of a trace, and merging. *)
From Coq Require Import Sorted.
From Verif Require Import Base IdModel SpanModel TreeModel TreeSpec.

(* ---------- sort.Search ---------- *)

Lemma search_loop_enough k f i j : (j - i <= k)%nat -> forall k', (j - i <= k')%nat -> search_loop k f i j = search_loop k' f i j.
Proof.
  revert i j. induction k as [|k IH]; intros i j Hk k' Hk'.
  - destruct k'; [done|]. cbn [search_loop]. by rewrite (proj2 (Nat.ltb_ge i j)) by lia.
  - destruct k' as [|k']; cbn [search_loop].
    + by rewrite (proj2 (Nat.ltb_ge i j)) by lia.
    + destruct (Nat.ltb_spec i j); [|done].
      assert (i <= (i + j) / 2 < j)%nat by (split; [apply Nat.div_le_lower_bound|apply Nat.div_lt_upper_bound]; lia).
      destruct (f _); apply IH; lia.
Qed.

(** The loop of the Go program. *)
Lemma search_loop_go f i j :
  search_loop (j - i) f i j =
  if (i <? j)%nat then
    let h := ((i + j) / 2)%nat in
    if f h then search_loop (h - i) f i h else search_loop (j - S h) f (S h) j
  else i.
Proof.
  destruct (Nat.ltb_spec i j).
  - assert (i <= (i + j) / 2 < j)%nat by (split; [apply Nat.div_le_lower_bound|apply Nat.div_lt_upper_bound]; lia).
    destruct (j - i)%nat as [|k] eqn:E; [lia|]. cbn [search_loop]. rewrite (proj2 (Nat.ltb_lt i j)) by done. cbv zeta.
    destruct (f _); apply search_loop_enough; lia.
  - replace (j - i)%nat with O by lia. done.
Qed.

Lemma search_loop_spec k f n i j :
  (forall a b, (a <= b < n)%nat -> f a = true -> f b = true) ->
  (j - i <= k)%nat -> (i <= j <= n)%nat ->
  (forall a, (a < i)%nat -> f a = false) -> (forall a, (j <= a < n)%nat -> f a = true) ->
  let r := search_loop k f i j in
  (r <= n)%nat /\ (forall a, (a < r)%nat -> f a = false) /\ (forall a, (r <= a < n)%nat -> f a = true).
Proof.
  intros Hm. revert i j. induction k as [|k IH]; intros i j Hk Hij Hl Hr; cbn [search_loop].
  - replace j with i in * by lia. split; [lia|]. done.
  - destruct (Nat.ltb_spec i j).
    + assert (Hh : (i <= (i + j) / 2 < j)%nat) by (split; [apply Nat.div_le_lower_bound|apply Nat.div_lt_upper_bound]; lia).
      destruct (f ((i + j) / 2)%nat) eqn:E.
      * apply IH; [lia|lia|done|]. intros a Ha. apply Hm with ((i + j) / 2)%nat; [lia|done].
      * apply IH; [lia|lia| |done]. intros a Ha. destruct (f a) eqn:Ea; [|done].
        rewrite (Hm a ((i + j) / 2)%nat) in E; [done|lia|done].
    + replace j with i in * by lia. split; [lia|]. done.
Qed.

Lemma search_spec n f :
  (forall a b, (a <= b < n)%nat -> f a = true -> f b = true) ->
  let r := search n f in
  (r <= n)%nat /\ (forall a, (a < r)%nat -> f a = false) /\ (forall a, (r <= a < n)%nat -> f a = true).
Proof. intros H. apply search_loop_spec with (n := n); try done; try lia. Qed.

(* ---------- ordered spans ---------- *)

Lemma id_at_lookup spans i s : spans !! i = Some s -> id_at spans i = s_id s.
Proof.
  intros H. unfold id_at. apply nth_lookup_Some with (d := 0).
  change (map s_id spans) with (s_id <$> spans). by rewrite list_lookup_fmap, H.
Qed.

Lemma sorted_lookup l i j a b : descending l -> (i < j)%nat -> l !! i = Some a -> l !! j = Some b -> b < a.
Proof.
  unfold descending. intros H. revert i j. induction H as [|x l Hs IH Hx]; intros i j Hij Hi Hj; [done|].
  destruct j as [|j]; [lia|]. destruct i as [|i]; cbn in *.
  - injection Hi as ->. rewrite Forall_lookup in Hx. by apply Hx with j.
  - by apply IH with i j; [lia|..].
Qed.

Lemma position_spec id spans : descending (ids spans) ->
  let r := position id spans in
  (r <= length spans)%nat /\
  Forall (fun s => id < s_id s) (take r spans) /\ Forall (fun s => s_id s <= id) (drop r spans).
Proof.
  intros Hd r.
  assert (Hm : forall a b, (a <= b < length spans)%nat -> (id_at spans a <=? id) = true -> (id_at spans b <=? id) = true).
  { intros a b Hab Ha. destruct (decide (a = b)) as [->|]; [done|].
    destruct (lookup_lt_is_Some_2 spans a ltac:(lia)) as [sa Ea]. destruct (lookup_lt_is_Some_2 spans b ltac:(lia)) as [sb Eb].
    rewrite (id_at_lookup _ _ _ Ea) in Ha. rewrite (id_at_lookup _ _ _ Eb).
    assert (s_id sb < s_id sa); [|lia].
    apply (sorted_lookup (ids spans) a b); [done|lia|..]; unfold ids; change (map s_id spans) with (s_id <$> spans); rewrite list_lookup_fmap.
    - by rewrite Ea. - by rewrite Eb. }
  destruct (search_spec (length spans) _ Hm) as (H1 & H2 & H3). fold (position id spans) in H1, H2, H3. fold r in H1, H2, H3.
  split; [done|]. split; apply Forall_lookup; intros i s Hi.
  - destruct (decide (i < r)%nat) as [Hlt|]; [|rewrite lookup_take_ge in Hi by lia; done]. rewrite lookup_take in Hi by done.
    specialize (H2 i Hlt). rewrite (id_at_lookup _ _ _ Hi) in H2. lia.
  - rewrite lookup_drop in Hi. assert ((r + i < length spans)%nat) by (by eapply lookup_lt_Some).
    specialize (H3 (r + i)%nat ltac:(lia)). rewrite (id_at_lookup _ _ _ Hi) in H3. lia.
Qed.

Lemma get_span_ref_Some id spans i : descending (ids spans) -> get_span_ref id spans = Some i ->
  exists s, spans !! i = Some s /\ s_id s = id.
Proof.
  intros Hd. unfold get_span_ref. destruct (Nat.ltb_spec (position id spans) (length spans)) as [Hl|]; cbn [andb]; [|done].
  destruct (Z.eqb_spec (id_at spans (position id spans)) id) as [E|]; [|done]. intros [= <-].
  destruct (lookup_lt_is_Some_2 spans _ Hl) as [s Hs]. exists s. split; [done|]. by rewrite (id_at_lookup _ _ _ Hs) in E.
Qed.

Lemma get_span_ref_None id spans : descending (ids spans) -> get_span_ref id spans = None -> id ∉ ids spans.
Proof.
  intros Hd. unfold get_span_ref. destruct (position_spec id spans Hd) as (H1 & H2 & H3).
  intros Hn Hin. unfold ids in Hin. apply elem_of_list_fmap in Hin as (s & Hid & Hin).
  rewrite <- (take_drop (position id spans) spans) in Hin. apply elem_of_app in Hin as [Hin|Hin].
  - rewrite Forall_forall in H2. specialize (H2 s Hin). lia.
  - destruct (drop (position id spans) spans) as [|s0 l] eqn:E; [by apply elem_of_nil in Hin|].
    assert (Hl : spans !! position id spans = Some s0) by (rewrite <- (Nat.add_0_r (position id spans)), <- lookup_drop, E; done).
    assert ((position id spans < length spans)%nat) by (by eapply lookup_lt_Some).
    rewrite (proj2 (Nat.ltb_lt _ _)) in Hn by done. cbn [andb] in Hn. rewrite (id_at_lookup _ _ _ Hl) in Hn.
    destruct (Z.eqb_spec (s_id s0) id) as [|Hne]; [done|].
    apply Forall_cons in H3 as [H3 _]. apply elem_of_cons in Hin as [->|Hin]; [lia|].
    apply elem_of_list_lookup in Hin as [j Hj].
    assert (Hj' : spans !! (position id spans + S j)%nat = Some s) by (rewrite <- lookup_drop, E; done).
    assert (s_id s < s_id s0); [|lia].
    apply (sorted_lookup (ids spans) (position id spans) (position id spans + S j)); [done|lia|..];
      unfold ids; change (map s_id spans) with (s_id <$> spans); rewrite list_lookup_fmap.
    + by rewrite Hl. + by rewrite Hj'.
Qed.

Lemma StronglySorted_app {A} (R : A -> A -> Prop) l1 l2 :
  StronglySorted R (l1 ++ l2) <-> (forall x y, x ∈ l1 -> y ∈ l2 -> R x y) /\ StronglySorted R l1 /\ StronglySorted R l2.
Proof.
  induction l1 as [|a l1 IH]; cbn.
  - split; [|tauto]. intros H. split; [|split; [constructor|done]]. intros x y Hx. by apply elem_of_nil in Hx.
  - split.
    + intros H. apply StronglySorted_inv in H as [H Ha]. apply IH in H as (H1 & H2 & H3). apply Forall_app in Ha as [Ha1 Ha2].
      split; [|split; [by constructor|done]]. intros x y Hx Hy. apply elem_of_cons in Hx as [->|Hx]; [|by apply H1].
      rewrite Forall_forall in Ha2. by apply Ha2.
    + intros (H1 & H2 & H3). apply StronglySorted_inv in H2 as [H2 Ha]. constructor.
      * apply IH. split; [|done]. intros x y Hx Hy. apply H1; [|done]. by apply elem_of_list_further.
      * apply Forall_app. split; [done|]. apply Forall_forall. intros y Hy. apply H1; [|done]. apply elem_of_list_here.
Qed.

Lemma append_split s spans : exists l1 l2, spans = l1 ++ l2 /\ append_span s spans = l1 ++ s :: l2.
Proof. exists (take (position (s_id s) spans) spans), (drop (position (s_id s) spans) spans). by rewrite take_drop. Qed.

Lemma append_sorted s spans : descending (ids spans) -> s_id s ∉ ids spans -> descending (ids (append_span s spans)).
Proof.
  intros Hd Hn. unfold append_span. destruct (position_spec (s_id s) spans Hd) as (H1 & H2 & H3).
  set (r := position (s_id s) spans) in *. clearbody r. unfold ids in *. rewrite map_app. cbn [map].
  rewrite <- (take_drop r spans), map_app in Hd.
  unfold descending in *. apply StronglySorted_app in Hd as (Hd1 & Hd2 & Hd3).
  assert (H3' : Forall (fun x => x < s_id s) (map s_id (drop r spans))).
  { apply Forall_fmap. apply Forall_forall. intros x Hx. rewrite Forall_forall in H3. specialize (H3 x Hx). cbn.
    assert (s_id x <> s_id s); [|lia]. intros E. apply Hn. rewrite <- E. apply elem_of_list_fmap_1. rewrite <- (take_drop r spans). apply elem_of_app. by right. }
  apply StronglySorted_app. split; [|split].
  - intros x y Hx Hy. apply elem_of_cons in Hy as [->|Hy]; [|by apply Hd1].
    apply elem_of_list_fmap in Hx as (x' & -> & Hx). rewrite Forall_forall in H2. by apply H2.
  - done.
  - by constructor.
Qed.

(* ---------- merging ---------- *)

Lemma add_tags_list l : NoDup l.*1 -> forall s, add_tags l s = set_tags (list_to_map l ∪ s_tags s) s.
Proof.
  induction l as [|[k v] l IH]; intros Hn s.
  - cbn. rewrite (left_id_L ∅ (∪)). by destruct s.
  - rewrite fmap_cons in Hn. apply NoDup_cons in Hn as [Hk Hn].
    change (add_tags ((k, v) :: l) s) with (add_tags l (add_tag k v s)). rewrite IH by done.
    change (s_tags (add_tag k v s)) with (<[k := v]> (s_tags s)). change (set_tags ?m (add_tag k v s)) with (set_tags m s).
    f_equal. change (list_to_map ((k, v) :: l)) with (<[k := v]> (list_to_map l : gmap gostring gostring)).
    rewrite <- insert_union_l. apply eq_sym, insert_union_r. by apply not_elem_of_list_to_map_1.
Qed.

Lemma add_tags_order l m s : l ≡ₚ map_to_list m -> add_tags l s = set_tags (m ∪ s_tags s) s.
Proof.
  intros Hp. assert (Hn : NoDup l.*1) by (rewrite Hp; apply NoDup_fst_map_to_list).
  rewrite add_tags_list by done. do 2 f_equal. rewrite (list_to_map_proper l (map_to_list m)) by done. apply list_to_map_to_list.
Qed.

Global Instance from_server_dec s : Decision (from_server s).
Proof. unfold from_server. apply _. Defined.

Definition merged (s new : span) : span :=
  let t := s_timings s in
  let t' := s_timings new in
  if decide (from_server new) then
    Span (s_id s) (s_parent s) (s_trace s) (first_nonempty (s_name new) (s_name s)) (first_nonempty (s_service new) (s_service s))
      (s_ts s) (s_dur s) (s_tags new ∪ s_tags s)
      (Timings (tCS t) (tCR t) (if 0 <? tSS t' then tSS t' else tSS t) (if 0 <? tSR t' then tSR t' else tSR t))
  else
    Span (s_id s) (s_parent s) (s_trace s) (first_nonempty (s_name s) (s_name new)) (first_nonempty (s_service s) (s_service new))
      (s_ts s) (s_dur s) (s_tags s ∪ s_tags new)
      (Timings (if 0 <? tCS t' then tCS t' else tCS t) (if 0 <? tCR t' then tCR t' else tCR t) (tSS t) (tSR t)).

Lemma from_server_b s : (ts_valid (tSR (s_timings s)) || ts_valid (tSS (s_timings s))) = bool_decide (from_server s).
Proof. unfold ts_valid, from_server. symmetry. destruct (_ || _) eqn:E; [apply bool_decide_true|apply bool_decide_false]; lia. Qed.

Lemma merge_spec ord s new : map_order ord -> merge_spans ord s new = merged s new.
Proof.
  intros Ho. unfold merge_spans, merged. rewrite from_server_b. unfold first_nonempty, ts_valid.
  destruct s as [i p tr nm sv ts du tg [a b c d]], new as [i' p' tr' nm' sv' ts' du' tg' [a' b' c' d']].
  cbn [s_id s_parent s_trace s_name s_service s_ts s_dur s_tags s_timings tCS tCR tSS tSR].
  assert (Ha : forall m s, add_tags (ord m) s = set_tags (m ∪ s_tags s) s) by (intros; apply add_tags_order, Ho).
  destruct (decide (from_server _)) as [H|H].
  - rewrite (bool_decide_true _ H), Ha. destruct (decide (sv' = [])), (decide (nm' = [])), (0 <? c'), (0 <? d'); done.
  - rewrite (bool_decide_false _ H).
    rewrite !Ha. cbn [s_tags set_tags]. rewrite (right_id_L ∅ (∪)).
    destruct (decide (sv = [])), (decide (nm = [])); cbn [s_tags s_name set_service set_name set_tags];
      repeat (destruct (decide _); try done); destruct (0 <? a'), (0 <? b'); done.
Qed.

(* ---------- AddSpan ---------- *)

Definition updated_span (s new : span) : span :=
  merged (if s_parent s =? 0 then set_parent (s_parent new) s else s) new.

Lemma merged_id s new : s_id (merged s new) = s_id s.
Proof. unfold merged. by destruct (decide _). Qed.
Lemma updated_id s new : s_id (updated_span s new) = s_id s.
Proof. unfold updated_span. rewrite merged_id. by destruct (_ =? 0). Qed.

Lemma add_span_cases ord now new t : map_order ord -> descending (ids (t_spans t)) ->
  (exists l1 l2, t_spans t = l1 ++ l2 /\ s_id new ∉ ids (t_spans t) /\
     add_span ord now new t = Tree (t_id t) (l1 ++ new :: l2) (t_started t) now (u16 (t_count t + 1)) /\
     descending (ids (l1 ++ new :: l2))) \/
  (exists l1 s l2, t_spans t = l1 ++ s :: l2 /\ s_id s = s_id new /\
     add_span ord now new t = Tree (t_id t) (l1 ++ updated_span s new :: l2) (t_started t) now (t_count t) /\
     ids (l1 ++ updated_span s new :: l2) = ids (t_spans t)).
Proof.
  intros Ho Hd. unfold add_span. destruct (get_span_ref (s_id new) (t_spans t)) as [i|] eqn:E.
  - right. destruct (get_span_ref_Some _ _ _ Hd E) as (s & Hs & Hid).
    pose proof (take_drop_middle _ _ _ Hs) as Et.
    assert (Hl : length (take i (t_spans t)) = i) by (apply take_length_le; apply lookup_lt_Some in Hs; lia).
    exists (take i (t_spans t)), s, (drop (S i) (t_spans t)). split; [done|]. split; [done|]. split.
    + f_equal. rewrite <- Et at 1. rewrite <- Hl at 1. rewrite <- (Nat.add_0_r (length _)), alter_app_r. cbn. do 2 f_equal.
      apply merge_spec, Ho.
    + rewrite <- Et at 3. unfold ids. rewrite !map_app. cbn [map]. by rewrite updated_id.
  - left. pose proof (get_span_ref_None _ _ Hd E) as Hn. destruct (append_split new (t_spans t)) as (l1 & l2 & E1 & E2).
    exists l1, l2. split; [done|]. split; [done|]. rewrite E2. split; [done|]. rewrite <- E2. by apply append_sorted.
Qed.

Definition count_ok (t : tree) : Prop := t_count t = u16 (Z.of_nat (length (t_spans t))).

Lemma add_span_inv ord now new t : map_order ord -> descending (ids (t_spans t)) -> count_ok t ->
  let t' := add_span ord now new t in
  descending (ids (t_spans t')) /\ count_ok t' /\ t_id t' = t_id t /\ t_started t' = t_started t /\ t_updated t' = now /\
  (forall id, id ∈ ids (t_spans t') <-> id ∈ ids (t_spans t) \/ id = s_id new).
Proof.
  intros Ho Hd Hc t'. unfold t'. clear t'.
  destruct (add_span_cases ord now new t Ho Hd) as [(l1 & l2 & E1 & Hn & E2 & Hd2)|(l1 & s & l2 & E1 & Hid & E2 & E3)]; rewrite E2; cbn [t_spans t_id t_started t_updated t_count].
  - split; [done|]. split.
    + unfold count_ok in *. cbn [t_spans t_id t_started t_updated t_count]. rewrite Hc, E1, !app_length. cbn [length]. unfold u16. rewrite Zplus_mod_idemp_l. f_equal. lia.
    + repeat (split; [done|]). intros id. rewrite E1. unfold ids. rewrite !map_app. cbn [map].
      rewrite !elem_of_app, elem_of_cons. tauto.
  - rewrite E3. split; [done|]. split.
    + unfold count_ok in *. cbn [t_spans t_id t_started t_updated t_count]. rewrite Hc, E1, !app_length. done.
    + repeat (split; [done|]). intros id. split; [tauto|]. intros [H| ->]; [done|]. rewrite E1, <- Hid. unfold ids. rewrite map_app. cbn [map].
      apply elem_of_app. right. apply elem_of_list_here.
Qed.

Lemma add_all_inv ord adds : map_order ord -> forall t, descending (ids (t_spans t)) -> count_ok t ->
  let t' := add_all ord adds t in
  descending (ids (t_spans t')) /\ count_ok t' /\ t_id t' = t_id t /\ t_started t' = t_started t /\
  (forall id, id ∈ ids (t_spans t') <-> id ∈ ids (t_spans t) \/ id ∈ ids (map snd adds)).
Proof.
  intros Ho. induction adds as [|a adds IH]; intros t Hd Hc.
  - cbn. repeat (split; [done|]). intros id. split; [tauto|]. intros [H|H]; [done|]. by apply elem_of_nil in H.
  - cbv zeta. change (add_all ord (a :: adds) t) with (add_all ord adds (add_span ord a.1 a.2 t)).
    destruct (add_span_inv ord a.1 a.2 t Ho Hd Hc) as (H1 & H2 & H3 & H4 & _ & H5).
    destruct (IH _ H1 H2) as (I1 & I2 & I3 & I4 & I5). split; [done|]. split; [done|]. split; [congruence|]. split; [congruence|].
    intros id. rewrite I5, H5. change (ids (map snd (a :: adds))) with (s_id a.2 :: ids (map snd adds)). rewrite elem_of_cons. tauto.
Qed.

Lemma new_tree_ok now tr : descending (ids (t_spans (new_tree now tr))) /\ count_ok (new_tree now tr).
Proof. split; [constructor|done]. Qed.

Lemma get_span_ref_iff id spans : descending (ids spans) -> (is_Some (get_span_ref id spans) <-> id ∈ ids spans).
Proof.
  intros Hd. split.
  - intros [i Hi]. destruct (get_span_ref_Some _ _ _ Hd Hi) as (s & Hs & <-). apply elem_of_list_fmap_1. by eapply elem_of_list_lookup_2.
  - intros H. destruct (get_span_ref id spans) eqn:E; [eauto|]. by apply get_span_ref_None in E.
Qed.

Lemma sorted_unique spans s s' : descending (ids spans) -> s ∈ spans -> s' ∈ spans -> s_id s = s_id s' -> s = s'.
Proof.
  intros Hd Hs Hs' E. apply elem_of_list_lookup in Hs as [i Hi], Hs' as [j Hj].
  destruct (decide (i = j)) as [->|]; [congruence|].
  assert (Hl : forall k x, spans !! k = Some x -> ids spans !! k = Some (s_id x)).
  { intros k x Hk. unfold ids. change (map s_id spans) with (s_id <$> spans). by rewrite list_lookup_fmap, Hk. }
  destruct (decide (i < j)%nat).
  - pose proof (sorted_lookup _ i j _ _ Hd ltac:(lia) (Hl _ _ Hi) (Hl _ _ Hj)). lia.
  - pose proof (sorted_lookup _ j i _ _ Hd ltac:(lia) (Hl _ _ Hj) (Hl _ _ Hi)). lia.
Qed.

Lemma tree_contents ord now tr adds : map_order ord ->
  let spans := t_spans (add_all ord adds (new_tree now tr)) in
  descending (ids spans) /\
  (forall id, id ∈ ids spans <-> id ∈ ids (map snd adds)) /\
  (forall id, is_Some (get_span_ref id spans) <-> id ∈ ids (map snd adds)) /\
  (forall id i, get_span_ref id spans = Some i -> exists s, spans !! i = Some s /\ s_id s = id) /\
  t_count (add_all ord adds (new_tree now tr)) = Z.of_nat (length spans) mod 2^16.
Proof.
  intros Ho. destruct (new_tree_ok now tr) as [H1 H2]. destruct (add_all_inv ord adds Ho _ H1 H2) as (I1 & I2 & _ & _ & I5).
  assert (I6 : forall id, id ∈ ids (t_spans (add_all ord adds (new_tree now tr))) <-> id ∈ ids (map snd adds)).
  { intros id. rewrite I5. cbn. split; [|tauto]. intros [H|H]; [by apply elem_of_nil in H|done]. }
  split; [done|]. split; [done|]. split.
  - intros id. by rewrite get_span_ref_iff.
  - split; [|done]. intros id i. by apply get_span_ref_Some.
Qed.

(** What is held for one id depends only on the spans added with that id. *)
Lemma tree_one ord id adds : map_order ord -> forall t u,
  descending (ids (t_spans t)) -> count_ok t -> descending (ids (t_spans u)) -> count_ok u ->
  (forall s, s_id s = id -> (s ∈ t_spans t <-> s ∈ t_spans u)) ->
  (forall s, s_id s = id -> (s ∈ t_spans (add_all ord adds t) <-> s ∈ t_spans (add_all ord (with_id id adds) u))).
Proof.
  intros Ho. induction adds as [|a adds IH]; intros t u Ht Ct Hu Cu H; [done|].
  cbn [with_id List.filter add_all foldl]. change (foldl _ ?t adds) with (add_all ord adds t).
  destruct (add_span_inv ord a.1 a.2 t Ho Ht Ct) as (A1 & A2 & _).
  destruct (Z.eqb_spec (s_id a.2) id) as [E|E]; cbn [add_all foldl].
  - destruct (add_span_inv ord a.1 a.2 u Ho Hu Cu) as (B1 & B2 & _).
    apply (IH _ _ A1 A2 B1 B2). intros s Hs.
    assert (Hid : id ∈ ids (t_spans t) <-> id ∈ ids (t_spans u)).
    { unfold ids. rewrite !elem_of_list_fmap. split; intros (x & E1 & E2); exists x; (split; [done|]); by apply H. }
    destruct (add_span_cases ord a.1 a.2 t Ho Ht) as [(l1 & l2 & E1 & Hn & E2 & Hd2)|(l1 & x & l2 & E1 & Hx & E2 & E3)];
    destruct (add_span_cases ord a.1 a.2 u Ho Hu) as [(m1 & m2 & F1 & Hm & F2 & Gd2)|(m1 & y & m2 & F1 & Hy & F2 & F3)].
    + rewrite E2, F2. cbn. rewrite !elem_of_app, !elem_of_cons. specialize (H s Hs). rewrite E1, F1, !elem_of_app in H. tauto.
    + exfalso. rewrite E in Hn. apply Hn, Hid. rewrite F1, <- E, <- Hy. unfold ids. rewrite map_app. apply elem_of_app. right. apply elem_of_list_here.
    + exfalso. rewrite E in Hm. apply Hm, Hid. rewrite E1, <- E, <- Hx. unfold ids. rewrite map_app. apply elem_of_app. right. apply elem_of_list_here.
    + assert (x = y) as <-.
      { apply (sorted_unique (t_spans u)); [done|apply H; [congruence|]; rewrite E1|rewrite F1|congruence]; apply elem_of_app; right; apply elem_of_list_here. }
      rewrite E2, F2. cbn. rewrite !elem_of_app, !elem_of_cons. pose proof (H s Hs) as H'. rewrite E1, F1, !elem_of_app, !elem_of_cons in H'.
      assert (forall l1 l2, descending (ids (l1 ++ x :: l2)) -> s ∈ l1 \/ s ∈ l2 -> False).
      { intros k1 k2 Hd Hin. assert (s = x) as ->.
        { apply (sorted_unique (k1 ++ x :: k2)); [done|apply elem_of_app; rewrite elem_of_cons; tauto|apply elem_of_app; right; apply elem_of_list_here|congruence]. }
        unfold ids in Hd. rewrite map_app in Hd. cbn [map] in Hd. unfold descending in Hd. apply StronglySorted_app in Hd as (D1 & _ & D2).
        apply StronglySorted_inv in D2 as [_ D2]. rewrite Forall_forall in D2. destruct Hin as [Hin|Hin]; apply (elem_of_list_fmap_1 s_id) in Hin.
        - specialize (D1 _ _ Hin (elem_of_list_here _ _)). lia.
        - specialize (D2 _ Hin). lia. }
      rewrite E1 in Ht. rewrite F1 in Hu.
      pose proof (H0 _ _ Ht). pose proof (H0 _ _ Hu). tauto.
  - apply (IH _ _ A1 A2 Hu Cu). intros s Hs. rewrite <- H by done.
    destruct (add_span_cases ord a.1 a.2 t Ho Ht) as [(l1 & l2 & E1 & Hn & E2 & Hd2)|(l1 & x & l2 & E1 & Hx & E2 & E3)]; rewrite E2, E1; cbn.
    + rewrite !elem_of_app, elem_of_cons. assert (s <> a.2) by congruence. tauto.
    + rewrite !elem_of_app, !elem_of_cons. assert (s <> x) by congruence.
      assert (s <> updated_span x a.2) by (intros ->; rewrite updated_id in Hs; congruence). tauto.
Qed.

Lemma tree_per_id ord now tr adds s : map_order ord ->
  (s ∈ t_spans (add_all ord adds (new_tree now tr)) <-> s ∈ t_spans (add_all ord (with_id (s_id s) adds) (new_tree now tr))).
Proof.
  intros Ho. destruct (new_tree_ok now tr) as [H1 H2]. apply (tree_one ord (s_id s) adds Ho); done.
Qed.

(* ---------- the two halves of a shared span ---------- *)

Lemma add_two ord now tr n1 n2 a b : map_order ord -> s_id a = s_id b ->
  t_spans (add_all ord [(n1, a); (n2, b)] (new_tree now tr)) = [updated_span a b].
Proof.
  intros Ho E. change (add_all ord _ _) with (add_span ord n2 b (Tree tr [a] now n1 (u16 (0 + 1)))).
  unfold add_span. cbn [t_spans]. assert (G : get_span_ref (s_id b) [a] = Some 0%nat).
  { unfold get_span_ref, position, search, id_at. cbn. by rewrite E, Z.leb_refl, Z.eqb_refl. }
  rewrite G. cbn [t_spans]. cbv beta. cbn [alter list_alter]. f_equal. by apply merge_spec.
Qed.

Lemma halves ord now tr n1 n2 c s : map_order ord -> s_id c = s_id s -> s_trace c = s_trace s ->
  s_parent c = s_parent s \/ s_parent c = 0 \/ s_parent s = 0 -> client_half c -> server_half s ->
  exists r, s_name r = first_nonempty (s_name s) (s_name c) /\ s_service r = first_nonempty (s_service s) (s_service c) /\
    s_tags r = s_tags s ∪ s_tags c /\
    s_timings r = Timings (tCS (s_timings c)) (tCR (s_timings c)) (tSS (s_timings s)) (tSR (s_timings s)) /\
    t_spans (add_all ord [(n1, c); (n2, s)] (new_tree now tr)) = [retimed r (s_ts c) (s_dur c)] /\
    t_spans (add_all ord [(n1, s); (n2, c)] (new_tree now tr)) = [retimed r (s_ts s) (s_dur s)].
Proof.
  intros Ho Ei Et Ep (C1 & C2 & C3 & C4) (S1 & S2 & S3 & S4 & S5).
  exists (Span (s_id s) (if s_parent s =? 0 then s_parent c else s_parent s) (s_trace s) (first_nonempty (s_name s) (s_name c))
    (first_nonempty (s_service s) (s_service c)) 0 0 (s_tags s ∪ s_tags c)
    (Timings (tCS (s_timings c)) (tCR (s_timings c)) (tSS (s_timings s)) (tSR (s_timings s)))).
  repeat (split; [done|]). rewrite !add_two by done. unfold updated_span, merged.
  rewrite (decide_True _ _ S5). rewrite (decide_False (P := from_server c)) by (unfold from_server; lia).
  destruct s as [i p t nm sv ts du tg [a b e d]], c as [i' p' t' nm' sv' ts' du' tg' [a' b' e' d']]. cbn in *. subst.
  split; f_equal; unfold retimed; cbn.
  - assert (E1 : (if 0 <? e then e else 0) = e) by (destruct (Z.ltb_spec 0 e); lia).
    assert (E2 : (if 0 <? d then d else 0) = d) by (destruct (Z.ltb_spec 0 d); lia).
    destruct (Z.eqb_spec p' 0), (Z.eqb_spec p 0); cbn; rewrite E1, E2; f_equal; lia.
  - assert (E1 : (if 0 <? a' then a' else 0) = a') by (destruct (Z.ltb_spec 0 a'); lia).
    assert (E2 : (if 0 <? b' then b' else 0) = b') by (destruct (Z.ltb_spec 0 b'); lia).
    destruct (Z.eqb_spec p 0); cbn; rewrite E1, E2; f_equal; lia.
Qed.

Lemma merge_keeps ord s new : map_order ord ->
  let r := merge_spans ord s new in
  s_id r = s_id s /\ s_parent r = s_parent s /\ s_trace r = s_trace s /\ s_ts r = s_ts s /\ s_dur r = s_dur s /\
  dom (s_tags r) = dom (s_tags s) ∪ dom (s_tags new) /\
  (forall k v, s_tags r !! k = Some v <->
     if decide (from_server new) then s_tags new !! k = Some v \/ (s_tags new !! k = None /\ s_tags s !! k = Some v)
     else s_tags s !! k = Some v \/ (s_tags s !! k = None /\ s_tags new !! k = Some v)).
Proof.
  intros Ho r. unfold r. clear r. rewrite merge_spec by done. unfold merged. destruct (decide (from_server new)) as [H|H]; cbn;
    repeat (split; [done|]); (split; [rewrite dom_union_L; set_solver|]); intros k v; apply lookup_union_Some_raw.
Qed.
