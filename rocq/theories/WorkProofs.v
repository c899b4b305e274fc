(** Proofs for C102. *)
From Verif Require Import Base IdModel SpanModel TreeModel TreeSpec TreeProofs CorrectProofs RootProofs WorkModel WorkSpec.
From Verif Require TagHeapProofs.
Local Open Scope nat_scope.

(* ---------- binary search ---------- *)

Lemma search_same k f i j : (search_counting k f i j).1 = search_loop k f i j.
Proof.
  revert i j. induction k as [|k IH]; intros i j; [done|]. cbn [search_counting search_loop]. destruct (i <? j); [|done]. cbv zeta.
  destruct (f ((i + j) / 2)); [rewrite <- (IH i ((i + j) / 2))|rewrite <- (IH (S ((i + j) / 2)) j)]; by destruct (search_counting k f _ _).
Qed.

Lemma halvings_mono a b : a <= b -> halvings a <= halvings b.
Proof. intros H. destruct a, b; cbn [halvings]; try lia. apply le_n_S, Nat.log2_le_mono. lia. Qed.
Lemma halvings_half n : 0 < n -> S (halvings (n / 2)) = halvings n.
Proof.
  intros H. destruct n as [|[|n]]; [lia|done|]. assert (Hd : 1 <= S (S n) / 2) by (apply Nat.div_le_lower_bound; lia).
  unfold halvings. destruct (S (S n) / 2) as [|m] eqn:E; [lia|]. f_equal. rewrite <- E. 
  destruct (Nat.Even_or_Odd (S (S n))) as [[m' E']|[m' E']].
  - rewrite E', (Nat.mul_comm 2 m'), Nat.div_mul, (Nat.mul_comm m' 2) by lia. rewrite Nat.log2_double by lia. done.
  - rewrite E' at 1. replace (2 * m' + 1) with (1 + m' * 2) by lia. rewrite Nat.div_add by lia. change (1 / 2) with 0. rewrite Nat.add_0_l.
    rewrite E', Nat.log2_succ_double by lia. done.
Qed.

Lemma search_calls k f i j : j - i <= k -> (search_counting k f i j).2 <= halvings (j - i).
Proof.
  revert i j. induction k as [|k IH]; intros i j Hk; [cbn; lia|]. cbn [search_counting]. destruct (Nat.ltb_spec i j) as [Hlt|]; [|cbn; lia]. cbv zeta.
  assert (Eh : (i + j) / 2 = i + (j - i) / 2). { replace (i + j) with (j - i + i * 2) by lia. rewrite Nat.div_add by lia. lia. }
  assert (Hb : (j - i) / 2 < j - i) by (apply Nat.div_lt; lia).
  assert (Hs := halvings_half (j - i) ltac:(lia)). destruct (f ((i + j) / 2)).
  - specialize (IH i ((i + j) / 2)). destruct (search_counting k f i ((i + j) / 2)) as [r n]. cbn [snd] in *. replace ((i + j) / 2 - i) with ((j - i) / 2) in IH by lia. lia.
  - specialize (IH (S ((i + j) / 2)) j). destruct (search_counting k f (S ((i + j) / 2)) j) as [r n]. cbn [snd] in *.
    assert (Hm : j - S ((i + j) / 2) <= (j - i) / 2). { pose proof (Nat.div_mod (j - i) 2 ltac:(lia)). pose proof (Nat.mod_upper_bound (j - i) 2 ltac:(lia)). lia. }
    pose proof (halvings_mono _ _ Hm). lia.
Qed.

Lemma log2_half n : 0 < n -> S (Nat.log2 (n - n / 2)) = Nat.log2 (n + 1).
Proof.
  intros H. destruct (Nat.Even_or_Odd n) as [[m E]|[m E]]; subst n.
  - replace (2 * m - 2 * m / 2) with m by (rewrite (Nat.mul_comm 2 m), Nat.div_mul by lia; lia). by rewrite Nat.log2_succ_double by lia.
  - replace (2 * m + 1 - (2 * m + 1) / 2) with (m + 1) by (replace (2 * m + 1) with (1 + m * 2) by lia; rewrite Nat.div_add by lia; change (1 / 2) with 0; lia).
    replace (2 * m + 1 + 1) with (2 * (m + 1)) by lia. by rewrite Nat.log2_double by lia.
Qed.
Lemma search_calls_min k f i j : j - i <= k -> Nat.log2 (j - i + 1) <= (search_counting k f i j).2.
Proof.
  revert i j. induction k as [|k IH]; intros i j Hk; [replace (j - i) with 0 by lia; cbn; lia|]. cbn [search_counting]. destruct (Nat.ltb_spec i j) as [Hlt|]; [|replace (j - i) with 0 by lia; cbn; lia]. cbv zeta.
  assert (Eh : (i + j) / 2 = i + (j - i) / 2). { replace (i + j) with (j - i + i * 2) by lia. rewrite Nat.div_add by lia. lia. }
  assert (Hb : (j - i) / 2 < j - i) by (apply Nat.div_lt; lia). pose proof (Nat.div_mod (j - i) 2 ltac:(lia)). pose proof (Nat.mod_upper_bound (j - i) 2 ltac:(lia)).
  pose proof (log2_half (j - i) ltac:(lia)) as Hl. rewrite <- Hl. destruct (f ((i + j) / 2)).
  - specialize (IH i ((i + j) / 2) ltac:(lia)). destruct (search_counting k f i ((i + j) / 2)) as [r n]. cbn [snd] in *. apply le_n_S. etransitivity; [|exact IH]. apply Nat.log2_le_mono. lia.
  - specialize (IH (S ((i + j) / 2)) j ltac:(lia)). destruct (search_counting k f (S ((i + j) / 2)) j) as [r n]. cbn [snd] in *. apply le_n_S. etransitivity; [|exact IH]. apply Nat.log2_le_mono. lia.
Qed.
Lemma search_calls_both n f : Nat.log2 (n + 1) <= (search_counting n f 0 n).2 <= halvings n.
Proof. pose proof (search_calls n f 0 n) as H1. pose proof (search_calls_min n f 0 n) as H2. rewrite Nat.sub_0_r in H1, H2. split; [by apply H2|by apply H1]. Qed.

Lemma position_same id spans : (position_counting id spans).1 = position id spans.
Proof. apply search_same. Qed.
Lemma position_calls id spans : (position_counting id spans).2 <= halvings (length spans).
Proof. unfold position_counting. pose proof (search_calls (length spans) (fun i => (id_at spans i <=? id)%Z) 0 (length spans)) as H. rewrite Nat.sub_0_r in H. by apply H. Qed.

Lemma filter_all {A} (f : A -> bool) l : Forall (fun x => f x = true) l -> List.filter f l = l.
Proof. induction 1 as [|x l Hx _ IH]; [done|]. cbn. by rewrite Hx, IH. Qed.
Lemma filter_none {A} (f : A -> bool) l : Forall (fun x => f x = false) l -> List.filter f l = [].
Proof. induction 1 as [|x l Hx _ IH]; [done|]. cbn. by rewrite Hx. Qed.


Lemma add_work id spans : descending (ids spans) ->
  (add_counting id spans).1 <= 2 * halvings (length spans) + 1 /\
  (add_counting id spans).2 = if decide (id ∈ ids spans) then 0 else smaller id (ids spans).
Proof.
  intros Hd. unfold add_counting. pose proof (position_same id spans) as Ep. pose proof (position_calls id spans) as Hc.
  destruct (position_counting id spans) as [idx n]. cbn [fst snd] in *. subst idx.
  pose proof (get_span_ref_iff id spans Hd) as Hr. unfold get_span_ref in Hr. destruct ((position id spans <? length spans) && (id_at spans (position id spans) =? id)%Z) eqn:E.
  - split; [cbn [fst]; destruct (_ <? _); lia|]. rewrite decide_True; [done|]. apply Hr. by eexists.
  - split; [cbn [fst]; destruct (_ <? _); lia|]. assert (Hni : id ∉ ids spans) by (intros H; apply Hr in H as [? ?]; done). rewrite decide_False by done. cbn [snd].
    destruct (position_spec id spans Hd) as (H1 & H2 & H3). unfold smaller.
    assert (Es : ids spans = ids (take (position id spans) spans) ++ ids (drop (position id spans) spans)) by (unfold ids; by rewrite <- map_app, take_drop).
    rewrite Es, List.filter_app, app_length, (filter_none _ (ids (take _ _))), (filter_all _ (ids (drop _ _))).
    + cbn [length]. unfold ids. by rewrite map_length, drop_length.
    + apply Forall_forall. intros x Hx. assert (Hx' : x ∈ ids spans) by (rewrite Es; apply elem_of_app; by right).
      unfold ids in Hx. apply elem_of_list_fmap in Hx as (s & -> & Hs). rewrite Forall_forall in H3. specialize (H3 s Hs). apply Z.ltb_lt.
      assert (s_id s <> id) by (intros <-; done). lia.
    + apply Forall_forall. intros x Hx. unfold ids in Hx. apply elem_of_list_fmap in Hx as (s & -> & Hs). rewrite Forall_forall in H2. specialize (H2 s Hs). apply Z.ltb_ge. lia.
Qed.

(* ---------- what is moved altogether ---------- *)

Lemma firsts_snoc l x : firsts (l ++ [x]) = if decide (x ∈ firsts l) then firsts l else firsts l ++ [x].
Proof. unfold firsts. by rewrite foldl_app. Qed.
Lemma firsts_in l x : x ∈ firsts l <-> x ∈ l.
Proof.
  induction l as [|y l IH] using rev_ind; [done|]. rewrite firsts_snoc, elem_of_app, elem_of_list_singleton. destruct (decide (y ∈ firsts l)) as [H|H].
  - rewrite IH. split; [by left|]. intros [?| ->]; [done|]. by apply IH.
  - by rewrite elem_of_app, elem_of_list_singleton, IH.
Qed.
Lemma firsts_NoDup l : NoDup (firsts l).
Proof.
  induction l as [|y l IH] using rev_ind; [constructor|]. rewrite firsts_snoc. destruct (decide (y ∈ firsts l)) as [H|H]; [done|].
  apply NoDup_app. split; [done|]. split; [|apply NoDup_singleton]. intros x Hx Hy. apply elem_of_list_singleton in Hy as ->. done.
Qed.
Lemma ascents_snoc l x : ascents (l ++ [x]) = ascents l + smaller x l.
Proof.
  unfold smaller. induction l as [|y l IH]; [done|]. cbn [app ascents]. rewrite IH, List.filter_app, app_length. cbn [List.filter]. destruct (y <? x)%Z; cbn [length]; lia.
Qed.
Lemma smaller_perm x l l' : l ≡ₚ l' -> smaller x l = smaller x l'.
Proof.
  unfold smaller. induction 1 as [|y l l' _ IH|y z l|l1 l2 l3 _ IH1 _ IH2]; [done| | |congruence]; cbn [List.filter].
  - destruct (y <? x)%Z; cbn [length]; lia.
  - destruct (y <? x)%Z, (z <? x)%Z; cbn [length]; lia.
Qed.

Lemma moves_app ord a b t : moves ord (a ++ b) t = moves ord a t + moves ord b (add_all ord a t).
Proof. revert t. induction a as [|x a IH]; intros t; [done|]. cbn [app moves]. rewrite IH. unfold add_all. cbn [foldl]. lia. Qed.

Lemma moves_total ord now tr adds : map_order ord -> moves ord adds (new_tree now tr) = ascents (firsts (ids (map snd adds))).
Proof.
  intros Ho. induction adds as [|a adds IH] using rev_ind; [done|]. rewrite moves_app, IH, map_app. unfold ids at 2. rewrite map_app. cbn [map moves]. rewrite Nat.add_0_r.
  change (map s_id (map snd adds)) with (ids (map snd adds)). rewrite firsts_snoc.
  destruct (tree_contents ord now tr adds Ho) as (Hd & Hin & _). destruct (add_work (s_id a.2) _ Hd) as [_ ->].
  destruct (decide (s_id a.2 ∈ firsts (ids (map snd adds)))) as [H|H]; rewrite firsts_in in H.
  - rewrite decide_True by (by apply Hin). lia.
  - rewrite decide_False by (by rewrite Hin). rewrite ascents_snoc. f_equal. apply smaller_perm. apply NoDup_Permutation; [by apply descending_NoDup|apply firsts_NoDup|].
    intros x. by rewrite Hin, firsts_in.
Qed.

(* ---------- the correction ---------- *)

Definition counting_children (fuel : nat) (node : nat) (offset : Z) : list nat -> list span -> nat -> option (list span * nat) :=
  fix go (children : list nat) (mem : list span) (looks : nat) : option (list span * nat) :=
    match children with
    | [] => Some (mem, looks)
    | c :: cs => match correct_counting fuel mem c (Some node) offset with Some (mem', looks') => go cs mem' (looks + looks') | None => None end
    end.
Lemma counting_S fuel mem node parent offset : correct_counting (S fuel) mem node parent offset =
  match mem !! node with
  | None => None
  | Some s =>
      let '(s', offset') := correct_node s (parent ≫= fun p => mem !! p) offset in
      counting_children fuel node offset' (children_of (s_id s') (<[node := s']> mem)) (<[node := s']> mem) (length (<[node := s']> mem))
  end.
Proof. reflexivity. Qed.

Lemma looks_exact fuel : forall mem node parent offset, correct_counting fuel mem node parent offset =
  option_map (fun p => (p.1, length p.2 * length mem)) (correct fuel mem node parent offset).
Proof.
  induction fuel as [|fuel IH]; intros mem node parent offset; [done|]. rewrite counting_S, TagHeapProofs.correct_S. destruct (mem !! node) as [s|]; [|done].
  destruct (correct_node s (parent ≫= fun p => mem !! p) offset) as [s' off'].
  assert (Hgo : forall cs m seen, counting_children fuel node off' cs m (length seen * length m) =
    option_map (fun p => (p.1, length p.2 * length m)) (TagHeapProofs.correct_children fuel node off' cs m seen)).
  { induction cs as [|c cs IHc]; intros m seen; [done|]. rewrite TagHeapProofs.correct_children_cons. cbn [counting_children]. rewrite IH.
    destruct (correct fuel m c (Some node) off') as [[m' seen']|] eqn:E; [|done]. cbn [option_map fst snd].
    apply TagHeapProofs.correct_tags_kept in E as [El _]. fold (counting_children fuel node off'). rewrite <- Nat.mul_add_distr_r, <- app_length, <- El. apply IHc. }
  specialize (Hgo (children_of (s_id s') (<[node:=s']> mem)) (<[node:=s']> mem) [node]). cbn [length] in Hgo. rewrite Nat.mul_1_l in Hgo. rewrite Hgo.
  by rewrite insert_length.
Qed.

Lemma correct_node_skel s p off : s_id (correct_node s p off).1 = s_id s /\ s_parent (correct_node s p off).1 = s_parent s.
Proof.
  unfold correct_node. destruct (off =? 0)%Z; destruct (has_timings _); destruct p; try destruct (_ <? _)%Z; by destruct s.
Qed.

Lemma depth_exact fuel : forall spans mem node c parent offset, skel mem = skel spans -> spans !! node = Some c ->
  (forall mem' seen, correct fuel mem node parent offset = Some (mem', seen) -> skel mem' = skel spans) /\
  (is_Some (correct fuel mem node parent offset) <-> forall l, descends spans c l -> length l < fuel).
Proof.
  induction fuel as [|fuel IH]; intros spans mem node c parent offset Hsk Hc.
  { split; [done|]. split; [by intros [? ?]|]. intros H. specialize (H [] I). cbn in H. lia. }
  rewrite TagHeapProofs.correct_S. destruct (skel_lookup spans mem node c (eq_sym Hsk) Hc) as (s & Es & Eid & Epar). rewrite Es.
  pose proof (correct_node_skel s (parent ≫= fun p => mem !! p) offset) as [Hi Hp]. destruct (correct_node s (parent ≫= fun p => mem !! p) offset) as [s' off']. cbn [fst] in Hi, Hp.
  assert (Hsk' : skel (<[node := s']> mem) = skel spans) by (by rewrite (skel_insert _ s)).
  assert (Hcin : c ∈ spans) by (by eapply elem_of_list_lookup_2).
  assert (Hch : forall i, i ∈ children_of (s_id s') (<[node:=s']> mem) <-> exists x, spans !! i = Some x /\ child spans c x).
  { intros i. replace (s_id s') with (s_id c) by congruence. by apply children_lookup. }
  assert (Hgo : forall cs m seen, skel m = skel spans -> (forall i, i ∈ cs -> exists x, spans !! i = Some x) ->
    (forall mem' seen', TagHeapProofs.correct_children fuel node off' cs m seen = Some (mem', seen') -> skel mem' = skel spans) /\
    (is_Some (TagHeapProofs.correct_children fuel node off' cs m seen) <-> forall i x l, i ∈ cs -> spans !! i = Some x -> descends spans x l -> length l < fuel)).
  { induction cs as [|i cs IHc]; intros m seen Hm Hin.
    - split; [by intros ? ? [= <- <-]|]. split; [by intros _ i x l Hi'%elem_of_nil|by eexists].
    - rewrite TagHeapProofs.correct_children_cons. destruct (Hin i (elem_of_list_here _ _)) as [x Hx]. destruct (IH spans m i x (Some node) off' Hm Hx) as [A B].
      destruct (correct fuel m i (Some node) off') as [[m' seen']|].
      + destruct (IHc m' (seen ++ seen') (A _ _ eq_refl) (fun j Hj => Hin j (elem_of_list_further _ _ _ Hj))) as [C D]. split; [done|]. rewrite D. split.
        * intros H j y l Hj Hy Hl. apply elem_of_cons in Hj as [->|Hj]; [|by eapply H]. assert (y = x) as -> by congruence. apply B; [by eexists|done].
        * intros H j y l Hj. apply H. by apply elem_of_list_further.
      + split; [done|]. split; [by intros [? ?]|]. intros H. destruct (proj2 B) as [? ?]; [|done]. intros l Hl. eapply (H i x l); [apply elem_of_list_here|done..]. }
  destruct (Hgo (children_of (s_id s') (<[node:=s']> mem)) (<[node:=s']> mem) [node] Hsk') as [A B].
  { intros i Hi'. apply Hch in Hi' as (x & Hx & _). by exists x. }
  split; [done|]. rewrite B. split.
  - intros H [|x l] Hl; [cbn; lia|]. destruct Hl as [Hx Hl]. destruct Hx as (Hx1 & Hx2). apply elem_of_list_lookup in Hx1 as Hx3. destruct Hx3 as [i Hx3].
    cbn [length]. apply -> Nat.succ_lt_mono. apply (H i x l); [|done..]. apply Hch. by exists x.
  - intros H i x l Hi' Hx Hl. apply Hch in Hi' as (y & Hy & Hcy). assert (y = x) as -> by congruence. specialize (H (x :: l) (conj Hcy Hl)). cbn [length] in H. lia.
Qed.

Lemma correct_depth spans node c parent offset fuel : spans !! node = Some c ->
  (correct fuel spans node parent offset <> None <-> forall l, descends spans c l -> length l < fuel).
Proof. intros Hc. rewrite <- (proj2 (depth_exact fuel spans spans node c parent offset eq_refl Hc)). apply not_eq_None_Some. Qed.

Fixpoint round (a b : span) (n : nat) : list span := match n with O => [] | S n' => b :: a :: round a b n' end.
Lemma round_descends spans a b n : child spans a b -> child spans b a -> descends spans a (round a b n) /\ length (round a b n) = 2 * n.
Proof. intros Hab Hba. induction n as [|n [IH1 IH2]]; [split; [exact I|reflexivity]|]. cbn [round descends length]. split; [|lia]. split; [exact Hab|]. split; [exact Hba|exact IH1]. Qed.

(** Two spans that are each other's parents. *)
Lemma cycle_never spans node a b parent offset fuel : spans !! node = Some a -> child spans a b -> child spans b a -> correct fuel spans node parent offset = None.
Proof.
  intros Ha Hab Hba. destruct (correct fuel spans node parent offset) eqn:E; [|reflexivity]. exfalso.
  assert (Hne : correct fuel spans node parent offset <> None) by (rewrite E; discriminate).
  pose proof (proj1 (correct_depth spans node a parent offset fuel Ha) Hne) as H. destruct (round_descends spans a b fuel Hab Hba) as [H1 H2]. specialize (H _ H1). lia.
Qed.

(* ---------- finishing a trace ---------- *)

Lemma indices_short (l : list nat) n : NoDup l -> (forall i, i ∈ l -> i < n) -> length l <= n.
Proof. intros Hn H. rewrite <- (seq_length n 0). apply submseteq_length, NoDup_submseteq; [done|]. intros i Hi. apply elem_of_seq. specialize (H i Hi). lia. Qed.

Lemma reached_short spans root l : reached spans root l -> length l <= length spans.
Proof. intros [Hn H]. apply indices_short; [done|]. intros i Hi. apply H in Hi as (s & Hs & _). by eapply lookup_lt_Some. Qed.

Lemma correction_looks spans ri root : NoDup (ids spans) -> Forall (fun s => int64_ok (s_ts s)) spans -> spans !! ri = Some root -> root_candidate spans root ->
  exists out l, correct_counting (length spans) spans ri None 0 = Some (out, length l * length spans) /\ reached spans root l.
Proof.
  intros Hn Hok Hi Hc. destruct (correct_whole spans ri root (length spans)) as (out & seen & E & _ & H1 & H2 & _); try done.
  exists out, seen. rewrite looks_exact, E. split; [done|]. by split.
Qed.

Lemma same_parent_short p l : same_parent_looks p l <= length l.
Proof. induction l as [|s l IH]; [done|]. cbn [same_parent_looks length]. destruct (_ =? _)%Z; lia. Qed.
Lemma halvings_short n : halvings n <= n.
Proof. destruct n; [done|]. cbn [halvings]. pose proof (Nat.log2_lt_lin (S n)). lia. Qed.

Lemma finish_one ord now t ri : descending (ids (t_spans t)) -> Forall (fun s => int64_ok (s_ts s)) (t_spans t) -> roots (t_spans t) = [ri] ->
  exists root l, t_spans t !! ri = Some root /\ reached (t_spans t) root l /\
    finish_counting ord now t = Some (2 * length (t_spans t) + length l * length (t_spans t)).
Proof.
  intros Hd Hok Hr. assert (Hri : ri ∈ roots (t_spans t)) by (rewrite Hr; apply elem_of_list_here). apply roots_exact in Hri as (root & Hi & Hc).
  destruct (correction_looks _ ri root (descending_NoDup _ Hd) Hok Hi Hc) as (out & l & E & Hl). exists root, l. split; [done|]. split; [done|].
  unfold finish_counting, find_roots. rewrite Hr. cbn [omap list_omap]. rewrite Hi. rewrite E. cbn [option_map snd]. unfold roots_looks. f_equal. lia.
Qed.

Lemma finish_work ord now t : map_order ord -> descending (ids (t_spans t)) -> Forall (fun s => int64_ok (s_ts s)) (t_spans t) ->
  exists w, finish_counting ord now t = Some w /\ w <= (length (t_spans t) + 1) * (length (t_spans t) + 9).
Proof.
  intros Ho Hd Hok. pose proof (descending_NoDup _ Hd) as Hn. unfold finish_counting.
  pose proof (find_roots_spec ord now t Ho Hd Hn) as Hf. cbv zeta in Hf.
  set (sl := match omap _ (roots (t_spans t)) with [] => _ | _ => _ end).
  assert (Hsl : sl <= 6 * length (t_spans t) + 3).
  { unfold sl. change (omap (fun i => t_spans t !! i) (roots (t_spans t))) with (candidates (t_spans t)).
    assert (Hcl : length (candidates (t_spans t)) <= length (t_spans t)).
    { rewrite candidates_length. apply indices_short; [apply roots_NoDup|]. intros i Hi. apply roots_exact in Hi as (s & Hs & _). by eapply lookup_lt_Some. }
    destruct (candidates (t_spans t)) as [|s0 [|s1 rest]]; [lia..|]. pose proof (same_parent_short (s_parent s0) (s0 :: s1 :: rest)).
    destruct (all_the_same_parent s0 (s1 :: rest)); [|lia]. pose proof (proj1 (add_work (s_id (create_fake_root s0 (s1 :: rest))) _ Hd)). pose proof (halvings_short (length (t_spans t))).
    assert (length (t_spans (add_span ord now (create_fake_root s0 (s1 :: rest)) t)) <= length (t_spans t) + 1).
    { destruct (add_span_cases ord now (create_fake_root s0 (s1 :: rest)) t Ho Hd) as [(l1 & l2 & -> & _ & -> & _)|(l1 & s & l2 & -> & _ & -> & _)]; cbn [t_spans]; rewrite !app_length; cbn [length]; lia. }
    unfold roots_looks. cbv zeta. lia. }
  clearbody sl. destruct (find_roots ord now t) as [t' rs]. destruct Hf as (-> & Hf).
  assert (Ht' : descending (ids (t_spans t')) /\ Forall (fun s => int64_ok (s_ts s)) (t_spans t') /\ length (t_spans t') <= length (t_spans t) + 1).
  { destruct Hf as [(-> & _)|(P & s0 & f & first & last & _ & _ & _ & _ & Hh & -> & l1 & l2 & El & -> & Hd')]; [split; [done|]; split; [done|lia]|].
    cbn [t_spans]. split; [done|]. split; [|rewrite El, !app_length; cbn [length]; lia]. rewrite El in Hok. apply Forall_app in Hok as [O1 O2]. apply Forall_app. split; [done|].
    constructor; [|done]. cbn [s_ts]. destruct Hh as ((s & Hs & <-) & _). apply elem_of_candidates in Hs as [Hs _]. rewrite El in Hs.
    assert (Ha : Forall (fun s => int64_ok (s_ts s)) (l1 ++ l2)) by (apply Forall_app; done). rewrite Forall_forall in Ha. by apply Ha. }
  destruct Ht' as (Hd' & Hok' & Hlen). unfold roots_looks.
  destruct (roots (t_spans t')) as [|r [|r' rs]] eqn:Er; [eexists; split; [done|lia]| |eexists; split; [done|lia]].
  assert (Hr : r ∈ roots (t_spans t')) by (rewrite Er; apply elem_of_list_here). apply roots_exact in Hr as (root & Hi & Hc).
  destruct (correction_looks _ r root (descending_NoDup _ Hd') Hok' Hi Hc) as (out & l & E & Hl). rewrite E. cbn [option_map snd]. eexists. split; [done|].
  pose proof (reached_short _ _ _ Hl). assert (length l * length (t_spans t') <= (length (t_spans t) + 1) * (length (t_spans t) + 1)) by (apply Nat.mul_le_mono; lia). lia.
Qed.
