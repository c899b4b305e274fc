(** Looking into traces, lists and ids. *)
From Coq Require Import Sorted.
From Verif Require Import Base IdModel SpanModel TreeModel TreeSpec TreeProofs LruModel LruSpec LruProofs LookModel LookSpec.

(* ---------- traces ---------- *)

Lemma sorted_app_one l (n : nat) : StronglySorted lt l -> (forall i, i ∈ l -> (i < n)%nat) -> StronglySorted lt (l ++ [n]).
Proof.
  induction 1 as [|a l Hl IH Ha]; intros Hn; cbn [app]; [repeat constructor|]. constructor.
  - apply IH. intros i Hi. apply Hn. by right.
  - apply Forall_app_2; [done|]. constructor; [|constructor]. apply Hn. by left.
Qed.

Lemma by_parent_snoc l s : forall t, t_spans t = l ++ [s] ->
  by_parent t = let m := by_parent (Tree (t_id t) l (t_started t) (t_updated t) (t_count t)) in
                <[s_parent s := default [] (m !! s_parent s) ++ [length l]]> m.
Proof. intros t E. unfold by_parent. rewrite E. cbn [t_spans]. rewrite imap_app, foldl_app. cbn. by rewrite Nat.add_0_r. Qed.

Lemma by_parent_places t id : places (t_spans t) (fun s => s_parent s = id) (default [] (by_parent t !! id)) /\ by_parent t !! id <> Some [].
Proof.
  remember (t_spans t) as l eqn:E. revert t E. induction l as [|s l IH] using rev_ind; intros t E.
  - unfold by_parent. rewrite <- E. cbn. rewrite lookup_empty. split; [|done]. split; [constructor|]. intros i. split; [by intros ?%elem_of_nil|].
    intros (s & Hs & _). by rewrite lookup_nil in Hs.
  - rewrite (by_parent_snoc l s t) by done. cbn zeta.
    destruct (IH (Tree (t_id t) l (t_started t) (t_updated t) (t_count t)) eq_refl) as [[H1 H2] H3].
    set (m := by_parent _) in *. clearbody m. destruct (decide (s_parent s = id)) as [<-|Hne].
    + rewrite lookup_insert. cbn [from_option id]. split; [|by destruct (default [] (m !! s_parent s))]. split.
      * apply sorted_app_one; [done|]. intros i (s' & Hs' & _)%H2. by apply lookup_lt_Some in Hs'.
      * intros i. rewrite elem_of_app, elem_of_list_singleton, H2. split.
        -- intros [(s' & Hs' & Hp)| ->].
           ++ exists s'. split; [by apply lookup_app_l_Some|done].
           ++ exists s. split; [|done]. rewrite lookup_app_r by lia. by rewrite Nat.sub_diag.
        -- intros (s' & Hs' & Hp). apply lookup_app_Some in Hs' as [Hs'|[Hge Hs']]; [left; by exists s'|right].
           apply list_lookup_singleton_Some in Hs' as [? _]. lia.
    + rewrite lookup_insert_ne by done. split; [|done]. split; [done|]. intros i. rewrite H2. split.
      * intros (s' & Hs' & Hp). exists s'. split; [by apply lookup_app_l_Some|done].
      * intros (s' & Hs' & Hp). apply lookup_app_Some in Hs' as [Hs'|[Hge Hs']]; [by exists s'|].
        apply list_lookup_singleton_Some in Hs' as [_ <-]. done.
Qed.

Lemma indices_places test spans : places spans (fun s => test s = true) (indices test spans).
Proof.
  unfold indices. induction spans as [|s l IH] using rev_ind.
  - split; [constructor|]. intros i. split; [by intros ?%elem_of_nil|]. intros (s & Hs & _). by rewrite lookup_nil in Hs.
  - destruct IH as [H1 H2]. rewrite imap_app, List.filter_app, map_app. cbn. rewrite Nat.add_0_r.
    assert (forall i, i ∈ map fst (List.filter (fun p => test p.2) (imap pair l)) -> (i < length l)%nat) as Hlt.
    { intros i (s' & Hs' & _)%H2. by apply lookup_lt_Some in Hs'. }
    destruct (test s) eqn:Et; cbn [map fst]; rewrite ?app_nil_r.
    + split; [by apply sorted_app_one|]. intros i. rewrite elem_of_app, elem_of_list_singleton, H2. split.
      * intros [(s' & Hs' & Hp)| ->]; [exists s'; split; [by apply lookup_app_l_Some|done]|].
        exists s. split; [|done]. rewrite lookup_app_r by lia. by rewrite Nat.sub_diag.
      * intros (s' & Hs' & Hp). apply lookup_app_Some in Hs' as [Hs'|[Hge Hs']]; [left; by exists s'|right].
        apply list_lookup_singleton_Some in Hs' as [? _]. lia.
    + split; [done|]. intros i. rewrite H2. split.
      * intros (s' & Hs' & Hp). exists s'. split; [by apply lookup_app_l_Some|done].
      * intros (s' & Hs' & Hp). apply lookup_app_Some in Hs' as [Hs'|[Hge Hs']]; [by exists s'|].
        apply list_lookup_singleton_Some in Hs' as [_ <-]. congruence.
Qed.

Lemma children_places id spans : places spans (fun s => s_parent s = id /\ s_parent s <> s_id s) (children_of id spans).
Proof.
  destruct (indices_places (fun s => (s_parent s =? id) && negb (is_root s)) spans) as [H1 H2]. split; [done|].
  intros i. unfold children_of. rewrite H2. unfold is_root. split; intros (s & Hs & Hp); exists s; (split; [done|]); [lia|lia].
Qed.

Lemma lookups ord now tr adds : map_order ord ->
  let t := add_all ord adds (new_tree now tr) in
  (forall id i, tree_get_span t id = Some i <-> exists s, t_spans t !! i = Some s /\ s_id s = id) /\
  (forall i, tree_root t = Some i <-> exists s, t_spans t !! i = Some s /\ s_id s = tr).
Proof.
  intros Ho t. destruct (tree_contents ord now tr adds Ho) as (Hd & _ & Hin & Hfound & _). fold t in Hd, Hin, Hfound.
  assert (forall id i, tree_get_span t id = Some i <-> exists s, t_spans t !! i = Some s /\ s_id s = id) as K.
  { intros id i. unfold tree_get_span. split; [apply Hfound|]. intros (s & Hs & <-).
    destruct (proj2 (get_span_ref_iff (s_id s) (t_spans t) Hd)) as [j Ej].
    { apply elem_of_list_fmap. exists s. split; [done|]. by eapply elem_of_list_lookup_2. }
    rewrite Ej. f_equal. destruct (Hfound _ _ Ej) as (s' & Hs' & Hid).
    destruct (Nat.lt_trichotomy i j) as [Hij|[->|Hij]]; [|done|].
    - assert (s_id s' < s_id s); [|lia]. eapply (sorted_lookup (ids (t_spans t))); [done|exact Hij| |];
        unfold ids; change (map ?f ?l) with (f <$> l); rewrite list_lookup_fmap; [by rewrite Hs|by rewrite Hs'].
    - assert (s_id s < s_id s'); [|lia]. eapply (sorted_lookup (ids (t_spans t))); [done|exact Hij| |];
        unfold ids; change (map ?f ?l) with (f <$> l); rewrite list_lookup_fmap; [by rewrite Hs'|by rewrite Hs]. }
  split; [done|]. intros i. change (tree_root t) with (tree_get_span t (t_id t)).
  assert (t_id t = tr) as ->; [|apply K]. unfold t. clear. assert (t_id (new_tree now tr) = tr) as E by done. revert E. generalize (new_tree now tr).
  induction adds as [|a adds IH]; intros t E; [done|]. cbn [add_all foldl]. apply IH. unfold add_span. by destruct (get_span_ref _ _).
Qed.

(* ---------- the list of the cache ---------- *)

Lemma seg_met_next h l : forall pv, seg h pv l None -> met n_next h (hd_ptr l None) (vals l).
Proof.
  induction l as [|[p v] l IH]; intros pv; [constructor|]. cbn [seg]. intros [Hp Hs]. cbn [hd_ptr vals map snd].
  change (g_val v) with (g_val (n_val (Node pv (hd_ptr l None) v))). econstructor; [done|]. cbn [n_next]. by eapply IH.
Qed.
Lemma seg_met_prev h l : forall nx, seg h None l nx -> met n_prev h (last_ptr None l) (rev (vals l)).
Proof.
  induction l as [|[p v] l IH] using rev_ind; intros nx; [constructor|]. intros [Hs Hp]%seg_app. rewrite last_ptr_snoc.
  rewrite vals_app, rev_app_distr. cbn [vals map rev app snd]. cbn [seg] in Hp. destruct Hp as [Hp _].
  change (g_val v) with (g_val (n_val (Node (last_ptr None l) nx v))). econstructor; [exact Hp|]. cbn [n_prev]. by eapply IH.
Qed.
Lemma met_count h p l : met n_next h p l -> forall fuel k, (length l <= fuel)%nat -> count_loop fuel h p k = LOk (k + Z.of_nat (length l)).
Proof.
  induction 1 as [|p n l Hp Hm IH]; intros fuel k Hf; cbn [length] in *.
  - destruct fuel; cbn; f_equal; lia.
  - destruct fuel as [|fuel]; [lia|]. cbn [count_loop]. unfold load. rewrite Hp. cbn [lbind]. rewrite IH by lia. f_equal. lia.
Qed.

Lemma ideal_run_det limit l ops a x b y : ideal_run limit l ops a x -> ideal_run limit l ops b y -> a = b /\ x = y.
Proof.
  intros H. revert b y. induction H as [l|l o l1 out ops l2 outs Hs Hr IH]; intros b y Hb; inversion Hb; subst; [done|].
  match goal with H : ideal_step _ _ _ ?l3 ?o3 |- _ => destruct (ideal_step_det _ _ _ _ _ _ _ Hs H) as [<- <-] end.
  match goal with H : ideal_run _ l1 _ _ _ |- _ => destruct (IH _ _ H) as [<- <-] end. done.
Qed.

Lemma cache_list limit ops fuel c outs l : 0 < limit -> (length ops <= fuel)%nat ->
  lops_run fuel (new_lru limit) ops = LOk (c, outs) -> ideal_run limit [] ops l outs ->
  met n_next (c_heap c) (c_head c) l /\ met n_prev (c_heap c) (c_tail c) (rev l) /\
  list_count fuel (lru_list c) = LOk (lru_count c).
Proof.
  intros Hl Hf E Hr. destruct (lops_ok fuel ops (new_lru limit) [] (CInv_new limit) Hl ltac:(cbn; lia) ltac:(by left))
    as (c' & cs & outs' & E' & HI & Hm & Hrun & Hb). rewrite E in E'. injection E' as <- <-.
  assert (l = vals cs) as -> by (by eapply ideal_run_det).
  pose proof HI as ((Hh & Ht & Hseg & _) & _ & _ & _ & Hcnt & _). cbn [lru_list l_head l_tail l_heap] in *.
  assert (met n_next (c_heap c) (c_head c) (vals cs)) as Hmet by (rewrite Hh; by eapply seg_met_next).
  split; [done|]. split; [rewrite Ht; by eapply seg_met_prev|].
  unfold list_count. cbn [lru_list l_head l_heap]. erewrite met_count; [|exact Hmet|].
  - unfold lru_count, vals. rewrite map_length, Hcnt. f_equal.
  - assert (length (vals cs) <= length ops)%nat; [|lia]. clear -Hrun.
    assert (forall l0 ops l1 outs, ideal_run limit l0 ops l1 outs -> (length l1 <= length l0 + length ops)%nat) as K.
    { induction 1 as [l|l o l1 out ops' l2 outs' Hs Hr IH]; cbn [length]; [lia|].
      assert (length l1 <= S (length l))%nat; [|lia].
      destruct Hs as [s l' (x & y & -> & _ & ->)|s Hs|g l' (x & y & -> & _ & ->)|g p Hg ((q & ->) & _ & _)]; cbn [length]; rewrite ?app_length; cbn [length]; rewrite ?app_length; lia. }
    specialize (K _ _ _ _ Hrun). cbn in K. lia.
Qed.

(* ---------- ids ---------- *)

Lemma id_helpers (id : option Z) other : (forall v, id = Some v -> int64_ok v) ->
  (id = None -> id_or id other = other /\ id_or_zero id = 0) /\
  (forall v, id = Some v -> id_or id other = v /\ id_or_zero id = v) /\
  wrap64 (id_uint64 id) = id_int64 id /\ 0 <= id_uint64 id < 2^64 /\
  (forall u, id_uint64_or_nil id = Some u <-> u = id_uint64 id /\ u <> 0) .
Proof.
  intros Hok. assert (int64_ok (id_or_zero id)) as K. { destruct id as [v|]; [by apply Hok|]. done. }
  assert (wrap64 (id_uint64 id) = id_int64 id) as Kw.
  { unfold id_uint64, id_int64, wrap64, u64, int64_ok in *. p2. zlia. }
  assert (0 <= id_uint64 id < 2^64) as Kr by (unfold id_uint64, u64; apply Z.mod_pos_bound; lia).
  split; [by intros ->|]. split; [by intros v ->|]. split; [done|]. split; [done|]. intros u.
  destruct id as [v|]; cbn [id_uint64_or_nil].
  - destruct (Z.eqb_spec v 0) as [->|Hv].
    + split; [done|]. intros [-> H]. exfalso. apply H. reflexivity.
    + change (u64 v) with (id_uint64 (Some v)). split; [intros [= <-]|by intros [-> _]]. split; [done|]. intros E. rewrite E in Kw. apply Hv.
      unfold id_int64, id_or_zero in Kw. rewrite <- Kw. reflexivity.
  - split; [done|]. intros [-> H]. exfalso. apply H. reflexivity.
Qed.

Definition odd_spans : list (Z * span) :=
  [(1, Span 9 5 9 (str "a") [] 10 1 ∅ (Timings 0 0 0 0)); (2, Span 5 5 9 (str "b") [] 9 3 ∅ (Timings 0 0 0 0))].
Lemma root_odd : exists tr adds i j s s',
  let t := add_all map_to_list adds (new_tree 0 tr) in
  roots (t_spans t) = [i] /\ t_spans t !! i = Some s /\ s_parent s = s_id s /\
  tree_root t = Some j /\ t_spans t !! j = Some s' /\ s_parent s' = s_id s /\ s_parent s' <> s_id s'.
Proof.
  exists 9, odd_spans, 1%nat, 0%nat. eexists _, _. cbv zeta. split; [vm_compute; reflexivity|]. split; [vm_compute; reflexivity|]. split; [done|].
  split; [vm_compute; reflexivity|]. split; [vm_compute; reflexivity|]. split; done.
Qed.
