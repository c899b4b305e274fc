(** Properties C86-C88: looking into traces, the list of the cache, optional ids. *)
From Coq Require Import Sorted.
From Verif Require Import Base IdModel SpanModel TreeModel TreeSpec LruModel LruSpec LookModel LookSpec LookProofs.

(** C86: [ByParent] has for every parent the spans with this parent, in the order of the trace, and no other keys. *)
Theorem C86_by_parent :
  forall t id, places (t_spans t) (fun s => s_parent s = id) (default [] (by_parent t !! id)) /\ by_parent t !! id <> Some [].
Proof. exact by_parent_places. Qed.
Print Assumptions C86_by_parent.

(** C86: [ChildrenOf] are those of them that are not their own parents. *)
Theorem C86_children :
  forall id spans, places spans (fun s => s_parent s = id /\ s_parent s <> s_id s) (children_of id spans).
Proof. exact children_places. Qed.
Print Assumptions C86_children.

(** C86: [GetSpan] returns the span with the id, [Root] the span whose id is that of the trace. *)
Theorem C86_lookups :
  forall ord now tr adds, map_order ord ->
  let t := add_all ord adds (new_tree now tr) in
  (forall id i, tree_get_span t id = Some i <-> exists s, t_spans t !! i = Some s /\ s_id s = id) /\
  (forall i, tree_root t = Some i <-> exists s, t_spans t !! i = Some s /\ s_id s = tr).
Proof. exact lookups. Qed.
Print Assumptions C86_lookups.

(** C86: that need not be the root of the tree: here it is a child of the only root. *)
Theorem C86_root_refuted :
  exists tr adds i j s s',
  let t := add_all map_to_list adds (new_tree 0 tr) in
  roots (t_spans t) = [i] /\ t_spans t !! i = Some s /\ s_parent s = s_id s /\
  tree_root t = Some j /\ t_spans t !! j = Some s' /\ s_parent s' = s_id s /\ s_parent s' <> s_id s'.
Proof. exact root_odd. Qed.
Print Assumptions C86_root_refuted.

Example C86_instance :
  let sp id p := Span id p 9 (str "x") [] 0 0 ∅ (Timings 0 0 0 0) in
  let t := add_all map_to_list [(1, sp 4 9); (2, sp 9 9); (3, sp 7 4); (4, sp 3 4); (5, sp 2 8)] (new_tree 0 9) in
  map_order map_to_list /\
  ids (t_spans t) = [9; 7; 4; 3; 2] /\
  by_parent t !! 4 = Some [1; 3]%nat /\ by_parent t !! 9 = Some [0; 2]%nat /\ by_parent t !! 8 = Some [4]%nat /\ by_parent t !! 7 = None /\
  children_of 9 (t_spans t) = [2]%nat /\ children_of 4 (t_spans t) = [1; 3]%nat /\
  tree_root t = Some 0%nat /\ tree_get_span t 3 = Some 3%nat /\ tree_get_span t 5 = None.
Proof. split; [intros m; reflexivity|]. vm_compute. repeat split. Qed.

(** C87: the doubly linked list of the cache holds the ideal recency list, forwards from its head and backwards from its tail, and
    its [Count] is the [Count] of the cache. *)
Theorem C87_list :
  forall limit ops fuel c outs l, 0 < limit -> (length ops <= fuel)%nat ->
  lops_run fuel (new_lru limit) ops = LOk (c, outs) -> ideal_run limit [] ops l outs ->
  met n_next (c_heap c) (c_head c) l /\ met n_prev (c_heap c) (c_tail c) (rev l) /\
  list_count fuel (lru_list c) = LOk (lru_count c).
Proof. exact cache_list. Qed.
Print Assumptions C87_list.

(** Four insertions with limit 160, of which the last drops "b", and one use. *)
Example C87_instance :
  let set s := OSet (GStr 0 s) in
  let ops := [set (str "a"); set (str "b"); OGet (str "a"); set (str "c"); set (str "d")] in
  exists c outs l, lops_run 10 (new_lru 160) ops = LOk (c, outs) /\ ideal_run 160 [] ops l outs /\ l = [str "d"; str "c"; str "a"] /\
    list_count 10 (lru_list c) = LOk 3.
Proof.
  cbv zeta. destruct (LruProofs.lru_refines 160 [OSet (GStr 0 (str "a")); OSet (GStr 0 (str "b")); OGet (str "a"); OSet (GStr 0 (str "c")); OSet (GStr 0 (str "d"))] 10
    ltac:(lia) ltac:(cbn; lia)) as (c & outs & l & E & Hr & _).
  assert (met n_next (c_heap c) (c_head c) l) as Hm by (eapply (cache_list 160 _ 10); [lia| |exact E|exact Hr]; cbn; lia). exists c, outs, l. split; [exact E|]. split; [exact Hr|].
  vm_compute in E. injection E as <- <-. split; [|vm_compute; reflexivity].
  cbn in Hm. repeat match goal with H : met _ _ (Some _) _ |- _ => inversion H; clear H; subst | H : met _ _ None _ |- _ => inversion H; clear H; subst
    | H : _ = Some ?n |- _ => vm_compute in H; injection H as <-; cbn in * end. reflexivity.
Qed.

(** C88: a missing id is 0 or the given default, another one itself; the unsigned number determines the id, and is left out exactly
    if it is 0. *)
Theorem C88_ids :
  forall id other, (forall v, id = Some v -> int64_ok v) ->
  (id = None -> id_or id other = other /\ id_or_zero id = 0) /\
  (forall v, id = Some v -> id_or id other = v /\ id_or_zero id = v) /\
  wrap64 (id_uint64 id) = id_int64 id /\ 0 <= id_uint64 id < 2^64 /\
  (forall u, id_uint64_or_nil id = Some u <-> u = id_uint64 id /\ u <> 0).
Proof. exact id_helpers. Qed.
Print Assumptions C88_ids.

Example C88_instance :
  int64_ok (-1) /\ id_uint64 (Some (-1)) = 18446744073709551615 /\ id_uint64_or_nil (Some (-1)) = Some 18446744073709551615 /\
  id_uint64_or_nil (Some 0) = None /\ id_or None 7 = 7 /\ id_or (Some 0) 7 = 0.
Proof. split; [unfold int64_ok; lia|]. by vm_compute. Qed.
