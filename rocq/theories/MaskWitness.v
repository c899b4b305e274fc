(** Concrete runs for C99. *)
From stdpp Require Import sorting.
From Verif Require Import Base SpanModel TreeModel TreeSpec TreeProofs FinishModel FinishSpec FinishWitness MaskSpec FinishProofs.

(* ---------- the ticks of [FinishWitness] do not look at spans ---------- *)

Section sorting.
Context (m : mask).
Notation P := (map (masked_pair m)).
Lemma list_merge_masked l1 : forall l2, P (list_merge larger l1 l2) = list_merge larger (P l1) (P l2).
Proof.
  induction l1 as [|x l1 IH1]; intros l2; [cbn [map]; by rewrite !list_merge_nil_l|]. induction l2 as [|y l2 IH2]; [cbn [map]; by rewrite !list_merge_nil_r|].
  cbn [map]. rewrite !list_merge_cons. change (decide (larger (masked_pair m x) (masked_pair m y))) with (decide (larger x y)).
  destruct (decide (larger x y)) as [H|H].
  - cbn [map]. by rewrite IH1.
  - cbn [map]. f_equal. exact IH2.
Qed.
Definition stacked (st : list (option (list (Z * tree)))) := map (fun o => P <$> o) st.
Lemma to_stack_masked st : forall l, stacked (merge_list_to_stack larger st l) = merge_list_to_stack larger (stacked st) (P l).
Proof.
  induction st as [|[l'|] st IH]; intros l; [done| |done]. cbn [merge_list_to_stack stacked map fmap option_fmap option_map]. f_equal.
  rewrite <- list_merge_masked. apply IH.
Qed.
Lemma stack_masked st : P (merge_stack larger st) = merge_stack larger (stacked st).
Proof. induction st as [|[l'|] st IH]; [done| |done]. cbn [merge_stack stacked map fmap option_fmap option_map]. by rewrite list_merge_masked, IH. Qed.
Lemma sort_aux_masked l : forall st, P (merge_sort_aux larger st l) = merge_sort_aux larger (stacked st) (P l).
Proof. induction l as [|x l IH]; intros st; [apply stack_masked|]. cbn [merge_sort_aux map]. by rewrite IH, to_stack_masked. Qed.
Lemma sort_masked l : P (merge_sort larger l) = merge_sort larger (P l).
Proof. apply sort_aux_masked. Qed.

(** Iteration in an order that depends on the keys only. *)
Definition by_keys (_ : nat) (ts : gmap Z tree) : list (Z * tree) := omap (fun i => pair i <$> ts !! i) (elements (dom ts)).
Definition keys_tick (now : Z) : tick := Tick now now (fun _ => now) map_to_list by_keys elements (merge_sort larger).

Lemma by_keys_elem i ts k t : (k, t) ∈ by_keys i ts <-> ts !! k = Some t.
Proof.
  unfold by_keys. rewrite elem_of_list_omap. split.
  - intros (j & _ & E). destruct (ts !! j) as [t'|] eqn:Ej; [|done]. cbn in E. by injection E as -> ->.
  - intros E. exists k. split; [apply elem_of_elements, elem_of_dom; eauto|]. by rewrite E.
Qed.
Lemma by_keys_keys i ts : NoDup (by_keys i ts).*1.
Proof.
  unfold by_keys. assert (H : forall l, NoDup l -> NoDup (omap (fun i => pair i <$> ts !! i) l).*1 /\ forall x, x ∈ (omap (fun i => pair i <$> ts !! i) l).*1 -> x ∈ l).
  { induction l as [|x l IH]; intros Hl; [split; [constructor|done]|]. apply NoDup_cons in Hl as [Hx Hl]. destruct (IH Hl) as [A B]. cbn [omap list_omap].
    destruct (ts !! x) as [t|]; cbn [fmap option_fmap option_map].
    - cbn [list_fmap fmap fst]. split; [apply NoDup_cons; split; [|exact A]; intros Hi; apply Hx, B, Hi|]. intros y [->|Hy]%elem_of_cons; [left|right; by apply B].
    - split; [exact A|]. intros y Hy. right. by apply B. }
  apply H, NoDup_elements.
Qed.
Lemma by_keys_order i ts : by_keys i ts ≡ₚ map_to_list ts.
Proof.
  apply NoDup_Permutation; [eapply NoDup_fmap_1, by_keys_keys|apply NoDup_map_to_list|]. intros [k t]. by rewrite by_keys_elem, elem_of_map_to_list.
Qed.
Lemma keys_valid now : valid_tick (keys_tick now).
Proof. destruct (plain_valid now) as (A & _ & B & C). split; [exact A|]. split; [apply by_keys_order|]. by split. Qed.

Lemma keys_same now : same_tick m (keys_tick now) (keys_tick now).
Proof.
  split; [done|]. split; [done|]. split; [done|]. split; [apply map_order_list|]. split; [apply map_order_list|]. split; [|split; [done|]].
  - intros i ts ts' E. assert (H : forall ts, P (by_keys i ts) = by_keys i (masked_traces m ts)).
    { intros x. unfold by_keys, masked_traces. rewrite dom_fmap_L. induction (elements (dom x)) as [|j l IH]; [done|]. cbn [omap list_omap].
      rewrite lookup_fmap. destruct (x !! j); cbn [fmap option_fmap option_map map]; [|exact IH]. f_equal. exact IH. }
    cbn [k_range keys_tick]. by rewrite !H, E.
  - intros l l' E. cbn [k_sort keys_tick]. by rewrite !sort_masked, E.
Qed.
End sorting.

(* ---------- a call between two services, and a lonely span ---------- *)

Definition call (n1 n2 : gostring) (tag : gmap gostring gostring) : list event :=
  [ ESpan map_to_list 0 0 (Span 1 0 7 n1 (str "shop") 1000 9000 tag (Timings 1000 10000 0 0));
    ESpan map_to_list 0 0 (Span 1 0 7 n2 (str "stock") 5000 6000 {[str "http.status" := str "200"]} (Timings 0 0 11000 5000));
    ESpan map_to_list 0 0 (Span 3 2 8 n1 (str "shop") 1000 9000 tag (Timings 0 0 0 0));
    ESpan map_to_list 0 0 (Span 4 2 8 n1 (str "shop") 1000 9000 tag (Timings 0 0 0 0));
    ETick (keys_tick 20000000000); EClose ].

Lemma call_valid n1 n2 tag : Forall valid_event (call n1 n2 tag).
Proof.
  unfold call. repeat (apply Forall_cons_2; [first [apply keys_valid | split; [apply map_order_list|]; unfold int64_ok; p2; cbn; lia | done]|]). apply Forall_nil_2.
Qed.

Lemma call_same n1 n2 n1' n2' tag tag' : n1 <> [] -> n2 <> [] -> n1' <> [] -> n2' <> [] ->
  Forall valid_event (call n1 n2 tag) /\ Forall2 (same_event faceless) (call n1 n2 tag) (call n1' n2' tag').
Proof.
  intros. split; [apply call_valid|]. destruct n1, n2, n1', n2'; try done. unfold call.
  repeat (apply Forall2_cons; split; [first [exact I | apply keys_same | repeat split; apply map_order_list || reflexivity]|]). apply Forall2_nil. done.
Qed.
Lemma call_tags : let K := fun k => bool_decide (k = str "user") in
  let tag := {[str "user" := str "joe"; str "job" := str "buy"]} in
  let tag' := {[str "user" := str "ann"; str "job" := str "buy"]} in
  Forall2 (same_event (without K)) (call (str "get") (str "GET") tag) (call (str "get") (str "GET") tag').
Proof.
  intros K tag tag'. unfold call.
  assert (E : m_tags (without K) tag = m_tags (without K) tag') by (vm_compute; reflexivity).
  assert (F : forall a b c d e f g h, masked (without K) (Span a b c d e f g tag h) = masked (without K) (Span a b c d e f g tag' h)).
  { intros. unfold masked. cbn [s_id s_parent s_trace s_name s_service s_ts s_dur s_tags s_timings]. by rewrite E. }
  repeat (apply Forall2_cons; split; [first [exact I | apply keys_same | split; [apply map_order_list|]; split; [apply map_order_list|]; split; [reflexivity|]; split; [reflexivity|]; first [apply F | reflexivity]]|]). by apply Forall2_nil.
Qed.
