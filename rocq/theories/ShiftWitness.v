(** Concrete runs for C109. *)
From stdpp Require Import sorting.
From Verif Require Import Base SpanModel TreeModel TreeSpec TreeProofs FinishModel FinishSpec FinishWitness FinishProofs MaskWitness ShiftSpec.

(* ---------- the ticks of [MaskWitness] do not look at times ---------- *)

Section sorting.
Context (c d : Z).
Notation P := (map (moved_pair c d)).
Lemma list_merge_moved l1 : forall l2, P (list_merge larger l1 l2) = list_merge larger (P l1) (P l2).
Proof.
  induction l1 as [|x l1 IH1]; intros l2; [cbn [map]; by rewrite !list_merge_nil_l|]. induction l2 as [|y l2 IH2]; [cbn [map]; by rewrite !list_merge_nil_r|].
  cbn [map]. rewrite !list_merge_cons. change (decide (larger (moved_pair c d x) (moved_pair c d y))) with (decide (larger x y)).
  destruct (decide (larger x y)) as [H|H].
  - cbn [map]. by rewrite IH1.
  - cbn [map]. f_equal. exact IH2.
Qed.
Definition stacked_moved (st : list (option (list (Z * tree)))) := map (fun o => P <$> o) st.
Lemma to_stack_moved st : forall l, stacked_moved (merge_list_to_stack larger st l) = merge_list_to_stack larger (stacked_moved st) (P l).
Proof.
  induction st as [|[l'|] st IH]; intros l; [done| |done]. cbn [merge_list_to_stack stacked_moved map fmap option_fmap option_map]. f_equal.
  rewrite <- list_merge_moved. apply IH.
Qed.
Lemma stack_moved st : P (merge_stack larger st) = merge_stack larger (stacked_moved st).
Proof. induction st as [|[l'|] st IH]; [done| |done]. cbn [merge_stack stacked_moved map fmap option_fmap option_map]. by rewrite list_merge_moved, IH. Qed.
Lemma sort_aux_moved l : forall st, P (merge_sort_aux larger st l) = merge_sort_aux larger (stacked_moved st) (P l).
Proof. induction l as [|x l IH]; intros st; [apply stack_moved|]. cbn [merge_sort_aux map]. by rewrite IH, to_stack_moved. Qed.
Lemma sort_moved l : P (merge_sort larger l) = merge_sort larger (P l).
Proof. apply sort_aux_moved. Qed.

Lemma keys_moved now : moved_tick c d (keys_tick now) (keys_tick (now + c)).
Proof.
  split; [done|]. split; [done|]. split; [done|]. split; [apply map_order_list|]. split; [apply map_order_list|]. split; [|split; [done|]].
  - intros i ts. cbn [k_range keys_tick]. unfold by_keys, moved_traces. rewrite dom_fmap_L. induction (elements (dom ts)) as [|j l IH]; [done|]. cbn [omap list_omap].
    rewrite lookup_fmap. destruct (ts !! j); cbn [fmap option_fmap option_map map]; [|exact IH]. f_equal. exact IH.
  - intros l. cbn [k_sort keys_tick]. by rewrite sort_moved.
Qed.
End sorting.

(* ---------- a call between two services, and two orphans ---------- *)

Definition order (n t : Z) : list event :=
  [ ESpan map_to_list n n (Span 1 0 7 (str "get") (str "shop") (t + 1000) 9000 ∅ (Timings (t + 1000) (t + 10000) 0 0));
    ESpan map_to_list n (n + 1) (Span 1 0 7 (str "get") (str "stock") (t + 105000) 5000 ∅ (Timings 0 0 (t + 110000) (t + 105000)));
    ESpan map_to_list n (n + 2) (Span 2 1 7 (str "query") (str "stock") (t + 106000) 3000 ∅ (Timings 0 0 0 0));
    ESpan map_to_list n (n + 3) (Span 4 3 8 (str "get") (str "shop") (t + 2000) 1000 ∅ (Timings 0 0 0 0));
    ESpan map_to_list n (n + 4) (Span 5 3 8 (str "get") (str "shop") (t + 6000) 1500 ∅ (Timings 0 0 0 0));
    ETick (keys_tick (n + 20000000000)); EClose ].

Lemma order_valid n t : 0 <= t < 2^62 -> Forall valid_event (order n t).
Proof.
  intros Ht. unfold order. repeat (apply Forall_cons_2; [first [apply keys_valid | split; [apply map_order_list|]; unfold int64_ok; p2; cbn [s_ts]; lia | done]|]). by apply Forall_nil_2.
Qed.
Lemma order_between n t : 0 <= t -> Forall (event_between (t + 1000) (t + 111000)) (order n t).
Proof.
  intros Ht. unfold order. repeat (apply Forall_cons_2; [first [exact I | unfold event_between, between, at_between; cbn [s_ts s_dur s_timings tCS tCR tSS tSR]; lia]|]). by apply Forall_nil_2.
Qed.
Lemma order_moved c d n t : 0 < t -> 0 < t + d -> Forall2 (moved_event c d) (order n t) (order (n + c) (t + d)).
Proof.
  intros Ht Hd. unfold order.
  assert (L : forall x, later d (t + Z.pos x) = t + d + Z.pos x) by (intros; unfold later; rewrite decide_False by lia; lia).
  assert (A : forall x, n + c + x = n + x + c) by (intros; lia). assert (B : forall x, t + d + x = t + x + d) by (intros; lia).
  repeat (apply Forall2_cons; split; [first [exact I | rewrite A; apply keys_moved | split; [apply map_order_list|]; split; [apply map_order_list|]; split; [done|]; split; [apply A || done|];
    unfold moved; cbn [s_id s_parent s_trace s_name s_service s_ts s_dur s_tags s_timings tCS tCR tSS tSR]; rewrite ?L, ?B; done]|]). by apply Forall2_nil.
Qed.

(** 13 September 2020. *)
Definition autumn : Z := 1600000000000000000.
Lemma order_roomy d : 0 <= d <= 1000000000000000000 -> roomy (S (length (order 0 autumn))) (autumn + 1000 + d) (autumn + 111000 + d).
Proof. intros Hd. unfold roomy, autumn. change (S (length (order 0 1600000000000000000))) with 8%nat. p2. lia. Qed.

(* ---------- the turn of the year ---------- *)

Definition new_year : Z := 1577836800000000000.
Definition party (t : Z) : list event :=
  [ ESpan map_to_list 0 0 (Span 1 0 7 (str "get") (str "shop") t 9000000000 ∅ (Timings 0 0 0 0));
    ESpan map_to_list 0 0 (Span 2 1 7 (str "query") (str "shop") (t + 1000000000) 3000000000 ∅ (Timings 0 0 0 0));
    ETick (keys_tick 20000000000); EClose ].

Lemma party_refuted : exists evs evs' d, Forall2 (moved_event 0 d) evs evs' /\ Forall valid_event evs /\ Forall valid_event evs' /\
  (exists lo hi, 0 < lo /\ 0 < lo + d /\ hi < 2^62 /\ hi + d < 2^62 /\ Forall (event_between lo hi) evs) /\ (run evs').2 <> map (moved_entry 0 d) (run evs).2.
Proof.
  exists (party (new_year + 5000000000)), (party (new_year - 5000000000)), (-10000000000). split; [|split; [|split; [|split]]].
  - unfold party. repeat (apply Forall2_cons; split; [first [exact I | apply (keys_moved 0 (-10000000000) 20000000000) | split; [apply map_order_list|]; split; [apply map_order_list|]; split; [done|]; split; [done|]; reflexivity]|]). by apply Forall2_nil.
  - unfold party, new_year. repeat (apply Forall_cons_2; [first [apply keys_valid | split; [apply map_order_list|]; unfold int64_ok; p2; cbn [s_ts]; lia | done]|]). by apply Forall_nil_2.
  - unfold party, new_year. repeat (apply Forall_cons_2; [first [apply keys_valid | split; [apply map_order_list|]; unfold int64_ok; p2; cbn [s_ts]; lia | done]|]). by apply Forall_nil_2.
  - exists new_year, (new_year + 20000000000). unfold new_year. split; [lia|]. split; [lia|]. split; [p2; lia|]. split; [p2; lia|]. unfold party.
    repeat (apply Forall_cons_2; [first [exact I | unfold event_between, between, at_between; cbn [s_ts s_dur s_timings tCS tCR tSS tSR]; lia]|]). by apply Forall_nil_2.
  - intros E. apply (f_equal (fun l => flat_map (fun e => match e with LOut _ (Emitted spans) => map s_ts spans | _ => [] end) l)) in E. vm_compute in E. discriminate E.
Qed.
