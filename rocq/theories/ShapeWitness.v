(** Runs for C118. *)
From stdpp Require Import sorting.
From Verif Require Import Base SpanModel TreeModel TreeSpec TreeProofs FinishModel FinishSpec FinishProofs FinishWitness OrderSpec MaskWitness ForwardModel SystemModel SystemSpec
  WholeSpec WholeProofs UnseenSpec UnseenWitness ClockSpec HostsWitness ShapeSpec.

Section sorting.
Notation P := (map shape_pair).
Lemma list_merge_shapes l1 : forall l2, P (list_merge larger l1 l2) = list_merge larger (P l1) (P l2).
Proof.
  induction l1 as [|x l1 IH1]; intros l2; [cbn [map]; by rewrite !list_merge_nil_l|]. induction l2 as [|y l2 IH2]; [cbn [map]; by rewrite !list_merge_nil_r|].
  cbn [map]. rewrite !list_merge_cons. change (decide (larger (shape_pair x) (shape_pair y))) with (decide (larger x y)).
  destruct (decide (larger x y)) as [H|H].
  - cbn [map]. by rewrite IH1.
  - cbn [map]. f_equal. exact IH2.
Qed.
Definition stack_shapes (st : list (option (list (Z * tree)))) := map (fun o => P <$> o) st.
Lemma to_stack_shapes st : forall l, stack_shapes (merge_list_to_stack larger st l) = merge_list_to_stack larger (stack_shapes st) (P l).
Proof.
  induction st as [|[l'|] st IH]; intros l; [done| |done]. cbn [merge_list_to_stack stack_shapes map fmap option_fmap option_map]. f_equal.
  rewrite <- list_merge_shapes. apply IH.
Qed.
Lemma of_stack_shapes st : P (merge_stack larger st) = merge_stack larger (stack_shapes st).
Proof. induction st as [|[l'|] st IH]; [done| |done]. cbn [merge_stack stack_shapes map fmap option_fmap option_map]. by rewrite list_merge_shapes, IH. Qed.
Lemma sort_aux_shapes l : forall st, P (merge_sort_aux larger st l) = merge_sort_aux larger (stack_shapes st) (P l).
Proof. induction l as [|x l IH]; intros st; [apply of_stack_shapes|]. cbn [merge_sort_aux map]. by rewrite IH, to_stack_shapes. Qed.
Lemma keys_same_shape now : same_shape_tick (keys_tick now) (keys_tick now).
Proof.
  split; [done|]. split; [done|]. split; [done|]. split; [apply map_order_list|]. split; [apply map_order_list|]. split; [|split; [done|]].
  - intros i ts ts' E. assert (H : forall ts, P (by_keys i ts) = by_keys i (shape_traces ts)).
    { intros x. unfold by_keys, shape_traces. rewrite dom_fmap_L. induction (elements (dom x)) as [|j l IH]; [done|]. cbn [omap list_omap].
      rewrite lookup_fmap. destruct (x !! j); cbn [fmap option_fmap option_map map]; [|exact IH]. f_equal. exact IH. }
    cbn [k_range keys_tick]. by rewrite !H, E.
  - intros l l' E. cbn [k_sort keys_tick]. assert (H : forall l, P (merge_sort larger l) = merge_sort larger (P l)) by (intros x; apply sort_aux_shapes). by rewrite !H, E.
Qed.
End sorting.

(** Trace 7 with a call, trace 8 without its root, trace 6 with two missing parents. *)
Definition say (id parent t : Z) (x : gostring * Z * Z * timings) : event :=
  ESpan map_to_list 0 0 (Span id parent t x.1.1.1 x.1.1.1 x.1.1.2 x.1.2 ∅ x.2).
Definition tale (a b c d e f g : gostring * Z * Z * timings) : list event :=
  [say 7 0 7 a; say 1 7 7 b; say 1 7 7 c; say 3 2 8 d; say 4 2 8 e; say 1 3 6 f; say 2 4 6 g; ETick (keys_tick 20000000000); EClose].
Definition small_words (x : gostring * Z * Z * timings) : Prop := int64_ok x.1.1.2.
Lemma tale_valid a b c d e f g : Forall small_words [a; b; c; d; e; f; g] -> Forall valid_event (tale a b c d e f g).
Proof.
  intros H. repeat (apply Forall_cons in H as [? H]). unfold tale, say.
  repeat (apply Forall_cons_2; [first [apply keys_valid | split; [apply map_order_list|exact ltac:(eassumption)] | done]|]). apply Forall_nil_2.
Qed.
Lemma tale_same a b c d e f g a' b' c' d' e' f' g' : Forall2 same_shape (tale a b c d e f g) (tale a' b' c' d' e' f' g').
Proof.
  unfold tale. repeat (constructor; [first [apply keys_same_shape|exact I|split; [apply map_order_list|]; split; [apply map_order_list|]; repeat split]|]). constructor.
Qed.

#[local] Instance shape_times_dec : EqDecision timings.
Proof. solve_decision. Defined.
#[local] Instance shape_span_dec : EqDecision span.
Proof. solve_decision. Defined.

(** The front and the shop, whose clock is ahead, in the order of [host_course1]. *)
Definition shape_course : list yevent :=
  [YRequest front_says; YRequest shop_says_ahead; YAct 0; YAct 1; YRecv map_to_list 0 0; YRecv map_to_list 1 1; YAct 0; YAct 1; YRecv map_to_list 2 2; YRecv map_to_list 3 3;
   YAct 0; YAct 1; YTick (plain_tick (seconds 9))] ++ deliver 3.
Lemma shape_course_reaches : yreachable unseen_config unseen_conv tt shape_course (after shape_course).
Proof. apply reaches; [unfold shape_course; host_ok|]. vm_compute. reflexivity. Qed.
Lemma shape_undisturbed : undisturbed 9 (seconds 8) (after shape_course).
Proof.
  split; [by vm_compute|]. split; [apply WholeProofs.ascending_sorted; by vm_compute|]. split; [apply WholeProofs.briskb_spec; by vm_compute|].
  split; [apply WholeProofs.calmb_spec; by vm_compute|]. by vm_compute.
Qed.
Lemma shape_told : map shape (told 9 (after host_course1)) = map shape (told 9 (after shape_course)).
Proof. vm_compute. reflexivity. Qed.
Lemma shape_told_ahead : told 9 (after shape_course) = [page; served ahead; get; labour ahead].
Proof. apply (bool_decide_unpack _). vm_compute. exact I. Qed.
Lemma shape_reclocked : Forall2 (reclocked host_outer host_inner) (told 9 (after host_course1)) (told 9 (after shape_course)).
Proof. rewrite host_told1, shape_told_ahead. repeat (constructor; [host_reclock|]). constructor. Qed.
Lemma shape_emits : LOut 9 (Emitted (leaves ahead)) ∈ y_log (after shape_course).
Proof. apply in_emitted. apply (bool_decide_unpack _). by vm_compute. Qed.

Definition words1 : gostring * Z * Z * timings := (str "a", 1000, 50, Timings 0 0 0 0).
Definition words2 : gostring * Z * Z * timings := (str "b", -7, 0, Timings 5 900 0 3).
Definition fates (log : list entry) : list (Z * Z * list (Z * Z)) :=
  omap (fun e => match e with LOut t (Emitted l) => Some (t, 1, map (fun s => (s_id s, s_parent s)) l) | LOut t NoRoot => Some (t, 2, []) | _ => None end) log.
