(** Proofs for C108: Jaeger, and whole requests. *)
From Verif Require Import Base SpanModel JsonModel CodecModel JsonSpec DocSpec JaegerModel JaegerSpec JaegerProofs HandlerModel HandlerSpec HandlerProofs StdJsonModel StdJsonSpec
  StdHttpProofs ParseSpec FormatSpec FormatProofs SwapSpec SwapProofs.

Section jaeger.
  Notation alike := (alike fold_case).
  Notation malike := (malike fold_case).

  Lemma named_alike k ms ms' : malike ms ms' -> Forall2 alike (named k ms) (named k ms').
  Proof. apply pick_alike. Qed.
  Lemma present_alike k ms ms' : malike ms ms' -> Forall2 alike (present k ms) (present k ms').
  Proof.
    intros H. unfold present. induction (named_alike k ms ms' H) as [|v v' l l' Hv _ IH]; [constructor|]. cbn [List.filter].
    destruct (alike_inv _ v v' Hv) as [[-> _]|[(a & a' & -> & -> & _)|(a & a' & -> & -> & _)]]; [destruct v'; try done|..]; by constructor.
  Qed.
  Lemma last_alike {A} (f : json -> option A) d l l' : (forall v v', alike v v' -> f v = f v') -> Forall2 alike l l' -> last_of f d l = last_of f d l'.
  Proof. intros Hf H. unfold last_of. f_equal. exact (traverse_eq f alike _ _ Hf H). Qed.
  Lemma list_last_rel {A B} (R : A -> B -> Prop) l l' d d' : Forall2 R l l' -> R d d' -> R (List.last l d) (List.last l' d').
  Proof.
    intros H Hd. induction H as [|a b l l' Hab H IH]; [done|]. destruct H as [|a2 b2 l l' H2 H]; [done|]. exact IH.
  Qed.
  Lemma items_alike k ms ms' : malike ms ms' -> orel (Forall2 alike) (items k ms) (items k ms').
  Proof.
    intros H. unfold items, last_of. pose proof (traverse_rel _ as_arr as_arr _ _ _ (as_arr_alike _) (present_alike k ms ms' H)) as X.
    destruct (traverse as_arr (present k ms)) as [a|], (traverse as_arr (present k ms')) as [a'|]; try done. cbn [option_map orel]. apply (list_last_rel (Forall2 alike)); [done|constructor].
  Qed.

  Ltac split_obj H :=
    let X := fresh "X" in pose proof (as_members_alike _ _ _ H) as X;
    match goal with |- _ ?v = _ ?v' => destruct (as_members v) as [ms|], (as_members v') as [ms'|]; try done end.
  Lemma tag_alike v v' : alike v v' -> jaeger_tag_of v = jaeger_tag_of v'.
  Proof.
    intros H. unfold jaeger_tag_of. pose proof (as_members_alike _ _ _ H) as X. destruct (as_members v) as [ms|], (as_members v') as [ms'|]; try done. cbn [mbind option_bind orel] in *.
    by rewrite (last_alike as_str [] _ _ (as_str_alike _) (present_alike (str "key") _ _ X)), (last_alike as_tag_value JVOther _ _ (as_tag_value_alike _) (named_alike (str "value") _ _ X)).
  Qed.
  Lemma ref_alike v v' : alike v v' -> jaeger_ref_of v = jaeger_ref_of v'.
  Proof.
    intros H. unfold jaeger_ref_of. pose proof (as_members_alike _ _ _ H) as X. destruct (as_members v) as [ms|], (as_members v') as [ms'|]; try done. cbn [mbind option_bind orel] in *.
    by rewrite (last_alike as_str [] _ _ (as_str_alike _) (present_alike (str "reftype") _ _ X)), (last_alike as_ident 0 _ _ (as_ident_alike _) (named_alike (str "spanid") _ _ X)).
  Qed.
  Lemma items_traverse {A} (f : json -> option A) k ms ms' : (forall v v', alike v v' -> f v = f v') -> malike ms ms' -> (items k ms ≫= traverse f) = (items k ms' ≫= traverse f).
  Proof.
    intros Hf H. pose proof (items_alike k ms ms' H) as X. destruct (items k ms) as [a|], (items k ms') as [a'|]; try done. exact (traverse_eq f alike _ _ Hf X).
  Qed.
  Lemma span_alike v v' : alike v v' -> jaeger_span_of v = jaeger_span_of v'.
  Proof.
    intros H. unfold jaeger_span_of. pose proof (as_members_alike _ _ _ H) as X. destruct (as_members v) as [ms|], (as_members v') as [ms'|]; try done. cbn [mbind option_bind orel] in *.
    rewrite (last_alike as_ident 0 _ _ (as_ident_alike _) (named_alike (str "traceid") _ _ X)), (last_alike as_ident 0 _ _ (as_ident_alike _) (named_alike (str "spanid") _ _ X)).
    rewrite (last_alike as_str [] _ _ (as_str_alike _) (present_alike (str "operationname") _ _ X)), (last_alike as_str [] _ _ (as_str_alike _) (present_alike (str "processid") _ _ X)).
    rewrite (last_alike as_u64 0 _ _ (as_u64_alike _) (present_alike (str "starttime") _ _ X)), (last_alike as_u64 0 _ _ (as_u64_alike _) (present_alike (str "duration") _ _ X)).
    pose proof (items_traverse jaeger_ref_of (str "references") _ _ ref_alike X) as E1. pose proof (items_traverse jaeger_tag_of (str "tags") _ _ tag_alike X) as E2.
    unfold mbind, option_bind in E1, E2 |- *. by rewrite E1, E2.
  Qed.
  Lemma process_alike v v' : alike v v' -> jaeger_process_of v = jaeger_process_of v'.
  Proof.
    intros H. unfold jaeger_process_of. pose proof (as_members_alike _ _ _ H) as X. destruct (as_members v) as [ms|], (as_members v') as [ms'|]; try done. cbn [mbind option_bind orel] in *.
    exact (last_alike as_str [] _ _ (as_str_alike _) (present_alike (str "servicename") _ _ X)).
  Qed.
  Lemma processes_alike ms ms' : malike ms ms' -> jaeger_processes_of ms = jaeger_processes_of ms'.
  Proof.
    intros H. unfold jaeger_processes_of, last_of. pose proof (traverse_rel _ as_obj as_obj _ _ _ (as_obj_alike _) (present_alike (str "processes") ms ms' H)) as X.
    destruct (traverse as_obj (present (str "processes") ms)) as [a|], (traverse as_obj (present (str "processes") ms')) as [a'|]; try done. cbn [option_map orel mbind option_bind] in *.
    exact (map_alike fold_case jaeger_process_of _ _ process_alike (list_last_rel malike a a' [] [] X (malike_refl _ []))).
  Qed.
  Lemma data_alike v v' : alike v v' -> jaeger_data_of v = jaeger_data_of v'.
  Proof.
    intros H. unfold jaeger_data_of. pose proof (as_members_alike _ _ _ H) as X. destruct (as_members v) as [ms|], (as_members v') as [ms'|]; try done. cbn [mbind option_bind orel] in *.
    pose proof (items_traverse jaeger_span_of (str "spans") _ _ span_alike X) as E1. unfold mbind, option_bind in E1 |- *. by rewrite E1, (processes_alike _ _ X).
  Qed.
  Lemma document_alike v v' : alike v v' -> jaeger_document v = jaeger_document v'.
  Proof.
    intros H. unfold jaeger_document. pose proof (as_members_alike _ _ _ H) as X. destruct (as_members v) as [ms|], (as_members v') as [ms'|]; try done. cbn [mbind option_bind orel] in *.
    exact (items_traverse jaeger_data_of (str "data") _ _ data_alike X).
  Qed.
End jaeger.

(* ---------- tags and references in another order ---------- *)

Lemma last_filter {A} (P : A -> Prop) (p : A -> bool) l a : (forall x, P x <-> p x = true) -> last_with P l a <-> exists i, List.filter p l = i ++ [a].
Proof.
  intros Hp. split.
  - intros (l1 & l2 & -> & Ha & H2). rewrite List.filter_app. cbn [List.filter]. rewrite (proj1 (Hp a) Ha). assert (E : List.filter p l2 = []).
    { clear -H2 Hp. induction H2 as [|x l2 Hx _ IH]; [done|]. cbn [List.filter]. destruct (p x) eqn:E; [|done]. by destruct Hx; apply Hp. }
    rewrite E. by exists (List.filter p l1).
  - induction l as [|x l IH] using rev_ind; intros [i E]; [by destruct i|]. rewrite List.filter_app in E. cbn [List.filter] in E. destruct (p x) eqn:Ex.
    + apply app_inj_tail in E as [_ ->]. exists l, []. split; [done|]. split; [by apply Hp|constructor].
    + rewrite app_nil_r in E. destruct IH as (l1 & l2 & -> & Ha & H2); [by exists i|]. exists l1, (l2 ++ [x]). rewrite <- app_assoc. split; [done|]. split; [done|].
      apply Forall_app. split; [done|]. constructor; [|constructor]. intros Hx. apply Hp in Hx. congruence.
Qed.

Definition keeps (k : gostring) (t : jtag) : bool := bool_decide (kept_key t = Some k).
Lemma keeps_carries k t : k <> str "component" -> carries k t <-> keeps k t = true.
Proof.
  intros Hk. unfold keeps, kept_key. rewrite bool_decide_eq_true. unfold carries. destruct t as [key [v|]]; cbn [jt_key jt_value].
  - split.
    + intros [[->|[-> ->]] _]; [by rewrite decide_False|by rewrite decide_True]. 
    + intros [= E]. split; [|by exists v]. case_decide as C; [right; by split|by left].
  - split; [intros [_ [v E]]; done|done].
Qed.
Lemma omap_nodup_short k l : NoDup (omap kept_key l) -> (length (List.filter (keeps k) l) <= 1)%nat.
Proof.
  intros Hn. induction l as [|t l IH]; [cbn; lia|]. cbn [omap list_omap List.filter] in *. unfold keeps at 1. destruct (kept_key t) as [k'|] eqn:E; [|rewrite bool_decide_false by done; by apply IH].
  apply NoDup_cons in Hn as [Hx Hn]. destruct (decide (k' = k)) as [->|Hk]; [|rewrite bool_decide_false by congruence; by apply IH]. rewrite bool_decide_true by done.
  assert (E' : List.filter (keeps k) l = []); [|rewrite E'; cbn; lia]. destruct (List.filter (keeps k) l) as [|y r] eqn:E'; [done|]. exfalso.
  assert (Hy : y ∈ List.filter (keeps k) l) by (rewrite E'; left). apply filter_in in Hy as [Hy Hk]. apply bool_decide_eq_true in Hk. apply Hx. apply elem_of_list_omap. by exists y.
Qed.
Lemma keeps_perm k l l' : l ≡ₚ l' -> NoDup (omap kept_key l) -> List.filter (keeps k) l = List.filter (keeps k) l'.
Proof. intros Hp Hn. apply perm_short; [by apply filter_perm|by apply omap_nodup_short]. Qed.
Lemma ocons {A B} (f : A -> option B) x l : omap f (x :: l) = match f x with Some y => y :: omap f l | None => omap f l end.
Proof. reflexivity. Qed.
Lemma tag_values_keeps k l : k <> str "component" -> k <> str "lc" -> tag_values k l = omap (fun t => match jt_value t with JVString v => Some v | JVOther => None end) (List.filter (keeps k) l).
Proof.
  intros Hc Hl. unfold tag_values. induction l as [|t l IH]; [done|]. rewrite ocons. cbn [List.filter]. rewrite IH.
  assert (E : keeps k t = bool_decide (jt_key t = k) && match jt_value t with JVString _ => true | JVOther => false end).
  { unfold keeps, kept_key. destruct t as [key [v|]]; cbn [jt_key jt_value]; [|by rewrite andb_false_r, bool_decide_false]. rewrite andb_true_r. apply bool_decide_ext. case_decide; naive_solver. }
  rewrite E. destruct (decide (jt_key t = k)) as [Hk|Hk]; [rewrite bool_decide_true by done|by rewrite bool_decide_false by done]. cbn [andb]. destruct (jt_value t) eqn:Ev; [|done]. by rewrite ocons, Ev.
Qed.

Definition jsame (js js' : jspan) : Prop := forall procs, jaeger_to_span procs js = jaeger_to_span procs js'.
Lemma tags_same tr id name refs ts dur p tags tags' : tags ≡ₚ tags' -> NoDup (omap kept_key tags) ->
  jsame (JSpan tr id name refs ts dur p tags) (JSpan tr id name refs ts dur p tags').
Proof.
  intros Hp Hn procs. apply (describes_functional procs (JSpan tr id name refs ts dur p tags')); [|apply to_span_spec].
  pose proof (to_span_spec procs (JSpan tr id name refs ts dur p tags)) as H.
  unfold jaeger_describes in *. cbn [js_id js_trace js_operation js_process js_ts js_dur js_tags] in *.
  destruct H as (H1 & H2 & H3 & H4 & H5 & H6 & H7 & (T1 & T2 & T3) & H9). do 7 (split; [done|]). split.
  - split; [done|]. split; [done|]. intros k v Hi Hv. rewrite (T3 k v Hi Hv).
    assert (Hc : k <> str "component") by (intros ->; apply Hi; by left).
    split; intros (t & Ht & Et); exists t; (split; [|done]); rewrite (last_filter _ (keeps k)) in Ht |- *; try (intros x; by apply keeps_carries).
    + by rewrite <- (keeps_perm k tags tags').
    + by rewrite (keeps_perm k tags tags').
  - rewrite H9. unfold jaeger_timings, jaeger_kind, jaeger_duration. cbn [js_ts js_dur js_tags].
    assert (E : tag_values (str "span.kind") tags = tag_values (str "span.kind") tags'); [|by rewrite E]. rewrite !tag_values_keeps by discriminate. by rewrite (keeps_perm _ tags tags').
Qed.
Lemma parent_filter id refs : foldl (fun p r => if decide (jr_type r = str "CHILD_OF") then jr_span r else p) id refs =
  List.last (map jr_span (List.filter (fun r => bool_decide (jr_type r = str "CHILD_OF")) refs)) id.
Proof.
  induction refs as [|r refs IH] using rev_ind; [done|]. rewrite foldl_app, List.filter_app, map_app. cbn [foldl List.filter]. case_decide as C.
  - rewrite bool_decide_true by done. cbn [map]. by rewrite last_snoc.
  - rewrite bool_decide_false by done. cbn [map]. by rewrite app_nil_r.
Qed.
Lemma refs_same tr id name refs refs' ts dur p tags : refs ≡ₚ refs' -> (length (List.filter (fun r => bool_decide (jr_type r = str "CHILD_OF")) refs) <= 1)%nat ->
  jsame (JSpan tr id name refs ts dur p tags) (JSpan tr id name refs' ts dur p tags).
Proof.
  intros Hp Hn procs. unfold jaeger_to_span, jaeger_parent. cbn [js_trace js_id js_operation js_refs js_ts js_dur js_process js_tags]. rewrite !parent_filter.
  by rewrite (perm_short _ _ (filter_perm _ _ _ Hp) Hn).
Qed.

Lemma present_pick k ms : present k ms = List.filter (fun v => match v with JNull => false | _ => true end) (pick fold_case k ms).
Proof. reflexivity. Qed.
Lemma items_only k ms a : pick fold_case k ms = [JArr a] -> items k ms = Some a.
Proof. intros H. unfold items, last_of. by rewrite present_pick, H. Qed.

Lemma named_other k k' ms ms' : (forall k', k' <> k -> pick fold_case k' ms = pick fold_case k' ms') -> k' <> k -> named k' ms = named k' ms'.
Proof. intros H Hk. exact (H k' Hk). Qed.
Lemma present_other k k' ms ms' : (forall k', k' <> k -> pick fold_case k' ms = pick fold_case k' ms') -> k' <> k -> present k' ms = present k' ms'.
Proof. intros H Hk. rewrite !present_pick. by rewrite (H k' Hk). Qed.
Lemma items_other k k' ms ms' : (forall k', k' <> k -> pick fold_case k' ms = pick fold_case k' ms') -> k' <> k -> items k' ms = items k' ms'.
Proof. intros H Hk. unfold items. by rewrite (present_other k k' ms ms' H Hk). Qed.

Ltac all_done := repeat match goal with |- orel _ (match ?x with _ => _ end) _ => destruct x; [|done] end.
Lemma span_shuffled v v' : jaeger_alike v v' -> orel jsame (jaeger_span_of v) (jaeger_span_of v').
Proof.
  destruct 1 as [a a' v v' (ms & ms' & -> & -> & E1 & E2 & Eo)%other_picks (Hp & Hd)|a a' v v' (ms & ms' & -> & -> & E1 & E2 & Eo)%other_picks (Hp & Hd)];
    unfold jaeger_span_of; cbn [as_members mbind option_bind]; rewrite (items_only _ _ _ E1), (items_only _ _ _ E2);
    rewrite !(named_other _ (str "traceid") ms ms' Eo), !(named_other _ (str "spanid") ms ms' Eo), !(present_other _ (str "operationname") ms ms' Eo),
      !(present_other _ (str "starttime") ms ms' Eo), !(present_other _ (str "duration") ms ms' Eo), !(present_other _ (str "processid") ms ms' Eo) by discriminate.
  - rewrite (items_other _ (str "references") ms ms' Eo) by discriminate. pose proof (traverse_perm jaeger_tag_of a a' Hp) as Ht.
    unfold mbind, option_bind. all_done. destruct (traverse jaeger_tag_of a) as [r|], (traverse jaeger_tag_of a') as [r'|]; try done. cbn [orel]. by apply tags_same; [|apply Hd].
  - rewrite (items_other _ (str "tags") ms ms' Eo) by discriminate. pose proof (traverse_perm jaeger_ref_of a a' Hp) as Ht.
    unfold mbind, option_bind. do 3 match goal with |- orel _ (match ?x with _ => _ end) _ => destruct x; [|done] end.
    destruct (traverse jaeger_ref_of a) as [r|], (traverse jaeger_ref_of a') as [r'|]; try done. all_done. cbn [orel]. by apply refs_same; [|apply Hd].
Qed.

Definition dsame (d d' : jdata) : Prop := jd_procs d = jd_procs d' /\ Forall2 jsame (jd_spans d) (jd_spans d').
Lemma traverse_orel {A B} (f : A -> option B) (R : B -> B -> Prop) l l' : Forall2 (fun a b => orel R (f a) (f b)) l l' -> orel (Forall2 R) (traverse f l) (traverse f l').
Proof.
  induction 1 as [|a b l l' Hab _ IH]; [constructor|]. cbn [traverse]. destruct (f a), (f b); try done. cbn in IH. destruct (traverse f l), (traverse f l'); try done. by constructor.
Qed.
Lemma orel_refl {A} (R : A -> A -> Prop) (x : option A) : (forall a, R a a) -> orel R x x.
Proof. destruct x; [|done]. intros H. apply H. Qed.
Lemma forall2_middle {A} (R : A -> A -> Prop) l1 l2 x x' : (forall a, R a a) -> R x x' -> Forall2 R (l1 ++ x :: l2) (l1 ++ x' :: l2).
Proof.
  intros Hr Hx. apply Forall2_app; [|constructor; [done|]]; [induction l1|induction l2]; constructor; try done; apply Hr.
Qed.
Lemma data_shuffled s1 s2 x x' o o' : other_list fold_case (str "spans") (s1 ++ x :: s2) (s1 ++ x' :: s2) o o' -> jaeger_alike x x' -> orel dsame (jaeger_data_of o) (jaeger_data_of o').
Proof.
  intros (ms & ms' & -> & -> & E1 & E2 & Eo)%other_picks Hx. unfold jaeger_data_of. cbn [as_members mbind option_bind]. rewrite (items_only _ _ _ E1), (items_only _ _ _ E2).
  assert (Ep : jaeger_processes_of ms = jaeger_processes_of ms') by (unfold jaeger_processes_of; by rewrite (present_other _ (str "processes") ms ms' Eo) by discriminate).
  rewrite Ep. unfold mbind, option_bind.
  assert (H : orel (Forall2 jsame) (traverse jaeger_span_of (s1 ++ x :: s2)) (traverse jaeger_span_of (s1 ++ x' :: s2))).
  { apply traverse_orel. apply (forall2_middle (fun a b => orel jsame (jaeger_span_of a) (jaeger_span_of b))); [|by apply span_shuffled]. intros a. by apply orel_refl. }
  destruct (traverse jaeger_span_of (s1 ++ x :: s2)), (traverse jaeger_span_of (s1 ++ x' :: s2)); try done. destruct (jaeger_processes_of ms'); [|done]. by split.
Qed.
Lemma dsame_refl d : dsame d d.
Proof. split; [done|]. induction (jd_spans d); constructor; [done|done]. Qed.
Lemma document_shuffled v v' d1 d2 o o' : other_list fold_case (str "data") (d1 ++ o :: d2) (d1 ++ o' :: d2) v v' -> orel dsame (jaeger_data_of o) (jaeger_data_of o') ->
  orel (Forall2 dsame) (jaeger_document v) (jaeger_document v').
Proof.
  intros (ms & ms' & -> & -> & E1 & E2 & Eo)%other_picks Ho. unfold jaeger_document. cbn [as_members mbind option_bind]. rewrite (items_only _ _ _ E1), (items_only _ _ _ E2). cbn [mbind option_bind].
  apply traverse_orel. apply (forall2_middle (fun a b => orel dsame (jaeger_data_of a) (jaeger_data_of b))); [|done]. intros a. apply orel_refl, dsame_refl.
Qed.
Lemma parse_same r r' : orel (Forall2 dsame) r r' -> ParseJaeger r = ParseJaeger r'.
Proof.
  destruct r as [d|], r' as [d'|]; try done. cbn [orel]. intros H. unfold ParseJaeger. cbn [option_map]. f_equal.
  assert (G : forall acc : list span, foldl (fun acc d => foldl (fun acc js => acc ++ [jaeger_to_span (jd_procs d) js]) acc (jd_spans d)) acc d =
    foldl (fun acc d => foldl (fun acc js => acc ++ [jaeger_to_span (jd_procs d) js]) acc (jd_spans d)) acc d'); [|apply G].
  induction H as [|x y d d' [Hp Hs] _ IH]; intros acc; [done|]. cbn [foldl]. rewrite IH. f_equal. rewrite Hp. clear -Hs. revert acc.
  induction Hs as [|a b l l' Hab _ IH]; intros acc; [done|]. cbn [foldl]. by rewrite (Hab (jd_procs y)), IH.
Qed.
Lemma docs_same v v' : jaeger_docs v v' -> ParseJaeger (jaeger_document v) = ParseJaeger (jaeger_document v').
Proof.
  induction 1 as [v v' H|v v' d1 d2 o o' s1 s2 x x' H1 H2 H3|v1 v2 v3 _ IH1 _ IH2].
  - by rewrite (document_alike v v' H).
  - apply parse_same. eapply document_shuffled; [exact H1|]. by eapply data_shuffled.
  - congruence.
Qed.

(* ---------- requests ---------- *)

Lemma answers_fun r acts acts' : answers r acts -> answers r acts' -> acts = acts'.
Proof. destruct r; cbn [answers]; unfold accepts, rejects; congruence. Qed.
Lemma v2_answers env q v : v2_request env q v -> exists acts, handle env q = XDone acts /\ answers (v2_spans v) acts.
Proof. intros (Hq & m & l & w & rest & chunks & e & H1 & H2 & H3 & H4 & H5 & H6 & H7 & H8 & H9 & H10). by eapply handle_v2. Qed.
Lemma v1_answers env q v : v1_request env q v -> exists acts, handle env q = XDone acts /\ answers (v1_spans v) acts.
Proof. intros (Hq & Hj & Hp & (m & l & w & rest & chunks & e & H1 & H2 & H3 & H4 & H5 & H6 & H7 & H8 & H9 & H10) & Ho). by eapply handle_v1. Qed.
Lemma jaeger_answers env q v : jaeger_request env q v -> exists acts, handle env q = XDone acts /\ answers (ParseJaeger (jaeger_document v)) acts.
Proof.
  intros (Hn & Hq & chunks & e & t & rest & Hr & H1 & H2 & H3 & H4 & H5 & H6). pose proof (body_document chunks e t rest v H1 H2 H3 H4 H5 H6) as E.
  rewrite (handle_reads _ _ _ Hr). unfold handle_spans. rewrite Hq. unfold parse_spans. cbn [parser]. rewrite Hn, E. destruct (ParseJaeger (jaeger_document v)); eexists; (split; [done|done]).
Qed.

Lemma order_v2 env q v env' q' v' : v2_request env q v -> v2_request env' q' v' -> alike exactly v v' -> treated_alike env q env' q'.
Proof.
  intros (acts & E & A)%v2_answers (acts' & E' & A')%v2_answers H. rewrite <- (v2_spans_alike v v' H) in A'. exists acts. split; [done|]. by rewrite (answers_fun _ _ _ A A').
Qed.
Lemma order_v1 env q vs env' q' vs' : v1_request env q (JArr vs) -> v1_request env' q' (JArr vs') -> Forall2 v1_alike vs vs' -> treated_alike env q env' q'.
Proof.
  intros (acts & E & A)%v1_answers (acts' & E' & A')%v1_answers H. rewrite <- (v1_spans_alike vs vs' H) in A'. exists acts. split; [done|]. by rewrite (answers_fun _ _ _ A A').
Qed.
Lemma order_jaeger env q v env' q' v' : jaeger_request env q v -> jaeger_request env' q' v' -> jaeger_docs v v' -> treated_alike env q env' q'.
Proof.
  intros (acts & E & A)%jaeger_answers (acts' & E' & A')%jaeger_answers H. rewrite <- (docs_same v v' H) in A'. exists acts. split; [done|]. by rewrite (answers_fun _ _ _ A A').
Qed.
