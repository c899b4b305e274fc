(** Proofs for C27. *)
From Verif Require Import Base SpanModel CodecModel DocSpec DocProofs DocProofs1 JaegerModel JaegerSpec.

Lemma last_with_snoc {A} (P : A -> Prop) l a b : last_with P (l ++ [a]) b <-> (P a /\ b = a) \/ (~ P a /\ last_with P l b).
Proof.
  unfold last_with. split.
  - intros (l1 & l2 & E & Hb & Hn). destruct l2 as [|x l2 _] using rev_ind.
    + apply app_inj_tail in E as [_ ->]. by left.
    + rewrite app_comm_cons, app_assoc in E. apply app_inj_tail in E as [-> ->]. apply Forall_app in Hn as [Hn Hx].
      apply Forall_cons in Hx as [Hx _]. right. split; [done|]. by exists l1, l2.
  - intros [[Ha ->]|[Ha (l1 & l2 & -> & Hb & Hn)]].
    + exists l, []. by rewrite Forall_nil.
    + exists l1, (l2 ++ [a]). split; [by rewrite <- app_assoc|]. split; [done|]. apply Forall_app. split; [done|].
      by apply Forall_singleton.
Qed.
Lemma last_with_nil {A} (P : A -> Prop) a : ~ last_with P [] a.
Proof. intros (l1 & l2 & E & _). by destruct l1. Qed.

Lemma parent_spec js : jaeger_parent_of js (jaeger_parent js).
Proof.
  unfold jaeger_parent_of, jaeger_parent. generalize (js_refs js) as refs, (js_id js) as i. intros refs i.
  induction refs as [|r refs IH] using rev_ind.
  - right. split; [apply Forall_nil; exact I|done].
  - rewrite foldl_app. cbn [foldl]. destruct (decide (jr_type r = str "CHILD_OF")) as [E|E].
    + left. exists r. rewrite last_with_snoc. auto.
    + destruct IH as [(r' & H & ->)|[H ->]].
      * left. exists r'. rewrite last_with_snoc. auto.
      * right. split; [|done]. apply Forall_app. split; [done|]. by apply Forall_singleton.
Qed.

Definition tag_state (s0 : span) (tags : list jtag) (r : span * gostring) : Prop :=
  (exists m, r.1 = set_tags m s0 /\
    (forall k, internal_key k -> m !! k = None) /\
    (forall k v, ~ internal_key k -> (m !! k = Some v <-> exists t, last_with (carries k) tags t /\ jt_value t = JVString v))) /\
  r.2 = List.last (tag_values (str "span.kind") tags) [].

Lemma last_snoc {A} (l : list A) a d : List.last (l ++ [a]) d = a.
Proof. induction l as [|x l IH]; [done|]. cbn. rewrite IH. by destruct l. Qed.

Lemma tags_spec s0 tags : s_tags s0 = ∅ -> tag_state s0 tags (foldl jaeger_tag (s0, []) tags).
Proof.
  intros H0. induction tags as [|t tags IH] using rev_ind.
  - split; [|done]. exists ∅. split; [destruct s0; cbn in H0; by subst|]. split; [done|].
    intros k v _. split; [done|]. intros (t & H & _). by apply last_with_nil in H.
  - rewrite foldl_app. cbn [foldl]. set (r := foldl jaeger_tag (s0, []) tags) in *. clearbody r. destruct r as [s kind].
    destruct IH as [(m & E & Hi & Hm) Hk]. cbn in E, Hk. subst s kind. unfold jaeger_tag.
    assert (Hskip : (forall k, ~ internal_key k -> ~ carries k t) -> forall k v, ~ internal_key k ->
      (m !! k = Some v <-> exists t', last_with (carries k) (tags ++ [t]) t' /\ jt_value t' = JVString v)).
    { intros Hc k v Hnk. rewrite Hm by done. split; intros (t' & H1 & H2); exists t'; split; try done.
      - apply last_with_snoc. right. split; [by apply Hc|done].
      - apply last_with_snoc in H1 as [[H1 _]|[_ H1]]; [|done]. by apply Hc in H1. }
    assert (Hkind : tag_values (str "span.kind") (tags ++ [t]) = tag_values (str "span.kind") tags ++ tag_values (str "span.kind") [t]).
    { apply omap_app. }
    destruct (jt_value t) as [v|] eqn:Ev.
    2:{ split; [exists m; split; [done|]; split; [done|]; apply Hskip|].
        - intros k _ [_ [v Hv]]. congruence.
        - rewrite Hkind. cbn. rewrite Ev. destruct (decide _); by rewrite app_nil_r. }
    destruct (decide (jt_key t = str "component")) as [Ec|Ec].
    { rewrite decide_False by done. rewrite decide_False by done. split.
      - exists (<[str "lc" := v]> m). split; [done|]. split.
        + intros k Hk. rewrite lookup_insert_ne; [by apply Hi|]. intros <-. destruct Hk as [|[|]]; done.
        + intros k v' Hk. destruct (decide (k = str "lc")) as [->|Hne].
          * rewrite lookup_insert. split.
            { intros [= <-]. exists t. split; [|done]. apply last_with_snoc. left. split; [|done]. split; [by right|eauto]. }
            { intros (t' & H & H'). apply last_with_snoc in H as [[_ ->]|[H _]]; [congruence|]. destruct H. split; [by right|eauto]. }
          * rewrite lookup_insert_ne by done. rewrite Hm by done.
            assert (~ carries k t). { intros [[H|[H _]] _]; [|done]. apply Hk. left. congruence. }
            split; intros (t' & H1 & H2); exists t'; split; try done.
            { apply last_with_snoc. by right. }
            { apply last_with_snoc in H1 as [[H1 _]|[_ H1]]; done. }
      - rewrite Hkind. cbn. rewrite Ec. rewrite decide_False by done. by rewrite app_nil_r. }
    destruct (decide (jt_key t = str "internal.span.format")) as [Ef|Ef].
    { split; [exists m; split; [done|]; split; [done|]; apply Hskip|].
      - intros k Hk [[H|[_ H]] _]; [|done]. apply Hk. right. left. congruence.
      - rewrite Hkind. cbn. rewrite Ef. rewrite decide_False by done. by rewrite app_nil_r. }
    destruct (decide (jt_key t = str "span.kind")) as [Es|Es].
    { split; [exists m; split; [done|]; split; [done|]; apply Hskip|].
      - intros k Hk [[H|[_ H]] _]; [|done]. apply Hk. right. right. congruence.
      - rewrite Hkind. cbn. rewrite Es, Ev. rewrite decide_True by done. by rewrite last_snoc. }
    split.
    + exists (<[jt_key t := v]> m). split; [done|]. split.
      * intros k Hk. rewrite lookup_insert_ne; [by apply Hi|]. intros <-. destruct Hk as [|[|]]; done.
      * intros k v' Hk. destruct (decide (k = jt_key t)) as [->|Hne].
        { rewrite lookup_insert. split.
          - intros [= <-]. exists t. split; [|done]. apply last_with_snoc. left. split; [|done]. split; [by left|eauto].
          - intros (t' & H & H'). apply last_with_snoc in H as [[_ ->]|[H _]]; [congruence|]. destruct H. split; [by left|eauto]. }
        { rewrite lookup_insert_ne by done. rewrite Hm by done.
          assert (~ carries k t). { intros [[H|[_ H]] _]; done. }
          split; intros (t' & H1 & H2); exists t'; split; try done.
          { apply last_with_snoc. by right. }
          { apply last_with_snoc in H1 as [[H1 _]|[_ H1]]; done. } }
    + rewrite Hkind. cbn. rewrite decide_False by done. by rewrite app_nil_r.
Qed.

Lemma to_span_spec procs js : jaeger_describes procs js (jaeger_to_span procs js).
Proof.
  unfold jaeger_to_span.
  set (s0 := set_service _ _). pose proof (tags_spec s0 (js_tags js) eq_refl) as H.
  destruct (foldl jaeger_tag (s0, []) (js_tags js)) as [s kind]. destruct H as [(m & E & Hi & Hm) Hk]. cbn in E. subst s.
  change (kind = jaeger_kind js) in Hk. subst kind. generalize (parent_spec js). intros Hp.
  assert (Hc : equal_fold (jaeger_kind js) (str "client") = bool_decide (fold_case (jaeger_kind js) = str "client")) by (by apply equal_fold_spec).
  assert (Hs : equal_fold (jaeger_kind js) (str "server") = bool_decide (fold_case (jaeger_kind js) = str "server")) by (by apply equal_fold_spec).
  rewrite wrap_nanos. change (wrap64 (wrap64 (js_dur js) * microsecond)) with (microseconds (wrap64 (js_dur js))). rewrite wrap_nanos.
  cbn [s_dur set_dur set_ts]. change millisecond with 1000000.
  set (s1 := if nanos (js_dur js) =? 0 then _ else _).
  assert (E1 : s1 = Span (js_id js) (jaeger_parent js) (js_trace js) (js_operation js) (default [] (procs !! js_process js))
    (nanos (js_ts js)) (jaeger_duration js) (<[tag_protocol_version := str "jaeger"]> m) zero_timings).
  { unfold s1, jaeger_duration. by destruct (_ =? 0). }
  rewrite E1. clear s1 E1. cbv zeta. rewrite Hc, Hs. clear Hc Hs. unfold jaeger_describes, jaeger_timings.
  assert (Ht : jaeger_tags (js_tags js) (<[tag_protocol_version := str "jaeger"]> m)).
  { split; [apply lookup_insert|]. split.
    - intros k Hk. rewrite lookup_insert_ne; [by apply Hi|]. intros <-. by destruct Hk as [|[|]].
    - intros k v Hk Hne. rewrite lookup_insert_ne by done. by apply Hm. }
  destruct (decide (fold_case (jaeger_kind js) = str "client")) as [E|E].
  - rewrite (bool_decide_true _ E). rewrite (bool_decide_false (fold_case (jaeger_kind js) = str "server")) by (rewrite E; done).
    repeat (split; [done|]). done.
  - rewrite (bool_decide_false _ E). destruct (decide (fold_case (jaeger_kind js) = str "server")) as [E'|E'].
    + rewrite (bool_decide_true _ E'). repeat (split; [done|]). done.
    + rewrite (bool_decide_false _ E'). repeat (split; [done|]). done.
Qed.

Lemma inner_fold {A B} (f : A -> B) l acc : foldl (fun acc a => acc ++ [f a]) acc l = acc ++ map f l.
Proof. revert acc. induction l as [|a l IH]; intros acc; [by rewrite app_nil_r|]. cbn. by rewrite IH, <- app_assoc. Qed.

Lemma outer_fold data acc :
  foldl (fun acc d => foldl (fun acc js => acc ++ [jaeger_to_span (jd_procs d) js]) acc (jd_spans d)) acc data
  = acc ++ concat (map (fun d => map (jaeger_to_span (jd_procs d)) (jd_spans d)) data).
Proof.
  revert acc. induction data as [|d data IH]; intros acc; [by rewrite app_nil_r|]. cbn [foldl map concat].
  by rewrite IH, (inner_fold (jaeger_to_span (jd_procs d))), app_assoc.
Qed.

Lemma parse_jaeger data : exists groups, ParseJaeger (Some data) = Some (concat groups) /\
  Forall2 (fun d g => Forall2 (jaeger_describes (jd_procs d)) (jd_spans d) g) data groups.
Proof.
  exists (map (fun d => map (jaeger_to_span (jd_procs d)) (jd_spans d)) data). split.
  - unfold ParseJaeger. cbn. by rewrite outer_fold.
  - apply Forall2_fmap_r, Forall_Forall2_diag, Forall_forall. intros d _.
    apply Forall2_fmap_r, Forall_Forall2_diag, Forall_forall. intros js _. apply to_span_spec.
Qed.

Lemma describes_functional procs js s s' : jaeger_describes procs js s -> jaeger_describes procs js s' -> s = s'.
Proof.
  intros (A1 & A2 & A3 & A4 & A5 & A6 & A7 & (A8 & A9 & A10) & A11) (B1 & B2 & B3 & B4 & B5 & B6 & B7 & (B8 & B9 & B10) & B11).
  destruct s as [x1 x2 x3 x4 x5 x6 x7 m x9], s' as [y1 y2 y3 y4 y5 y6 y7 m' y9]. cbn [s_id s_parent s_trace s_name s_service s_ts s_dur s_tags s_timings] in *. subst.
  assert (m = m') as ->.
  { apply map_eq. intros k.
    assert (D : internal_key k \/ ~ internal_key k).
    { unfold internal_key. destruct (decide (k = str "component")), (decide (k = str "internal.span.format")), (decide (k = str "span.kind")); tauto. }
    destruct D as [D|D]; [by rewrite A9, B9|].
    destruct (decide (k = str "protocolVersion")) as [->|Hne]; [congruence|].
    apply option_eq. intros v. by rewrite A10, B10. }
  f_equal. clear - A3 B3.
  assert (U : forall refs i p p', jaeger_parent_of (JSpan 0 i [] refs 0 0 [] []) p -> jaeger_parent_of (JSpan 0 i [] refs 0 0 [] []) p' -> p = p').
  { unfold jaeger_parent_of. cbn [js_refs js_id]. intros refs i. induction refs as [|r refs IH] using rev_ind; intros p p' H H'.
    - destruct H as [(r & H & _)|[_ ->]]; [by apply last_with_nil in H|]. destruct H' as [(r & H' & _)|[_ ->]]; [by apply last_with_nil in H'|]. done.
    - destruct (decide (jr_type r = str "CHILD_OF")) as [E|E].
      + destruct H as [(r1 & H & ->)|[H _]]; [|apply Forall_app in H as [_ H]; rewrite Forall_singleton in H; by destruct (H E)].
        destruct H' as [(r2 & H' & ->)|[H' _]]; [|apply Forall_app in H' as [_ H']; rewrite Forall_singleton in H'; by destruct (H' E)].
        apply last_with_snoc in H as [[_ ->]|[H _]]; [|done]. apply last_with_snoc in H' as [[_ ->]|[H' _]]; done.
      + apply IH.
        * destruct H as [(r1 & H & ->)|[H ->]]; [left; exists r1; apply last_with_snoc in H as [[H _]|[_ H]]; done|].
          apply Forall_app in H as [H _]. by right.
        * destruct H' as [(r1 & H' & ->)|[H' ->]]; [left; exists r1; apply last_with_snoc in H' as [[H' _]|[_ H']]; done|].
          apply Forall_app in H' as [H' _]. by right. }
  eapply U; [exact A3|exact B3].
Qed.
