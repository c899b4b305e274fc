(** Documents that agree in what is asked for. *)
From Verif Require Import Base SpanModel JsonModel CodecModel JsonSpec DocSpec ParseSpec JaegerModel HandlerModel HandlerSpec HandlerProofs StdJsonModel StdJsonSpec StdHttpProofs DocProofs
  FormatSpec SwapSpec SwapProofs SwapJaeger LayerSpec LayerProofs PileSpec PileProofs AskedSpec.

Section Fold.
Context (fold : gostring -> gostring).
Notation same := (same_for fold).
Definition agree (F : list (gostring * shape)) (ms ms' : list (bytes * json)) : Prop :=
  forall k s, (k, s) ∈ F -> Forall2 (same s) (given fold k ms) (given fold k ms').
Lemma all_same s l : Forall2 (same s) l l.
Proof. induction l; constructor; [apply sf_same|done]. Qed.
Lemma agree_same F ms : agree F ms ms.
Proof. intros k s _. apply all_same. Qed.
Lemma given_app k ms1 ms2 : given fold k (ms1 ++ ms2) = given fold k ms1 ++ given fold k ms2.
Proof. unfold given, members_named. by rewrite List.filter_app, map_app. Qed.
Lemma agree_app F ms1 ms1' ms2 ms2' : agree F ms1 ms1' -> agree F ms2 ms2' -> agree F (ms1 ++ ms2) (ms1' ++ ms2').
Proof. intros H1 H2 k s Hk. rewrite !given_app. apply Forall2_app; [by apply H1|by apply H2]. Qed.
Lemma agree_concat F l l' : Forall2 (agree F) l l' -> agree F (concat l) (concat l').
Proof. induction 1; [apply agree_same|]. cbn [concat]. by apply agree_app. Qed.

Lemma value_same v v' : same SValue v v' -> v = v'.
Proof. by inversion 1. Qed.
Lemma object_same F v v' : same (SObject F) v v' -> (exists ms ms', v = JObj ms /\ v' = JObj ms' /\ agree F ms ms') \/ v = v' /\ as_obj v = None.
Proof.
  inversion 1 as [s w|F' ms ms' Ha| | |]; subst.
  - destruct v'; try (by right). left. eexists _, _. split; [done|]. split; [done|]. apply agree_same.
  - left. by exists ms, ms'.
Qed.
Lemma list_same s v v' : same (SList s) v v' -> (exists l l', v = JArr l /\ v' = JArr l' /\ Forall2 (same s) l l') \/ v = v' /\ as_arr v = None.
Proof.
  inversion 1 as [s' w| |s' l l' Ha| |]; subst.
  - destruct v'; try (by right). left. eexists _, _. split; [done|]. split; [done|]. apply all_same.
  - left. by exists l, l'.
Qed.
Lemma first_same n s v v' : same (SFirst n s) v v' -> (exists l l', v = JArr l /\ v' = JArr l' /\ Forall2 (same s) (take n l) (take n l')) \/ v = v' /\ as_arr v = None.
Proof.
  inversion 1 as [s' w| | |n' s' l l' Ha|]; subst.
  - destruct v'; try (by right). left. eexists _, _. split; [done|]. split; [done|]. apply all_same.
  - left. by exists l, l'.
Qed.
Definition entries_same (s : shape) (ms ms' : list (bytes * json)) : Prop := Forall2 (fun m m' => m.1 = m'.1 /\ same s m.2 m'.2) ms ms'.
Lemma entries_refl s ms : entries_same s ms ms.
Proof. induction ms; constructor; [split; [done|apply sf_same]|done]. Qed.
Lemma table_same s v v' : same (STable s) v v' -> (exists ms ms', v = JObj ms /\ v' = JObj ms' /\ entries_same s ms ms') \/ v = v' /\ as_obj v = None.
Proof.
  inversion 1 as [s' w| | | |s' ms ms' Ha]; subst.
  - destruct v'; try (by right). left. eexists _, _. split; [done|]. split; [done|]. apply entries_refl.
  - left. by exists ms, ms'.
Qed.

Lemma traverse_rel {A B} (R : A -> A -> Prop) (f : A -> option B) l l' : (forall v v', R v v' -> f v = f v') -> Forall2 R l l' -> traverse f l = traverse f l'.
Proof. intros Hf. induction 1 as [|v v' l l' Hv H IH]; [done|]. cbn [traverse]. by rewrite (Hf v v' Hv), IH. Qed.
(** Results that are related. *)
Definition both {A} (R : A -> A -> Prop) (x y : option A) : Prop := match x, y with Some a, Some b => R a b | None, None => True | _, _ => False end.
Lemma traverse_both {A B} (R : A -> A -> Prop) (S : B -> B -> Prop) (f : A -> option B) l l' : (forall v v', R v v' -> both S (f v) (f v')) ->
  Forall2 R l l' -> both (Forall2 S) (traverse f l) (traverse f l').
Proof.
  intros Hf. induction 1 as [|v v' l l' Hv H IH]; [constructor|]. cbn [traverse]. specialize (Hf v v' Hv).
  destruct (f v), (f v'); try done. destruct (traverse f l), (traverse f l'); try done. cbn [both] in *. by constructor.
Qed.
Lemma objects_both F v v' : same (SObject F) v v' -> both (agree F) (as_obj v) (as_obj v').
Proof. intros [(ms & ms' & -> & -> & H)|(-> & E)]%object_same; [done|]. by rewrite E. Qed.
Lemma members_both F v v' : same (SObject F) v v' -> both (agree F) (as_members v) (as_members v').
Proof. intros [(ms & ms' & -> & -> & H)|(-> & E)]%object_same; [done|]. destruct v'; try done. cbn. apply agree_same. Qed.
Lemma respects {A} (g : list (bytes * json) -> option A) F v v' : (forall ms ms', agree F ms ms' -> g ms = g ms') -> same (SObject F) v v' -> as_obj v ≫= g = as_obj v' ≫= g.
Proof. intros Hg H%objects_both. destruct (as_obj v), (as_obj v'); try done. cbn in *. by apply Hg. Qed.
Lemma respects_null {A} (g : list (bytes * json) -> option A) F v v' : (forall ms ms', agree F ms ms' -> g ms = g ms') -> same (SObject F) v v' -> as_members v ≫= g = as_members v' ≫= g.
Proof. intros Hg H%members_both. destruct (as_members v), (as_members v'); try done. cbn in *. by apply Hg. Qed.
End Fold.

(* ---------- Zipkin ---------- *)
Notation same := (same_for exactly).
Lemma field_same {A} (f : json -> option A) d k F ms ms' : (k, SValue) ∈ F -> agree exactly F ms ms' -> field f d k ms = field f d k ms'.
Proof.
  intros Hk H. specialize (H k SValue Hk). unfold field. change (all_values k) with (given exactly k).
  by rewrite (traverse_rel (same SValue) f _ _ (fun v v' Hv => f_equal f (value_same _ v v' Hv)) H).
Qed.
Ltac known := cbn [values map app]; repeat (first [apply elem_of_list_here|apply elem_of_list_further]).
Lemma service_same k F ms ms' : (k, endpoint_shape) ∈ F -> agree exactly F ms ms' -> service_of k ms = service_of k ms'.
Proof.
  intros Hk H. specialize (H k _ Hk). unfold service_of. change (all_values k) with (given exactly k).
  apply (traverse_both _ (agree exactly (values [str "serviceName"])) as_obj) in H; [|apply objects_both].
  destruct (traverse as_obj (given exactly k ms)) as [o|], (traverse as_obj (given exactly k ms')) as [o'|]; try done.
  cbn [both] in H. apply agree_concat in H. apply (field_same _ _ _ (values [str "serviceName"])); [known|done].
Qed.
Ltac fields H := match type of H with agree _ ?F ?ms ?ms' => repeat (rewrite (field_same _ _ _ F ms ms') by (first [exact H|known])) end.
Ltac service H := match type of H with agree _ ?F ?ms ?ms' => rewrite (service_same _ F ms ms') by (first [exact H|known]) end.
Lemma v2_span_same v v' F : v2_shape = SList (SObject F) -> same (SObject F) v v' -> v2_span v = v2_span v'.
Proof.
  intros EF H. unfold v2_span. injection EF as <-. revert H. apply respects. intros ms ms' H.
  fields H.
  service H. done.
Qed.
Lemma v2_spans_same v v' : same v2_shape v v' -> v2_spans v = v2_spans v'.
Proof.
  intros [(l & l' & -> & -> & H)|(-> & _)]%list_same; [|done]. unfold v2_spans. cbn [as_arr mbind option_bind].
  eapply traverse_rel; [|exact H]. intros w w'. by apply v2_span_same.
Qed.

Lemma annotation_same v v' : same annotation_shape v v' -> annotation v = annotation v'.
Proof.
  unfold annotation. apply respects. intros ms ms' H. fields H.
  service H. done.
Qed.
Lemma binary_same v v' : same binary_shape v v' -> binary_annotation v = binary_annotation v'.
Proof.
  unfold binary_annotation. apply respects. intros ms ms' H. fields H.
  service H. done.
Qed.
Lemma lay_same F above above' : Forall2 (same (SObject F)) above above' -> forall below below', Forall2 (agree exactly F) below below' ->
  both (Forall2 (agree exactly F)) (lay below above) (lay below' above').
Proof.
  induction 1 as [|v v' above above' Hv H IH]; intros below below' Hb; [done|]. cbn [lay]. apply objects_both in Hv.
  destruct (as_obj v) as [ms|], (as_obj v') as [ms'|]; try done. cbn [both mbind option_bind] in *.
  assert (Ht : Forall2 (agree exactly F) (tail below) (tail below')) by (destruct Hb; [constructor|done]).
  specialize (IH _ _ Ht). destruct (lay (tail below) above), (lay (tail below') above'); try done. cbn [both mbind option_bind] in *.
  constructor; [|done]. apply agree_app; [|done]. destruct Hb; [apply agree_same|done].
Qed.
Lemma layers_same F lists lists' : Forall2 (Forall2 (same (SObject F))) lists lists' -> forall below below', Forall2 (agree exactly F) below below' ->
  both (Forall2 (agree exactly F)) (layers below lists) (layers below' lists').
Proof.
  induction 1 as [|l l' lists lists' Hl H IH]; intros below below' Hb; [done|]. cbn [layers]. pose proof (lay_same F l l' Hl _ _ Hb) as Hy.
  destruct (lay below l), (lay below' l'); try done. cbn [both mbind option_bind] in *. by apply IH.
Qed.
Lemma objects_same {A} (f : json -> option A) F objs objs' : (forall v v', same (SObject F) v v' -> f v = f v') -> Forall2 (agree exactly F) objs objs' ->
  traverse f (map JObj objs) = traverse f (map JObj objs').
Proof. intros Hf. induction 1 as [|o o' objs objs' Ho H IH]; [done|]. cbn [map traverse]. rewrite (Hf (JObj o) (JObj o')) by (by apply sf_object). by rewrite IH. Qed.
Lemma annotations_same F ms ms' : (str "annotations", SFirst 4 annotation_shape) ∈ F -> agree exactly F ms ms' -> layered_annotations ms = layered_annotations ms'.
Proof.
  intros Hk H. specialize (H _ _ Hk). unfold layered_annotations, lists_of. change (all_values (str "annotations")) with (given exactly (str "annotations")).
  apply (traverse_both _ (fun l l' => Forall2 (same annotation_shape) (take 4 l) (take 4 l')) as_arr) in H.
  2:{ intros v v' [(l & l' & -> & -> & Hl)|(-> & E)]%first_same; [exact Hl|by rewrite E]. }
  destruct (traverse as_arr (given exactly _ ms)) as [o|], (traverse as_arr (given exactly _ ms')) as [o'|]; try done. cbn [both mbind option_bind] in *.
  assert (Ht : Forall2 (Forall2 (same annotation_shape)) (map (take 4) o) (map (take 4) o')) by (clear -H; induction H; by constructor).
  apply (layers_same _ _ _) with (below := []) (below' := []) in Ht; [|constructor].
  destruct (layers [] (map (take 4) o)), (layers [] (map (take 4) o')); try done. cbn [both mbind option_bind] in *.
  by eapply objects_same; [apply annotation_same|].
Qed.
Lemma binaries_same F ms ms' : (str "binaryAnnotations", SList binary_shape) ∈ F -> agree exactly F ms ms' -> layered_binaries ms = layered_binaries ms'.
Proof.
  intros Hk H. specialize (H _ _ Hk). unfold layered_binaries, lists_of. change (all_values (str "binaryAnnotations")) with (given exactly (str "binaryAnnotations")).
  apply (traverse_both _ (Forall2 (same binary_shape)) as_arr) in H.
  2:{ intros v v' [(l & l' & -> & -> & Hl)|(-> & E)]%list_same; [exact Hl|by rewrite E]. }
  destruct (traverse as_arr (given exactly _ ms)) as [o|], (traverse as_arr (given exactly _ ms')) as [o'|]; try done. cbn [both mbind option_bind] in *.
  assert (El : shown o = shown o').
  { unfold shown. f_equal. f_equal. clear -H. induction H as [|l l' o o' Hl H IH]; [done|]. cbn [map]. by rewrite IH, (Forall2_length _ _ _ Hl). }
  rewrite El. apply (layers_same _ _ _) with (below := []) (below' := []) in H; [|constructor].
  destruct (layers [] o), (layers [] o'); try done. cbn [both mbind option_bind] in *.
  by erewrite objects_same; [|apply binary_same|eassumption].
Qed.
Lemma v1_span_same v v' F : v1_shape = SList (SObject F) -> same (SObject F) v v' -> v1_span_layered v = v1_span_layered v'.
Proof.
  intros EF H. unfold v1_span_layered. injection EF as <-. revert H. apply respects. intros ms ms' H.
  fields H.
  match type of H with agree _ ?F _ _ => rewrite (annotations_same F ms ms'), (binaries_same F ms ms') by (first [exact H|known]) end. done.
Qed.
Lemma v1_spans_same v v' : same v1_shape v v' -> v1_spans_layered v = v1_spans_layered v'.
Proof.
  intros [(l & l' & -> & -> & H)|(-> & _)]%list_same; [|done]. unfold v1_spans_layered. cbn [as_arr mbind option_bind].
  eapply traverse_rel; [|exact H]. intros w w'. by apply v1_span_same.
Qed.

(* ---------- Jaeger ---------- *)
Notation alike_j := (same_for fold_case).
Lemma last_of_same {A} (f : json -> option A) d k F ms ms' : (k, SValue) ∈ F -> agree fold_case F ms ms' -> last_of f d (named k ms) = last_of f d (named k ms').
Proof.
  intros Hk H. specialize (H k SValue Hk). unfold last_of. change (named k) with (given fold_case k).
  by rewrite (traverse_rel (alike_j SValue) f _ _ (fun v v' Hv => f_equal f (value_same _ v v' Hv)) H).
Qed.
Lemma present_same k F ms ms' : (k, SValue) ∈ F -> agree fold_case F ms ms' -> present k ms = present k ms'.
Proof.
  intros Hk H. specialize (H k SValue Hk). unfold present. change (named k) with (given fold_case k). f_equal.
  induction H as [|v v' l l' Hv H IH]; [done|]. by rewrite (value_same _ v v' Hv), IH.
Qed.
Lemma on_top_same F above above' : Forall2 (alike_j (SObject F)) above above' -> forall below below', Forall2 (agree fold_case F) below below' ->
  Forall2 (agree fold_case F) (on_top below above) (on_top below' above').
Proof.
  induction 1 as [|v v' above above' Hv H IH]; intros below below' Hb; [done|]. cbn [on_top].
  constructor; [|apply IH; destruct Hb; [constructor|done]]. apply agree_app; [destruct Hb; [apply agree_same|done]|].
  apply object_same in Hv as [(ms & ms' & -> & -> & Hm)|(-> & _)]; [done|apply agree_same].
Qed.
Lemma pile_same F lists lists' : Forall2 (Forall2 (alike_j (SObject F))) lists lists' -> Forall2 (agree fold_case F) (pile lists) (pile lists').
Proof.
  intros H. assert (G : forall b b', Forall2 (agree fold_case F) b b' -> Forall2 (agree fold_case F) (foldl step_pile b lists) (foldl step_pile b' lists')).
  { induction H as [|l l' lists lists' Hl H IH]; intros b b' Hb; [done|]. cbn [foldl]. apply IH. destruct Hl; [constructor|]. apply on_top_same; [by constructor|done]. }
  apply (G [] []). constructor.
Qed.
Lemma piled_same {A} (f : json -> option A) F k G ms ms' : (forall v v', alike_j (SObject F) v v' -> f v = f v') -> (k, SList (SObject F)) ∈ G ->
  agree fold_case G ms ms' -> piled f k ms = piled f k ms'.
Proof.
  intros Hf Hk H. specialize (H _ _ Hk). unfold piled. change (named k) with (given fold_case k).
  apply (traverse_both _ (Forall2 (alike_j (SObject F))) as_list) in H.
  2:{ intros v v' [(l & l' & -> & -> & Hl)|(-> & E)]%list_same; [exact Hl|]. destruct v'; try done. constructor. }
  destruct (traverse as_list (given fold_case k ms)) as [o|], (traverse as_list (given fold_case k ms')) as [o'|]; try done. cbn [both mbind option_bind] in *.
  rewrite (traverse_rel _ (traverse f) o o' (fun l l' Hl => traverse_rel _ f l l' Hf Hl) H).
  destruct (traverse (traverse f) o'); [|done]. cbn [mbind option_bind]. unfold top_of.
  assert (El : length (List.last o []) = length (List.last o' [])).
  { assert (Hd : forall d d' : list json, length d = length d' -> length (List.last o d) = length (List.last o' d')); [|by apply Hd].
    clear -H. induction H as [|l l' o o' Hl H IH]; intros d d2 Hd; [done|]. rewrite !DocProofs.last_cons. apply IH. by apply Forall2_length in Hl. }
  rewrite El. apply pile_same in H. apply (Forall2_take _ _ _ (length (List.last o' []))) in H. revert H.
  generalize (take (length (List.last o' [])) (pile o)) (take (length (List.last o' [])) (pile o')). induction 1 as [|x x' p p' Hx H IH]; [done|].
  cbn [map traverse]. rewrite (Hf (JObj x) (JObj x')) by (by apply sf_object). by rewrite IH.
Qed.
Ltac leaves H :=
  match type of H with agree _ ?F ?ms ?ms' =>
    repeat (rewrite (present_same _ F ms ms') by (first [exact H|known])); repeat (rewrite (last_of_same _ _ _ F ms ms') by (first [exact H|known]))
  end.
Ltac list_of H f L := match type of H with agree _ ?F ?ms ?ms' => rewrite (piled_same f _ _ F ms ms' L) by (first [exact H|known]) end.
Lemma ref_same v v' : alike_j (SObject (values [str "reftype"; str "spanid"])) v v' -> jaeger_ref_of v = jaeger_ref_of v'.
Proof. unfold jaeger_ref_of. apply respects_null. intros ms ms' H. leaves H. done. Qed.
Lemma tag_same v v' : alike_j (SObject (values [str "key"; str "value"])) v v' -> jaeger_tag_of v = jaeger_tag_of v'.
Proof. unfold jaeger_tag_of. apply respects_null. intros ms ms' H. leaves H. done. Qed.
Lemma process_same v v' : alike_j (SObject (values [str "servicename"])) v v' -> jaeger_process_of v = jaeger_process_of v'.
Proof. unfold jaeger_process_of. apply respects_null. intros ms ms' H. leaves H. done. Qed.
Lemma span_same v v' : alike_j jaeger_span_shape v v' -> piled_span v = piled_span v'.
Proof.
  unfold piled_span. apply respects_null. intros ms ms' H. leaves H.
  list_of H jaeger_ref_of ref_same.
  list_of H jaeger_tag_of tag_same. done.
Qed.
Notation process_shape := (SObject (values [str "servicename"])).
Lemma entry_same m m' : m.1 = m'.1 /\ alike_j process_shape m.2 m'.2 -> process_entry m = process_entry m'.
Proof. intros [E H]. unfold process_entry. by rewrite E, (process_same _ _ H). Qed.
Lemma entries_fold vs vs' : Forall2 (alike_j (STable process_shape)) vs vs' -> forall es es', entries_same fold_case process_shape es es' ->
  entries_same fold_case process_shape (foldl (fun es v => match v with JNull => [] | _ => es ++ members_of v end) es vs)
    (foldl (fun es v => match v with JNull => [] | _ => es ++ members_of v end) es' vs').
Proof.
  induction 1 as [|v v' vs vs' Hv H IH]; intros es es' He; [done|]. cbn [foldl]. apply IH.
  apply table_same in Hv as [(ms & ms' & -> & -> & Hm)|(-> & _)]; [by apply Forall2_app|].
  destruct v'; try (apply Forall2_app; [done|apply entries_refl]). constructor.
Qed.
Lemma processes_same F ms ms' : (str "processes", STable process_shape) ∈ F -> agree fold_case F ms ms' -> piled_processes ms = piled_processes ms'.
Proof.
  intros Hk H. specialize (H _ _ Hk). unfold piled_processes. change (named (str "processes")) with (given fold_case (str "processes")).
  pose proof (entries_fold _ _ H [] [] ltac:(constructor)) as He. change (foldl _ [] (given fold_case (str "processes") ms)) with (all_entries (given fold_case (str "processes") ms)) in He.
  change (foldl _ [] (given fold_case (str "processes") ms')) with (all_entries (given fold_case (str "processes") ms')) in He.
  rewrite (traverse_rel _ process_entry _ _ entry_same He).
  apply (traverse_both _ (entries_same fold_case process_shape) as_members) in H.
  2:{ intros v v' [(l & l' & -> & -> & Hl)|(-> & E)]%table_same; [exact Hl|]. destruct v'; try done. constructor. }
  destruct (traverse as_members (given fold_case _ ms)) as [o|], (traverse as_members (given fold_case _ ms')) as [o'|]; try done. cbn [both mbind option_bind] in *.
  by rewrite (traverse_rel _ (traverse process_entry) o o' (fun l l' Hl => traverse_rel _ process_entry l l' entry_same Hl) H).
Qed.
Lemma data_same v v' : alike_j (SObject [(str "spans", SList jaeger_span_shape); (str "processes", STable process_shape)]) v v' -> piled_data v = piled_data v'.
Proof.
  unfold piled_data. apply respects_null. intros ms ms' H.
  list_of H piled_span span_same.
  match type of H with agree _ ?F _ _ => rewrite (processes_same F ms ms') by (first [exact H|known]) end. done.
Qed.
Lemma document_same v v' : alike_j jaeger_shape v v' -> piled_document v = piled_document v'.
Proof.
  unfold piled_document. apply respects_null. intros ms ms' H.
  list_of H piled_data data_same. done.
Qed.

(* ---------- requests ---------- *)
Lemma jaeger_any env q v : jaeger_request_any env q v -> exists acts, handle env q = XDone acts /\ answers (ParseJaeger (piled_document v)) acts.
Proof.
  intros (Hn & Hq & chunks & e & t & rest & Hr & H1 & H2 & H3 & H4 & H6). pose proof (body_piled chunks e t rest v H1 H2 H3 H4 H6) as E.
  rewrite (handle_reads _ _ _ Hr). unfold handle_spans. rewrite Hq. unfold parse_spans. cbn [parser]. rewrite Hn, E. destruct (ParseJaeger (piled_document v)); eexists; (split; [done|done]).
Qed.
Lemma asked_v2 env q v env' q' v' : v2_request env q v -> v2_request env' q' v' -> same_for exactly v2_shape v v' -> treated_alike env q env' q'.
Proof.
  intros (acts & E & A)%v2_answers (acts' & E' & A')%v2_answers H. rewrite <- (v2_spans_same v v' H) in A'. exists acts. split; [done|]. by rewrite (answers_fun _ _ _ A A').
Qed.
Lemma asked_v1 env q v env' q' v' : v1_request_any env q v -> v1_request_any env' q' v' -> same_for exactly v1_shape v v' -> treated_alike env q env' q'.
Proof.
  intros (acts & E & A)%request_any (acts' & E' & A')%request_any H. rewrite <- (v1_spans_same v v' H) in A'. exists acts. split; [done|]. by rewrite (answers_fun _ _ _ A A').
Qed.
Lemma asked_jaeger env q v env' q' v' : jaeger_request_any env q v -> jaeger_request_any env' q' v' -> same_for fold_case jaeger_shape v v' -> treated_alike env q env' q'.
Proof.
  intros (acts & E & A)%jaeger_any (acts' & E' & A')%jaeger_any H. rewrite <- (document_same v v' H) in A'. exists acts. split; [done|]. by rewrite (answers_fun _ _ _ A A').
Qed.

(** A member more. *)
Lemma extra_member fold fields ms1 ms2 n v : (forall k s, (k, s) ∈ fields -> fold n <> k) -> same_for fold (SObject fields) (JObj (ms1 ++ ms2)) (JObj (ms1 ++ (n, v) :: ms2)).
Proof.
  intros H. apply sf_object. intros k s Hk. rewrite !given_app. apply Forall2_app; [apply all_same|].
  unfold given at 2, members_named. cbn [List.filter fst]. rewrite bool_decide_false by (by eapply H). apply all_same.
Qed.
