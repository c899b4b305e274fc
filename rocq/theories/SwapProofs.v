(** Proofs for C108. *)
From Verif Require Import Base SpanModel JsonModel CodecModel JsonSpec DocSpec JaegerModel JaegerSpec JaegerProofs HandlerModel HandlerSpec HandlerProofs StdJsonModel StdJsonSpec
  StdHttpProofs ParseSpec FormatSpec FormatProofs SwapSpec.

(* ---------- lists ---------- *)

Lemma filter_perm {A} (p : A -> bool) a b : a ≡ₚ b -> List.filter p a ≡ₚ List.filter p b.
Proof.
  intros H. induction H as [|x a b _ IH|x y a|a b c _ IH1 _ IH2]; cbn [List.filter]; [done| | |by etransitivity].
  - destruct (p x); [by constructor|exact IH].
  - destruct (p x), (p y); try done. constructor.
Qed.
Lemma filter_in {A} (p : A -> bool) l x : x ∈ List.filter p l <-> x ∈ l /\ p x = true.
Proof. rewrite !elem_of_list_In. apply filter_In. Qed.
Lemma perm_same {A} (l l' : list A) : l ≡ₚ l' -> (forall x y, x ∈ l -> y ∈ l -> x = y) -> l = l'.
Proof.
  intros Hp Hs. destruct l as [|x l]; [by apply Permutation_nil_l|].
  assert (H1 : forall y, y ∈ x :: l -> y = x) by (intros y Hy; apply Hs; [done|left]).
  assert (H2 : forall y, y ∈ l' -> y = x) by (intros y Hy; apply H1; by rewrite Hp).
  assert (E : forall (m : list A), (forall y, y ∈ m -> y = x) -> m = replicate (length m) x).
  { induction m as [|z m IH]; intros Hm; [done|]. cbn [length replicate]. rewrite (Hm z) by left. f_equal. apply IH. intros y Hy. apply Hm. by right. }
  rewrite (E _ H1), (E _ H2). f_equal. by apply Permutation_length.
Qed.
Lemma perm_short {A} (l l' : list A) : l ≡ₚ l' -> (length l <= 1)%nat -> l = l'.
Proof.
  intros Hp Hl. apply perm_same; [done|]. destruct l as [|x [|y l]]; [|intros a b|cbn [length] in Hl; lia].
  - intros x y Hx. by apply elem_of_nil in Hx.
  - intros ->%elem_of_list_singleton ->%elem_of_list_singleton. done.
Qed.
Lemma nodup_short {A B} (g : A -> B) (p q : A -> bool) k l : NoDup (map g (List.filter p l)) -> (forall x, q x = true -> p x = true /\ g x = k) ->
  (length (List.filter q l) <= 1)%nat.
Proof.
  intros Hn Hq. induction l as [|x l IH]; [cbn; lia|]. cbn [List.filter] in *. destruct (q x) eqn:Eq.
  - destruct (Hq x Eq) as [Ep Ek]. rewrite Ep in Hn. cbn [map] in Hn. apply NoDup_cons in Hn as [Hx Hn].
    assert (E : List.filter q l = []); [|rewrite E; cbn; lia].
    destruct (List.filter q l) as [|y r] eqn:E; [done|]. exfalso. assert (Hy : y ∈ List.filter q l) by (rewrite E; left). apply filter_in in Hy as [Hy Hqy].
    destruct (Hq y Hqy) as [Hpy Hky]. apply Hx. rewrite Ek, <- Hky. apply elem_of_list_fmap. exists y. split; [done|]. by apply filter_in.
  - apply IH. destruct (p x); [|done]. cbn [map] in Hn. by apply NoDup_cons in Hn as [_ Hn].
Qed.

Lemma traverse_eq {A B} (f : A -> option B) (R : A -> A -> Prop) l l' : (forall a b, R a b -> f a = f b) -> Forall2 R l l' -> traverse f l = traverse f l'.
Proof. intros H. induction 1 as [|a b l l' Hab _ IH]; [done|]. cbn [traverse]. by rewrite (H a b Hab), IH. Qed.
Lemma traverse_none {A B} (f : A -> option B) l : traverse f l = None <-> exists a, a ∈ l /\ f a = None.
Proof.
  induction l as [|a l IH]; cbn [traverse]; [split; [done|intros (a & Ha & _); by apply elem_of_nil in Ha]|]. destruct (f a) eqn:E.
  - destruct (traverse f l).
    + split; [done|]. intros (x & [->|Hx]%elem_of_cons & Ex); [congruence|]. assert (X := proj2 IH (ex_intro _ x (conj Hx Ex))). done.
    + split; [|done]. intros _. destruct (proj1 IH eq_refl) as (x & Hx & Ex). exists x. split; [by right|done].
  - split; [|done]. intros _. exists a. split; [left|done].
Qed.
Lemma traverse_perm {A B} (f : A -> option B) l l' : l ≡ₚ l' ->
  match traverse f l, traverse f l' with Some r, Some r' => r ≡ₚ r' | None, None => True | _, _ => False end.
Proof.
  induction 1 as [|x l l' _ IH|x y l|l1 l2 l3 _ IH1 _ IH2]; cbn [traverse].
  - done.
  - destruct (f x); [|done]. destruct (traverse f l), (traverse f l'); try done. by constructor.
  - destruct (f x), (f y), (traverse f l); try done. constructor.
  - destruct (traverse f l1), (traverse f l2), (traverse f l3); try done. by etransitivity.
Qed.

Lemma forall2_left {A B} (R : A -> B -> Prop) l l' x : Forall2 R l l' -> x ∈ l -> exists y, y ∈ l' /\ R x y.
Proof.
  induction 1 as [|a b l l' H _ IH]; [by intros ?%elem_of_nil|]. intros [->|Hx]%elem_of_cons; [exists b; split; [left|done]|].
  destruct (IH Hx) as (y & Hy & Hr). exists y. split; [by right|done].
Qed.
Lemma forall2_right {A B} (R : A -> B -> Prop) l l' y : Forall2 R l l' -> y ∈ l' -> exists x, x ∈ l /\ R x y.
Proof.
  induction 1 as [|a b l l' H _ IH]; [by intros ?%elem_of_nil|]. intros [->|Hx]%elem_of_cons; [exists a; split; [left|done]|].
  destruct (IH Hx) as (x & Hy & Hr). exists x. split; [by right|done].
Qed.

(* ---------- values that are alike ---------- *)

Section alike.
  Context (fold : gostring -> gostring).
  Definition malike (ms ms' : list (bytes * json)) : Prop :=
    forall k, Forall2 (fun m m' => m.1 = m'.1 /\ alike fold m.2 m'.2) (members_named fold k ms) (members_named fold k ms').
  Lemma malike_refl ms : malike ms ms.
  Proof. intros k. induction (members_named fold k ms); constructor; [|done]. split; [done|constructor]. Qed.
  Lemma alike_list_refl l : Forall2 (alike fold) l l.
  Proof. induction l; constructor; [constructor|done]. Qed.

  (** What two values that are alike are. *)
  Lemma alike_inv v v' : alike fold v v' ->
    (v = v' /\ match v with JArr _ | JObj _ => False | _ => True end) \/
    (exists l l', v = JArr l /\ v' = JArr l' /\ Forall2 (alike fold) l l') \/
    (exists ms ms', v = JObj ms /\ v' = JObj ms' /\ malike ms ms').
  Proof.
    destruct 1 as [v|l l' H|ms ms' H].
    - destruct v; try (left; by split).
      all: try (right; left; do 2 eexists; split; [done|]; split; [done|]; apply alike_list_refl).
      all: try (right; right; do 2 eexists; split; [done|]; split; [done|]; apply malike_refl).
    - right. left. by exists l, l'.
    - right. right. by exists ms, ms'.
  Qed.
  Ltac cases H := apply alike_inv in H as [[-> H]|[(?l & ?l' & -> & -> & ?Hl)|(?ms & ?ms' & -> & -> & ?Hms)]].

  Lemma as_str_alike v v' : alike fold v v' -> as_str v = as_str v'.
  Proof. intros H. by cases H. Qed.
  Lemma as_text_alike v v' : alike fold v v' -> as_text v = as_text v'.
  Proof. intros H. by cases H. Qed.
  Lemma as_uint_alike v v' : alike fold v v' -> as_uint v = as_uint v'.
  Proof. intros H. by cases H. Qed.
  Lemma as_u64_alike v v' : alike fold v v' -> as_u64 v = as_u64 v'.
  Proof. intros H. by cases H. Qed.
  Lemma as_id_alike v v' : alike fold v v' -> as_id v = as_id v'.
  Proof. intros H. by cases H. Qed.
  Lemma as_ident_alike v v' : alike fold v v' -> as_ident v = as_ident v'.
  Proof. intros H. by cases H. Qed.
  Lemma as_tag_value_alike v v' : alike fold v v' -> as_tag_value v = as_tag_value v'.
  Proof. intros H. by cases H. Qed.

  Lemma pick_alike k ms ms' : malike ms ms' -> Forall2 (alike fold) (pick fold k ms) (pick fold k ms').
  Proof. intros H. specialize (H k). unfold pick. fold (members_named fold k ms) (members_named fold k ms'). induction H as [|m m' l l' [_ Hm] _ IH]; cbn [map]; by constructor. Qed.
  Lemma malike_concat ls ls' : Forall2 malike ls ls' -> malike (concat ls) (concat ls').
  Proof.
    intros H k. induction H as [|a b ls ls' Hab _ IH]; [constructor|]. cbn [concat]. unfold members_named in *. rewrite !List.filter_app. apply Forall2_app; [apply Hab|exact IH].
  Qed.

  (** Reading lists of values. *)
  Definition orel {A B} (R : A -> B -> Prop) (x : option A) (y : option B) : Prop :=
    match x, y with Some a, Some b => R a b | None, None => True | _, _ => False end.
  Lemma traverse_rel {A B} (f : json -> option A) (g : json -> option B) (R : A -> B -> Prop) l l' : (forall v v', alike fold v v' -> orel R (f v) (g v')) -> Forall2 (alike fold) l l' ->
    orel (Forall2 R) (traverse f l) (traverse g l').
  Proof.
    intros H. induction 1 as [|a b l l' Hab _ IH]; [constructor|]. cbn [traverse]. specialize (H a b Hab). destruct (f a), (g b); try done.
    cbn in IH. destruct (traverse f l), (traverse g l'); try done. by constructor.
  Qed.
  Lemma as_arr_alike v v' : alike fold v v' -> orel (Forall2 (alike fold)) (as_arr v) (as_arr v').
  Proof. intros H. cases H; try done. by destruct v'. Qed.
  Lemma as_obj_alike v v' : alike fold v v' -> orel malike (as_obj v) (as_obj v').
  Proof. intros H. cases H; try done. by destruct v'. Qed.
  Lemma as_members_alike v v' : alike fold v v' -> orel malike (as_members v) (as_members v').
  Proof. intros H. cases H; try done. destruct v'; try done. apply malike_refl. Qed.

  (** Members as a map. *)
  Definition named_by (f : json -> option gostring) (kv : bytes * json) : option (bytes * gostring) := option_map (pair kv.1) (f kv.2).
  Definition build (l : list (bytes * gostring)) : gmap gostring gostring := foldl (fun m kv => <[kv.1 := kv.2]> m) ∅ l.
  Lemma build_lookup l k : build l !! k = List.last (map (fun kv => Some kv.2) (List.filter (fun kv => bool_decide (kv.1 = k)) l)) None.
  Proof.
    unfold build. induction l as [|kv l IH] using rev_ind; [done|]. rewrite foldl_app, List.filter_app, map_app. cbn [foldl List.filter].
    destruct (decide (kv.1 = k)) as [E|E].
    - rewrite bool_decide_true by done. cbn [map]. rewrite last_snoc. by rewrite E, lookup_insert.
    - rewrite bool_decide_false by done. cbn [map]. rewrite app_nil_r. by rewrite lookup_insert_ne.
  Qed.
  Lemma traverse_named f k ms l : traverse (named_by f) ms = Some l ->
    traverse (named_by f) (List.filter (fun m => bool_decide (m.1 = k)) ms) = Some (List.filter (fun m => bool_decide (m.1 = k)) l).
  Proof.
    revert l. induction ms as [|[n v] ms IH]; intros l; cbn [traverse]; [by intros [= <-]|]. destruct (named_by f (n, v)) as [[n' s]|] eqn:E; [|done].
    destruct (traverse (named_by f) ms) as [l'|]; [|done]. intros [= <-]. specialize (IH l' eq_refl). cbn [List.filter fst].
    assert (n' = n) as -> by (unfold named_by in E; cbn in E; destruct (f v); [by injection E|done]). destruct (bool_decide (n = k)); [|done]. cbn [traverse]. by rewrite E, IH.
  Qed.
  Lemma filter_class k ms : List.filter (fun m : bytes * json => bool_decide (m.1 = k)) ms = List.filter (fun m => bool_decide (m.1 = k)) (members_named fold (fold k) ms).
  Proof.
    unfold members_named. induction ms as [|m ms IH]; [done|]. cbn [List.filter]. destruct (decide (m.1 = k)) as [E|E].
    - rewrite (bool_decide_true (m.1 = k)) by done. rewrite bool_decide_true by (by rewrite E). cbn [List.filter]. rewrite bool_decide_true by done. by rewrite IH.
    - rewrite (bool_decide_false (m.1 = k)) by done. destruct (bool_decide (fold m.1 = fold k)); [|done]. cbn [List.filter]. by rewrite bool_decide_false.
  Qed.
  Lemma map_alike f ms ms' : (forall v v', alike fold v v' -> f v = f v') -> malike ms ms' ->
    option_map build (traverse (named_by f) ms) = option_map build (traverse (named_by f) ms').
  Proof.
    intros Hf H.
    assert (He : forall m m', m.1 = m'.1 /\ alike fold m.2 m'.2 -> named_by f m = named_by f m') by (intros m m' [E A]; unfold named_by; by rewrite E, (Hf _ _ A)).
    assert (Hn : traverse (named_by f) ms = None <-> traverse (named_by f) ms' = None).
    { rewrite !traverse_none. split; intros (m & Hm & E).
      - assert (Hk : m ∈ members_named fold (fold m.1) ms) by (apply filter_in; split; [done|by rewrite bool_decide_true]).
        destruct (forall2_left _ _ _ _ (H (fold m.1)) Hk) as (m' & Hm' & A). exists m'. apply filter_in in Hm' as [Hm' _]. split; [done|]. by rewrite <- (He m m' A).
      - assert (Hk : m ∈ members_named fold (fold m.1) ms') by (apply filter_in; split; [done|by rewrite bool_decide_true]).
        destruct (forall2_right _ _ _ _ (H (fold m.1)) Hk) as (m' & Hm' & A). exists m'. apply filter_in in Hm' as [Hm' _]. split; [done|]. by rewrite (He m' m A). }
    destruct (traverse (named_by f) ms) as [l|] eqn:E1, (traverse (named_by f) ms') as [l'|] eqn:E2; [|by specialize (proj2 Hn eq_refl)|by specialize (proj1 Hn eq_refl)|done].
    cbn [option_map]. f_equal. apply map_eq. intros k. rewrite !build_lookup. apply (traverse_named f k) in E1, E2.
    assert (E : traverse (named_by f) (List.filter (fun m => bool_decide (m.1 = k)) ms) = traverse (named_by f) (List.filter (fun m => bool_decide (m.1 = k)) ms')).
    { rewrite (filter_class k ms), (filter_class k ms'). eapply traverse_eq; [exact He|]. specialize (H (fold k)). induction H as [|m m' a b Hm _ IH]; [constructor|].
      cbn [List.filter]. destruct Hm as [Hm Ha]. rewrite <- Hm. destruct (bool_decide (m.1 = k)); [|done]. by constructor. }
    rewrite E1, E2 in E. injection E as ->. done.
  Qed.
End alike.

(** Objects whose names are all different may be written in any order. *)
Lemma names_alike fold ms ms' : ms ≡ₚ ms' -> NoDup (map (fun m => fold m.1) ms) -> alike fold (JObj ms) (JObj ms').
Proof.
  intros Hp Hn. constructor. intros k. assert (E : members_named fold k ms = members_named fold k ms').
  { apply perm_short; [by apply filter_perm|]. apply (nodup_short (fun m => fold m.1) (fun _ => true) _ k).
    - assert (E : List.filter (fun _ : bytes * json => true) ms = ms); [|by rewrite E]. clear. induction ms as [|m ms IH]; [done|]. cbn [List.filter]. by rewrite IH.
    - intros x Hx. split; [done|]. by apply bool_decide_eq_true in Hx. }
  rewrite E. clear. induction (members_named fold k ms') as [|m l IH]; [constructor|]. constructor; [|done]. split; [done|constructor].
Qed.

(* ---------- Zipkin ---------- *)

Section zipkin.
  Notation alike := (alike exactly).
  Notation malike := (malike exactly).

  Lemma field_alike {A} (f : json -> option A) d k ms ms' : (forall v v', alike v v' -> f v = f v') -> malike ms ms' -> field f d k ms = field f d k ms'.
  Proof. intros Hf H. unfold field. f_equal. exact (traverse_eq f alike _ _ Hf (pick_alike exactly k ms ms' H)). Qed.
  Lemma as_map_alike v v' : alike v v' -> as_map v = as_map v'.
  Proof.
    intros H. apply alike_inv in H as [[-> H]|[(l & l' & -> & -> & Hl)|(ms & ms' & -> & -> & Hms)]]; [done|done|].
    exact (map_alike exactly as_str ms ms' (as_str_alike exactly) Hms).
  Qed.
  Lemma service_alike k ms ms' : malike ms ms' -> service_of k ms = service_of k ms'.
  Proof.
    intros H. unfold service_of.
    pose proof (traverse_rel exactly as_obj as_obj malike _ _ (as_obj_alike exactly) (pick_alike exactly k ms ms' H)) as X.
    change (pick exactly k ms) with (all_values k ms) in X. change (pick exactly k ms') with (all_values k ms') in X.
    destruct (traverse as_obj (all_values k ms)) as [o|], (traverse as_obj (all_values k ms')) as [o'|]; try done.
    apply field_alike; [apply as_str_alike|]. by apply malike_concat.
  Qed.
  Lemma elements_alike k ms ms' : malike ms ms' -> orel (Forall2 alike) (elements_of k ms) (elements_of k ms').
  Proof.
    intros H. unfold elements_of.
    pose proof (traverse_rel exactly as_arr as_arr _ _ _ (as_arr_alike exactly) (pick_alike exactly k ms ms' H)) as X.
    change (pick exactly k ms) with (all_values k ms) in X. change (pick exactly k ms') with (all_values k ms') in X.
    destruct (traverse as_arr (all_values k ms)) as [o|], (traverse as_arr (all_values k ms')) as [o'|]; try done. cbn [option_map orel].
    induction X as [|a b o o' Hab _ IH]; [constructor|]. cbn [concat]. by apply Forall2_app.
  Qed.

  Lemma v2_span_alike v v' : alike v v' -> v2_span v = v2_span v'.
  Proof.
    intros H. apply alike_inv in H as [[-> H]|[(l & l' & -> & -> & Hl)|(ms & ms' & -> & -> & Hms)]]; [done|done|].
    unfold v2_span. cbn [as_obj mbind option_bind]. 
    rewrite !(field_alike as_id _ _ _ _ (as_id_alike exactly) Hms), !(field_alike as_uint _ _ _ _ (as_uint_alike exactly) Hms), !(field_alike as_str _ _ _ _ (as_str_alike exactly) Hms),
      !(field_alike as_map _ _ _ _ as_map_alike Hms), !(service_alike _ _ _ Hms). done.
  Qed.
  Lemma v2_spans_alike v v' : alike v v' -> v2_spans v = v2_spans v'.
  Proof.
    intros H. apply alike_inv in H as [[-> H]|[(l & l' & -> & -> & Hl)|(ms & ms' & -> & -> & Hms)]]; [done| |done].
    unfold v2_spans. cbn [as_arr mbind option_bind]. by apply (traverse_eq _ alike); [apply v2_span_alike|].
  Qed.
  Lemma annotation_alike v v' : alike v v' -> annotation v = annotation v'.
  Proof.
    intros H. apply alike_inv in H as [[-> H]|[(l & l' & -> & -> & Hl)|(ms & ms' & -> & -> & Hms)]]; [done|done|].
    unfold annotation. cbn [as_obj mbind option_bind].
    rewrite !(field_alike as_uint _ _ _ _ (as_uint_alike exactly) Hms), !(field_alike as_str _ _ _ _ (as_str_alike exactly) Hms), !(service_alike _ _ _ Hms). done.
  Qed.
  Lemma binary_alike v v' : alike v v' -> binary_annotation v = binary_annotation v'.
  Proof.
    intros H. apply alike_inv in H as [[-> H]|[(l & l' & -> & -> & Hl)|(ms & ms' & -> & -> & Hms)]]; [done|done|].
    unfold binary_annotation. cbn [as_obj mbind option_bind].
    rewrite !(field_alike as_text _ _ _ _ (as_text_alike exactly) Hms), !(field_alike as_str _ _ _ _ (as_str_alike exactly) Hms), !(service_alike _ _ _ Hms). done.
  Qed.

  Lemma v1_span_alike v v' : alike v v' -> v1_span v = v1_span v'.
  Proof.
    intros H. apply alike_inv in H as [[-> H]|[(l & l' & -> & -> & Hl)|(ms & ms' & -> & -> & Hms)]]; [done|done|].
    unfold v1_span. cbn [as_obj mbind option_bind].
    rewrite !(field_alike as_id _ _ _ _ (as_id_alike exactly) Hms), !(field_alike as_uint _ _ _ _ (as_uint_alike exactly) Hms), !(field_alike as_str _ _ _ _ (as_str_alike exactly) Hms).
    pose proof (elements_alike (str "annotations") ms ms' Hms) as Ha. pose proof (elements_alike (str "binaryAnnotations") ms ms' Hms) as Hb.
    destruct (elements_of (str "annotations") ms) as [a|], (elements_of (str "annotations") ms') as [a'|]; try done.
    destruct (elements_of (str "binaryAnnotations") ms) as [b|], (elements_of (str "binaryAnnotations") ms') as [b'|]; try done.
    - cbn [mbind option_bind]. rewrite (traverse_eq annotation alike (take 4 a) (take 4 a') annotation_alike) by (by apply Forall2_take).
      by rewrite (traverse_eq binary_annotation alike b b' binary_alike).
    - cbn [mbind option_bind]. rewrite (traverse_eq annotation alike (take 4 a) (take 4 a') annotation_alike) by (by apply Forall2_take). done.
  Qed.
End zipkin.

(* ---------- lists in another order ---------- *)

Lemma other_picks fold k a a' v v' : other_list fold k a a' v v' ->
  exists ms ms', v = JObj ms /\ v' = JObj ms' /\ pick fold k ms = [JArr a] /\ pick fold k ms' = [JArr a'] /\ forall k', k' <> k -> pick fold k' ms = pick fold k' ms'.
Proof.
  intros (n & l1 & l2 & Hn & -> & -> & H). eexists _, _. split; [done|]. split; [done|]. unfold members_named in H. rewrite List.filter_app in H. apply app_eq_nil in H as [H1 H2].
  unfold pick. rewrite !List.filter_app, H1. cbn [List.filter fst app]. rewrite !bool_decide_true by done. rewrite H2. split; [done|]. split; [done|].
  intros k' Hk. rewrite !List.filter_app. cbn [List.filter fst]. rewrite !bool_decide_false; [done|]. congruence.
Qed.

Lemma first_name_perm A A' B : A ≡ₚ A' -> one_name A -> first_name (A ++ B) = first_name (A' ++ B).
Proof.
  intros Hp H1. unfold first_name. rewrite !List.filter_app. rewrite (perm_same (List.filter (fun s => bool_decide (s <> [])) A) (List.filter (fun s => bool_decide (s <> [])) A')); [done|by apply filter_perm|].
  intros x y [Hx Ex]%filter_in [Hy Ey]%filter_in. apply bool_decide_eq_true in Ex, Ey. by apply H1.
Qed.
Lemma timing_perm k l l' : l ≡ₚ l' -> NoDup (map (fun x => x.1.2) (List.filter timed l)) -> timing k l = timing k l'.
Proof.
  intros Hp Hn. unfold timing. erewrite (perm_short (List.filter _ l) (List.filter _ l')); [done|by apply filter_perm|].
  apply (nodup_short (fun x => x.1.2) timed _ k); [done|]. intros x [H1 H2]%bool_decide_eq_true. unfold timed. by rewrite bool_decide_true.
Qed.
Definition btags (bas : list (gostring * gostring * gostring)) : gmap gostring gostring := foldl (fun m b => <[b.1.1 := b.1.2]> m) ∅ bas.
Lemma btags_build bas : btags bas = build (map (fun b => b.1) bas).
Proof.
  unfold btags, build. generalize (∅ : gmap gostring gostring). induction bas as [|b bas IH]; intros m; [done|]. cbn [foldl map]. apply IH.
Qed.
Lemma btags_perm l l' : l ≡ₚ l' -> NoDup (map (fun x => x.1.1) l) -> btags l = btags l'.
Proof.
  intros Hp Hn. rewrite !btags_build. apply map_eq. intros k. rewrite !build_lookup. f_equal. f_equal. apply perm_short.
  - by apply filter_perm, fmap_Permutation.
  - apply (nodup_short fst (fun _ => true) _ k); [|by intros x ?%bool_decide_eq_true].
    assert (E : forall (m : list (gostring * gostring)), List.filter (fun _ => true) m = m) by (induction m as [|y m IH]; [done|]; cbn [List.filter]; by rewrite IH).
    rewrite E, map_map. exact Hn.
Qed.

Lemma field_other {A} (f : json -> option A) d k k' ms ms' : (forall k', k' <> k -> pick exactly k' ms = pick exactly k' ms') -> k' <> k -> field f d k' ms = field f d k' ms'.
Proof. intros H Hk. unfold field. f_equal. f_equal. exact (H k' Hk). Qed.
Lemma elements_other k k' ms ms' : (forall k', k' <> k -> pick exactly k' ms = pick exactly k' ms') -> k' <> k -> elements_of k' ms = elements_of k' ms'.
Proof. intros H Hk. unfold elements_of. f_equal. f_equal. exact (H k' Hk). Qed.
Lemma elements_only k ms a : pick exactly k ms = [JArr a] -> elements_of k ms = Some a.
Proof. intros H. unfold elements_of. change (all_values k ms) with (pick exactly k ms). rewrite H. cbn [traverse as_arr option_map concat]. by rewrite app_nil_r. Qed.

Lemma v1_events_same a a' v v' : other_list exactly (str "annotations") a a' v v' -> events_shuffled a a' -> v1_span v = v1_span v'.
Proof.
  intros (ms & ms' & -> & -> & E1 & E2 & Eo)%other_picks (Hp & Hl & Hd). unfold v1_span. cbn [as_obj mbind option_bind].
  rewrite !(field_other _ _ _ _ ms ms' Eo) by discriminate. rewrite (elements_only _ _ _ E1), (elements_only _ _ _ E2), (elements_other _ (str "binaryAnnotations") ms ms' Eo) by discriminate.
  cbn [mbind option_bind]. rewrite !take_ge by (rewrite <- ?Hp; done). pose proof (traverse_perm annotation a a' Hp) as Ht.
  destruct (traverse annotation a) as [l|], (traverse annotation a') as [l'|]; try done.
  destruct (Hd l eq_refl) as [Hn H1]. cbn [mbind option_bind].
  rewrite !(timing_perm _ l l') by done. 
  assert (Hs : map snd (List.filter (fun a0 => bool_decide (a0.1.1 <> 0)) l) ≡ₚ map snd (List.filter (fun a0 => bool_decide (a0.1.1 <> 0)) l')) by (by apply fmap_Permutation, filter_perm).
  destruct (elements_of (str "binaryAnnotations") ms') as [b|]; [|done]. cbn [mbind option_bind]. destruct (traverse binary_annotation b) as [bas|]; [|done]. cbn [mbind option_bind].
  by rewrite (first_name_perm _ _ (map snd bas) Hs H1).
Qed.
Lemma v1_binaries_same a a' v v' : other_list exactly (str "binaryAnnotations") a a' v v' -> binaries_shuffled a a' -> v1_span v = v1_span v'.
Proof.
  intros (ms & ms' & -> & -> & E1 & E2 & Eo)%other_picks (Hp & Hd). unfold v1_span. cbn [as_obj mbind option_bind].
  rewrite !(field_other _ _ _ _ ms ms' Eo) by discriminate. rewrite (elements_only _ _ _ E1), (elements_only _ _ _ E2), (elements_other _ (str "annotations") ms ms' Eo) by discriminate.
  cbn [mbind option_bind]. pose proof (traverse_perm binary_annotation a a' Hp) as Ht.
  destruct (elements_of (str "annotations") ms') as [b|]; [|done]. cbn [mbind option_bind]. destruct (traverse annotation (take 4 b)) as [anns|]; [|done]. cbn [mbind option_bind].
  destruct (traverse binary_annotation a) as [l|], (traverse binary_annotation a') as [l'|]; try done.
  destruct (Hd l eq_refl) as [Hn H1]. cbn [mbind option_bind].
  change (foldl (fun m b => <[b.1.1 := b.1.2]> m) ∅ l) with (btags l). change (foldl (fun m b => <[b.1.1 := b.1.2]> m) ∅ l') with (btags l'). rewrite (btags_perm l l') by done.
  assert (Es : first_name (map snd (List.filter (fun a0 => bool_decide (a0.1.1 <> 0)) anns) ++ map snd l) = first_name (map snd (List.filter (fun a0 => bool_decide (a0.1.1 <> 0)) anns) ++ map snd l')).
  { unfold first_name. rewrite !List.filter_app. rewrite (perm_same (List.filter (fun s => bool_decide (s <> [])) (map snd l)) (List.filter (fun s => bool_decide (s <> [])) (map snd l'))); [done|by apply filter_perm, fmap_Permutation|].
    intros x y [Hx Ex]%filter_in [Hy Ey]%filter_in. apply bool_decide_eq_true in Ex, Ey. by apply H1. }
  by rewrite Es.
Qed.
Lemma v1_alike_same v v' : v1_alike v v' -> v1_span v = v1_span v'.
Proof. induction 1; [by apply v1_span_alike|by eapply v1_events_same|by eapply v1_binaries_same|congruence]. Qed.
Lemma v1_spans_alike vs vs' : Forall2 v1_alike vs vs' -> v1_spans (JArr vs) = v1_spans (JArr vs').
Proof. intros H. unfold v1_spans. cbn [as_arr mbind option_bind]. by apply (traverse_eq _ v1_alike); [apply v1_alike_same|]. Qed.
