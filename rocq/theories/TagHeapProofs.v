(** Tags by reference behave like tags by value, and what was sent is never written again (C74). *)
From Verif Require Import Base IdModel SpanModel TreeModel TreeSpec TreeProofs FinishModel FinishSpec TagHeapModel TagHeapSpec.

(* ---------- AddTag ---------- *)

Definition ins (entries : list (gostring * gostring)) (m : tagmap) : tagmap := foldl (fun m kv => <[kv.1 := kv.2]> m) m entries.

Lemma add_tags_ins entries : forall s, add_tags entries s = set_tags (ins entries (s_tags s)) s.
Proof.
  induction entries as [|kv l IH]; intros s; [by destruct s|]. cbn [add_tags ins foldl]. change (foldl _ ?x l) with (add_tags l x) at 1. rewrite IH.
  unfold add_tag, ins. by destruct s.
Qed.

Definition ref_ok (hp : heap) (r : option nat) : Prop := forall l, r = Some l -> (l < length hp)%nat.
Definition olist (r : option nat) : list nat := match r with Some l => [l] | None => [] end.

(** From [hp] to [hp'] only maps in [own] and new ones were written, those in [w]. *)
Definition frame (hp hp' : heap) (own w : list nat) : Prop :=
  (length hp <= length hp')%nat /\ (forall l, l ∈ w -> l ∈ own \/ (length hp <= l)%nat) /\
  (forall l, (l < length hp)%nat -> l ∉ own -> hp' !! l = hp !! l).

Lemma frame_refl hp own : frame hp hp own [].
Proof. split; [done|]. split; [|done]. intros l H. by apply elem_of_nil in H. Qed.
Lemma frame_weaken hp hp' own own' w : frame hp hp' own w -> (forall l, l ∈ own -> l ∈ own') -> frame hp hp' own' w.
Proof.
  intros (H1 & H2 & H3) H. split; [done|]. split.
  - intros l Hl. destruct (H2 l Hl); [left; by apply H|by right].
  - intros l Hl Hn. apply H3; [done|]. intros Hi. by apply Hn, H.
Qed.

Lemma add_tags_heap entries : forall hp r w hp' r' w', ref_ok hp r -> foldl h_add_tag (hp, r, w) entries = (hp', r', w') ->
  exists w1, w' = w ++ w1 /\ frame hp hp' (olist r) w1 /\ ref_ok hp' r' /\ tags_at hp' r' = ins entries (tags_at hp r) /\
  (r' = r \/ r = None /\ r' = Some (length hp)).
Proof.
  induction entries as [|[k v] l IH]; intros hp r w hp' r' w' Hr E.
  - cbn in E. injection E as <- <- <-. exists []. rewrite app_nil_r. split; [done|]. split; [apply frame_refl|]. split; [done|]. split; [done|by left].
  - cbn [foldl h_add_tag fst snd] in E. destruct r as [a|].
    + specialize (Hr a eq_refl). apply IH in E as (w1 & -> & (F1 & F2 & F3) & Hr' & Ht & Hc); [|intros x [= <-]; by rewrite alter_length].
      rewrite alter_length in F1, F2, F3. destruct Hc as [->|[? _]]; [|done]. exists (a :: w1). split; [by rewrite <- app_assoc|]. split; [split; [done|split]|].
      * intros x Hx. apply elem_of_cons in Hx as [->|Hx]; [left; apply elem_of_list_here|]. by apply F2.
      * intros x Hx Hn. rewrite F3 by done. apply list_lookup_alter_ne. intros ->. apply Hn, elem_of_list_here.
      * split; [done|]. split; [|by left]. rewrite Ht. cbn [ins foldl tags_at fst snd]. unfold ins. f_equal. rewrite list_lookup_alter.
        destruct (hp !! a) eqn:Ea; [done|]. apply lookup_ge_None in Ea. lia.
    + apply IH in E as (w1 & -> & (F1 & F2 & F3) & Hr' & Ht & Hc); [|intros x [= <-]; rewrite app_length; cbn; lia].
      rewrite app_length in F1, F2, F3. cbn [length] in F1, F2, F3. destruct Hc as [->|[? _]]; [|done]. exists (length hp :: w1). split; [by rewrite <- app_assoc|]. split; [split; [lia|split]|].
      * intros x Hx. right. apply elem_of_cons in Hx as [->|Hx]; [lia|]. destruct (F2 x Hx) as [Hi|?]; [|lia]. apply elem_of_list_singleton in Hi. lia.
      * intros x Hx Hn. rewrite F3; [by apply lookup_app_l|lia|]. intros Hi. apply elem_of_list_singleton in Hi. lia.
      * split; [done|]. split; [|by right]. rewrite Ht. cbn [ins foldl tags_at fst snd]. unfold ins. f_equal. rewrite lookup_app_r, Nat.sub_diag by lia. done.
Qed.

(* ---------- merging ---------- *)

Lemma h_merge_spec ord hp s new hp' s' w : ref_ok hp (h_tags s) -> h_merge ord hp s new = (hp', s', w) ->
  deref hp' s' = merge_spans ord (deref hp s) (deref hp new) /\ frame hp hp' (olist (h_tags s)) w /\ ref_ok hp' (h_tags s') /\
  (forall l, h_tags s' = Some l -> h_tags s = Some l \/ (length hp <= l)%nat) /\ s_id (h_bare s') = s_id (h_bare s).
Proof.
  destruct s as [b r], new as [n rn]. unfold h_merge, merge_spans, deref. cbn [h_bare h_tags]. intros Hr.
  replace (s_timings (set_tags (tags_at hp rn) n)) with (s_timings n) by (by destruct n).
  replace (s_service (set_tags (tags_at hp rn) n)) with (s_service n) by (by destruct n).
  replace (s_name (set_tags (tags_at hp rn) n)) with (s_name n) by (by destruct n).
  replace (s_tags (set_tags (tags_at hp rn) n)) with (tags_at hp rn) by (by destruct n).
  destruct (ts_valid (tSR (s_timings n)) || ts_valid (tSS (s_timings n))).
  - destruct (foldl h_add_tag (hp, r, []) (ord (tags_at hp rn))) as [[hp1 r1] w1] eqn:E.
    apply add_tags_heap in E as (w2 & -> & F & Hr' & Ht & Hc); [|done]. intros [= <- <- <-]. cbn [h_bare h_tags app]. rewrite Ht.
    split; [|split; [done|split; [done|split]]].
    + rewrite add_tags_ins. destruct b as [b1 b2 b3 b4 b5 b6 b7 b8 b9], n as [n1 n2 n3 n4 n5 n6 n7 n8 n9]. cbn [s_service s_name s_timings set_tags set_service set_name set_timings s_tags].
      repeat (case_decide || match goal with |- context [if ts_valid ?x then _ else _] => destruct (ts_valid x) end); first [reflexivity|cbn in *; congruence].
    + intros l ->. destruct Hc as [<-|[-> [= ->]]]; [by left|right; lia].
    + destruct b as [b1 b2 b3 b4 b5 b6 b7 b8 b9], n as [n1 n2 n3 n4 n5 n6 n7 n8 n9]. repeat (case_decide || match goal with |- context [if ts_valid ?x then _ else _] => destruct (ts_valid x) end); first [reflexivity|cbn in *; congruence].
  - destruct (foldl h_add_tag (hp, None, []) (ord (tags_at hp rn))) as [[hp1 r1] w1] eqn:E1. cbn [fst].
    destruct (foldl h_add_tag (hp1, r1, w1) (ord (tags_at hp1 r))) as [[hp2 r2] w2] eqn:E2.
    apply add_tags_heap in E1 as (v1 & -> & (F1 & F2 & F3) & Hr1 & Ht1 & Hc1); [|done].
    apply add_tags_heap in E2 as (v2 & -> & (G1 & G2 & G3) & Hr2 & Ht2 & Hc2); [|done].
    assert (Hro : tags_at hp1 r = tags_at hp r).
    { destruct r as [a|]; [|done]. cbn [tags_at]. rewrite F3; [done|by apply Hr|]. cbn. by intros ?%elem_of_nil. }
    assert (Hfresh : forall l, r1 = Some l -> (length hp <= l)%nat) by (intros l ->; destruct Hc1 as [?|[_ [= ->]]]; [done|lia]).
    intros [= <- <- <-]. cbn [h_bare h_tags app]. rewrite Ht2, Ht1, Hro.
    split; [|split; [|split; [done|split]]].
    + rewrite !add_tags_ins. cbn [tags_at]. destruct b as [b1 b2 b3 b4 b5 b6 b7 b8 b9], n as [n1 n2 n3 n4 n5 n6 n7 n8 n9]. cbn [s_service s_name s_timings set_tags set_service set_name set_timings s_tags].
      repeat (case_decide || match goal with |- context [if ts_valid ?x then _ else _] => destruct (ts_valid x) end); first [reflexivity|cbn in *; congruence].
    + split; [lia|]. split.
      * intros l Hl. right. apply elem_of_app in Hl as [Hl|Hl].
        -- destruct (F2 l Hl) as [Hi|?]; [|done]. by apply elem_of_nil in Hi.
        -- destruct (G2 l Hl) as [Hi|?]; [|lia]. destruct r1 as [a|]; cbn in Hi; [|by apply elem_of_nil in Hi]. apply elem_of_list_singleton in Hi as ->. by apply Hfresh.
      * intros l Hl Hn. rewrite G3; [|lia|].
        -- apply F3; [done|]. cbn. by intros ?%elem_of_nil.
        -- destruct r1 as [a|]; cbn; [|by intros ?%elem_of_nil]. intros ->%elem_of_list_singleton. specialize (Hfresh a eq_refl). lia.
    + intros l ->. right. destruct Hc2 as [<-|[_ [= ->]]]; [by apply Hfresh|lia].
    + destruct b as [b1 b2 b3 b4 b5 b6 b7 b8 b9], n as [n1 n2 n3 n4 n5 n6 n7 n8 n9]. repeat (case_decide || match goal with |- context [if ts_valid ?x then _ else _] => destruct (ts_valid x) end); first [reflexivity|cbn in *; congruence].
Qed.

(* ---------- one tree ---------- *)

Definition tree_ok (hp : heap) (t : htree) : Prop := NoDup (refs (ht_spans t)) /\ Forall (fun l => (l < length hp)%nat) (refs (ht_spans t)).

Lemma refs_app l1 l2 : refs (l1 ++ l2) = refs l1 ++ refs l2.
Proof. apply omap_app. Qed.
Lemma refs_cons h l : refs (h :: l) = olist (h_tags h) ++ refs l.
Proof. unfold refs. cbn. by destruct (h_tags h). Qed.
Lemma refs_in h (l : list hspan) a : h ∈ l -> h_tags h = Some a -> a ∈ refs l.
Proof. intros H1 H2. apply elem_of_list_omap. by exists h. Qed.

Lemma deref_frame hp hp' h : ref_ok hp (h_tags h) -> (forall l, h_tags h = Some l -> hp' !! l = hp !! l) -> deref hp' h = deref hp h.
Proof. intros Hr H. unfold deref. f_equal. destruct (h_tags h) as [l|]; [|done]. cbn. by rewrite H. Qed.
Lemma map_deref_same hp hp' (l : list hspan) : (forall a, a ∈ refs l -> hp' !! a = hp !! a) -> map (deref hp') l = map (deref hp) l.
Proof.
  intros H. apply map_ext_in. intros h Hh%elem_of_list_In. unfold deref. f_equal. destruct (h_tags h) as [a|] eqn:E; [|done]. cbn. rewrite H; [done|]. by eapply refs_in.
Qed.

Lemma ids_bare hp l : map s_id (map (deref hp) l) = map s_id (map h_bare l).
Proof. rewrite !map_map. apply map_ext. intros [[] ?]. done. Qed.
Lemma position_bare hp id l : position id (map (deref hp) l) = position id (map h_bare l).
Proof. unfold position, id_at. by rewrite ids_bare, !map_length. Qed.
Lemma get_ref_bare hp id l : get_span_ref id (map (deref hp) l) = get_span_ref id (map h_bare l).
Proof. unfold get_span_ref, id_at. by rewrite position_bare, ids_bare, !map_length. Qed.
Lemma get_ref_bound id spans i : get_span_ref id spans = Some i -> (i < length spans)%nat.
Proof. unfold get_span_ref. destruct (_ && _) eqn:E; [|done]. intros [= <-]. lia. Qed.

Lemma h_add_span_spec ord now new hp t hp' t' w : tree_ok hp t -> ref_ok hp (h_tags new) -> (forall l, h_tags new = Some l -> l ∉ refs (ht_spans t)) ->
  h_add_span ord now new hp t = (hp', t', w) ->
  deref_tree hp' t' = add_span ord now (deref hp new) (deref_tree hp t) /\ frame hp hp' (refs (ht_spans t)) w /\ tree_ok hp' t' /\
  (forall l, l ∈ refs (ht_spans t') -> l ∈ refs (ht_spans t) \/ h_tags new = Some l \/ (length hp <= l)%nat).
Proof.
  intros [Hnd Hlt] Hr Hnew. unfold h_add_span, add_span, append_span. cbn [t_spans t_id t_started t_updated t_count deref_tree].
  replace (s_id (deref hp new)) with (s_id (h_bare new)) by (by destruct new as [[] ?]). rewrite get_ref_bare, position_bare.
  destruct (get_span_ref (s_id (h_bare new)) (map h_bare (ht_spans t))) as [i|] eqn:Ei.
  - apply get_ref_bound in Ei. rewrite map_length in Ei. destruct (lookup_lt_is_Some_2 _ _ Ei) as [s Es]. rewrite Es.
    set (s0 := HSpan _ (h_tags s)). destruct (h_merge ord hp s0 new) as [[hp1 s1] w1] eqn:Em.
    pose proof (take_drop_middle _ _ _ Es) as Hsplit.
    set (l1 := take i (ht_spans t)) in *. set (l2 := drop (S i) (ht_spans t)) in *.
    assert (Hi : length l1 = i) by (unfold l1; rewrite take_length; lia). clearbody l1 l2.
    rewrite <- Hsplit in Hnd, Hlt, Hnew |- *. rewrite refs_app, refs_cons in Hnd, Hlt, Hnew.
    assert (Hs : ref_ok hp (h_tags s)).
    { intros l E. rewrite Forall_forall in Hlt. apply Hlt. rewrite !elem_of_app. rewrite E. right. left. apply elem_of_list_here. }
    apply h_merge_spec in Em as (Hd & F & Hr1 & Hc & _); [|exact Hs]. change (h_tags s0) with (h_tags s) in *.
    intros [= <- <- <-]. cbn [ht_spans deref_tree ht_id ht_started ht_updated ht_count].
    assert (Hins : <[i:=s1]> (l1 ++ s :: l2) = l1 ++ s1 :: l2) by (rewrite insert_app_r_alt by lia; rewrite Hi, Nat.sub_diag; done).
    rewrite Hins. destruct F as (F1 & F2 & F3).
    apply NoDup_app in Hnd as (N1 & N2 & N3). apply NoDup_app in N3 as (N3 & N4 & N5).
    rewrite !Forall_app in Hlt. destruct Hlt as (L1 & L2 & L3).
    assert (Hnot : forall a, a ∈ refs l1 \/ a ∈ refs l2 -> a ∉ olist (h_tags s)).
    { intros a Ha Hb. destruct Ha as [Ha|Ha]; [|by apply (N4 a)]. apply (N2 a Ha), elem_of_app. by left. }
    assert (Hsame : forall a, a ∈ refs l1 \/ a ∈ refs l2 -> hp1 !! a = hp !! a).
    { intros a Ha. apply F3; [|by apply Hnot]. rewrite Forall_forall in L1, L3. destruct Ha; [by apply L1|by apply L3]. }
    split; [|split; [split; [done|split]|split; [split|]]].
    + unfold deref_tree. cbn [ht_id ht_spans ht_started ht_updated ht_count]. f_equal. rewrite !map_app. cbn [map]. rewrite Hd. rewrite (map_deref_same hp hp1 l1), (map_deref_same hp hp1 l2) by (intros; apply Hsame; tauto).
      rewrite alter_app_r_alt by (rewrite map_length; lia). rewrite map_length, Hi, Nat.sub_diag. cbn. f_equal. f_equal. f_equal.
      unfold s0, deref. cbn [h_bare h_tags]. destruct s as [[b1 b2 b3 b4 b5 b6 b7 b8 b9] rs], new as [[n1 n2 n3 n4 n5 n6 n7 n8 n9] rn]. cbn [h_bare h_tags s_parent set_tags]. by destruct (id_is_unknown _).
    + intros l Hl. rewrite refs_app, refs_cons, !elem_of_app. destruct (F2 l Hl); tauto.
    + intros l Hl Hn. apply F3; [done|]. rewrite refs_app, refs_cons, !elem_of_app in Hn. tauto.
    + cbn [ht_spans]. rewrite refs_app, refs_cons. rewrite Forall_forall in L1, L3.
      assert (Hx : forall a, a ∈ olist (h_tags s1) -> a ∉ refs l1 /\ a ∉ refs l2).
      { intros a Ha. destruct (h_tags s1) as [b|] eqn:E1; cbn in Ha; [|by apply elem_of_nil in Ha]. apply elem_of_list_singleton in Ha as ->.
        destruct (Hc b eq_refl) as [Hb|Hb].
        - split; intros Hi'; (apply (Hnot b); [tauto|rewrite Hb; apply elem_of_list_here]).
        - split; intros Hi'; [apply L1 in Hi'|apply L3 in Hi']; lia. }
      apply NoDup_app. split; [done|]. split.
      * intros a Ha Hb. apply elem_of_app in Hb as [Hb|Hb]; [by destruct (Hx a Hb)|]. apply (N2 a Ha), elem_of_app. by right.
      * apply NoDup_app. split; [destruct (h_tags s1); [apply NoDup_singleton|apply NoDup_nil_2]|]. split; [|done]. intros a Ha. by apply Hx.
    + cbn [ht_spans]. rewrite refs_app, refs_cons, !Forall_app. split; [|split].
      * eapply Forall_impl; [exact L1|]. intros; cbn in *; lia.
      * destruct (h_tags s1) as [b|] eqn:E1; cbn; [|constructor]. apply Forall_singleton. by apply Hr1.
      * eapply Forall_impl; [exact L3|]. intros; cbn in *; lia.
    + intros l. rewrite !refs_app, !refs_cons, !elem_of_app. intros [?|[Hl|?]]; [tauto| |tauto].
      destruct (h_tags s1) as [b|] eqn:E1; cbn in Hl; [|by apply elem_of_nil in Hl]. apply elem_of_list_singleton in Hl as ->.
      destruct (Hc b eq_refl) as [Hb|Hb]; [|tauto]. left. right. left. rewrite Hb. apply elem_of_list_here.
  - intros [= <- <- <-]. cbn [ht_spans deref_tree ht_id ht_started ht_updated ht_count]. set (idx := position _ _). clearbody idx.
    assert (Hp : refs (take idx (ht_spans t) ++ new :: drop idx (ht_spans t)) ≡ₚ olist (h_tags new) ++ refs (ht_spans t)).
    { rewrite refs_app, refs_cons. rewrite <- (take_drop idx (ht_spans t)) at 3. rewrite refs_app. rewrite !app_assoc. f_equiv. apply Permutation_app_comm. }
    split; [|split; [apply frame_refl|split; [split|]]]; cbn [ht_spans].
    + unfold deref_tree. cbn [ht_id ht_spans ht_started ht_updated ht_count]. f_equal. rewrite map_app. cbn [map]. by rewrite firstn_map, skipn_map.
    + rewrite Hp. apply NoDup_app. split; [destruct (h_tags new); [apply NoDup_singleton|apply NoDup_nil_2]|]. split; [|done].
      intros a Ha. destruct (h_tags new) as [b|]; cbn in Ha; [|by apply elem_of_nil in Ha]. apply elem_of_list_singleton in Ha as ->. by apply Hnew.
    + rewrite Hp. apply Forall_app. split; [|done]. destruct (h_tags new) as [b|]; cbn; [|constructor]. apply Forall_singleton. by apply Hr.
    + intros l. rewrite Hp, elem_of_app. intros [Hl|?]; [|tauto]. destruct (h_tags new) as [b|]; cbn in Hl; [|by apply elem_of_nil in Hl]. apply elem_of_list_singleton in Hl as ->. tauto.
Qed.

(* ---------- timing correction does not look at tags ---------- *)

Definition correct_children (fuel : nat) (node : nat) (offset : Z) : list nat -> list span -> list nat -> option (list span * list nat) :=
  fix go (children : list nat) (mem : list span) (seen : list nat) : option (list span * list nat) :=
    match children with
    | [] => Some (mem, seen)
    | c :: cs =>
        match correct fuel mem c (Some node) offset with
        | Some (mem', seen') => go cs mem' (seen ++ seen')
        | None => None
        end
    end.
Lemma correct_children_cons fuel node offset c cs mem seen : correct_children fuel node offset (c :: cs) mem seen =
  match correct fuel mem c (Some node) offset with Some (mem', seen') => correct_children fuel node offset cs mem' (seen ++ seen') | None => None end.
Proof. reflexivity. Qed.

Lemma correct_S fuel mem node parent offset : correct (S fuel) mem node parent offset =
  match mem !! node with
  | None => None
  | Some s =>
      let '(s', offset') := correct_node s (parent ≫= fun p => mem !! p) offset in
      correct_children fuel node offset' (children_of (s_id s') (<[node := s']> mem)) (<[node := s']> mem) [node]
  end.
Proof. reflexivity. Qed.

Section retag.
Context (m : nat -> tagmap).
Definition retag (l : list span) : list span := imap (fun i s => set_tags (m i) s) l.

Lemma retag_lookup l i : retag l !! i = set_tags (m i) <$> l !! i.
Proof. unfold retag. by rewrite list_lookup_imap. Qed.
Lemma retag_insert l i s : retag (<[i := s]> l) = <[i := set_tags (m i) s]> (retag l).
Proof.
  apply list_eq. intros j. rewrite retag_lookup. destruct (decide (i = j)) as [<-|Hn].
  - destruct (decide (i < length l)%nat).
    + rewrite !list_lookup_insert; [done|unfold retag; by rewrite imap_length|done].
    + rewrite !list_insert_ge; [by rewrite retag_lookup|unfold retag; rewrite imap_length; lia|lia].
  - rewrite !list_lookup_insert_ne by done. by rewrite retag_lookup.
Qed.
Lemma correct_node_tags s par off a b : correct_node (set_tags a s) par off = (set_tags a (correct_node s par off).1, (correct_node s par off).2) /\
  correct_node s (set_tags b <$> par) off = correct_node s par off.
Proof.
  destruct s as [s1 s2 s3 s4 s5 s6 s7 s8 s9]. unfold correct_node. cbn [set_tags s_timings]. split.
  - destruct (off =? 0), par as [p|]; cbn [s_timings set_ts]; unfold has_timings; cbn [s_timings]; destruct (_ && _); cbn [s_ts set_ts set_dur];
      try (destruct (to_millis _ <? _)); reflexivity.
  - destruct par as [[]|]; reflexivity.
Qed.
Lemma indices_retag test l : (forall a s, test (set_tags a s) = test s) -> indices test (retag l) = indices test l.
Proof.
  intros H. unfold indices, retag.
  assert (G : forall (g : nat -> nat) (k : nat -> tagmap) l, map fst (List.filter (fun p => test p.2) (imap (fun i s => (g i, s)) (imap (fun i s => set_tags (k i) s) l))) =
    map fst (List.filter (fun p => test p.2) (imap (fun i s => (g i, s)) l))).
  { clear l. intros g k l. revert g k. induction l as [|s l IH]; intros g k; [done|]. cbn [imap List.filter snd]. rewrite H.
    specialize (IH (g ∘ S) (k ∘ S)). destruct (test s); cbn [map fst]; [f_equal|]; exact IH. }
  apply (G (fun i => i) m l).
Qed.
Lemma children_retag id l : children_of id (retag l) = children_of id l.
Proof. apply indices_retag. by intros a []. Qed.

Definition retagged (r : option (list span * list nat)) : option (list span * list nat) := (fun p => (retag p.1, p.2)) <$> r.

Lemma correct_retag fuel : forall mem node parent offset, correct fuel (retag mem) node parent offset = retagged (correct fuel mem node parent offset).
Proof.
  induction fuel as [|fuel IH]; intros mem node parent offset; [done|]. rewrite !correct_S, retag_lookup. destruct (mem !! node) as [s|]; [|done]. cbn [fmap option_fmap option_map].
  assert (Hp : parent ≫= (fun p => retag mem !! p) = (match parent with Some p => set_tags (m p) <$> mem !! p | None => None end)).
  { destruct parent as [p|]; [|done]. apply retag_lookup. }
  rewrite Hp.
  assert (Hn : correct_node (set_tags (m node) s) (match parent with Some p => set_tags (m p) <$> mem !! p | None => None end) offset =
    (set_tags (m node) (correct_node s (parent ≫= fun p => mem !! p) offset).1, (correct_node s (parent ≫= fun p => mem !! p) offset).2)).
  { rewrite (proj1 (correct_node_tags s _ offset (m node) ∅)). destruct parent as [p|]; cbn [mbind option_bind]; [|done]. by rewrite (proj2 (correct_node_tags s (mem !! p) offset ∅ (m p))). }
  rewrite Hn. destruct (correct_node s (parent ≫= fun p => mem !! p) offset) as [s' off']. cbn [fst snd].
  rewrite <- retag_insert, children_retag. replace (s_id (set_tags (m node) s')) with (s_id s') by (by destruct s').
  generalize (children_of (s_id s') (<[node:=s']> mem)) as cs. generalize (<[node:=s']> mem) as mem'. generalize [node] as seen.
  intros seen mem' cs. revert mem' seen. induction cs as [|c cs IHc]; intros mem' seen; [done|]. rewrite !correct_children_cons, IH.
  destruct (correct fuel mem' c (Some node) off') as [[mem2 seen2]|]; [|done]. cbn [retagged fmap option_fmap option_map fst snd]. apply IHc.
Qed.
End retag.

Lemma correct_tags_kept fuel mem node parent offset mem' seen : correct fuel mem node parent offset = Some (mem', seen) -> length mem' = length mem /\ map s_tags mem' = map s_tags mem.
Proof.
  revert mem node parent offset mem' seen. induction fuel as [|fuel IH]; intros mem node parent offset mem' seen; [done|]. rewrite correct_S. destruct (mem !! node) as [s|] eqn:Es; [|done].
  assert (Ht : s_tags (correct_node s (parent ≫= fun p => mem !! p) offset).1 = s_tags s).
  { pose proof (proj1 (correct_node_tags s (parent ≫= fun p => mem !! p) offset (s_tags s) ∅)) as H. replace (set_tags (s_tags s) s) with s in H by (by destruct s). rewrite H at 1. by destruct (correct_node s _ offset) as [[] ?]. }
  destruct (correct_node s (parent ≫= fun p => mem !! p) offset) as [s' off']. cbn [fst] in Ht.
  assert (H0 : length (<[node:=s']> mem) = length mem /\ map s_tags (<[node:=s']> mem) = map s_tags mem).
  { split; [apply insert_length|]. apply list_eq. intros j. change (map s_tags) with (fmap (M := list) s_tags). rewrite !list_lookup_fmap. destruct (decide (node = j)) as [<-|Hn].
    - rewrite list_lookup_insert by (by eapply lookup_lt_Some). rewrite Es. cbn. by rewrite Ht.
    - by rewrite list_lookup_insert_ne. }
  generalize dependent (children_of (s_id s') (<[node:=s']> mem)). generalize dependent (<[node:=s']> mem). generalize dependent [node].
  intros seen0 mem0 [H1 H2] cs E. rewrite <- H1, <- H2. clear H1 H2 Es Ht. revert mem0 seen0 E. induction cs as [|c cs IHc]; intros mem0 seen0 E; [by injection E as <- <-|]. rewrite correct_children_cons in E.
  destruct (correct fuel mem0 c (Some node) off') as [[mem2 seen2]|] eqn:E2; [|done]. apply IH in E2 as [A B]. apply IHc in E as [C D]. split; congruence.
Qed.

(** Correcting the bare spans and putting the references back is correcting what the heap shows. *)
Lemma map_deref_retag hp l : map (deref hp) l = retag (fun i => match l !! i with Some h => tags_at hp (h_tags h) | None => ∅ end) (map h_bare l).
Proof.
  apply list_eq. intros i. rewrite retag_lookup. change (map (deref hp)) with (fmap (M := list) (deref hp)). change (map h_bare) with (fmap (M := list) h_bare).
  rewrite !list_lookup_fmap. by destruct (l !! i).
Qed.
Lemma correct_heap hp l fuel node : 
  correct fuel (map (deref hp) l) node None 0 = (fun p => (map (deref hp) (zip_with HSpan p.1 (map h_tags l)), p.2)) <$> correct fuel (map h_bare l) node None 0.
Proof.
  rewrite map_deref_retag, correct_retag. unfold retagged. destruct (correct fuel (map h_bare l) node None 0) as [[mem' seen]|] eqn:E; [|done].
  cbn [fmap option_fmap option_map fst snd]. f_equal. f_equal. apply correct_tags_kept in E as [Hl _]. rewrite map_length in Hl.
  apply list_eq. intros i. rewrite retag_lookup. change (map (deref hp)) with (fmap (M := list) (deref hp)). rewrite list_lookup_fmap, lookup_zip_with. change (map h_tags) with (fmap (M := list) h_tags). rewrite list_lookup_fmap.
  destruct (mem' !! i) eqn:E1; [|done]. apply lookup_lt_Some in E1. destruct (lookup_lt_is_Some_2 l i) as [h Hh]; [lia|]. rewrite Hh. done.
Qed.

(* ---------- roots ---------- *)

Lemma roots_bare hp l : roots (map (deref hp) l) = roots (map h_bare l).
Proof. unfold roots. rewrite ids_bare, map_deref_retag. apply indices_retag. by intros a []. Qed.

Lemma fake_root_tags (l : list hspan) hp s0 : create_fake_root (deref hp s0) (map (deref hp) l) = create_fake_root (h_bare s0) (map h_bare l).
Proof.
  unfold create_fake_root. destruct s0 as [[b1 b2 b3 b4 b5 b6 b7 b8 b9] rs]. cbn [deref h_bare h_tags set_tags s_ts s_dur s_trace s_parent].
  match goal with |- (let '(_, _) := ?x in _) = (let '(_, _) := ?y in _) => replace x with y; [done|] end.
  match goal with |- foldl _ ?x _ = _ => generalize x end. induction l as [|[[] ?] l IH]; intros acc; [done|]. cbn [map foldl]. apply IH.
Qed.
Lemma same_parent_tags (l : list hspan) hp s0 : all_the_same_parent (deref hp s0) (map (deref hp) l) = all_the_same_parent (h_bare s0) (map h_bare l).
Proof.
  unfold all_the_same_parent. destruct s0 as [[b1 b2 b3 b4 b5 b6 b7 b8 b9] rs]. cbn [deref h_bare h_tags set_tags s_parent forallb]. f_equal. induction l as [|[[] ?] l IH]; [done|]. cbn [map forallb]. by rewrite IH.
Qed.

Lemma h_find_roots_spec ord now hp t hp' t' w rs : tree_ok hp t -> h_find_roots ord now hp t = (hp', t', w, rs) ->
  find_roots ord now (deref_tree hp t) = (deref_tree hp' t', rs) /\ frame hp hp' (refs (ht_spans t)) w /\ tree_ok hp' t' /\
  (forall l, l ∈ refs (ht_spans t') -> l ∈ refs (ht_spans t) \/ (length hp <= l)%nat).
Proof.
  intros Ht. unfold h_find_roots, find_roots. cbn [deref_tree t_spans]. rewrite roots_bare.
  assert (Ho : forall is, exists c, omap (fun i => map (deref hp) (ht_spans t) !! i) is = map (deref hp) c /\ omap (fun i => map h_bare (ht_spans t) !! i) is = map h_bare c).
  { intros is. exists (omap (fun i => ht_spans t !! i) is). induction is as [|i is [I1 I2]]; [done|]. cbn. change (map (deref hp)) with (fmap (M := list) (deref hp)) in *. change (map h_bare) with (fmap (M := list) h_bare) in *.
    rewrite !list_lookup_fmap. destruct (ht_spans t !! i); cbn; [|done]. unfold omap in I1, I2. split; f_equal; done. }
  destruct (Ho (roots (map h_bare (ht_spans t)))) as (c & -> & ->).
  assert (Hid : (deref_tree hp t, roots (map h_bare (ht_spans t))) = (deref_tree hp t, roots (map h_bare (ht_spans t))) /\ frame hp hp (refs (ht_spans t)) [] /\ tree_ok hp t /\
     (forall l, l ∈ refs (ht_spans t) -> l ∈ refs (ht_spans t) \/ (length hp <= l)%nat)) by (split; [done|]; split; [apply frame_refl|]; split; [done|tauto]).
  destruct c as [|s0 [|s1 rest]]; cbn [map]; [by intros [= <- <- <- <-]..|].
  pose proof (same_parent_tags (s1 :: rest) hp s0) as HS. cbn [map] in HS. rewrite <- HS. destruct (all_the_same_parent (deref hp s0) _); [|by intros [= <- <- <- <-]].
  pose proof (fake_root_tags (s1 :: rest) hp s0) as HF. cbn [map] in HF. rewrite <- HF. set (root := create_fake_root (deref hp s0) (deref hp s1 :: map (deref hp) rest)).
  destruct (h_add_span ord now (HSpan root None) hp t) as [[hp1 t1] w1] eqn:E. apply h_add_span_spec in E as (Hd & F & Hok & Hin); [|done|done|done].
  intros [= <- <- <- <-].
  assert (Hr : deref hp (HSpan root None) = root).
  { unfold deref. cbn [h_tags h_bare tags_at]. unfold root, create_fake_root. by match goal with |- context [let '(_, _) := ?x in _] => destruct x end. }
  rewrite Hr in Hd. rewrite <- Hd. split; [cbn [deref_tree t_spans]; by rewrite roots_bare|]. split; [done|]. split; [done|]. intros l Hl. destruct (Hin l Hl) as [?|[?|?]]; [tauto|done|tauto].
Qed.

(* ---------- the whole corrector ---------- *)

(** No map is written to after a span with it was sent. *)
Definition quiet (log : list hentry) : Prop := forall l1 l2 l, log = l1 ++ l2 -> HWrite l ∈ l2 -> l ∉ sent_refs l1.

Record inv (traces : gmap Z htree) (hp : heap) (log : list hentry) : Prop := Inv {
  i_ok : forall id t, traces !! id = Some t -> tree_ok hp t;
  i_apart : forall i j t u l, i <> j -> traces !! i = Some t -> traces !! j = Some u -> l ∈ refs (ht_spans t) -> l ∉ refs (ht_spans u);
  i_sent : forall id t l, traces !! id = Some t -> l ∈ refs (ht_spans t) -> l ∉ sent_refs log;
  i_old : Forall (fun l => (l < length hp)%nat) (sent_refs log);
  i_nodup : NoDup (sent_refs log);
  i_quiet : quiet log }.

Lemma sent_refs_app l1 l2 : sent_refs (l1 ++ l2) = sent_refs l1 ++ sent_refs l2.
Proof. unfold sent_refs. by rewrite map_app, concat_app. Qed.
Lemma sent_refs_writes w : sent_refs (map HWrite w) = [].
Proof. induction w as [|l w IH]; [done|]. exact IH. Qed.
Lemma sent_refs_other es : sent_refs (map HOther es) = [].
Proof. induction es as [|l w IH]; [done|]. exact IH. Qed.

Lemma look_same hp hp' log : (forall l, l ∈ sent_refs log -> hp' !! l = hp !! l) -> omap (look hp') log = omap (look hp) log.
Proof.
  induction log as [|e log IH]; intros H; [done|]. cbn.
  assert (E : look hp' e = look hp e).
  { destruct e as [l|t spans|e]; [done| |done]. cbn [look]. f_equal. f_equal. f_equal. apply map_deref_same. intros a Ha. apply H. unfold sent_refs. cbn. apply elem_of_app. by left. }
  rewrite E. specialize (IH ltac:(intros l Hl; apply H; unfold sent_refs; cbn; apply elem_of_app; by right)). destruct (look hp e); [f_equal|]; exact IH.
Qed.
Lemma look_writes hp w : omap (look hp) (map HWrite w) = [].
Proof. induction w; [done|]. done. Qed.
Lemma look_other hp es : omap (look hp) (map HOther es) = es.
Proof. induction es as [|e es IH]; [done|]. cbn. by f_equal. Qed.

Lemma quiet_app log es : quiet log -> (forall l1 l2 l, es = l1 ++ l2 -> HWrite l ∈ l2 -> l ∉ sent_refs (log ++ l1)) -> quiet (log ++ es).
Proof.
  intros Hq He l1 l2 l E Hw. apply app_eq_inv in E as [(k & -> & ->)|(k & -> & ->)].
  - apply elem_of_app in Hw as [Hw|Hw]; [by eapply Hq|]. intros Hl. apply (He [] es l); [done|done|]. rewrite app_nil_r, sent_refs_app. apply elem_of_app. by left.
  - by eapply He.
Qed.
Lemma quiet_writes log w : quiet log -> (forall l, l ∈ w -> l ∉ sent_refs log) -> quiet (log ++ map HWrite w).
Proof.
  intros Hq Hw. apply quiet_app; [done|]. intros l1 l2 l E Hl. rewrite sent_refs_app.
  assert (Hs : sent_refs l1 = []).
  { pose proof (sent_refs_writes w) as Hz. rewrite E, sent_refs_app in Hz. by apply app_eq_nil in Hz as [? _]. }
  rewrite Hs, app_nil_r. apply Hw. assert (Hin : HWrite l ∈ map HWrite w) by (rewrite E; apply elem_of_app; by right).
  apply elem_of_list_fmap in Hin as (x & [= ->] & ?). done.
Qed.
Lemma quiet_silent log es : quiet log -> (forall l, HWrite l ∉ es) -> quiet (log ++ es).
Proof. intros Hq He. apply quiet_app; [done|]. intros l1 l2 l -> Hl. exfalso. apply (He l), elem_of_app. by right. Qed.

(** A step that works on the maps in [own], none of which anybody else has. *)
Lemma evolve traces hp log id own hp' w : inv traces hp log -> frame hp hp' own w ->
  (forall l, l ∈ own -> l ∉ sent_refs log) -> (forall j u l, j <> id -> traces !! j = Some u -> l ∈ own -> l ∉ refs (ht_spans u)) ->
  inv (delete id traces) hp' (log ++ map HWrite w) /\ (forall j u, j <> id -> traces !! j = Some u -> deref_tree hp' u = deref_tree hp u) /\
  omap (look hp') (log ++ map HWrite w) = omap (look hp) log.
Proof.
  intros [K1 K2 K3 K4 K5 K6] (F1 & F2 & F3) Ho Hd. rewrite Forall_forall in K4.
  assert (Hs : sent_refs (log ++ map HWrite w) = sent_refs log) by (by rewrite sent_refs_app, sent_refs_writes, app_nil_r).
  split; [split|split].
  - intros j u [Hj E]%lookup_delete_Some. destruct (K1 j u E) as [N L]. split; [done|]. eapply Forall_impl; [exact L|]. cbn. intros; lia.
  - intros i j t u l Hn [_ E1]%lookup_delete_Some [_ E2]%lookup_delete_Some. by apply (K2 i j).
  - intros j u l [_ E]%lookup_delete_Some. rewrite Hs. by apply (K3 j).
  - rewrite Hs. apply Forall_forall. intros l Hl. apply K4 in Hl. lia.
  - by rewrite Hs.
  - apply quiet_writes; [done|]. intros l Hl Hi. destruct (F2 l Hl) as [Hl'|Hl']; [by apply (Ho l)|]. apply K4 in Hi. lia.
  - intros j u Hj E. unfold deref_tree. f_equal. apply map_deref_same. intros a Ha. apply F3.
    + destruct (K1 j u E) as [_ L]. rewrite Forall_forall in L. by apply L.
    + intros Hi. by apply (Hd j u a).
  - rewrite omap_app, look_writes, app_nil_r. apply look_same. intros l Hl. apply F3; [by apply K4|]. intros Hi. by apply (Ho l).
Qed.

Lemma inv_insert traces hp log id t : inv (delete id traces) hp log -> tree_ok hp t -> (forall l, l ∈ refs (ht_spans t) -> l ∉ sent_refs log) ->
  (forall j u l, j <> id -> traces !! j = Some u -> l ∈ refs (ht_spans t) -> l ∉ refs (ht_spans u)) -> inv (<[id := t]> traces) hp log.
Proof.
  intros [K1 K2 K3 K4 K5 K6] Ht Hs Hd. split; [| | |done..].
  - intros j u [[<- <-]|[Hj E]]%lookup_insert_Some; [done|]. apply (K1 j). by rewrite lookup_delete_ne.
  - intros i j a b l Hn [[<- <-]|[Hi E1]]%lookup_insert_Some [[<- <-]|[Hj E2]]%lookup_insert_Some; [done| | |].
    + intros Hl. by apply (Hd j b).
    + intros Hl Hl'. by apply (Hd i a l).
    + apply (K2 i j); [done|by rewrite lookup_delete_ne..].
  - intros j u l [[<- <-]|[Hj E]]%lookup_insert_Some; [by apply Hs|]. apply (K3 j). by rewrite lookup_delete_ne.
Qed.

Lemma inv_silent traces hp log es : inv traces hp log -> (forall l, HWrite l ∉ es) -> sent_refs es = [] -> inv traces hp (log ++ es).
Proof.
  intros [K1 K2 K3 K4 K5 K6] Hw Hs. assert (E : sent_refs (log ++ es) = sent_refs log) by (by rewrite sent_refs_app, Hs, app_nil_r).
  split; [done|done|rewrite E; done|rewrite E; done|rewrite E; done|by apply quiet_silent].
Qed.
Lemma inv_others traces hp log es : inv traces hp log -> inv traces hp (log ++ map HOther es).
Proof. intros H. apply inv_silent; [done| |apply sent_refs_other]. intros l Hl. apply elem_of_list_fmap in Hl as (? & ? & _). done. Qed.

Lemma inv_sub traces traces' hp log : inv traces hp log -> (forall id t, traces' !! id = Some t -> traces !! id = Some t) -> inv traces' hp log.
Proof. intros [K1 K2 K3 K4 K5 K6] H. split; [| | |done..]; naive_solver. Qed.

Lemma inv_send traces hp log id spans : inv traces hp log -> NoDup (refs spans) -> Forall (fun l => (l < length hp)%nat) (refs spans) ->
  (forall l, l ∈ refs spans -> l ∉ sent_refs log) -> (forall j u l, traces !! j = Some u -> l ∈ refs spans -> l ∉ refs (ht_spans u)) -> inv traces hp (log ++ [HSent id spans]).
Proof.
  intros [K1 K2 K3 K4 K5 K6] Hn Hl Hs Hd. assert (E : sent_refs (log ++ [HSent id spans]) = sent_refs log ++ refs spans).
  { rewrite sent_refs_app. f_equal. unfold sent_refs. cbn. apply app_nil_r. }
  split; [done|done| | | |].
  - intros j u l Ej Hl'. rewrite E, elem_of_app. intros [?|Hi]; [by apply (K3 j u l)|by apply (Hd j u l)].
  - rewrite E. by apply Forall_app.
  - rewrite E. apply NoDup_app. split; [done|]. split; [|done]. intros l H1 H2. by apply (Hs l).
  - apply quiet_silent; [done|]. intros l Hi. by apply elem_of_list_singleton in Hi.
Qed.

Definition rel (traces : gmap Z htree) (black : gset Z) (hp : heap) (log : list hentry) (st : fstate) (vlog : list entry) : Prop :=
  deref_tree hp <$> traces = f_traces st /\ black = f_black st /\ omap (look hp) log = vlog.

Lemma delete_fmap_same (f g : htree -> tree) (traces : gmap Z htree) id : (forall j u, j <> id -> traces !! j = Some u -> f u = g u) -> f <$> delete id traces = delete id (g <$> traces).
Proof.
  intros H. rewrite <- fmap_delete. apply map_eq. intros j. rewrite !lookup_fmap. destruct (decide (j = id)) as [->|Hn]; [by rewrite lookup_delete|].
  rewrite lookup_delete_ne by done. destruct (traces !! j) as [u|] eqn:E; [|done]. cbn. f_equal. by eapply H.
Qed.

Lemma refs_zip (l : list hspan) : forall spans : list span, length spans = length l -> refs (zip_with HSpan spans (map h_tags l)) = refs l.
Proof.
  induction l as [|h l IH]; intros [|s spans]; try done. cbn. intros [= Hlen]. specialize (IH spans Hlen). unfold refs in *. cbn. destruct (h_tags h); [f_equal|]; exact IH.
Qed.

Lemma finish_one_heap k du ds traces black hp log st vlog id t traces' black' hp' log' :
  inv traces hp log -> rel traces black hp log st vlog -> traces !! id = Some t ->
  h_finish_one k du ds (traces, black, hp, log) (id, t) = (traces', black', hp', log') ->
  inv traces' hp' log' /\ (forall j u, j <> id -> traces !! j = Some u -> traces' !! j = Some u /\ deref_tree hp' u = deref_tree hp u) /\
  exists st' vlog', finish_one k du ds (st, vlog) (id, deref_tree hp t) = (st', vlog') /\ rel traces' black' hp' log' st' vlog'.
Proof.
  intros HI (R1 & -> & R3) Et. unfold h_finish_one, finish_one, too_large. cbn [t_count t_updated t_started deref_tree].
  destruct (negb (8 * 1024 <? ht_count t) && negb (ht_started t <? ds) && (du <? ht_updated t)) eqn:Ek.
  { intros [= <- <- <- <-]. split; [done|]. split; [done|]. exists st, vlog. split; [done|]. done. }
  assert (Hdel : inv (delete id traces) hp log) by (apply (inv_sub traces); [done|]; by intros j u [_ ?]%lookup_delete_Some).
  assert (Hkeep : forall j u, j <> id -> traces !! j = Some u -> delete id traces !! j = Some u) by (intros j u Hn E; by rewrite lookup_delete_ne).
  assert (Hdrop : forall o b, inv (delete id traces) hp (log ++ [HOther (LOut id o)]) /\
     (forall j u, j <> id -> traces !! j = Some u -> delete id traces !! j = Some u /\ deref_tree hp u = deref_tree hp u) /\
     rel (delete id traces) b hp (log ++ [HOther (LOut id o)]) (FState (delete id (f_traces st)) b) (vlog ++ [LOut id o])).
  { intros o b. split; [by apply (inv_others _ _ _ [_])|]. split; [intros j u Hn E; split; [by apply Hkeep|done]|]. split; [cbn; by rewrite fmap_delete, R1|].
    split; [done|]. rewrite omap_app, R3. done. }
  destruct (8 * 1024 <? ht_count t).
  { intros [= <- <- <- <-]. destruct (Hdrop TooLarge ({[id]} ∪ f_black st)) as (A & B & C). split; [done|]. split; [done|]. eexists _, _. split; [done|]. exact C. }
  destruct (ht_started t <? ds).
  { intros [= <- <- <- <-]. destruct (Hdrop TooOld ({[id]} ∪ f_black st)) as (A & B & C). split; [done|]. split; [done|]. eexists _, _. split; [done|]. exact C. }
  clear Hdrop Ek. destruct (h_find_roots (k_ord k) (k_fake k id) hp t) as [[[hp1 t1] w] rs] eqn:Ef.
  apply h_find_roots_spec in Ef as (Hv & F & Hok & Hin); [|by apply (i_ok _ _ _ HI id)]. rewrite Hv.
  destruct (evolve traces hp log id (refs (ht_spans t)) hp1 w HI F) as (HI1 & Hder & Hlook).
  { intros l Hl. by apply (i_sent _ _ _ HI id t). }
  { intros j u l Hn Ej Hl. apply (i_apart _ _ _ HI id j t u l); [done|done|done|done]. }
  assert (Hsent : forall l, l ∈ refs (ht_spans t1) -> l ∉ sent_refs (log ++ map HWrite w)).
  { intros l Hl. rewrite sent_refs_app, sent_refs_writes, app_nil_r. destruct (Hin l Hl) as [H|H]; [by apply (i_sent _ _ _ HI id t)|].
    intros Hs. pose proof (i_old _ _ _ HI) as Ho. rewrite Forall_forall in Ho. apply Ho in Hs. lia. }
  assert (Hothers : forall j u l, delete id traces !! j = Some u -> l ∈ refs (ht_spans t1) -> l ∉ refs (ht_spans u)).
  { intros j u l [Hn Ej]%lookup_delete_Some Hl. destruct (Hin l Hl) as [H|H]; [by apply (i_apart _ _ _ HI id j t u l)|].
    intros Hs. destruct (i_ok _ _ _ HI j u Ej) as [_ L]. rewrite Forall_forall in L. apply L in Hs. lia. }
  assert (Htr : deref_tree hp1 <$> delete id traces = delete id (f_traces st)).
  { rewrite <- R1. by apply delete_fmap_same. }
  assert (Hdrop : forall o, inv (delete id traces) hp1 ((log ++ map HWrite w) ++ [HOther (LOut id o)]) /\
     rel (delete id traces) (f_black st) hp1 ((log ++ map HWrite w) ++ [HOther (LOut id o)]) (FState (delete id (f_traces st)) (f_black st)) (vlog ++ [LOut id o])).
  { intros o. split; [by apply (inv_others _ _ _ [_])|]. split; [done|]. split; [done|]. rewrite omap_app, Hlook, R3. done. }
  assert (Hkeep2 : forall j u, j <> id -> traces !! j = Some u -> delete id traces !! j = Some u /\ deref_tree hp1 u = deref_tree hp u) by (intros j u Hn E; split; [by apply Hkeep|by apply (Hder j)]).
  destruct rs as [|r [|r2 rs]].
  - intros [= <- <- <- <-]. destruct (Hdrop NoRoot) as [A B]. split; [done|]. split; [done|]. by eexists _, _.
  - cbn [t_spans deref_tree]. rewrite map_length, correct_heap. destruct (correct (length (ht_spans t1)) (map h_bare (ht_spans t1)) r None 0) as [[spans seen]|] eqn:Ec; cbn [fmap option_fmap option_map fst snd].
    + intros [= <- <- <- <-]. apply correct_tags_kept in Ec as [Hlen _]. rewrite map_length in Hlen. set (hs := zip_with HSpan spans (map h_tags (ht_spans t1))).
      assert (Hrefs : refs hs = refs (ht_spans t1)).
      { by apply refs_zip. }
      split; [|split; [done|]].
      * apply inv_send; rewrite ?Hrefs; [done|apply Hok|apply Hok|done|done].
      * eexists _, _. split; [done|]. split; [done|]. split; [done|]. rewrite omap_app, Hlook, R3. done.
    + intros [= <- <- <- <-]. destruct (Hdrop Stuck) as [A B]. split; [done|]. split; [done|]. by eexists _, _.
  - intros [= <- <- <- <-]. destruct (Hdrop NoRoot) as [A B]. split; [done|]. split; [done|]. by eexists _, _.
Qed.

Lemma finish_all_heap k du ds : forall range traces black hp log st vlog traces' black' hp' log',
  inv traces hp log -> rel traces black hp log st vlog -> NoDup range.*1 -> (forall id t, (id, t) ∈ range -> traces !! id = Some t) ->
  foldl (h_finish_one k du ds) (traces, black, hp, log) range = (traces', black', hp', log') ->
  inv traces' hp' log' /\
  exists st' vlog', foldl (finish_one k du ds) (st, vlog) (map (fun p => (p.1, deref_tree hp p.2)) range) = (st', vlog') /\ rel traces' black' hp' log' st' vlog'.
Proof.
  induction range as [|[id t] range IH]; intros traces black hp log st vlog traces' black' hp' log' HI HR Hn Hin E.
  - cbn in E. injection E as <- <- <- <-. split; [done|]. by exists st, vlog.
  - cbn [foldl] in E. destruct (h_finish_one k du ds (traces, black, hp, log) (id, t)) as [[[traces1 black1] hp1] log1] eqn:E1.
    pose proof (finish_one_heap k du ds _ _ _ _ st vlog id t _ _ _ _ HI HR (Hin id t ltac:(apply elem_of_list_here)) E1) as (HI1 & Hk & st1 & vlog1 & Ev & HR1).
    cbn in Hn. apply NoDup_cons in Hn as [Hni Hn].
    assert (Hne : forall j u, (j, u) ∈ range -> j <> id) by (intros j u Hj ->; apply Hni; apply elem_of_list_fmap; by exists (id, u)).
    destruct (IH traces1 black1 hp1 log1 st1 vlog1 traces' black' hp' log' HI1 HR1 Hn) as (A & st' & vlog' & B & C); [|done|].
    { intros j u Hj. apply Hk; [by eapply Hne|]. apply Hin. by apply elem_of_list_further. }
    split; [done|]. exists st', vlog'. split; [|done]. cbn [map foldl fst snd]. rewrite Ev, <- B. f_equal. apply map_ext_in. intros [j u] Hj%elem_of_list_In. cbn. f_equal.
    symmetry. apply (Hk j u); [by eapply Hne|]. apply Hin. by apply elem_of_list_further.
Qed.

Lemma discard_loop_sub l : forall n traces log id t, (discard_loop l n traces log).1 !! id = Some t -> traces !! id = Some t.
Proof.
  induction l as [|[j u] l IH]; intros n traces log id t; cbn [discard_loop]; [done|]. destruct (_ <? _); [done|]. intros H. apply IH in H. by apply lookup_delete_Some in H as [_ ?].
Qed.
Lemma discard_sub k traces id t : (discard k traces).1 !! id = Some t -> traces !! id = Some t.
Proof. unfold discard. destruct (_ <? _); [done|]. apply discard_loop_sub. Qed.

Lemma range_heap k hp (traces : gmap Z htree) (i : nat) : (forall m, k_range k i m ≡ₚ map_to_list m) ->
  let range := omap (fun p => (fun t => (p.1, t)) <$> traces !! p.1) (k_range k i (deref_tree hp <$> traces)) in
  map (fun p => (p.1, deref_tree hp p.2)) range = k_range k i (deref_tree hp <$> traces) /\ NoDup range.*1 /\ (forall id t, (id, t) ∈ range -> traces !! id = Some t).
Proof.
  intros Hk. specialize (Hk (deref_tree hp <$> traces)). generalize dependent (k_range k i (deref_tree hp <$> traces)). intros l Hl. cbn zeta.
  assert (Hall : forall id v, (id, v) ∈ l -> exists t, traces !! id = Some t /\ v = deref_tree hp t).
  { intros id v Hi. rewrite Hl in Hi. apply elem_of_map_to_list in Hi. rewrite lookup_fmap in Hi. destruct (traces !! id) as [t|]; [|done]. injection Hi as <-. by exists t. }
  assert (Hnd : NoDup l.*1) by (rewrite Hl; apply NoDup_fst_map_to_list). clear Hl.
  induction l as [|[id v] l IH]; [split; [done|]; split; [apply NoDup_nil_2|]; intros ? ? H; by apply elem_of_nil in H|].
  destruct (Hall id v ltac:(apply elem_of_list_here)) as (t & Et & ->). cbn [omap list_omap fst]. rewrite Et. cbn [fmap option_fmap option_map map fst snd].
  cbn in Hnd. apply NoDup_cons in Hnd as [Hni Hnd]. destruct IH as (A & B & C); [intros; apply Hall; by apply elem_of_list_further|done|]. split; [by f_equal|]. split.
  - cbn. apply NoDup_cons. split; [|exact B]. intros Hi. apply Hni. apply elem_of_list_fmap in Hi as ([j u] & Ej & Hj). cbn in Ej. subst j.
    apply elem_of_list_omap in Hj as ([j v] & Hj & E2). cbn in E2. destruct (traces !! j); [|done]. injection E2 as -> _. apply elem_of_list_fmap. by exists (id, v).
  - intros j u Hj. apply elem_of_cons in Hj as [[= -> ->]|Hj]; [done|]. by apply C.
Qed.

Lemma finish_heap k traces black hp log st vlog traces' black' hp' log' : valid_tick k ->
  inv traces hp log -> rel traces black hp log st vlog -> h_finish_traces k traces black hp = (traces', black', hp', log') ->
  inv traces' hp' (log ++ log') /\ exists st' vlog', finish_traces k st = (st', vlog') /\ rel traces' black' hp' (log ++ log') st' (vlog ++ vlog').
Proof.
  intros Hk HI (R1 & -> & R3). unfold h_finish_traces, finish_traces. cbn zeta. rewrite R1. set (load := count_spans (k_range k 0 (f_traces st))).
  set (du := k_now1 k - buffer_time load). set (ds := k_now2 k - 5 * buffer_time load).
  destruct (range_heap k hp traces 1 ltac:(apply Hk)) as (A & B & C). cbn zeta in A, B, C. rewrite R1 in A, B, C.
  set (range := omap (fun p => (fun t => (p.1, t)) <$> traces !! p.1) (k_range k 1 (f_traces st))) in *. clearbody range.
  set (e := LTick (k_now1 k) (k_now2 k) load).
  assert (Hpre : forall r traces0 black0 hp0 l0, foldl (h_finish_one k du ds) (traces0, black0, hp0, log ++ l0) r =
    let '(a, b, c, d) := foldl (h_finish_one k du ds) (traces0, black0, hp0, l0) r in (a, b, c, log ++ d)).
  { induction r as [|[id t] r IH]; intros traces0 black0 hp0 l0; [done|]. cbn [foldl].
    assert (H1 : h_finish_one k du ds (traces0, black0, hp0, log ++ l0) (id, t) = let '(a, b, c, d) := h_finish_one k du ds (traces0, black0, hp0, l0) (id, t) in (a, b, c, log ++ d)).
    { unfold h_finish_one. destruct (_ && _); [done|]. destruct (8 * 1024 <? ht_count t); [by rewrite app_assoc|]. destruct (ht_started t <? ds); [by rewrite app_assoc|].
      destruct (h_find_roots _ _ _ _) as [[[hp1 t1] w] [|r0 [|r1 rs]]]; [by rewrite !app_assoc| |by rewrite !app_assoc]. destruct (correct _ _ _ _ _) as [[spans ?]|]; by rewrite !app_assoc. }
    rewrite H1. destruct (h_finish_one k du ds (traces0, black0, hp0, l0) (id, t)) as [[[a b] c] d]. apply IH. }
  assert (Hpre2 : forall r st0 l0, foldl (finish_one k du ds) (st0, vlog ++ l0) r = let '(a, d) := foldl (finish_one k du ds) (st0, l0) r in (a, vlog ++ d)).
  { induction r as [|[id t] r IH]; intros st0 l0; [done|]. cbn [foldl].
    assert (H1 : finish_one k du ds (st0, vlog ++ l0) (id, t) = let '(a, d) := finish_one k du ds (st0, l0) (id, t) in (a, vlog ++ d)).
    { unfold finish_one. destruct (_ && _); [done|]. destruct (too_large t); [by rewrite app_assoc|]. destruct (t_started t <? ds); [by rewrite app_assoc|].
      destruct (find_roots _ _ _) as [t1 [|r0 [|r1 rs]]]; [by rewrite !app_assoc| |by rewrite !app_assoc]. destruct (correct _ _ _ _ _) as [[spans ?]|]; by rewrite !app_assoc. }
    rewrite H1. destruct (finish_one k du ds (st0, l0) (id, t)) as [a d]. apply IH. }
  destruct (foldl (h_finish_one k du ds) (traces, f_black st, hp, [HOther e]) range) as [[[traces1 black1] hp1] log1] eqn:E1.
  pose proof (Hpre range traces (f_black st) hp [HOther e]) as E2. rewrite E1 in E2.
  destruct (finish_all_heap k du ds range traces (f_black st) hp (log ++ [HOther e]) st (vlog ++ [e]) traces1 black1 hp1 (log ++ log1)) as (HI1 & st1 & vlog1 & E3 & R4 & R5 & R6).
  { by apply (inv_others _ _ _ [_]). }
  { split; [done|]. split; [done|]. by rewrite omap_app, R3. }
  { done. } { done. } { done. }
  rewrite A, Hpre2 in E3. destruct (foldl (finish_one k du ds) (st, [e]) (k_range k 1 (f_traces st))) as [st1' vlog1'] eqn:E4. injection E3 as -> <-.
  rewrite R4, R5.
  assert (Hsub : forall id t, (if maxSpans <? load then discard k (f_traces st1) else (f_traces st1, [])).1 !! id = Some t -> f_traces st1 !! id = Some t).
  { intros id t. destruct (maxSpans <? load); [apply discard_sub|done]. }
  destruct (if maxSpans <? load then discard k (f_traces st1) else (f_traces st1, [])) as [kept logd]. cbn [fst] in Hsub.
  destruct (evict (k_range_black k (f_black st1)) (f_black st1) []) as [black2 loge]. intros [= <- <- <- <-]. rewrite app_assoc. split.
  - apply inv_others. apply (inv_sub traces1); [done|]. by intros id t [? _]%map_filter_lookup_Some.
  - eexists _, _. split; [done|]. split; [|split; [done|]].
    + cbn. apply map_eq. intros id. rewrite lookup_fmap. destruct (kept !! id) as [v|] eqn:Ev.
      * apply Hsub in Ev as Ev2. rewrite <- R4, lookup_fmap in Ev2. destruct (traces1 !! id) as [t|] eqn:Et; [|done].
        rewrite (map_filter_lookup_Some_2 _ traces1 id t); [done|done|]. cbn. rewrite Ev. by eexists.
      * rewrite (proj2 (map_filter_lookup_None _ traces1 id)); [done|]. right. intros t Et. cbn. rewrite Ev. by intros [? ?].
    + rewrite omap_app, look_other, R6, <- app_assoc. done.
Qed.

Lemma receive_heap ord n0 n1 s traces black hp log st vlog traces' hp' w :
  inv traces hp log -> rel traces black hp log st vlog -> ref_ok hp (h_tags s) ->
  (forall l, h_tags s = Some l -> l ∉ sent_refs log /\ forall j u, traces !! j = Some u -> l ∉ refs (ht_spans u)) ->
  h_receive ord n0 n1 s traces black hp = (traces', hp', w) ->
  inv traces' hp' (log ++ map HWrite w) /\ rel traces' black hp' (log ++ map HWrite w) (receive ord n0 n1 (deref hp s) st) vlog.
Proof.
  intros HI (R1 & -> & R3) Hr Hs. unfold h_receive, receive.
  replace (s_trace (deref hp s)) with (s_trace (h_bare s)) by (by destruct s as [[] ?]). replace (s_id (deref hp s)) with (s_id (h_bare s)) by (by destruct s as [[] ?]).
  set (id := s_trace (h_bare s)).
  destruct (_ || _); [intros [= <- <- <-]; cbn [map]; by rewrite app_nil_r|]. destruct (bool_decide _); [intros [= <- <- <-]; cbn [map]; by rewrite app_nil_r|].
  set (t := match traces !! id with Some t => t | None => h_new_tree n0 id end).
  replace (match f_traces st !! id with Some t => t | None => new_tree n0 id end) with (deref_tree hp t).
  2:{ rewrite <- R1, lookup_fmap. unfold t. by destruct (traces !! id). }
  assert (Ht : tree_ok hp t).
  { unfold t. destruct (traces !! id) as [u|] eqn:Eu; [by apply (i_ok _ _ _ HI id)|]. split; [apply NoDup_nil_2|apply Forall_nil_2]. }
  assert (Hts : forall l, l ∈ refs (ht_spans t) -> l ∉ sent_refs log).
  { intros l. unfold t. destruct (traces !! id) as [u|] eqn:Eu; [by apply (i_sent _ _ _ HI id)|]. intros H. by apply elem_of_nil in H. }
  assert (Htd : forall j u l, j <> id -> traces !! j = Some u -> l ∈ refs (ht_spans t) -> l ∉ refs (ht_spans u)).
  { intros j u l Hj Ej. unfold t. destruct (traces !! id) as [u'|] eqn:Eu; [by apply (i_apart _ _ _ HI id j)|]. intros H. by apply elem_of_nil in H. }
  destruct (h_add_span ord n1 s hp t) as [[hp1 t1] w1] eqn:Ea. intros [= <- <- <-].
  apply h_add_span_spec in Ea as (Hd & F & Hok & Hin); [|done|done|].
  2:{ intros l El. destruct (Hs l El) as [_ Hs2]. unfold t. destruct (traces !! id) as [u|] eqn:Eu; [by eapply Hs2|]. apply not_elem_of_nil. }
  destruct (evolve traces hp log id (refs (ht_spans t)) hp1 w1 HI F Hts Htd) as (HI1 & Hder & Hlook). split.
  - apply inv_insert; [done|done| |].
    + intros l Hl. rewrite sent_refs_app, sent_refs_writes, app_nil_r. destruct (Hin l Hl) as [H|[H|H]]; [by apply Hts|by apply Hs|].
      intros Hi. pose proof (i_old _ _ _ HI) as Ho. rewrite Forall_forall in Ho. apply Ho in Hi. lia.
    + intros j u l Hj Ej Hl. destruct (Hin l Hl) as [H|[H|H]]; [by apply (Htd j)|by apply (proj2 (Hs l H) j)|].
      intros Hi. destruct (i_ok _ _ _ HI j u Ej) as [_ L]. rewrite Forall_forall in L. apply L in Hi. lia.
  - split; [|split; [done|by rewrite Hlook]]. cbn [f_traces]. rewrite fmap_insert, Hd, <- R1. apply map_eq. intros j. destruct (decide (j = id)) as [->|Hj].
    + by rewrite !lookup_insert.
    + rewrite !lookup_insert_ne by done. rewrite !lookup_fmap. destruct (traces !! j) as [u|] eqn:Ej; [|done]. cbn. f_equal. by apply (Hder j).
Qed.

Definition hrel (st : hstate) (log : list hentry) (vst : option fstate) (vlog : list entry) : Prop :=
  match h_live st, vst with
  | Some (traces, black), Some f => inv traces (h_heap st) log /\ rel traces black (h_heap st) log f vlog
  | None, None => inv ∅ (h_heap st) log /\ omap (look (h_heap st)) log = vlog
  | _, _ => False
  end.

Lemma inv_grow traces hp log m : inv traces hp log -> inv traces (hp ++ [m]) log.
Proof.
  intros [K1 K2 K3 K4 K5 K6]. split; [|done|done| |done|done].
  - intros id t E. destruct (K1 id t E) as [A B]. split; [done|]. eapply Forall_impl; [exact B|]. intros l Hl. rewrite app_length. cbn in *. lia.
  - eapply Forall_impl; [exact K4|]. intros l Hl. rewrite app_length. cbn in *. lia.
Qed.
Lemma rel_grow traces black hp log st vlog m : inv traces hp log -> rel traces black hp log st vlog -> rel traces black (hp ++ [m]) log st vlog.
Proof.
  intros HI (R1 & R2 & R3). split; [|split; [done|]].
  - rewrite <- R1. apply map_fmap_ext. intros id t E. unfold deref_tree. f_equal. apply map_deref_same. intros l Hl. apply lookup_app_l.
    destruct (i_ok _ _ _ HI id t E) as [_ L]. rewrite Forall_forall in L. by apply L.
  - rewrite <- R3. apply look_same. intros l Hl. apply lookup_app_l. pose proof (i_old _ _ _ HI) as Ho. rewrite Forall_forall in Ho. by apply Ho.
Qed.

Lemma hstep_rel st log vst vlog e : valid_event (plain e) -> hrel st log vst vlog ->
  let '(st', l) := hstep st e in let '(vst', vl) := step vst (plain e) in hrel st' (log ++ l) vst' (vlog ++ vl).
Proof.
  intros Hv H. unfold hstep, step. unfold hrel in H. destruct (h_live st) as [[traces black]|] eqn:El; destruct vst as [f|]; [|done|done|].
  2:{ unfold hrel. rewrite El, !app_nil_r. done. }
  destruct H as [HI HR]. destruct e as [nomap ord n0 n1 s|k|]; cbn [plain].
  - set (hr := if nomap && bool_decide (s_tags s = ∅) then (h_heap st, None) else (h_heap st ++ [s_tags s], Some (length (h_heap st)))).
    assert (Hhr : exists hp r, hr = (hp, r) /\ inv traces hp log /\ rel traces black hp log f vlog /\ ref_ok hp r /\ deref hp (HSpan s r) = s /\
      forall l, r = Some l -> l ∉ sent_refs log /\ forall j u, traces !! j = Some u -> l ∉ refs (ht_spans u)).
    { unfold hr. destruct (nomap && bool_decide (s_tags s = ∅)) eqn:En.
      - apply andb_true_iff in En as [_ En%bool_decide_eq_true]. eexists _, _. split; [done|]. split; [done|]. split; [done|]. split; [by intros ? ?|]. split; [|done].
        destruct s. cbn in *. by subst.
      - eexists _, _. split; [done|]. split; [by apply inv_grow|]. split; [by apply rel_grow|]. split; [intros l [= <-]; rewrite app_length; cbn; lia|]. split.
        + unfold deref. cbn. rewrite lookup_app_r, Nat.sub_diag by done. by destruct s.
        + intros l [= <-]. split.
          * intros Hi. pose proof (i_old _ _ _ HI) as Ho. rewrite Forall_forall in Ho. apply Ho in Hi. lia.
          * intros j u E Hi. destruct (i_ok _ _ _ HI j u E) as [_ L]. rewrite Forall_forall in L. apply L in Hi. lia. }
    destruct Hhr as (hp & r & -> & HI1 & HR1 & Hr & Hd & Hs).
    destruct (h_receive ord n0 n1 (HSpan s r) traces black hp) as [[traces1 hp1] w] eqn:E.
    apply (receive_heap _ _ _ _ _ _ _ (log ++ [HOther (LSpan n0 n1 s)]) f (vlog ++ [LSpan n0 n1 s])) in E as [A B]; [| | |done|].
    + rewrite Hd, <- app_assoc in *. cbn [app] in *. by split.
    + by apply (inv_others _ _ _ [_]).
    + destruct HR1 as (? & ? & Hl). split; [done|]. split; [done|]. by rewrite omap_app, Hl.
    + intros l Hl. rewrite sent_refs_app. cbn. rewrite app_nil_r. by apply Hs.
  - destruct (h_finish_traces k traces black (h_heap st)) as [[[traces1 black1] hp1] l1] eqn:E.
    apply (finish_heap _ _ _ _ log f vlog) in E as (A & f1 & vl1 & -> & B); [|done|done|done]. by split.
  - destruct HR as (_ & _ & Hl). unfold hrel. cbn. split; [|by rewrite omap_app, Hl]. apply (inv_others _ _ _ [_]). by apply (inv_sub traces).
Qed.

Lemma hrun_rel evs : Forall valid_event (map plain evs) -> hrel (hrun evs).1 (hrun evs).2 (run (map plain evs)).1 (run (map plain evs)).2.
Proof.
  induction evs as [|e evs IH] using rev_ind; intros H.
  - cbn. split; [|split; [apply fmap_empty|done]]. split; [done|done|done|apply Forall_nil_2|apply NoDup_nil_2|]. intros l1 l2 l E Hw. symmetry in E. apply app_eq_nil in E as [-> ->]. by apply elem_of_nil in Hw.
  - rewrite map_app in H. apply Forall_app in H as [H1 H2]. cbn in H2. apply Forall_inv in H2. specialize (IH H1).
    unfold hrun, run in *. rewrite map_app, !foldl_app. cbn [map foldl].
    pose proof (hstep_rel _ _ _ _ e H2 IH) as Hs. destruct (hstep _ e) as [st' l], (step _ (plain e)) as [vst' vl]. exact Hs.
Qed.

Lemma hrun_inv evs : Forall valid_event (map plain evs) ->
  omap (look (h_heap (hrun evs).1)) (hrun evs).2 = (run (map plain evs)).2 /\ NoDup (sent_refs (hrun evs).2) /\ quiet (hrun evs).2.
Proof.
  intros H. pose proof (hrun_rel evs H) as R. unfold hrel in R. destruct (h_live (hrun evs).1) as [[traces black]|]; destruct (run (map plain evs)).1; [|done|done|].
  - destruct R as [HI (_ & _ & Hl)]. split; [done|]. split; apply HI.
  - destruct R as [HI Hl]. split; [done|]. split; apply HI.
Qed.

Lemma same evs : Forall valid_event (map plain evs) -> omap (look (h_heap (hrun evs).1)) (hrun evs).2 = (run (map plain evs)).2.
Proof. intros H. by apply hrun_inv. Qed.

Lemma no_write evs l1 l2 t spans l : Forall valid_event (map plain evs) -> (hrun evs).2 = l1 ++ HSent t spans :: l2 -> HWrite l ∈ l2 -> forall s, s ∈ spans -> h_tags s <> Some l.
Proof.
  intros H E Hw s Hs Hl. destruct (hrun_inv evs H) as (_ & _ & Hq). rewrite cons_middle, app_assoc in E. apply (Hq _ _ l E Hw). rewrite sent_refs_app. apply elem_of_app. right.
  unfold sent_refs. cbn. rewrite app_nil_r. apply elem_of_list_omap. by exists s.
Qed.

Lemma exclusive evs : Forall valid_event (map plain evs) -> NoDup (sent_refs (hrun evs).2).
Proof. intros H. by apply hrun_inv. Qed.
