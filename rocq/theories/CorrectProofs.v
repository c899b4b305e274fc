(** Proofs for C31-C33: the traversal of a trace. *)
From Coq Require Import Sorted.
From Verif Require Import Base IdModel SpanModel TreeModel TreeSpec.

(* ---------- one node ---------- *)

Lemma has_timings_spec s : has_timings s = bool_decide (four_timings s).
Proof.
  unfold has_timings, four_timings. destruct (_ && _) eqn:E; symmetry; [apply bool_decide_true|apply bool_decide_false]; lia.
Qed.

Lemma before_2020_spec ts : (to_millis ts <? year2020) = bool_decide (before_2020 ts).
Proof.
  unfold before_2020, to_millis, year2020, millisecond. destruct (Z.ltb_spec (Z.quot ts 1000000) 1577836800000) as [H|H]; symmetry.
  - apply bool_decide_true. pose proof (Z.quot_rem' ts 1000000). destruct (Z.le_gt_cases 0 ts).
    + pose proof (Z.rem_bound_pos ts 1000000). lia.
    + lia.
  - apply bool_decide_false. pose proof (Z.quot_rem' ts 1000000). destruct (Z.le_gt_cases 0 ts).
    + pose proof (Z.rem_bound_pos ts 1000000). lia.
    + pose proof (Z.rem_bound_pos (-ts) 1000000). rewrite Z.rem_opp_l in * by lia. lia.
Qed.

Definition node_start (st : option Z) (c : span) (off : Z) : Z :=
  match st with
  | Some st => if decide (before_2020 (own_start c off)) then st else own_start c off
  | None => own_start c off
  end.

Lemma correct_node_spec c par off : int64_ok (s_ts c) ->
  correct_node c par (wrap64 off) = (retimed c (node_start (s_ts <$> par) c off) (own_duration c), wrap64 (off + skew c)).
Proof.
  intros Hts. unfold correct_node, own_duration, node_start, own_start, skew.
  assert (E0 : (if wrap64 off =? 0 then c else set_ts (wrap64 (s_ts c + wrap64 off)) c) = set_ts (wrap64 (s_ts c + off)) c).
  { rewrite wrap64_add_r. destruct (Z.eqb_spec (wrap64 off) 0) as [E|E]; [|done].
    rewrite <- wrap64_add_r, E, Z.add_0_r, wrap64_id by done. by destruct c. }
  rewrite E0. clear E0. rewrite has_timings_spec. cbn [s_timings set_ts].
  change (four_timings (set_ts (wrap64 (s_ts c + off)) c)) with (four_timings c).
  rewrite !wrap64_add_r. unfold middle, screw. destruct (decide (four_timings c)) as [H|H].
  - rewrite (bool_decide_true _ H). rewrite (wrap64_add_l off).
    replace (tSR (s_timings c) + tSS (s_timings c)) with (tSR (s_timings c) + tSS (s_timings c)) by lia.
    rewrite (Z.add_comm (tCR (s_timings c)) (tCS (s_timings c))). rewrite wrap64_add_r.
    f_equal. destruct par as [p|]; cbn [fmap option_fmap option_map]; [|done]. rewrite before_2020_spec. cbn [s_ts set_dur set_ts].
    destruct (decide _) as [B|B]; [by rewrite (bool_decide_true _ B)|by rewrite (bool_decide_false _ B)].
  - rewrite (bool_decide_false _ H). rewrite Z.add_0_r.
    f_equal. destruct par as [p|]; cbn [fmap option_fmap option_map]; [|by destruct c]. rewrite before_2020_spec. cbn [s_ts set_dur set_ts].
    destruct (decide _) as [B|B]; [rewrite (bool_decide_true _ B)|rewrite (bool_decide_false _ B)]; by destruct c.
Qed.

(* ---------- indices ---------- *)

Lemma indices_gen (test : span -> bool) (spans : list span) k i :
  i ∈ map fst (List.filter (fun p => test p.2) (imap (fun j x => ((k + j)%nat, x)) spans)) <-> (k <= i)%nat /\ exists s, spans !! (i - k)%nat = Some s /\ test s = true.
Proof.
  revert k. induction spans as [|s spans IH]; intros k.
  - cbn. split; [intros H; by apply elem_of_nil in H|]. intros (_ & s & H & _). by rewrite lookup_nil in H.
  - rewrite imap_cons. cbn [List.filter snd]. rewrite Nat.add_0_r.
    assert (E : imap ((fun j x => ((k + j)%nat, x)) ∘ S) spans = imap (fun j x => ((S k + j)%nat, x)) spans) by (apply imap_ext; intros; cbn; f_equal; lia).
    rewrite E. clear E. specialize (IH (S k)).
    assert (Hrest : i ∈ map fst (List.filter (fun p => test p.2) (imap (fun j x => ((S k + j)%nat, x)) spans)) <->
      (k < i)%nat /\ exists s', (s :: spans) !! (i - k)%nat = Some s' /\ test s' = true).
    { rewrite IH. split; intros (Hk & s' & H & Ht); (split; [lia|]); exists s'; (split; [|done]).
      - replace (i - k)%nat with (S (i - S k)) by lia. done.
      - replace (i - k)%nat with (S (i - S k)) in H by lia. done. }
    destruct (test s) eqn:Ets.
    + cbn [map fst]. rewrite elem_of_cons, Hrest. split.
      * intros [->|[Hk H]]; [split; [lia|]; exists s; rewrite Nat.sub_diag; done|]. split; [lia|done].
      * intros [Hk H]. destruct (decide (i = k)) as [->|]; [by left|]. right. split; [lia|done].
    + rewrite Hrest. split; intros [Hk H]; (split; [|done]); [lia|]. destruct (decide (i = k)) as [->|]; [|lia].
      destruct H as (s' & H & Ht). rewrite Nat.sub_diag in H. cbn in H. congruence.
Qed.

Lemma elem_of_indices test spans i : i ∈ indices test spans <-> exists s, spans !! i = Some s /\ test s = true.
Proof.
  unfold indices. rewrite (imap_ext pair (fun j x => ((0 + j)%nat, x)) spans) by done. rewrite indices_gen. rewrite Nat.sub_0_r.
  split; [tauto|]. split; [lia|done].
Qed.

Lemma NoDup_indices test spans : NoDup (indices test spans).
Proof.
  unfold indices. assert (H : forall k, NoDup (map fst (List.filter (fun p => test p.2) (imap (fun j x => ((k + j)%nat, x)) spans)))).
  2:{ by rewrite (imap_ext pair (fun j x => ((0 + j)%nat, x)) spans) by done. }
  induction spans as [|s spans IH]; intros k; [constructor|].
  rewrite imap_cons. cbn [List.filter snd]. rewrite Nat.add_0_r.
  assert (E : imap ((fun j x => ((k + j)%nat, x)) ∘ S) spans = imap (fun j x => ((S k + j)%nat, x)) spans) by (apply imap_ext; intros; cbn; f_equal; lia).
  rewrite E. destruct (test s); [|apply IH]. cbn [map fst]. apply NoDup_cons. split; [|apply IH].
  intros Hin. apply indices_gen in Hin as [Hin _]. lia.
Qed.

Definition skel (spans : list span) : list (Z * Z) := map (fun s => (s_id s, s_parent s)) spans.

Lemma skel_lookup a b i s : skel a = skel b -> a !! i = Some s -> exists s', b !! i = Some s' /\ s_id s' = s_id s /\ s_parent s' = s_parent s.
Proof.
  intros E H. assert (Hs : skel b !! i = Some (s_id s, s_parent s)).
  { rewrite <- E. unfold skel. change (map ?f a) with (f <$> a). by rewrite list_lookup_fmap, H. }
  unfold skel in Hs. change (map ?f b) with (f <$> b) in Hs. rewrite list_lookup_fmap in Hs.
  destruct (b !! i) as [s'|]; [|done]. injection Hs as H1 H2. by exists s'.
Qed.

Lemma indices_skel f a b : skel a = skel b -> (forall s s', s_id s = s_id s' -> s_parent s = s_parent s' -> f s = f s') -> indices f a = indices f b.
Proof.
  intros E Hf. unfold indices.
  assert (H : forall k, map fst (List.filter (fun p => f p.2) (imap (fun j x => ((k + j)%nat, x)) a)) = map fst (List.filter (fun p => f p.2) (imap (fun j x => ((k + j)%nat, x)) b))).
  2:{ rewrite !(imap_ext pair (fun j x => ((0 + j)%nat, x))) by done. apply H. }
  revert b E. induction a as [|s a IH]; intros [|s' b] E k; try done. cbn in E. injection E as E1 E2 E.
  rewrite !imap_cons. cbn [List.filter snd]. rewrite (Hf s s') by done.
  assert (E' : forall l, imap ((fun j (x : span) => ((k + j)%nat, x)) ∘ S) l = imap (fun j x => ((S k + j)%nat, x)) l) by (intros; apply imap_ext; intros; cbn; f_equal; lia).
  rewrite !E'. destruct (f s'); cbn [map fst]; [f_equal|]; by apply IH.
Qed.

Lemma children_skel id a b : skel a = skel b -> children_of id a = children_of id b.
Proof. intros E. apply indices_skel; [done|]. intros s s' H1 H2. unfold is_root. by rewrite H1, H2. Qed.

Lemma skel_insert i s s' spans : spans !! i = Some s -> s_id s' = s_id s -> s_parent s' = s_parent s -> skel (<[i := s']> spans) = skel spans.
Proof.
  intros H E1 E2. unfold skel. change (map ?f (<[i:=s']> spans)) with (f <$> <[i:=s']> spans). rewrite list_fmap_insert.
  apply list_insert_id. rewrite list_lookup_fmap, H. cbn. by rewrite E1, E2.
Qed.

Lemma skel_length a b : skel a = skel b -> length a = length b.
Proof. intros E. apply (f_equal length) in E. unfold skel in E. by rewrite !map_length in E. Qed.

(* ---------- paths ---------- *)

Lemma last_cons {A} (a d : A) l : List.last (a :: l) d = List.last l a.
Proof. revert a d. induction l as [|b l IH]; intros a d; [done|]. change (List.last (a :: b :: l) d) with (List.last (b :: l) d). by rewrite !IH. Qed.
Lemma last_app1 {A} (a d : A) l : List.last (l ++ [a]) d = a.
Proof. revert d. induction l as [|b l IH]; intros d; [done|]. rewrite <- app_comm_cons, last_cons. apply IH. Qed.

Section paths.
Context (spans : list span) (root : span).
Hypothesis Huniq : NoDup (ids spans).
Hypothesis Hroot : root_candidate spans root.

Lemma same_id s s' : s ∈ spans -> s' ∈ spans -> s_id s = s_id s' -> s = s'.
Proof.
  intros Hs Hs' E. apply elem_of_list_lookup in Hs as [i Hi], Hs' as [j Hj].
  assert (Hl : forall k x, spans !! k = Some x -> ids spans !! k = Some (s_id x)).
  { intros k x Hk. unfold ids. change (map s_id spans) with (s_id <$> spans). by rewrite list_lookup_fmap, Hk. }
  assert (i = j) as ->; [|congruence]. eapply NoDup_lookup; [exact Huniq|by apply Hl|rewrite E; by apply Hl].
Qed.

Lemma same_index i j s : spans !! i = Some s -> spans !! j = Some s -> i = j.
Proof.
  intros Hi Hj. assert (Hl : forall k x, spans !! k = Some x -> ids spans !! k = Some (s_id x)).
  { intros k x Hk. unfold ids. change (map s_id spans) with (s_id <$> spans). by rewrite list_lookup_fmap, Hk. }
  eapply NoDup_lookup; [exact Huniq|by apply Hl|by apply Hl].
Qed.

Lemma child_unique p p' c : p ∈ spans -> p' ∈ spans -> child spans p c -> child spans p' c -> p = p'.
Proof. intros Hp Hp' (_ & E & _) (_ & E' & _). apply same_id; [done..|congruence]. Qed.

Lemma root_no_parent p : p ∈ spans -> ~ child spans p root.
Proof.
  intros Hp (_ & E & Hn). destruct Hroot as (_ & [H|H]); [done|]. apply H. rewrite E. by apply elem_of_list_fmap_1.
Qed.

Lemma descends_snoc p l c : descends spans p (l ++ [c]) <-> descends spans p l /\ child spans (List.last l p) c.
Proof.
  revert p. induction l as [|a l IH]; intros p.
  - cbn. tauto.
  - rewrite <- app_comm_cons. cbn [descends]. rewrite IH, last_cons. tauto.
Qed.

Lemma descends_app p l1 l2 : descends spans p (l1 ++ l2) <-> descends spans p l1 /\ descends spans (List.last l1 p) l2.
Proof.
  revert p. induction l1 as [|a l IH]; intros p.
  - cbn. tauto.
  - rewrite <- app_comm_cons. cbn [descends]. rewrite IH, last_cons. tauto.
Qed.

Lemma descends_in p l : p ∈ spans -> descends spans p l -> List.last l p ∈ spans.
Proof.
  intros Hp Hl. destruct l as [|a l _] using rev_ind; [done|]. apply descends_snoc in Hl as [_ [H _]]. by rewrite last_app1.
Qed.

(** The path from the root to a span is unique. *)
Lemma path_unique l l' : descends spans root l -> descends spans root l' -> List.last l root = List.last l' root -> l = l'.
Proof.
  assert (Hin : root ∈ spans) by (by destruct Hroot).
  revert l'. induction l as [|a l IH] using rev_ind; intros l' Hl Hl' E.
  - destruct l' as [|b l' _] using rev_ind; [done|]. apply descends_snoc in Hl' as [Hl' Hc]. rewrite last_app1 in E. cbn in E. subst b.
    apply root_no_parent in Hc; [done|]. by apply descends_in.
  - rewrite last_app1 in E. apply descends_snoc in Hl as [Hl Hc].
    destruct l' as [|b l' _] using rev_ind.
    + cbn in E. subst a. apply root_no_parent in Hc; [done|]. by apply descends_in.
    + apply descends_snoc in Hl' as [Hl' Hc']. rewrite last_app1 in E. subst b. f_equal. apply IH; [done..|].
      apply (child_unique _ _ a); [by apply descends_in..|done|done].
Qed.

Lemma below_unique q c l l' : descends spans root q -> c = List.last q root -> descends spans c l -> descends spans c l' ->
  List.last l c = List.last l' c -> l = l'.
Proof.
  intros Hq -> Hl Hl' E. assert (Ha : forall l, List.last (q ++ l) root = List.last l (List.last q root)).
  { clear. revert root. induction q as [|a q IH]; intros r l; [done|]. rewrite <- app_comm_cons, !last_cons. apply IH. }
  apply (app_inv_head q). apply path_unique; [by apply descends_app..|]. by rewrite !Ha.
Qed.

Lemma path_NoDup l : descends spans root l -> NoDup (root :: l).
Proof.
  intros Hl. assert (H : forall l1 a l2, root :: l = l1 ++ a :: l2 -> a ∉ l1).
  { intros l1 a l2 E Hin. apply elem_of_list_split in Hin as (l3 & l4 & ->). rewrite <- app_assoc in E.
    (* two positions with the same span give two paths *)
    assert (Hp : forall k1 k2, root :: l = k1 ++ a :: k2 -> exists m, descends spans root m /\ length m = length k1 /\ List.last m root = a).
    { intros k1 k2 Ek. destruct k1 as [|x k1]; injection Ek as -> Ek; [by exists []|]. exists (k1 ++ [a]). rewrite last_app1.
      split; [|split; [rewrite app_length; cbn; lia|done]]. rewrite Ek in Hl. replace (k1 ++ a :: k2) with ((k1 ++ [a]) ++ k2) in Hl by (by rewrite <- app_assoc).
      by apply descends_app in Hl as [Hl _]. }
    destruct (Hp l3 (l4 ++ a :: l2)) as (m1 & M1 & M2 & M3). { exact E. }
    destruct (Hp (l3 ++ a :: l4) l2) as (m2 & N1 & N2 & N3). { rewrite E, <- app_assoc. done. }
    assert (m1 = m2) as -> by (apply path_unique; congruence). rewrite M2, app_length in N2. cbn in N2. lia. }
  revert H. generalize (root :: l). clear. intros l H. induction l as [|a l IH] using rev_ind; [constructor|].
  apply NoDup_app. split; [|split; [|apply NoDup_singleton]].
  - apply IH. intros l1 b l2 E. apply (H l1 b (l2 ++ [a])). rewrite E, <- app_assoc. done.
  - intros x Hx. rewrite elem_of_list_singleton. intros ->. by apply (H l a []) in Hx.
Qed.

Lemma path_short l : descends spans root l -> (length l < length spans)%nat.
Proof.
  intros Hl. assert (H : (length (root :: l) <= length spans)%nat); [|done].
  apply submseteq_length, NoDup_submseteq; [by apply path_NoDup|].
  intros x Hx. apply elem_of_cons in Hx as [->|Hx]; [by destruct Hroot|].
  revert Hl Hx. generalize root. clear. induction l as [|a l IH]; intros r Hl Hx; [by apply elem_of_nil in Hx|].
  cbn in Hl. destruct Hl as [[Ha _] Hl]. apply elem_of_cons in Hx as [->|Hx]; [done|]. by apply IH with a.
Qed.

(* ---------- the traversal ---------- *)

Hypothesis Hok : Forall (fun s => int64_ok (s_ts s)) spans.

(** Index [i] holds the span reached from [c] by [l]. *)
Definition below (c : span) (l : list span) (i : nat) : Prop := descends spans c l /\ spans !! i = Some (List.last l c).

Definition final (st : option Z) (off : Z) (c : span) (l : list span) : span :=
  retimed (List.last l c) (path_start (node_start st c off) (off + skew c) l) (own_duration (List.last l c)).

Lemma children_lookup p mem i : p ∈ spans -> skel mem = skel spans ->
  (i ∈ children_of (s_id p) mem <-> exists c, spans !! i = Some c /\ child spans p c).
Proof.
  intros Hp E. rewrite (children_skel _ mem spans) by done. unfold children_of. rewrite elem_of_indices. unfold is_root.
  split; intros (c & Hc & H); exists c; (split; [done|]).
  - split; [by eapply elem_of_list_lookup_2|]. lia.
  - destruct H as (_ & H1 & H2). lia.
Qed.

Definition go_spec (cs : list nat) (st' off' : Z) (mem mem' : list span) (seen' : list nat) : Prop :=
  skel mem' = skel spans /\
  (forall i, (forall ci c l, ci ∈ cs -> spans !! ci = Some c -> ~ below c l i) -> mem' !! i = mem !! i) /\
  (forall ci c l i, ci ∈ cs -> spans !! ci = Some c -> below c l i -> mem' !! i = Some (final (Some st') off' c l)) /\
  NoDup seen' /\
  (forall i, i ∈ seen' <-> exists ci c l, ci ∈ cs /\ spans !! ci = Some c /\ below c l i).

Lemma correct_spec fuel : forall q ni c mem parent st off,
  descends spans root q -> c = List.last q root -> (length spans <= length q + fuel)%nat ->
  spans !! ni = Some c -> skel mem = skel spans ->
  (forall l i, below c l i -> mem !! i = spans !! i) ->
  st = (s_ts <$> (parent ≫= fun p => mem !! p)) ->
  exists mem' seen, correct fuel mem ni parent (wrap64 off) = Some (mem', seen) /\
    skel mem' = skel spans /\
    (forall i, (forall l, ~ below c l i) -> mem' !! i = mem !! i) /\
    (forall l i, below c l i -> mem' !! i = Some (final st off c l)) /\
    NoDup seen /\ (forall i, i ∈ seen <-> exists l, below c l i).
Proof.
  induction fuel as [|fuel IH]; intros q ni c mem parent st off Hq Ec Hf Hni Hsk Horig Hst.
  { pose proof (path_short _ Hq). lia. }
  assert (Hc : c ∈ spans) by (by eapply elem_of_list_lookup_2).
  assert (Hbc : below c [] ni) by done.
  cbn [correct]. rewrite (Horig _ _ Hbc), Hni. 
  rewrite correct_node_spec by (rewrite Forall_forall in Hok; by apply Hok). rewrite <- Hst.
  set (c' := retimed c (node_start st c off) (own_duration c)).
  set (mem1 := <[ni := c']> mem).
  assert (Hmni : mem !! ni = Some c) by (by rewrite (Horig _ _ Hbc)).
  assert (Hsk1 : skel mem1 = skel spans). { unfold mem1. rewrite (skel_insert _ c) by done. done. }
  assert (Hm1 : mem1 !! ni = Some c') by (apply list_lookup_insert; by eapply lookup_lt_Some).
  assert (Hm1' : forall i, i <> ni -> mem1 !! i = mem !! i) by (intros; by apply list_lookup_insert_ne).
  change (s_id c') with (s_id c).
  set (go := fix go (children : list nat) (mem : list span) (seen : list nat) : option (list span * list nat) := _).
  (* the loop over the children *)
  assert (Hgo : forall cs mem2 seen, NoDup cs -> (forall ci, ci ∈ cs -> exists d, spans !! ci = Some d /\ child spans c d) ->
    skel mem2 = skel spans -> mem2 !! ni = Some c' ->
    (forall ci d l i, ci ∈ cs -> spans !! ci = Some d -> below d l i -> mem2 !! i = spans !! i) ->
    exists mem' seen', go cs mem2 seen = Some (mem', seen ++ seen') /\ go_spec cs (node_start st c off) (off + skew c) mem2 mem' seen').
  { induction cs as [|ci cs IHcs]; intros mem2 seen Hnd Hch Hsk2 Hm2 Horig2.
    - exists mem2, []. split; [cbn; by rewrite app_nil_r|]. split; [done|]. split; [done|]. split; [|split; [constructor|]].
      + intros ci d l i Hin. by apply elem_of_nil in Hin.
      + intros i. split; [intros Hin; by apply elem_of_nil in Hin|]. intros (ci & d & l & Hin & _). by apply elem_of_nil in Hin.
    - destruct (Hch ci (elem_of_list_here _ _)) as (d & Hd & Hcd). apply NoDup_cons in Hnd as [Hnin Hnd].
      destruct (IH (q ++ [d]) ci d mem2 (Some ni) (Some (node_start st c off)) (off + skew c)) as (mem3 & seen3 & E3 & Hsk3 & Hout3 & Hin3 & Hnd3 & Hs3).
      + apply descends_snoc. rewrite <- Ec. done.
      + by rewrite last_app1.
      + rewrite app_length. cbn. lia.
      + done.
      + done.
      + intros l i Hl. apply (Horig2 ci d l i); [apply elem_of_list_here|done|done].
      + cbn. rewrite Hm2. done.
      + (* other children are not touched *)
        assert (Hdisj : forall cj e l l' i, cj ∈ cs -> spans !! cj = Some e -> below e l i -> ~ below d l' i).
        { intros cj e l l' i Hj He [Hl Hli] [Hl' Hli']. destruct (Hch cj (elem_of_list_further _ _ _ Hj)) as (e' & He' & Hce).
          assert (e' = e) as -> by congruence. assert (E : e :: l = d :: l').
          { apply (below_unique q c); [done|done|by split|by split|]. rewrite !last_cons. congruence. }
          injection E as -> ->. assert (cj = ci) as -> by (by eapply same_index). done. }
        assert (Hnode : forall l, ~ below d l ni).
        { intros l [Hl Hli]. assert (E : d :: l = []); [|done]. apply (below_unique q c); [done|done|by split|done|]. rewrite last_cons. cbn. congruence. }
        destruct (IHcs mem3 (seen ++ seen3)) as (mem4 & seen4 & E4 & Hsk4 & Hout4 & Hin4 & Hnd4 & Hs4).
        * done.
        * intros cj Hj. apply Hch. by apply elem_of_list_further.
        * done.
        * rewrite Hout3; done.
        * intros cj e l i Hj He Hl. rewrite Hout3; [apply (Horig2 cj e l i); [by apply elem_of_list_further|done|done]|].
          intros l' Hl'. by apply (Hdisj cj e l l' i).
        * exists mem4, (seen3 ++ seen4). split.
          { cbn [go]. fold go. rewrite E3, E4. by rewrite <- app_assoc. }
          split; [done|]. split; [|split; [|split]].
          { intros i Hi. rewrite Hout4, Hout3; [done| |].
            - intros l Hl. apply (Hi ci d l); [apply elem_of_list_here|done|done].
            - intros cj e l Hj He Hl. apply (Hi cj e l); [by apply elem_of_list_further|done|done]. }
          { intros cj e l i Hj He Hl. apply elem_of_cons in Hj as [->|Hj].
            - assert (e = d) as -> by congruence. rewrite Hout4; [by apply Hin3|].
              intros cj e l' Hj He' Hl'. by apply (Hdisj cj e l' l i).
            - by apply (Hin4 cj e). }
          { apply NoDup_app. split; [done|]. split; [|done]. intros i Hi Hi'. apply Hs3 in Hi as [l Hl].
            apply Hs4 in Hi' as (cj & e & l' & Hj & He & Hl'). by apply (Hdisj cj e l' l i). }
          { intros i. rewrite elem_of_app, Hs3, Hs4. split.
            - intros [[l Hl]|(cj & e & l & Hj & He & Hl)]; [exists ci, d, l|exists cj, e, l].
              + split; [apply elem_of_list_here|done]. + split; [by apply elem_of_list_further|done].
            - intros (cj & e & l & Hj & He & Hl). apply elem_of_cons in Hj as [->|Hj]; [left; exists l|right; exists cj, e, l].
              + by assert (e = d) as <- by congruence. + done. } }
  destruct (Hgo (children_of (s_id c) mem1) mem1 [ni]) as (mem' & seen' & E & Hsk' & Hout' & Hin' & Hnd' & Hs').
  { apply NoDup_indices. }
  { intros ci Hci. by apply children_lookup in Hci. }
  { done. }
  { done. }
  { intros ci d l i Hci Hd Hl. apply children_lookup in Hci as (d' & Hd' & Hcd); [|done|done]. assert (d' = d) as -> by congruence.
    destruct Hl as [Hl Hli]. rewrite Hm1'.
    - apply (Horig (d :: l)). split; [by split|]. by rewrite last_cons.
    - intros ->. assert (E : d :: l = []); [|done]. apply (below_unique q c); [done|done|by split|done|]. rewrite last_cons. cbn. congruence. }
  exists mem', ([ni] ++ seen'). split; [done|]. split; [done|].
  (* a path below [c] is empty or starts with a child *)
  assert (Hcases : forall l i, below c l i -> (l = [] /\ i = ni) \/ exists ci d l', l = d :: l' /\ ci ∈ children_of (s_id c) mem1 /\ spans !! ci = Some d /\ below d l' i).
  { intros [|d l] i [Hl Hi]; [left; split; [done|]; by eapply same_index|]. right.
    cbn in Hl. destruct Hl as [Hcd Hl]. assert (Hd : d ∈ spans) by (by destruct Hcd). apply elem_of_list_lookup in Hd as [ci Hci].
    exists ci, d, l. split; [done|]. split; [apply children_lookup; [done|done|eauto]|]. split; [done|]. split; [done|]. by rewrite last_cons in Hi. }
  assert (Hback : forall ci d l i, ci ∈ children_of (s_id c) mem1 -> spans !! ci = Some d -> below d l i -> below c (d :: l) i /\ i <> ni).
  { intros ci d l i Hci Hd [Hl Hi]. apply children_lookup in Hci as (d' & Hd' & Hcd); [|done|done]. assert (d' = d) as -> by congruence.
    split; [split; [by split|by rewrite last_cons]|]. intros ->. assert (E' : d :: l = []); [|done].
    apply (below_unique q c); [done|done|by split|done|]. rewrite last_cons. cbn. congruence. }
  split; [|split; [|split]].
  - intros i Hi. rewrite Hout'.
    + apply Hm1'. intros ->. by apply (Hi []).
    + intros ci d l Hci Hd Hl. destruct (Hback ci d l i Hci Hd Hl) as [Hb _]. by apply Hi in Hb.
  - intros l i Hl. destruct (Hcases l i Hl) as [[-> ->]|(ci & d & l' & -> & Hci & Hd & Hl')].
    + rewrite Hout'; [done|]. intros ci d l' Hci Hd Hl'. by destruct (Hback ci d l' ni Hci Hd Hl') as [_ Hb].
    + rewrite (Hin' ci d l' i Hci Hd Hl'). unfold final. rewrite last_cons. done.
  - apply NoDup_app. split; [apply NoDup_singleton|]. split; [|done]. intros x Hx Hx'. rewrite elem_of_list_singleton in Hx. subst x.
    apply Hs' in Hx' as (ci & d & l & Hci & Hd & Hl). by destruct (Hback ci d l ni Hci Hd Hl) as [_ Hb].
  - intros i. rewrite elem_of_app, elem_of_list_singleton, Hs'. split.
    + intros [->|(ci & d & l & Hci & Hd & Hl)]; [by exists []|]. exists (d :: l). by destruct (Hback ci d l i Hci Hd Hl).
    + intros [l Hl]. destruct (Hcases l i Hl) as [[-> ->]|(ci & d & l' & -> & Hci & Hd & Hl')]; [by left|]. right. by exists ci, d, l'.
Qed.

End paths.
