(** Proofs about the shape of emitted and delivered traces (C77). *)
From Verif Require Import Base IdModel SpanModel TreeModel TreeSpec TreeProofs CorrectProofs FinishModel FinishSpec FinishProofs FinishRun FinishTheorems FinishWitness ForwardModel ForwardSpec ConnectSpec.

Global Instance timings_eq_dec : EqDecision timings.
Proof. solve_decision. Defined.
Global Instance span_eq_dec : EqDecision span.
Proof. solve_decision. Defined.

(* ---------- going up ---------- *)

Lemma last_app {A} (l1 l2 : list A) d : List.last (l1 ++ l2) d = List.last l2 (List.last l1 d).
Proof. revert d. induction l1 as [|a l IH]; intros d; [done|]. rewrite <- app_comm_cons, !last_cons. apply IH. Qed.

Lemma not_NoDup_split {A} `{EqDecision A} (l : list A) : ~ NoDup l -> exists l1 y l2 l3, l = l1 ++ y :: l2 ++ y :: l3.
Proof.
  induction l as [|a l IH]; intros H; [by destruct H; constructor|].
  destruct (decide (a ∈ l)) as [Ha|Ha].
  - apply elem_of_list_split in Ha as (l2 & l3 & ->). by exists [], a, l2, l3.
  - destruct IH as (l1 & y & l2 & l3 & ->); [|by exists (a :: l1), y, l2, l3]. intros Hl. apply H. by constructor.
Qed.

Lemma up spans s : s ∈ spans -> forall n,
  (exists r, root_candidate spans r /\ connected spans r s) \/
  (exists x l, x ∈ spans /\ descends spans x l /\ List.last l x = s /\ length l = n).
Proof.
  intros Hs. induction n as [|n [IH|(x & l & Hx & Hl & E & En)]]; [right; by exists s, []|by left|].
  destruct (decide (s_parent x = s_id x)) as [Hr|Hr]; [left; exists x; split; [split; [done|by left]|by exists l]|].
  destruct (decide (s_parent x ∈ ids spans)) as [Hp|Hp]; [|left; exists x; split; [split; [done|by right]|by exists l]].
  right. apply elem_of_list_fmap in Hp as (p & Ep & Hp). exists p, (x :: l). split; [done|]. cbn [descends]. split; [done|].
  rewrite last_cons. split; [done|]. cbn. lia.
Qed.

Lemma descends_all spans x l : x ∈ spans -> descends spans x l -> forall y, y ∈ x :: l -> y ∈ spans.
Proof.
  revert x. induction l as [|a l IH]; intros x Hx Hl y Hy.
  - apply elem_of_list_singleton in Hy. by subst.
  - cbn in Hl. destruct Hl as [[Ha _] Hl]. apply elem_of_cons in Hy as [->|Hy]; [done|]. by apply (IH a).
Qed.

Lemma descends_from spans x l l1 y l2 : descends spans x l -> x :: l = l1 ++ y :: l2 -> descends spans y l2 /\ List.last l2 y = List.last l x.
Proof.
  intros Hl E. destruct l1 as [|b l1]; injection E as -> E; [by rewrite E in *|]. subst l.
  replace (l1 ++ y :: l2) with ((l1 ++ [y]) ++ l2) in * by (by rewrite <- app_assoc). apply descends_app in Hl as [_ Hl]. rewrite last_app1 in Hl.
  split; [done|]. clear. revert b. induction l1 as [|a l1 IH]; intros b; cbn [app]; rewrite !last_cons; [done|]. apply IH.
Qed.

Lemma connected_or_circular spans s : s ∈ spans -> (exists r, root_candidate spans r /\ connected spans r s) \/ circular spans s.
Proof.
  intros Hs. destruct (up spans s Hs (length spans)) as [H|(x & l & Hx & Hl & E & En)]; [by left|right].
  destruct (not_NoDup_split (x :: l)) as (l1 & y & l2 & l3 & Ey).
  { intros Hn. pose proof (descends_all spans x l Hx Hl) as Hi. assert (H : (length (x :: l) <= length spans)%nat) by (apply submseteq_length, NoDup_submseteq; done).
    cbn in H. lia. }
  destruct (descends_from spans x l l1 y (l2 ++ y :: l3) Hl Ey) as [Hd El].
  exists y, (l2 ++ [y]). split; [eapply descends_all; [done|done|]; rewrite Ey; set_solver|]. split; [by destruct l2|].
  replace (l2 ++ y :: l3) with ((l2 ++ [y]) ++ l3) in Hd, El by (by rewrite <- app_assoc). apply descends_app in Hd as [Hd Hd'].
  rewrite last_app1 in Hd' |- *. split; [done|]. split; [done|]. exists l3. split; [done|].
  rewrite last_app, last_app1 in El. congruence.
Qed.

Lemma circular_not spans root s : NoDup (ids spans) -> root_candidate spans root -> connected spans root s -> ~ circular spans s.
Proof.
  intros Hn Hr (p & Hp & Ep) (x & l & Hx & Hne & Hl & El & q & Hq & Eq).
  assert (Hup : forall q z, x ∈ spans -> descends spans x q -> List.last q x = z -> connected spans root z -> connected spans root x).
  { clear -Hn Hr. induction q as [|a q IH] using rev_ind; intros z Hx Hq Ez Hc; [cbn in Ez; by subst|].
    apply descends_snoc in Hq as [Hq Hc']. rewrite last_app1 in Ez. subst a. pose proof (descends_in spans x q Hx Hq) as Hin.
    apply (IH (List.last q x)); [done..|]. destruct Hc as (p & Hp & Ep). destruct p as [|b p _] using rev_ind.
    - cbn in Ep. subst z. by apply (root_no_parent spans root Hr) in Hc'.
    - apply descends_snoc in Hp as [Hp Hb]. rewrite last_app1 in Ep. subst b. exists p. split; [done|].
      apply (child_unique spans Hn _ _ z); [|done..]. apply descends_in; [|done]. by destruct Hr. }
  destruct (Hup q s Hx Hq Eq) as (m & Hm & Em); [by exists p|].
  assert (E : m = m ++ l); [|apply (f_equal length) in E; rewrite app_length in E; destruct l; [done|cbn in E; lia]].
  apply (path_unique spans root Hn Hr); [done| |].
  - apply descends_app. split; [done|]. by rewrite Em.
  - by rewrite last_app, Em, El.
Qed.

(** A rank that decreases from child to parent excludes circles. *)
Lemma ranked_path spans (rank : span -> Z) x l : (forall p c, p ∈ spans -> child spans p c -> rank p < rank c) ->
  x ∈ spans -> descends spans x l -> rank x <= rank (List.last l x) /\ (l <> [] -> rank x < rank (List.last l x)).
Proof.
  intros Hrk. revert x. induction l as [|a l IH]; intros x Hx Hl; [cbn; split; [lia|done]|]. cbn [descends] in Hl. destruct Hl as [Ha Hl].
  rewrite last_cons. pose proof (Hrk x a Hx Ha). destruct Ha as [Ha _]. destruct (IH a Ha Hl) as [H1 _]. split; lia.
Qed.

Lemma ranked_not_circular spans (rank : span -> Z) s : (forall p c, p ∈ spans -> child spans p c -> rank p < rank c) -> ~ circular spans s.
Proof.
  intros Hrk (x & l & Hx & Hne & Hl & El & _). destruct (ranked_path spans rank x l Hrk Hx Hl) as [_ H]. specialize (H Hne). rewrite El in H. lia.
Qed.

(* ---------- candidates only depend on ids and parents ---------- *)

Definition same_ids (a b : span) : Prop := s_id b = s_id a /\ s_parent b = s_parent a.

Lemma same_ids_ids l l' : Forall2 same_ids l l' -> ids l' = ids l.
Proof. unfold ids. induction 1 as [|a b l l' [E _] _ IH]; [done|]. cbn. by rewrite E, IH. Qed.

Lemma one_root_transfer l l' root : NoDup (ids l) -> Forall2 same_ids l l' -> one_root l root -> exists root', same_ids root root' /\ one_root l' root'.
Proof.
  intros Hn HF [[Hin Hr] Hu]. pose proof (same_ids_ids _ _ HF) as Ei.
  apply elem_of_list_lookup in Hin as [i Hi]. destruct (Forall2_lookup_l _ _ _ _ _ HF Hi) as (root' & Hi' & E1 & E2).
  exists root'. split; [done|]. split.
  - split; [by eapply elem_of_list_lookup_2|]. rewrite E1, E2, Ei. done.
  - intros r [Hr1 Hr2]. apply elem_of_list_lookup in Hr1 as [j Hj]. destruct (Forall2_lookup_r _ _ _ _ _ HF Hj) as (x & Hx & F1 & F2).
    assert (x = root) as ->.
    { apply Hu. split; [by eapply elem_of_list_lookup_2|]. rewrite <- F1, <- F2, <- Ei. done. }
    assert (Ej : i = j) by (eapply same_index; [exact Hn|done|done]). subst j. congruence.
Qed.

Lemma emission_one_root t spans out : emission t spans out -> NoDup (ids out) -> exists root, one_root out root.
Proof.
  intros (all & root & _ & Hr & Hu & HF & _) Hn.
  assert (HF' : Forall2 same_ids all out) by (eapply Forall2_impl; [exact HF|]; intros a b (st & du & ->); by split).
  rewrite (same_ids_ids _ _ HF') in Hn. destruct (one_root_transfer all out root Hn HF') as (root' & _ & H); [done|by exists root'].
Qed.

(* ---------- C77 ---------- *)

Lemma emitted_tree evs l1 t out l2 : Forall valid_event evs -> (run evs).2 = l1 ++ LOut t (Emitted out) :: l2 ->
  exists root, one_root out root /\
    forall s, s ∈ out -> (connected out root s /\ ~ circular out s) \/ (circular out s /\ ~ connected out root s).
Proof.
  intros Hv E. destruct (emitted_trace _ _ _ _ _ Hv E) as (_ & Hn & _). destruct (emitted_is _ _ _ _ _ Hv E) as [_ He].
  destruct (emission_one_root _ _ _ He Hn) as (root & Hr & Hu). exists root. split; [done|]. intros s Hs.
  destruct (connected_or_circular out s Hs) as [(r & Hr' & Hc)|Hc].
  - left. rewrite (Hu r Hr') in Hc. split; [done|]. by apply circular_not with root.
  - right. split; [done|]. intros Hc'. by apply (circular_not out root s Hn Hr Hc').
Qed.

Lemma emitted_acyclic evs l1 t out l2 (rank : span -> Z) : Forall valid_event evs -> (run evs).2 = l1 ++ LOut t (Emitted out) :: l2 ->
  (forall p c, p ∈ out -> child out p c -> rank p < rank c) ->
  exists root, one_root out root /\ forall s, s ∈ out -> connected out root s.
Proof.
  intros Hv E Hrk. destruct (emitted_tree _ _ _ _ _ Hv E) as (root & Hr & H). exists root. split; [done|]. intros s Hs.
  destruct (H s Hs) as [[Hc _]|[Hc _]]; [done|]. by apply ranked_not_circular with (rank := rank) in Hc.
Qed.

Lemma converts_keeps {S} (conv : converter S) s l s' l' : keeps_ids conv -> converts conv s l s' l' ->
  Forall (fun x => s_id x <> 0 /\ s_trace x <> 0) l -> Forall2 same_ids l l'.
Proof.
  intros Hk H. induction H as [|s x l s1 c s2 l' E _ _ _ IH|s x l s1 c err s2 l' E Hd _ IH]; intros HF; [constructor| |].
  - constructor; [|apply IH; by inversion HF]. destruct (Hk s x) as (? & ? & E' & ? & ? & _). rewrite E in E'. injection E' as _ <-. done.
  - exfalso. apply Forall_inv in HF as [H1 H2]. destruct (Hk s x) as (? & ? & E' & F1 & _ & F3). rewrite E in E'. injection E' as _ <- ->.
    destruct Hd as [?|[?|?]]; congruence.
Qed.

Lemma out_trace_nonzero evs l1 t out l2 : Forall valid_event evs -> (run evs).2 = l1 ++ LOut t (Emitted out) :: l2 -> t <> 0.
Proof.
  intros Hv E. destruct (emitted_is _ _ _ _ _ Hv E) as [Hp _]. intros ->. apply Hp. clear. unfold pending.
  induction l1 as [|e l IH] using rev_ind; [done|]. rewrite status_snoc. destruct (status l 0) as [b p]. cbn [snd] in IH. subst p.
  destruct e as [n0 n1 s|? ? ?|t' o|t'|]; cbn [track]; try done.
  - by destruct (decide _) as [(_ & ? & _)|].
  - by destruct (decide _).
  - by destruct (decide _).
Qed.

Lemma delivered_one_root evs l1 t out l2 {S} (conv : converter S) s s' out' : Forall valid_event evs ->
  (run evs).2 = l1 ++ LOut t (Emitted out) :: l2 -> keeps_ids conv -> 0 ∉ ids out -> converts conv s out s' out' ->
  ids out' = ids out /\ exists root, one_root out' root.
Proof.
  intros Hv E Hk H0 Hc. destruct (emitted_trace _ _ _ _ _ Hv E) as (Ht & Hn & _). destruct (emitted_is _ _ _ _ _ Hv E) as [_ He].
  destruct (emission_one_root _ _ _ He Hn) as (root & Hr). pose proof (out_trace_nonzero _ _ _ _ _ Hv E) as Ht0.
  assert (HF : Forall2 same_ids out out').
  { eapply converts_keeps; [done|done|]. apply Forall_forall. intros x Hx. split.
    - intros E0. apply H0. rewrite <- E0. by apply elem_of_list_fmap_1.
    - rewrite Forall_forall in Ht. by rewrite (Ht x Hx). }
  split; [by apply same_ids_ids|]. destruct (one_root_transfer _ _ _ Hn HF Hr) as (r & _ & H). by exists r.
Qed.

(* ---------- spans that are not connected keep their times ---------- *)

Lemma descends_transfer l l' p q p' : Forall2 same_ids l l' -> descends l p q -> same_ids p p' ->
  exists q', descends l' p' q' /\ same_ids (List.last q p) (List.last q' p').
Proof.
  intros HF. revert p p'. induction q as [|c q IH]; intros p p' Hd Hp; [by exists []|]. cbn [descends] in Hd. destruct Hd as [(Hc & E1 & E2) Hd].
  apply elem_of_list_lookup in Hc as [j Hj]. destruct (Forall2_lookup_l _ _ _ _ _ HF Hj) as (c' & Hj' & Hcc).
  destruct (IH c c' Hd Hcc) as (q' & Hq' & HL). exists (c' :: q'). rewrite !last_cons. split; [|done]. cbn [descends]. split; [|done].
  destruct Hp as [P1 P2], Hcc as [F1 F2]. split; [by eapply elem_of_list_lookup_2|]. by rewrite F1, F2, P1.
Qed.

Lemma circular_unchanged evs l1 t out l2 s : Forall valid_event evs -> (run evs).2 = l1 ++ LOut t (Emitted out) :: l2 ->
  s ∈ out -> circular out s -> s ∈ merged_spans t (pending l1 t).
Proof.
  intros Hv E Hs Hcirc. destruct (emitted_trace _ _ _ _ _ Hv E) as (_ & Hn & _). destruct (emitted_is _ _ _ _ _ Hv E) as [_ He].
  destruct He as (all & root & Hall & Hr & Hu & HF & _ & Hrest). set (spans := merged_spans t (pending l1 t)) in *.
  assert (HF' : Forall2 same_ids all out) by (eapply Forall2_impl; [exact HF|]; intros a b (st & du & ->); by split).
  assert (Hna : NoDup (ids all)) by (by rewrite <- (same_ids_ids _ _ HF')).
  destruct (one_root_transfer all out root Hna HF') as (root' & Hrr & Hr' & _); [done|].
  apply elem_of_list_lookup in Hs as [i Hi]. destruct (Forall2_lookup_r _ _ _ _ _ HF' Hi) as (a & Ha & Has).
  assert (Hnc : ~ connected all root a).
  { intros (q & Hq & Eq). destruct (descends_transfer all out root q root' HF' Hq Hrr) as (q' & Hq' & HL). rewrite Eq in HL.
    apply (circular_not out root' s Hn Hr'); [|done]. exists q'. split; [done|]. apply (same_id out Hn).
    - apply descends_in; [by destruct Hr'|done].
    - by eapply elem_of_list_lookup_2.
    - destruct HL as [HL _], Has as [Has _]. congruence. }
  assert (s = a) as -> by (specialize (Hrest i a Ha Hnc); congruence). apply elem_of_list_lookup_2 in Ha.
  destruct Hall as [->|(f & Hf & Hperm)]; [done|]. rewrite Hperm in Ha. apply elem_of_cons in Ha as [->|Ha]; [|done]. exfalso. apply Hnc.
  assert (root = f) as ->; [|by exists []]. destruct Hr as [Hr1 Hr2]. rewrite Hperm in Hr1. apply elem_of_cons in Hr1 as [?|Hr1]; [done|]. exfalso.
  assert (Hids : forall x, x ∈ ids all <-> x = s_id f \/ x ∈ ids spans).
  { intros x. unfold ids. rewrite Hperm. cbn. by rewrite elem_of_cons. }
  destruct Hf as (_ & _ & _ & Hfid & _ & _ & _ & _ & _ & Hpar).
  assert (Hp : s_parent root = s_id f).
  { apply Hpar. split; [done|]. destruct Hr2 as [?|Hr2]; [by left|right]. rewrite Hids in Hr2. tauto. }
  destruct Hr2 as [Hr2|Hr2].
  - apply Hfid. rewrite <- Hp, Hr2. by apply elem_of_list_fmap_1.
  - apply Hr2. rewrite Hp. apply Hids. by left.
Qed.

(* ---------- counterexamples ---------- *)

Definition node (id parent trace : Z) : span := Span id parent trace [] [] 1600000000000000000 10 ∅ (Timings 0 0 0 0).
(** The spans arrive, then nine seconds pass. *)
Definition arriving (l : list span) : list event := map (ESpan map_to_list 0 0) l ++ [ETick (plain_tick (seconds 9))].

Lemma arriving_valid l : Forall (fun s => int64_ok (s_ts s)) l -> Forall valid_event (arriving l).
Proof.
  intros H. apply Forall_app. split; [|apply Forall_singleton, plain_valid]. rewrite Forall_map. eapply Forall_impl; [exact H|].
  intros s Hs. split; [apply map_order_list|done].
Qed.

Definition circle_run : list event := arriving [node 5 0 9; node 4 3 9; node 3 4 9; node 2 3 9; node 7 5 9].
Definition circle_out : list span := [node 7 5 9; node 5 0 9; node 4 3 9; node 3 4 9; node 2 3 9].

Lemma circle_valid : Forall valid_event circle_run.
Proof. apply arriving_valid. repeat (apply Forall_cons_2; [by vm_compute|]). apply Forall_nil_2. Qed.
Lemma circle_emitted : exists l1 l2, (run circle_run).2 = l1 ++ LOut 9 (Emitted circle_out) :: l2.
Proof.
  exists (map (LSpan 0 0) [node 5 0 9; node 4 3 9; node 3 4 9; node 2 3 9; node 7 5 9] ++ [LTick (seconds 9) (seconds 9) 5]), [].
  by vm_compute.
Qed.
Lemma circle_circular : circular circle_out (node 2 3 9).
Proof.
  exists (node 3 4 9), [node 4 3 9; node 3 4 9]. split; [unfold circle_out; set_solver|]. split; [done|].
  split; [cbn [descends]; split_and!; try done; unfold child, circle_out; (split; [set_solver|done])|]. split; [done|].
  exists [node 2 3 9]. split; [|done]. cbn [descends]. split; [|done]. split; [unfold circle_out; set_solver|done].
Qed.

Lemma circle_refuted : exists evs l1 t out l2 s, Forall valid_event evs /\ (run evs).2 = l1 ++ LOut t (Emitted out) :: l2 /\ s ∈ out /\
  forall root, root_candidate out root -> ~ connected out root s.
Proof.
  destruct circle_emitted as (l1 & l2 & E). exists circle_run, l1, 9, circle_out, l2, (node 2 3 9).
  split; [apply circle_valid|]. split; [done|]. split; [clear; unfold circle_out; set_solver|]. intros root Hr Hc.
  destruct (emitted_trace _ _ _ _ _ circle_valid E) as (_ & Hn & _). by apply (circular_not _ _ _ Hn Hr Hc), circle_circular.
Qed.

Definition orphans_run : list event := arriving [node 5 0 9; node 4 0 9; node 3 4 9].
Definition orphans_out : list span := [node 5 0 9; node 4 0 9; node 3 4 9; Span 0 9 9 (str "fake-root") (str "fake-root") 1600000000000000000 10 ∅ (Timings 0 0 0 0)].
Definition unchanged : converter unit := fun u x => (u, (x, false)).

Lemma unchanged_keeps : keeps_ids unchanged.
Proof. intros s x. by exists s, x. Qed.
Lemma orphans_emitted : exists l1 l2, (run orphans_run).2 = l1 ++ LOut 9 (Emitted orphans_out) :: l2.
Proof.
  exists (map (LSpan 0 0) [node 5 0 9; node 4 0 9; node 3 4 9] ++ [LTick (seconds 9) (seconds 9) 3]), [].
  by vm_compute.
Qed.
Lemma orphans_converted : converts unchanged tt orphans_out tt [node 5 0 9; node 4 0 9; node 3 4 9].
Proof.
  unfold orphans_out. do 3 (eapply converts_keep; [done..|]). eapply converts_drop; [done| |constructor]. right. by left.
Qed.

Lemma orphans_valid : Forall valid_event orphans_run.
Proof. apply arriving_valid. repeat (apply Forall_cons_2; [by vm_compute|]). apply Forall_nil_2. Qed.

Lemma orphans_refuted : exists evs l1 t out l2 (S : Type) (conv : converter S) s s' out' r r', Forall valid_event evs /\
  (run evs).2 = l1 ++ LOut t (Emitted out) :: l2 /\ keeps_ids conv /\ converts conv s out s' out' /\
  root_candidate out' r /\ root_candidate out' r' /\ r <> r'.
Proof.
  destruct orphans_emitted as (l1 & l2 & E).
  exists orphans_run, l1, 9, orphans_out, l2, unit, unchanged, tt, tt, [node 5 0 9; node 4 0 9; node 3 4 9], (node 5 0 9), (node 4 0 9).
  split; [apply orphans_valid|]. split; [exact E|]. clear E. split; [apply unchanged_keeps|]. split; [apply orphans_converted|].
  assert (H0 : 0 ∉ ids [node 5 0 9; node 4 0 9; node 3 4 9]) by (intros H; cbn in H; repeat (apply elem_of_cons in H as [H|H]; [lia|]); by apply elem_of_nil in H).
  split; [|split; [|done]]; (split; [clear; set_solver|by right]).
Qed.
