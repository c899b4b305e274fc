(** Proofs for C70: the cluster and the corrector together. *)
From Verif Require Import Base SpanModel BinaryModel BinarySpec TreeModel TreeSpec FinishModel FinishSpec FinishTheorems PipelineModel ConsumeModel ReplaySpec ReplayProofs
  ClusterModel ClusterSpec ClusterProofs ClusterRuns JoinSpec.

Lemma fed_app l1 l2 : fed (l1 ++ l2) = fed l1 ++ fed l2.
Proof. apply omap_app. Qed.
Lemma proper_app t a b : proper t (a ++ b) = proper t a ++ proper t b.
Proof. unfold proper. by rewrite of_trace_app, List.filter_app. Qed.
Lemma proper_nil t l : (forall s, s ∈ l -> s_trace s <> t) -> proper t l = [].
Proof. intros H. unfold proper. by rewrite of_trace_nil. Qed.
Lemma proper_elem t l s : s ∈ proper t l <-> s ∈ l /\ s_trace s = t /\ s_id s <> 0.
Proof.
  unfold proper. rewrite elem_of_list_In, filter_In, <- elem_of_list_In, of_trace_elem. rewrite negb_true_iff, Z.eqb_neq. tauto.
Qed.

(** A trace that has not left the buffer yet waits with all its spans. *)
Lemma pending_all t log : t <> 0 -> (forall o, LOut t o ∉ log) -> (status log t).1 = false /\ map snd (pending log t) = proper t (fed log).
Proof.
  intros Ht. induction log as [|e log IH] using rev_ind; intros Hno; [done|].
  destruct IH as [IH1 IH2]; [intros o Ho; apply (Hno o); apply elem_of_app; by left|].
  unfold pending in *. rewrite status_app. cbn [foldl]. destruct (status log t) as [b p]. cbn [fst snd] in *. subst b.
  rewrite fed_app, proper_app, <- IH2. destruct e as [n0 n1 s|n1 n2 load|t' o|t'|]; cbn [track fed omap list_omap]; rewrite ?app_nil_r; try done.
  - unfold proper, of_trace. cbn [List.filter]. destruct (decide _) as [(E1 & _ & E2 & _)|Hn]; cbn [fst snd].
    + rewrite (proj2 (Z.eqb_eq _ _) E1). cbn [List.filter]. rewrite (proj2 (Z.eqb_neq _ _) E2). cbn [negb]. by rewrite map_app.
    + split; [done|]. destruct (s_trace s =? t) eqn:E1; [|cbn; by rewrite app_nil_r]. cbn [List.filter].
      destruct (s_id s =? 0) eqn:E2; [cbn; by rewrite app_nil_r|]. exfalso. apply Hn. apply Z.eqb_eq in E1. apply Z.eqb_neq in E2. done.
  - destruct (decide (t' = t)) as [->|]; [|done]. exfalso. apply (Hno o). apply elem_of_app. right. apply elem_of_list_here.
  - by destruct (decide (t' = t)).
Qed.

(** When the trace leaves the buffer for the first time and nothing comes later, it waits with all that was fed. *)
Lemma pending_fed t l1 o l2 : t <> 0 -> (forall o, LOut t o ∉ l1) -> (forall s, s ∈ fed l2 -> s_trace s <> t) ->
  map snd (pending l1 t) = proper t (fed (l1 ++ LOut t o :: l2)).
Proof.
  intros Ht Hno Hl. destruct (pending_all t l1 Ht Hno) as [_ ->]. rewrite fed_app, proper_app. cbn [fed omap list_omap]. change (omap _ l2) with (fed l2).
  by rewrite (proper_nil t (fed l2) Hl), app_nil_r.
Qed.

Lemma Forall2_carries_none t ms ss : Forall2 carries ms ss -> (forall m s, m ∈ ms -> carries m s -> s_trace s <> t) -> forall s, s ∈ ss -> s_trace s <> t.
Proof.
  intros H Hm s Hs. apply elem_of_list_lookup in Hs as [i Hi]. destruct (Forall2_lookup_r _ _ _ _ _ H Hi) as (m & Hl & Hc).
  eapply Hm; [|done]. by eapply elem_of_list_lookup_2.
Qed.

Lemma filter_perm {A} (f : A -> bool) (a b : list A) : a ≡ₚ b -> List.filter f a ≡ₚ List.filter f b.
Proof.
  intros H. induction H as [|x a b H IH|x y a|a b c H1 IH1 H2 IH2]; cbn; [done| | |by etrans].
  - destruct (f x); [by constructor|done].
  - destruct (f x), (f y); try done. constructor.
Qed.

(** The ids that waited are in the emitted trace. *)
Lemma pending_emitted evs l1 t out l2 s : Forall valid_event evs -> (run evs).2 = l1 ++ LOut t (Emitted out) :: l2 -> s ∈ map snd (pending l1 t) -> s_id s ∈ ids out.
Proof.
  intros Hv E Hs. destruct (emitted_trace _ _ _ _ _ Hv E) as (_ & _ & extra & H & _). apply H. right.
  apply elem_of_list_fmap in Hs as (a & -> & Ha). unfold pending_ids. apply elem_of_list_fmap. by exists a.
Qed.
Lemma delivered_all {A} (log : list A) k l : delivered log k l -> forall j x, (j < k)%nat -> log !! j = Some x -> x ∈ l.
Proof.
  intros H. induction H as [|k l y H IH Hy|k o l H IH Hle]; intros j x Hj Hx; [lia| |].
  - apply elem_of_app. destruct (decide (j = k)) as [->|]; [right; rewrite Hx in Hy; injection Hy as ->; apply elem_of_list_here|]. left. eapply IH; [|done]. lia.
  - eapply IH; [|done]. lia.
Qed.
Lemma read_whole_all {A} (log l : list A) x : read_whole log l -> x ∈ log -> x ∈ l.
Proof. intros H Hx. apply elem_of_list_lookup in Hx as [j Hj]. eapply delivered_all; [exact H| |done]. by eapply lookup_lt_Some. Qed.

Lemma joined cfg n parts evs st rec t i x q fevs l1 out l2 : reached cfg n parts evs st rec ->
  z_parts st !! home cfg t = Some q -> opened rec (home cfg t) = 1%nat -> ROpen (home cfg t) i 0 ∈ rec ->
  length (handled rec (home cfg t)) = length (q_log q) -> ~ crashed rec i -> z_proxies st !! i = Some x -> x_kafka x = [] -> arrived st rec t ->
  t <> 0 -> Forall valid_event fevs -> fed (run fevs).2 = received rec i ->
  (run fevs).2 = l1 ++ LOut t (Emitted out) :: l2 -> (forall o, LOut t o ∉ l1) -> (forall s, s ∈ fed l2 -> s_trace s <> t) ->
  exists order, order ≡ₚ proper t (puts rec) /\ emission t (merged_spans t (map (fun s => (0, 0, s)) order)) out /\
    forall s, s ∈ puts rec -> s_trace s = t -> s_id s <> 0 -> s_id s ∈ ids out.
Proof.
  intros R Hq Ho Hop Hlen Hcr Hx Hk [A1 A2] Ht Hv Hfed Hrun Hno Hlate. exists (proper t (received rec i)).
  assert (HP : proper t (received rec i) ≡ₚ proper t (puts rec)); [|split; [exact HP|split]].
  - destruct (meeting _ _ _ _ _ _ _ _ _ _ R Hq Ho Hop Hlen Hcr Hx Hk) as [(so & sl & F1 & F2 & HP) _]. symmetry. unfold proper.
    apply filter_perm. rewrite HP. rewrite (of_trace_nil t (_ ++ _)); [by rewrite app_nil_r|].
    intros s Hs. rewrite !elem_of_app in Hs. destruct Hs as [Hs|[Hs|[Hs|Hs]]].
    + apply A1. apply elem_of_app. by left.
    + eapply Forall2_carries_none; [exact F1| |exact Hs]. intros m s' Hm. apply A2. apply elem_of_app. by left.
    + eapply Forall2_carries_none; [exact F2| |exact Hs]. intros m s' Hm. apply A2. apply elem_of_app. by right.
    + apply A1. apply elem_of_app. by right.
  - eapply replay_emitted; [exact Hv|exact Hrun|]. rewrite (pending_fed t l1 (Emitted out) l2 Ht Hno Hlate), <- Hrun, Hfed.
    apply (again_read [] [] _).
  - intros s Hs Hst Hsi. eapply pending_emitted; [done|exact Hrun|]. rewrite (pending_fed t l1 (Emitted out) l2 Ht Hno Hlate), <- Hrun, Hfed, HP. by apply proper_elem.
Qed.

(** The same with any number of sessions of one owner, which are redeliveries. *)
Lemma joined_again cfg n parts evs st rec t i x q c o fevs l1 out l2 : reached cfg n parts evs st rec ->
  (forall j o, ROpen (home cfg t) j o ∈ rec -> j = i) -> ~ crashed rec i -> z_proxies st !! i = Some x -> x_kafka x = [] ->
  z_parts st !! home cfg t = Some q -> q_claim q = Some c -> handled_to c = length (q_log q) ->
  reading rec (home cfg t) = Some (o, handled rec (home cfg t)) ->
  t <> 0 -> Forall valid_event fevs -> fed (run fevs).2 = received rec i ->
  (run fevs).2 = l1 ++ LOut t (Emitted out) :: l2 -> (forall o, LOut t o ∉ l1) -> (forall s, s ∈ fed l2 -> s_trace s <> t) ->
  exists ss, Forall2 carries (drop o (q_log q)) ss /\ emission t (merged_spans t (map (fun s => (0, 0, s)) (proper t ss))) out /\
    forall s, s ∈ ss -> s_trace s = t -> s_id s <> 0 -> s_id s ∈ ids out.
Proof.
  intros R Hop Hcr Hx Hk Hq Hc Hto Hrd Ht Hv Hfed Hrun Hno Hlate.
  destruct (reading_returns _ _ _ _ _ _ _ _ _ _ _ _ R Hop Hcr Hx Hk Hq Hc Hto Hrd) as (ss & F & Hrw). exists ss. split; [exact F|].
  assert (HW : read_whole (proper t ss) (proper t (received rec i))) by (unfold proper; by apply read_whole_filter).
  rewrite <- Hfed, Hrun, <- (pending_fed t l1 (Emitted out) l2 Ht Hno Hlate) in HW. split.
  - by eapply replay_emitted.
  - intros s Hs Hst Hsi. eapply pending_emitted; [done|exact Hrun|]. eapply read_whole_all; [exact HW|]. by apply proper_elem.
Qed.

(** A corrector that was fed no span of a trace says nothing about it. *)
Lemma pending_in_fed t log s : s ∈ map snd (pending log t) -> s ∈ fed log /\ s_trace s = t.
Proof.
  induction log as [|e log IH] using rev_ind; intros Hs; [by apply elem_of_nil in Hs|]. rewrite fed_app, elem_of_app.
  unfold pending in *. rewrite status_app in Hs. cbn [foldl] in Hs. destruct (status log t) as [b p]. cbn [fst snd] in *.
  assert (IH' : s ∈ map snd p -> (s ∈ fed log \/ s ∈ fed [e]) /\ s_trace s = t) by (intros H; destruct (IH H); auto).
  destruct e as [n0 n1 s0|n1 n2 load|t' o|t'|]; cbn [track] in Hs; try (by apply IH').
  - destruct (decide _) as [(E1 & _)|]; [|by apply IH']. cbn [snd] in Hs. rewrite map_app, elem_of_app in Hs. destruct Hs as [Hs|Hs]; [by apply IH'|].
    apply elem_of_list_singleton in Hs as ->. split; [right; apply elem_of_list_here|done].
  - destruct (decide (t' = t)); [by apply elem_of_nil in Hs|by apply IH'].
  - destruct (decide (t' = t)); by apply IH'.
Qed.
Lemma elsewhere cfg n parts evs st rec t i x q j fevs o : reached cfg n parts evs st rec ->
  z_parts st !! home cfg t = Some q -> opened rec (home cfg t) = 1%nat -> ROpen (home cfg t) i 0 ∈ rec ->
  length (handled rec (home cfg t)) = length (q_log q) -> ~ crashed rec i -> z_proxies st !! i = Some x -> x_kafka x = [] ->
  j <> i -> Forall valid_event fevs -> fed (run fevs).2 = received rec j -> LOut t o ∉ (run fevs).2.
Proof.
  intros R Hq Ho Hop Hlen Hcr Hx Hk Hj Hv Hfed Hin. destruct (meeting _ _ _ _ _ _ _ _ _ _ R Hq Ho Hop Hlen Hcr Hx Hk) as [_ HN].
  apply elem_of_list_split in Hin as (l1 & l2 & E). destruct (outcome_reason _ _ _ _ _ Hv E) as [Hp _].
  destruct (pending l1 t) as [|a p] eqn:Ep; [done|].
  destruct (pending_in_fed t l1 (snd a)) as [Hf Hs]; [rewrite Ep; apply elem_of_list_here|].
  specialize (HN j Hj). rewrite <- Hfed, E, fed_app in HN. apply (elem_of_nil (snd a)). rewrite <- HN. apply of_trace_elem. split; [|done]. apply elem_of_app. by left.
Qed.
