(** Witnesses for C103: how traces influence one another. *)
From Verif Require Import Base SpanModel TreeModel TreeSpec FinishModel FinishSpec FinishProofs FinishRun FinishTheorems FinishWitness DecideProofs IsolateSpec IsolateProofs.

Definition one (t : Z) : span := Span 1 1 t [] [] 1600000000000000000 10 ∅ (Timings 0 0 0 0).
Definition arrives (n : Z) (t : Z) : event := ESpan map_to_list n n (one t).

Lemma arrives_valid n t : valid_event (arrives n t).
Proof. split; [apply map_order_list|]. unfold int64_ok. p2. cbn. lia. Qed.

Lemma filter_none' {A} (f : A -> bool) l : Forall (fun x => f x = false) l -> List.filter f l = [].
Proof. induction 1 as [|x l Hx _ IH]; [done|]. cbn. by rewrite Hx. Qed.

(** Spans only: the record lists them. *)
Lemma run_spans (l : list (Z * Z)) : exists st, run (map (fun p => arrives p.1 p.2) l) = (Some st, map (fun p => LSpan p.1 p.1 (one p.2)) l).
Proof.
  induction l as [|[n t] l [st IH]] using rev_ind; [by eexists|]. rewrite !map_app. cbn [map]. rewrite run_snoc, IH. cbn [fst snd step arrives]. by eexists.
Qed.
Lemma pending_spans (l : list (Z * Z)) u : NoDup l.*2 -> u <> 0 -> pending (map (fun p => LSpan p.1 p.1 (one p.2)) l) u = match List.filter (fun p => p.2 =? u) l with [] => [] | p :: _ => [(p.1, p.1, one u)] end /\
  status (map (fun p => LSpan p.1 p.1 (one p.2)) l) u = (false, pending (map (fun p => LSpan p.1 p.1 (one p.2)) l) u).
Proof.
  intros Hn Hu. unfold pending. induction l as [|[n t] l IH] using rev_ind; [done|]. rewrite fmap_app in Hn. apply NoDup_app in Hn as (Hn & Hd & _). specialize (IH Hn) as [IH1 IH2].
  rewrite map_app, List.filter_app. unfold status in *. rewrite foldl_app, IH2, IH1. cbn [map foldl track one s_trace s_id fst snd List.filter]. destruct (Z.eqb_spec t u) as [->|Hne].
  - rewrite decide_True by done. assert (E : List.filter (fun p : Z * Z => p.2 =? u) l = []).
    { destruct (List.filter _ l) as [|p r] eqn:E; [done|]. exfalso. assert (Hp : p ∈ List.filter (fun p : Z * Z => p.2 =? u) l) by (rewrite E; apply elem_of_list_here).
      apply elem_of_list_In, filter_In in Hp as [Hp1 Hp2]. apply Z.eqb_eq in Hp2. apply (Hd u); [|apply elem_of_list_here]. apply elem_of_list_fmap. exists p. split; [done|]. by apply elem_of_list_In. }
    by rewrite E.
  - rewrite decide_False by (by intros (? & _)). by rewrite app_nil_r.
Qed.

Lemma sum_ones (f : Z -> Z) ts : (forall t, t ∈ ts -> f t = 1) -> sum f ts = Z.of_nat (length ts).
Proof.
  induction ts as [|t ts IH]; intros H; [done|]. cbn [sum foldr length]. fold (sum f ts). rewrite IH, (H t); [lia|apply elem_of_list_here|]. intros u Hu. apply H. by apply elem_of_list_further.
Qed.

(** Trace 9 at 1 s, then 39999 other traces. *)
Section crowd.
Context (others : list Z) (Hnd : NoDup others) (Hno : forall u, u ∈ others -> u <> 0 /\ u <> 9) (Hlen : Z.of_nat (length others) = 39999).
Definition crowd : list (Z * Z) := (seconds 1, 9) :: map (fun t => (seconds 7, t)) others.
Definition crowded : list event := map (fun p => arrives p.1 p.2) crowd ++ [ETick (plain_tick (seconds 8))].

Lemma crowd_traces : crowd.*2 = 9 :: others.
Proof.
  unfold crowd. clear. generalize others as l. intros l. rewrite fmap_cons. cbn [snd]. f_equal. induction l as [|x l IH]; [done|]. cbn [map]. rewrite fmap_cons. by rewrite IH.
Qed.
Lemma crowd_NoDup : NoDup crowd.*2.
Proof. rewrite crowd_traces. apply NoDup_cons. split; [intros H; by destruct (Hno 9 H)|exact Hnd]. Qed.
Lemma crowd_zero : 0 ∉ crowd.*2.
Proof. rewrite crowd_traces. intros H. apply elem_of_cons in H as [H|H]; [discriminate|]. by destruct (Hno 0 H). Qed.

Lemma crowd_pending u : u <> 0 -> pending (map (fun p => LSpan p.1 p.1 (one p.2)) crowd) u <> [] <-> u ∈ crowd.*2.
Proof.
  intros Hu. rewrite (proj1 (pending_spans crowd u crowd_NoDup Hu)). destruct (List.filter (fun p => p.2 =? u) crowd) as [|p r] eqn:E.
  - split; [done|]. intros H. exfalso. apply elem_of_list_fmap in H as (p & -> & Hp). assert (Hin : p ∈ List.filter (fun q : Z * Z => q.2 =? p.2) crowd) by (apply elem_of_list_In, filter_In; split; [by apply elem_of_list_In|apply Z.eqb_refl]).
    rewrite E in Hin. by apply elem_of_nil in Hin.
  - split; [|done]. intros _. assert (Hp : p ∈ List.filter (fun p : Z * Z => p.2 =? u) crowd) by (rewrite E; apply elem_of_list_here).
    apply elem_of_list_In, filter_In in Hp as [Hp1 Hp2]. apply Z.eqb_eq in Hp2. apply elem_of_list_fmap. exists p. split; [done|]. by apply elem_of_list_In.
Qed.

Lemma pending_zero log : pending log 0 = [].
Proof.
  unfold pending, status. assert (H : forall acc, acc.2 = [] -> (foldl (track 0) acc log).2 = []); [|by apply H]. induction log as [|e log IH]; intros [b p] Hp; [done|]. cbn [foldl]. apply IH. cbn in Hp. subst p.
  destruct e as [n0 n1 s|n1 n2 l|u o|u|]; cbn [track]; try done; destruct (decide _) as [H|H]; try done. by destruct H as (_ & H & _).
Qed.

(** A blacklisted trace was dropped. *)
Lemma black_needs log t : blacklisted log t -> exists o, LOut t o ∈ log /\ dropped o = true.
Proof.
  unfold blacklisted. induction log as [|e log IH] using rev_ind; [done|]. unfold status in *. rewrite foldl_app. cbn [foldl]. destruct (foldl (track t) (false, []) log) as [b p]. cbn [fst] in IH.
  assert (Hold : b = true -> exists o, LOut t o ∈ log ++ [e] /\ dropped o = true) by (intros Hb; destruct (IH Hb) as (o & Ho & Hd); exists o; split; [apply elem_of_app; by left|done]).
  destruct e as [n0 n1 s|n1 n2 l|u o|u|]; cbn [track]; try exact Hold; destruct (decide _) as [H|H]; try exact Hold; cbn [fst].
  - subst u. intros Hb. apply orb_true_iff in Hb as [Hb|Hb]; [by apply Hold|]. exists o. split; [apply elem_of_app; right; apply elem_of_list_here|done].
  - done.
Qed.

Lemma crowd_matters : Forall valid_event crowded /\ Forall (fun l => l <= 100000) (loads (run crowded).2) /\ LEvict 9 ∉ (run crowded).2 /\
  about 9 (run crowded).2 <> about 9 (run (List.filter (own 9) crowded)).2.
Proof.
  assert (Hv : Forall valid_event (map (fun p => arrives p.1 p.2) crowd)).
  { apply Forall_map, Forall_forall. intros p _. apply arrives_valid. }
  assert (Hk : valid_tick (plain_tick (seconds 8))) by apply plain_valid.
  assert (Hve : Forall valid_event (map (fun p => arrives p.1 p.2) crowd ++ [ETick (plain_tick (seconds 8))])) by (apply Forall_app; split; [done|by apply Forall_singleton]).
  split; [done|]. unfold crowded. destruct (run_spans crowd) as [st0 E]. set (log0 := map (fun p : Z * Z => LSpan p.1 p.1 (one p.2)) crowd) in E.
  assert (Hw : waiting log0 crowd.*2).
  { split; [apply crowd_NoDup|]. intros u. destruct (decide (u = 0)) as [->|Hu].
    - rewrite pending_zero. split; [|done]. intros H. by destruct crowd_zero.
    - symmetry. by apply crowd_pending. }
  destruct (check_decides _ _ _ _ Hv Hk E) as (load & log & ER & Hld & Hdec).
  assert (Eload : load = 40000).
  { rewrite (Hld _ Hw), sum_ones.
    - rewrite crowd_traces. cbn [length]. lia.
    - intros u Hu. assert (Hu0 : u <> 0) by (intros ->; by destruct crowd_zero).
      apply crowd_pending in Hu; [|done]. unfold log0. rewrite (proj1 (pending_spans crowd u crowd_NoDup Hu0)) in Hu |- *. destruct (List.filter _ crowd) as [|p r]; [done|].
      unfold counted, merged_spans. cbn [map add_all foldl fst snd]. reflexivity. }
  clear Hld. subst load.
  assert (Hp9 : pending log0 9 = [(seconds 1, seconds 1, one 9)]). { unfold log0. rewrite (proj1 (pending_spans crowd 9 crowd_NoDup ltac:(done))). unfold crowd. cbn [List.filter snd]. change (9 =? 9) with true. cbn [fst]. done. }
  destruct (check_about _ _ _ _ 9 Hv Hk E) as (st1 & log1 & load & ER' & Hlo & Hab).
  assert (Elog : log1 = LTick (seconds 8) (seconds 8) 40000 :: log). { rewrite ER' in ER. cbn [snd] in ER. by apply app_inv_head in ER. }
  assert (load = 40000) as ->. { rewrite Elog in Hlo. unfold loads in Hlo. cbn [omap list_omap] in Hlo. by injection Hlo. }
  assert (L0 : loads log0 = []) by (unfold log0; generalize crowd; intros c; by induction c).
  assert (N0 : forall o, LOut 9 o ∉ log0) by (intros o H; unfold log0 in H; apply elem_of_list_fmap in H as (? & ? & _); done).
  assert (Hne : LEvict 9 ∉ log0 ++ log1).
  { intros Hin. destruct (run_inv _ Hve) as [Hg _]. rewrite ER' in Hg. cbn [snd] in Hg. apply elem_of_list_split in Hin as (l1 & l2 & El). destruct (Hg l1 _ l2 El) as [Hb _].
    apply black_needs in Hb as (o & Ho & Hd). assert (Hin : LOut 9 o ∈ log0 ++ log1) by (rewrite El; apply elem_of_app; by left). apply elem_of_app in Hin as [Hin|Hin]; [by apply N0 in Hin|].
    rewrite Elog in Hin. apply elem_of_cons in Hin as [Hin|Hin]; [done|]. specialize (Hdec 9). rewrite Hp9 in Hdec. rewrite decide_False in Hdec by done. destruct Hdec as [Hdec _].
    assert (Hoin : o ∈ DecideSpec.outcomes 9 log). { unfold DecideSpec.outcomes. apply elem_of_list_omap. exists (LOut 9 o). split; [done|]. by rewrite decide_True. }
    unfold DecideSpec.decision in Hdec. rewrite decide_False in Hdec by (by vm_compute). rewrite decide_False in Hdec by (by vm_compute). rewrite decide_True in Hdec by (by vm_compute).
    destruct Hdec as [(_ & out & Eo & _)|[_ Eo]]; rewrite Eo in Hoin; apply elem_of_list_singleton in Hoin as ->; done. }
  rewrite ER'. cbn [snd]. split; [rewrite loads_app, L0, Hlo; repeat constructor; lia|]. split; [done|].
  rewrite about_app, (Hab ltac:(lia)) by (intros H; apply Hne, elem_of_app; by right). rewrite Hp9.
  assert (Ef : List.filter (own 9) (map (fun p => arrives p.1 p.2) crowd ++ [ETick (plain_tick (seconds 8))]) = [arrives (seconds 1) 9; ETick (plain_tick (seconds 8))]).
  { rewrite List.filter_app. unfold crowd. cbn [map List.filter own arrives one s_trace fst snd]. rewrite bool_decide_true by done. cbn [app]. f_equal.
    rewrite filter_none'; [done|]. rewrite map_map. cbn [fst snd]. apply Forall_map, Forall_forall. intros u Hu. apply Hno in Hu as [_ Hu]. cbn [own arrives one s_trace]. by apply bool_decide_eq_false. }
  rewrite Ef.
  assert (Ea : about 9 log0 = [LSpan (seconds 1) (seconds 1) (one 9)]).
  { unfold log0, crowd. cbn [map]. change (about 9 (?x :: ?l)) with (about 9 [x] ++ about 9 l). rewrite map_map. cbn [fst snd].
    assert (Hl : forall l : list Z, (forall u, u ∈ l -> u <> 9) -> about 9 (map (fun u => LSpan (seconds 7) (seconds 7) (one u)) l) = []).
    { induction l as [|u l IH]; intros H; [done|]. unfold about. cbn [map omap list_omap one s_trace]. rewrite decide_False by (apply H, elem_of_list_here). apply IH. intros v Hv'. apply H. by apply elem_of_list_further. }
    rewrite Hl; [done|]. intros u Hu. by apply Hno in Hu as [_ Hu]. }
  rewrite Ea. vm_compute. discriminate.
Qed.

End crowd.

Lemma load_matters : exists evs t, Forall valid_event evs /\ Forall (fun l => l <= 100000) (loads (run evs).2) /\ LEvict t ∉ (run evs).2 /\
  about t (run evs).2 <> about t (run (List.filter (own t) evs)).2.
Proof.
  exists (crowded (seqZ 10 39999)), 9. apply crowd_matters; [apply NoDup_seqZ| |].
  - intros u Hu. apply elem_of_seqZ in Hu. lia.
  - rewrite seqZ_length. lia.
Qed.

(** Of 1024 traces that are too old, trace 9 is the first to be forgotten. *)
Definition forgetful (now : Z) : tick :=
  Tick now now (fun _ => now) map_to_list (fun _ => map_to_list) (fun b => if decide (9 ∈ b) then 9 :: elements (b ∖ {[9]}) else elements b) (k_sort (plain_tick now)).
Definition crowd2 : list event :=
  map (fun t => arrives 0 t) (seqZ 9 1024) ++ [ETick (forgetful (seconds 41)); arrives (seconds 42) 9; ETick (forgetful (seconds 51))].

Lemma forgetful_valid now : valid_tick (forgetful now).
Proof.
  destruct (plain_valid now) as (_ & _ & _ & Hs). split; [apply map_order_list|]. split; [done|]. split; [|exact Hs]. intros b. cbn. destruct (decide (9 ∈ b)) as [H|H]; [|done].
  rewrite <- (elements_union_singleton (b ∖ {[9]}) 9) by set_solver. f_equiv. intros x. rewrite elem_of_union, elem_of_difference, elem_of_singleton. destruct (decide (x = 9)) as [->|]; [tauto|tauto].
Qed.

Lemma forgetting_matters : exists evs t, Forall valid_event evs /\ Forall (fun l => l < 40000) (loads (run evs).2) /\
  about t (run evs).2 <> about t (run (List.filter (own t) evs)).2.
Proof.
  exists crowd2, 9. split.
  { apply Forall_app. split; [apply Forall_map, Forall_forall; intros t _; apply arrives_valid|]. repeat constructor; try apply map_order_list; try apply forgetful_valid; vm_compute; discriminate. }
  split; [|by vm_compute]. apply (bool_decide_eq_true_1 (Forall (fun l => l < 40000) (loads (run crowd2).2))). by vm_compute.
Qed.

Lemma never_evicted t log : forallb (fun e => match e with LEvict u => negb (u =? t) | _ => true end) log = true -> LEvict t ∉ log.
Proof.
  intros H Hin. rewrite forallb_forall in H. apply elem_of_list_In in Hin. specialize (H _ Hin). cbn in H. rewrite Z.eqb_refl in H. done.
Qed.

Lemma loads_below n log : forallb (fun l => l <? n) (loads log) = true -> Forall (fun l => l < n) (loads log).
Proof. intros H. rewrite forallb_forall in H. apply Forall_forall. intros l Hl. apply elem_of_list_In in Hl. specialize (H _ Hl). lia. Qed.
