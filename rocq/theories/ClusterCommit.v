(** Proofs about several proxies with Kafka: what has been handled can be committed. *)
From Verif Require Import Base SpanModel BinaryModel BinarySpec PipelineModel ConsumeModel ReplaySpec ClusterModel ClusterSpec ClusterProofs ClusterRuns ClusterBlock.

Definition mark1 (p : nat) (q : partition) (rec : list kentry) : Prop :=
  forall c, q_claim q = Some c -> (default 0 (c_mark c) <= c_next c)%nat /\
    match c_phase c with CMarking => session rec p = Some (c_next c) | _ => c_mark c = S <$> session rec p end.
Definition inv_mark (st : kstate) (rec : list kentry) : Prop := forall p q, z_parts st !! p = Some q -> mark1 p q rec.

Definition session1 (p : nat) (acc : option nat) (e : kentry) : option nat :=
  match e with
  | ROpen p' _ _ => if decide (p' = p) then None else acc
  | RCall p' o _ _ => if decide (p' = p) then Some o else acc
  | _ => acc end.
Lemma session_snoc rec e p : session (rec ++ [e]) p = session1 p (session rec p) e.
Proof. unfold session. rewrite foldl_app. by destruct e. Qed.
Lemma session_other rec e p : about p e = false -> session (rec ++ [e]) p = session rec p.
Proof. intros H. rewrite session_snoc. destruct e; cbn in *; try done; case_bool_decide; try done; by rewrite decide_False. Qed.
Lemma mark1_other p q rec e : about p e = false -> mark1 p q rec -> mark1 p q (rec ++ [e]).
Proof. intros H. unfold mark1. by rewrite session_other. Qed.

Lemma inv_mark_step cfg e st rec st' l : inv_mark st rec -> kstep cfg e st = Next (st', l) -> inv_mark st' (rec ++ l).
Proof.
  intros H E. destruct st as [xs qs]. unfold inv_mark in H. cbn [z_parts z_proxies] in *.
  assert (N : forall p q e, qs !! p = Some q -> about p e = false -> mark1 p q (rec ++ [e])) by (intros; apply mark1_other; auto).
  destruct e; cbn [kstep] in E; kcases E; try (injection E as <- <-); subst; intros r q Hr; cbn [z_parts] in Hr; rewrite ?app_nil_r;
    try (by apply H); try (by apply N).
  - (* write *) apply insert_lookup_cases in Hr as [(-> & -> & _)|(_ & Hr)]; [|by apply H]. exact (H _ _ Hc2).
  - (* open *) apply insert_lookup_cases in Hr as [(-> & -> & _)|(Hne & Hr)]; [|apply N; [done|]; cbn; by apply bool_decide_false].
    intros c [= <-]. xcbn. rewrite session_snoc. cbn [session1]. rewrite decide_True by done. split; [cbn; lia|done].
  - (* next: calling *) apply insert_lookup_cases in Hr as [(-> & -> & _)|(_ & Hr)]; [|by apply H].
    intros c [= <-]. specialize (H _ _ Hc _ eq_refl). exact H.
  - (* next: skip *) apply insert_lookup_cases in Hr as [(-> & -> & _)|(Hne & Hr)]; [|apply N; [done|]; cbn; by apply bool_decide_false].
    intros c [= <-]. rewrite session_snoc. destruct (H _ _ Hc _ eq_refl) as [H1 H2]. xcbn. split; [lia|exact H2].
  - (* call *) apply insert_lookup_cases in Hr as [(-> & -> & _)|(Hne & Hr)]; [|apply N; [done|]; cbn; by apply bool_decide_false].
    intros c [= <-]. rewrite session_snoc. destruct (H _ _ Hc _ eq_refl) as [H1 H2]. xcbn. cbn [session1]. rewrite decide_True by done. done.
  - (* mark *) apply insert_lookup_cases in Hr as [(-> & -> & _)|(_ & Hr)]; [|by apply H].
    intros c [= <-]. destruct (H _ _ Hc _ eq_refl) as [H1 H2]. xcbn. rewrite H2. rewrite Nat.max_l by lia. split; [cbn; lia|done].
  - (* commit *) apply insert_lookup_cases in Hr as [(-> & -> & _)|(Hne & Hr)]; [|apply N; [done|]; cbn; by apply bool_decide_false].
    intros c [= <-]. rewrite session_snoc. exact (H _ _ Hc _ eq_refl).
  - (* close with commit *) apply insert_lookup_cases in Hr as [(-> & -> & _)|(Hne & Hr)]; [|apply N; [done|]; cbn; by apply bool_decide_false]. by intros c.
  - (* close *) apply insert_lookup_cases in Hr as [(-> & -> & _)|(_ & Hr)]; [|by apply H]. by intros c.
  - (* crash *) apply map_drop_claim in Hr as (q0 & Hr & ->). apply mark1_other; [done|]. intros c Hcl. apply (H _ _ Hr).
    revert Hcl. unfold drop_claim. destruct (ClusterModel.q_claim q0) eqn:E0; [|congruence]. destruct (decide _); [done|congruence].
Qed.

Lemma marked cfg n parts evs st rec : reached cfg n parts evs st rec -> inv_mark st rec.
Proof.
  revert evs st rec. apply reached_inv.
  - intros p q Hq c Hc. cbn in Hq. apply lookup_replicate in Hq as [-> _]. done.
  - intros e st rec st' l _ H E. by eapply inv_mark_step.
Qed.

Lemma commits cfg n parts evs st rec p q c o : reached cfg n parts evs st rec -> z_parts st !! p = Some q -> q_claim q = Some c -> session rec p = Some o ->
  exists evs' st' q', (evs' = [KCommit p] \/ evs' = [KMark p; KCommit p]) /\ reached cfg n parts (evs ++ evs') st' (rec ++ [RCommit p (S o)]) /\
    z_parts st' !! p = Some q' /\ q_log q' = q_log q /\ q_committed q' = Some (S o).
Proof.
  intros R Hq Hc Hs. destruct (marked _ _ _ _ _ _ R _ _ Hq _ Hc) as [H1 H2]. rewrite Hs in H2. destruct R as [Hv Hr].
  destruct st as [xs qs]. destruct q as [log cm cl]. destruct c as [i nx mk ph]. xcbn. subst cl.
  assert (A : forall q' : partition, <[p := q']> qs !! p = Some q') by (intros q'; apply list_lookup_insert; by eapply lookup_lt_Some).
  assert (ph = CMarking \/ ph <> CMarking) as [->|Hph] by (destruct ph; [by right|by right|by left]).
  - injection H2 as ->. exists [KMark p; KCommit p]. eexists _, _. split; [by right|]. split.
    + split; [apply Forall_app; split; [done|by repeat constructor]|]. rewrite (krun_app _ _ _ _ _ _ _ Hr). erewrite krun_next; [|cbn [kstep]; rewrite Hq; reflexivity].
      erewrite krun_next; [|cbn [kstep]; rewrite A; reflexivity]. rewrite Nat.max_l by lia. cbn [krun]. rewrite app_nil_r. reflexivity.
    + cbn [z_parts]. rewrite list_insert_insert. rewrite A. split; [reflexivity|done].
  - assert (mk = Some (S o)) as -> by (by destruct ph). exists [KCommit p]. eexists _, _. split; [by left|]. split.
    + split; [apply Forall_app; split; [done|by repeat constructor]|]. rewrite (krun_app _ _ _ _ _ _ _ Hr). erewrite krun_next; [|cbn [kstep]; rewrite Hq; reflexivity].
      cbn [krun]. reflexivity.
    + cbn [z_parts]. rewrite A. split; [reflexivity|done].
Qed.

(** A session that ends as it should leaves nothing to be read again. *)
Lemma closes cfg n parts evs st rec p q c o : reached cfg n parts evs st rec -> z_parts st !! p = Some q -> q_claim q = Some c -> session rec p = Some o ->
  c_phase c = CWaiting -> forall i, is_Some (z_proxies st !! i) ->
  exists st', reached cfg n parts (evs ++ [KClose p true; KOpen p i]) st' (rec ++ [RCommit p (S o); ROpen p i (S o)]).
Proof.
  intros R Hq Hc Hs Hph i [x Hx]. destruct (marked _ _ _ _ _ _ R _ _ Hq _ Hc) as [H1 H2]. rewrite Hs, Hph in H2. destruct R as [Hv Hr].
  destruct st as [xs qs]. destruct q as [log cm cl]. destruct c as [j nx mk ph]. xcbn. subst cl. subst.
  assert (A : forall q' : partition, <[p := q']> qs !! p = Some q') by (intros q'; apply list_lookup_insert; by eapply lookup_lt_Some).
  eexists. split; [apply Forall_app; split; [done|by repeat constructor]|]. rewrite (krun_app _ _ _ _ _ _ _ Hr). erewrite krun_next; [|cbn [kstep]; rewrite Hq; reflexivity].
  erewrite krun_next; [|cbn [kstep]; rewrite A, Hx; reflexivity]. cbn [krun]. rewrite <- app_assoc. reflexivity.
Qed.
