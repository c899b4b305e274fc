(** Proofs for C120. *)
From Verif Require Import Base IdModel SpanModel TreeModel TreeSpec TreeProofs RootProofs CorrectProofs FinishModel FinishSpec FinishProofs FinishRun FinishTheorems DecideProofs ForwardModel ForwardSpec PipelineModel PipelineSpec
  SystemModel SystemSpec SystemTheorems ConnectSpec WholeSpec OrderSpec ShiftSpec ShiftProofs RenameProofs RenameRun UnseenSpec UnseenProofs EpochSpec.

Section epoch.
Context (d lo hi : Z) (N : nat) (R1 : roomy N lo hi) (R2 : roomy N (lo + d) (hi + d)).
Notation M := (moved d).
Notation P := (between lo hi).

Lemma epoch_parent p s : P s -> P (set_parent p s).
Proof. by apply (shift_parent lo hi). Qed.
Lemma epoch_add n now s T : fine P n T -> P s ->
  fine P (S n) (add_span map_to_list now s T) /\ moved_tree 0 d (add_span map_to_list now s T) = add_span map_to_list (now + 0) (M s) (moved_tree 0 d T).
Proof.
  apply (moved_add 0 d P); [exact epoch_parent|by apply (shift_merge d lo hi N)|apply map_order_list|apply map_order_list].
Qed.

Lemma epoch_adds t a b : Forall P (reports a) -> reports b = map M (reports a) ->
  fine P (length a) (Tree t (merged_spans t a) 0 0 0) /\ merged_spans t b = map M (merged_spans t a).
Proof.
  unfold merged_spans.
  assert (G : forall a b n T T', Forall P (reports a) -> reports b = map M (reports a) -> fine P n T -> t_spans T' = map M (t_spans T) ->
    fine P (length a + n) (add_all map_to_list (map (fun a => (a.1.2, a.2)) a) T) /\
    t_spans (add_all map_to_list (map (fun a => (a.1.2, a.2)) b) T') = map M (t_spans (add_all map_to_list (map (fun a => (a.1.2, a.2)) a) T))).
  { clear a b. induction a as [|x a IH]; intros [|y b] n T T' Ha E HT HT'; [split; [exact HT|exact HT']|discriminate E|discriminate E|]. unfold reports in E, Ha. cbn [map] in E, Ha. apply (inj2 cons) in E as [Exy E].
    apply Forall_cons in Ha as [Hx Ha]. cbn [map add_all foldl fst snd length].
    assert (A : forall n s T, t_spans (add_span map_to_list n s T) = t_spans (add_span map_to_list 0 s (Tree 0 (t_spans T) 0 0 0))).
    { intros m s U. unfold add_span. cbn [t_spans]. by destruct (get_span_ref _ _). }
    replace (S (length a) + n)%nat with (length a + S n)%nat by lia. destruct (epoch_add n x.1.2 x.2 T HT Hx) as [B1 B2].
    apply IH; [exact Ha|exact E|done|].
    apply (f_equal t_spans) in B2. cbn [moved_tree t_spans] in B2. rewrite B2, Exy, (A _ _ T'), (A _ _ (moved_tree 0 d T)), HT'. reflexivity. }
  intros Ha E. destruct (G a b 0%nat (new_tree 0 t) (new_tree 0 t) Ha E) as [A B]; [|done|].
  - split; [constructor|]. split; [constructor|done].
  - rewrite Nat.add_0_r in A. split; [exact A|exact B].
Qed.

Lemma epoch_emission t l out : fine P (pred N) (Tree t l 0 0 0) -> (0 < N)%nat -> Forall (fun s => s_trace s = t) l -> emission t l out -> exists out2, emission t (map M l) out2 /\ out2 ≡ₚ map M out.
Proof.
  intros Hf HN Ht He. pose proof (lo_pos d lo hi N R1 R2) as (Hl1 & Hl2 & Hl3). pose proof (hi_small d lo hi N R1 R2) as [Hh1 Hh2].
  pose proof Hf as (Hd & HP & Hlen). cbn [t_spans] in Hd, HP, Hlen.
  assert (Hok : Forall (fun s => int64_ok (s_ts s)) l).
  { eapply Forall_impl; [exact HP|]. intros s (A1 & A2 & A3 & _). unfold int64_ok. lia. }
  assert (Hok' : Forall (fun s => int64_ok (s_ts s)) (map M l)).
  { apply Forall_fmap. eapply Forall_impl; [exact HP|]. intros s (A1 & A2 & A3 & _). unfold int64_ok. cbn [moved s_ts compose]. lia. }
  assert (Ht' : Forall (fun s => s_trace s = t) (map M l)) by (apply Forall_fmap; eapply Forall_impl; [exact Ht|]; by intros s Hs).
  assert (Hd' : descending (ids (map M l))) by (unfold ids in *; by rewrite map_map).
  pose proof (finish_decide map_to_list 0 t (Tree t l 0 0 0) map_order_list Hd Ht Hok) as D.
  pose proof (finish_decide map_to_list 0 t (Tree t (map M l) 0 0 0) map_order_list Hd' Ht' Hok') as D'.
  destruct (moved_find 0 d P epoch_parent (shift_merge d lo hi N R1 R2) (shift_fake d lo hi N R1 R2) map_to_list map_to_list 0 (Tree t l 0 0 0) (pred N) map_order_list map_order_list Hf) as (F1 & F2 & F3).
  change (moved_tree 0 d (Tree t l 0 0 0)) with (Tree t (map M l) 0 0 0) in F3. change (0 + 0) with 0 in F3. rewrite F3 in D'.
  destruct (find_roots map_to_list 0 (Tree t l 0 0 0)) as [T rs]. cbn [fst snd] in F1, F2, D'.
  destruct rs as [|r [|r' rs]]; [exfalso; apply D; eauto| |exfalso; apply D; eauto].
  destruct D as (o1 & s1 & E1 & He1), D' as (o2 & s2 & E2 & He2). exists o2. split; [done|].
  destruct F1 as (G1 & G2 & G3). cbn [t_spans moved_tree] in E1, E2. rewrite map_length in E2.
  rewrite (shift_correct d lo hi N R1 R2 (t_spans T) r) in E2; [|by apply descending_NoDup|done|lia|done].
  rewrite E1 in E2. cbn [fmap option_fmap option_map fst snd] in E2. assert (Eo : o2 = map M o1) by congruence. rewrite Eo.
  apply Permutation_map. apply (emission_unique t l); [by apply descending_NoDup|done..].
Qed.
End epoch.

Section Runs.
  Context (d lo hi : Z) (evs evs' : list event) (l1 l2 l1' l2' : list entry) (t : Z) (out : list span).
  Context (Hv : Forall valid_event evs) (Hv' : Forall valid_event evs').
  Context (E : (run evs).2 = l1 ++ LOut t (Emitted out) :: l2).
  Context (HP : Forall (between lo hi) (reports (pending l1 t))).
  Context (R1 : roomy (S (length (reports (pending l1 t)))) lo hi) (R2 : roomy (S (length (reports (pending l1 t)))) (lo + d) (hi + d)).
  Context (Hs : reports (pending l1' t) = map (moved d) (reports (pending l1 t))).

  Lemma epoch_emitted : exists out2, emission t (merged_spans t (pending l1' t)) out2 /\ out2 ≡ₚ map (moved d) out.
  Proof.
    destruct (emitted_is _ _ _ _ _ Hv E) as [_ He]. pose proof (run_prefix _ _ _ Hv E) as Hg. destruct (proper_merged t _ (pending_ok _ t Hg)) as [Ht _].
    destruct (epoch_adds d lo hi _ R1 R2 t _ _ HP Hs) as [Hf Em]. rewrite Em.
    apply (epoch_emission d lo hi _ R1 R2 t); [|lia|done|done]. cbn [pred]. unfold reports. by rewrite map_length.
  Qed.
  Lemma epoch_fate : (run evs').2 = l1' ++ LOut t NoRoot :: l2' -> False.
  Proof.
    intros E'. pose proof (run_entry _ _ _ _ Hv' E') as (_ & n1 & n2 & load & _ & Hno & _).
    destruct epoch_emitted as (out2 & He & _). apply Hno. by exists out2.
  Qed.
  Lemma epoch_same out' : (run evs').2 = l1' ++ LOut t (Emitted out') :: l2' -> out' ≡ₚ map (moved d) out.
  Proof.
    intros E'. destruct (emitted_is _ _ _ _ _ Hv' E') as [_ He']. pose proof (run_prefix _ _ _ Hv' E') as Hg'. destruct epoch_emitted as (out2 & He & Hp).
    rewrite <- Hp. apply (emission_one t (pending l1' t)); [|done..].
    eapply Forall_impl; [by apply pending_ok|]. by intros x [Hx _].
  Qed.
End Runs.

Section Two.
  Context (d lo hi : Z) {S S' : Type} (cfg cfg' : sysconfig) (conv : converter S) (conv' : converter S') (s0 : S) (s0' : S').
  Context (evs evs' : list yevent) (st : ystate S) (st' : ystate S') (t p p' : Z).
  Context (Hr : yreachable cfg conv s0 evs st) (Hr' : yreachable cfg' conv' s0' evs' st') (Ht : t <> 0).
  Context (Hu : undisturbed t p st) (Hu' : undisturbed t p' st') (Hs : told t st' = map (moved d) (told t st)).
  Context (HP : Forall (between lo hi) (told t st)) (R1 : roomy (1 + length (told t st)) lo hi) (R2 : roomy (1 + length (told t st)) (lo + d) (hi + d)).
  Context (out : list span) (He : LOut t (Emitted out) ∈ y_log st).

  Lemma epoch_system o' : LOut t o' ∈ y_log st' -> match o' with Emitted out' => out' ≡ₚ map (moved d) out | TooOld => True | _ => False end.
  Proof.
    intros Hin.
    destruct (one_record t Ht _ _ _ _ _ _ _ Hr Hu He) as (v & l1 & l2 & Hv & E & _ & _ & _ & Hp & _).
    destruct (one_record t Ht _ _ _ _ _ _ _ Hr' Hu' Hin) as (v' & l1' & l2' & Hv' & E' & _ & _ & _ & Hp' & Hm).
    rewrite <- Hp, <- Hp' in Hs. rewrite <- Hp in HP, R1, R2.
    destruct o' as [out'| | | | |]; try done; [by apply (epoch_same d lo hi v v' l1 l2 l1' l2' t)|by apply (epoch_fate d lo hi v v' l1 l2 l1' l2' t out)].
  Qed.

  Lemma epoch_kept h l : timeless d h -> kept h (map (moved d) l) = map (moved d) (kept h l).
  Proof.
    intros Hh. unfold kept. induction l as [|x l IH]; [done|]. cbn [map omap list_omap]. rewrite (Hh x). cbn [fst snd].
    change (s_id (moved d (h x).1)) with (s_id (h x).1). change (s_trace (moved d (h x).1)) with (s_trace (h x).1).
    destruct (decide _); [cbn [map]; f_equal|]; exact IH.
  Qed.

  Lemma epoch_targets h out' r r' : LOut t (Emitted out') ∈ y_log st' ->
    positive_caps cfg -> positive_caps cfg' -> ystopped cfg conv st -> ystopped cfg' conv' st' -> works_as conv h -> works_as conv' h -> timeless d h ->
    r ∈ p_readers (y_pipe st) -> r' ∈ p_readers (y_pipe st') ->
    kept h out ∈ rd_log r /\ kept h out' ∈ rd_log r' /\ kept h out' ≡ₚ map (moved d) (kept h out).
  Proof.
    intros He' Hp Hp' Hst Hst' Hc Hc' Hh Hrd Hrd'. split; [by apply (got_it cfg conv s0 evs st t)|]. split; [by apply (got_it cfg' conv' s0' evs' st' t)|].
    rewrite <- (epoch_kept h out Hh). unfold kept. apply omap_Permutation. exact (epoch_system _ He').
  Qed.
End Two.
