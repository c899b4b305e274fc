(** Proofs for C119. *)
From Verif Require Import Base IdModel SpanModel TreeModel TreeSpec TreeProofs RootProofs FinishModel FinishSpec FinishProofs FinishRun FinishTheorems DecideProofs ForwardModel ForwardSpec PipelineModel PipelineSpec
  SystemModel SystemSpec SystemTheorems ConnectSpec WholeSpec OrderSpec RenameSpec RenameProofs RenameRun UnseenSpec UnseenProofs AliasSpec.

Section alias.
Context (f g : Z -> Z) (Hfg : renaming f g).
Notation F := (renamed f).

Lemma alias_adds t a b : Forall (fun x => s_trace x.2 = t /\ int64_ok (s_ts x.2)) a -> reports b = map F (reports a) ->
  merged_spans (f t) b ≡ₚ map F (merged_spans t a).
Proof.
  unfold merged_spans.
  assert (G : forall a b T T', Forall (fun x => s_trace x.2 = t /\ int64_ok (s_ts x.2)) a -> reports b = map F (reports a) ->
    proper t T -> proper (f t) T' -> t_spans T' ≡ₚ map F (t_spans T) ->
    t_spans (add_all map_to_list (map (fun a => (a.1.2, a.2)) b) T') ≡ₚ map F (t_spans (add_all map_to_list (map (fun a => (a.1.2, a.2)) a) T))).
  { clear a b. induction a as [|x a IH]; intros [|y b] T T' Ha E HT HT' Hp; try done. unfold reports in E. cbn [map] in E. apply (inj2 cons) in E as [Exy E].
    apply Forall_cons in Ha as [[Hx1 Hx2] Ha]. cbn [map add_all foldl fst snd].
    assert (A : forall n s T, t_spans (add_span map_to_list n s T) = t_spans (add_span map_to_list 0 s (Tree 0 (t_spans T) 0 0 0))).
    { intros n s U. unfold add_span. cbn [t_spans]. by destruct (get_span_ref _ _). }
    apply IH; [exact Ha|exact E| | |].
    - apply proper_add; [apply map_order_list|done..].
    - apply proper_add; [apply map_order_list|done| |]; rewrite Exy; [cbn; by rewrite Hx1|done].
    - rewrite (A _ _ T), (A _ _ T'), Exy.
      destruct (rename_add f g Hfg map_to_list map_to_list 0 t x.2 (Tree 0 (t_spans T) 0 0 0) (Tree 0 (t_spans T') 0 0 0)) as [H _]; try apply map_order_list; done. }
  intros Ha E. apply G; [done|done| | |done].
  - split; [constructor|]. split; constructor.
  - split; [constructor|]. split; constructor.
Qed.

Section Runs.
  Context (evs evs' : list event) (l1 l2 l1' l2' : list entry) (t : Z) (out : list span).
  Context (Hv : Forall valid_event evs) (Hv' : Forall valid_event evs').
  Context (E : (run evs).2 = l1 ++ LOut t (Emitted out) :: l2).
  Context (Hs : reports (pending l1' (f t)) = map F (reports (pending l1 t))).

  Lemma alias_emission : exists out2, emission (f t) (merged_spans (f t) (pending l1' (f t))) out2 /\ out2 ≡ₚ map F out.
  Proof.
    destruct (emitted_is _ _ _ _ _ Hv E) as [_ He]. pose proof (run_prefix _ _ _ Hv E) as Hg.
    apply (rename_emission f g Hfg t (merged_spans t (pending l1 t))); [|done]. apply alias_adds; [by apply pending_ok|done].
  Qed.
  Lemma alias_fate : (run evs').2 = l1' ++ LOut (f t) NoRoot :: l2' -> False.
  Proof.
    intros E'. pose proof (run_entry _ _ _ _ Hv' E') as (_ & n1 & n2 & load & _ & Hno & _).
    destruct alias_emission as (out2 & He & _). apply Hno. by exists out2.
  Qed.
  Lemma alias_same out' : (run evs').2 = l1' ++ LOut (f t) (Emitted out') :: l2' -> out' ≡ₚ map F out.
  Proof.
    intros E'. destruct (emitted_is _ _ _ _ _ Hv' E') as [_ He']. pose proof (run_prefix _ _ _ Hv' E') as Hg'. destruct alias_emission as (out2 & He & Hp).
    rewrite <- Hp. apply (emission_one (f t) (pending l1' (f t))); [|done..].
    eapply Forall_impl; [by apply pending_ok|]. by intros x [Hx _].
  Qed.
End Runs.

Section Two.
  Context {S S' : Type} (cfg cfg' : sysconfig) (conv : converter S) (conv' : converter S') (s0 : S) (s0' : S').
  Context (evs evs' : list yevent) (st : ystate S) (st' : ystate S') (t p p' : Z).
  Context (Hr : yreachable cfg conv s0 evs st) (Hr' : yreachable cfg' conv' s0' evs' st') (Ht : t <> 0).
  Context (Hu : undisturbed t p st) (Hu' : undisturbed (f t) p' st') (Hs : told (f t) st' = map F (told t st)).
  Context (out : list span) (He : LOut t (Emitted out) ∈ y_log st).

  Lemma alias_system o' : LOut (f t) o' ∈ y_log st' -> match o' with Emitted out' => out' ≡ₚ map F out | TooOld => True | _ => False end.
  Proof.
    intros Hin. assert (Ht' : f t <> 0) by (by rewrite (f_zero f g Hfg)).
    destruct (one_record t Ht _ _ _ _ _ _ _ Hr Hu He) as (v & l1 & l2 & Hv & E & _ & _ & _ & Hp & _).
    destruct (one_record (f t) Ht' _ _ _ _ _ _ _ Hr' Hu' Hin) as (v' & l1' & l2' & Hv' & E' & _ & _ & _ & Hp' & Hm).
    assert (Hs' : reports (pending l1' (f t)) = map F (reports (pending l1 t))) by (by rewrite Hp, Hp').
    destruct o' as [out'| | | | |]; try done; [by apply (alias_same v v' l1 l2 l1' l2' t)|by apply (alias_fate v v' l1 l2 l1' l2' t out)].
  Qed.

  Lemma alias_kept h l : by_name f h -> kept h (map F l) = map F (kept h l).
  Proof.
    intros Hh. unfold kept. induction l as [|x l IH]; [done|]. cbn [map omap list_omap]. rewrite (Hh x). cbn [fst snd].
    change (s_id (F (h x).1)) with (f (s_id (h x).1)). change (s_trace (F (h x).1)) with (f (s_trace (h x).1)).
    destruct (decide ((h x).2 = false /\ s_id (h x).1 <> 0 /\ s_trace (h x).1 <> 0)) as [H|H].
    - rewrite decide_True by (by rewrite !(f_zero f g Hfg)). cbn [map]. f_equal. exact IH.
    - rewrite decide_False by (by rewrite !(f_zero f g Hfg)). exact IH.
  Qed.

  Lemma alias_targets h out' r r' : LOut (f t) (Emitted out') ∈ y_log st' ->
    positive_caps cfg -> positive_caps cfg' -> ystopped cfg conv st -> ystopped cfg' conv' st' -> works_as conv h -> works_as conv' h -> by_name f h ->
    r ∈ p_readers (y_pipe st) -> r' ∈ p_readers (y_pipe st') ->
    kept h out ∈ rd_log r /\ kept h out' ∈ rd_log r' /\ kept h out' ≡ₚ map F (kept h out).
  Proof.
    intros He' Hp Hp' Hst Hst' Hc Hc' Hh Hrd Hrd'. split; [by apply (got_it cfg conv s0 evs st t)|]. split; [by apply (got_it cfg' conv' s0' evs' st' (f t))|].
    rewrite <- (alias_kept h out Hh). unfold kept. apply omap_Permutation. exact (alias_system _ He').
  Qed.
End Two.
End alias.
