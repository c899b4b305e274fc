(** Proofs for C121. *)
From Verif Require Import Base IdModel SpanModel TreeModel TreeSpec TreeProofs RootProofs CorrectProofs FinishModel FinishSpec FinishProofs FinishRun FinishTheorems DecideProofs ForwardModel ForwardSpec PipelineModel PipelineSpec
  SystemModel SystemSpec SystemTheorems ConnectSpec ConnectProofs WholeSpec OrderSpec OrderProofs OrderRun ShiftProofs RenameProofs RenameRun ClockProofs UnseenSpec UnseenProofs LossSpec.

Section loss.
Context (lost : list Z).
Notation K := (fun s => s_id s ∉ lost).
Notation F := (spared lost).

Lemma in_F x l : x ∈ F l <-> s_id x ∉ lost /\ x ∈ l.
Proof. unfold spared. by rewrite elem_of_list_filter. Qed.
Lemma F_perm l m : l ≡ₚ m -> F l ≡ₚ F m.
Proof. intros H. unfold spared. by rewrite H. Qed.

Lemma loss_add ord now s T T' : map_order ord -> descending (ids (t_spans T)) -> descending (ids (t_spans T')) -> t_spans T' ≡ₚ F (t_spans T) ->
  (s_id s ∉ lost -> t_spans (add_span ord now s T') ≡ₚ F (t_spans (add_span ord now s T))) /\
  (s_id s ∈ lost -> t_spans T' ≡ₚ F (t_spans (add_span ord now s T))).
Proof.
  intros Ho Hd Hd' Hp. destruct (add_span_cases ord now s T Ho Hd) as [(l1 & l2 & E & En & E1 & _)|(l1 & x & l2 & E & Ex & E1 & _)].
  - split; intros Hs.
    + destruct (add_span_cases ord now s T' Ho Hd') as [(k1 & k2 & E' & En' & E1' & _)|(k1 & y & k2 & E' & Ey & E1' & _)]; rewrite E1, E1'; cbn [t_spans].
      * rewrite E, E' in Hp. unfold spared in *. rewrite <- !Permutation_middle, Hp. by rewrite (filter_cons_True _ s) by done.
      * exfalso. apply En. rewrite <- Ey. unfold ids. apply elem_of_list_fmap_1. assert (Hy : y ∈ t_spans T') by (rewrite E'; apply elem_of_app; right; left).
        rewrite Hp in Hy. by apply in_F in Hy as [_ Hy].
    + rewrite E1. cbn [t_spans]. rewrite Hp, E. apply Permutation_sym. etransitivity; [apply F_perm; symmetry; apply Permutation_middle|].
      unfold spared. by rewrite (filter_cons_False _ s) by tauto.
  - assert (Eu : s_id (updated_span x s) = s_id x) by (by destruct (updated_keeps x s) as [_ _]; unfold updated_span, merged; destruct (_ =? 0); destruct (decide _)).
    split; intros Hs.
    + destruct (add_span_cases ord now s T' Ho Hd') as [(k1 & k2 & E' & En' & E1' & _)|(k1 & y & k2 & E' & Ey & E1' & _)]; rewrite E1, E1'; cbn [t_spans].
      * exfalso. apply En'. rewrite <- Ex. unfold ids. apply elem_of_list_fmap_1. rewrite Hp. apply in_F. split; [by rewrite Ex|]. rewrite E. apply elem_of_app. right. left.
      * assert (y = x) as ->.
        { assert (Hy : y ∈ t_spans T') by (rewrite E'; apply elem_of_app; right; left). rewrite Hp in Hy. apply in_F in Hy as [_ Hy].
          apply (sorted_unique (t_spans T)); [done|done|rewrite E; apply elem_of_app; right; left|by rewrite Ex]. }
        rewrite E, E' in Hp. unfold spared in *. rewrite <- !Permutation_middle in Hp |- *. rewrite filter_cons_True in Hp by (by rewrite Ex). rewrite filter_cons_True by (by rewrite Eu, Ex).
        apply Permutation_cons_inv in Hp. by rewrite Hp.
    + rewrite E1. cbn [t_spans]. rewrite Hp, E. unfold spared. rewrite <- !Permutation_middle. rewrite !filter_cons_False by (rewrite ?Eu, Ex; tauto). done.
Qed.

Lemma loss_adds t a b : reports b = F (reports a) -> merged_spans t b ≡ₚ F (merged_spans t a).
Proof.
  unfold merged_spans.
  assert (A : forall n s T, t_spans (add_span map_to_list n s T) = t_spans (add_span map_to_list 0 s (Tree 0 (t_spans T) 0 0 0))).
  { intros m s U. unfold add_span. cbn [t_spans]. by destruct (get_span_ref _ _). }
  assert (D : forall n s T, descending (ids (t_spans T)) -> descending (ids (t_spans (add_span map_to_list n s T)))).
  { intros n s T Hd. destruct (add_span_cases map_to_list n s T map_order_list Hd) as [(l1 & l2 & E & En & E1 & H)|(l1 & x & l2 & E & Ex & E1 & H)]; rewrite E1; cbn [t_spans]; [done|by rewrite H]. }
  assert (G : forall a b T T', reports b = F (reports a) -> descending (ids (t_spans T)) -> descending (ids (t_spans T')) -> t_spans T' ≡ₚ F (t_spans T) ->
    t_spans (add_all map_to_list (map (fun a => (a.1.2, a.2)) b) T') ≡ₚ F (t_spans (add_all map_to_list (map (fun a => (a.1.2, a.2)) a) T))).
  { clear a b. induction a as [|x a IH]; intros b T T' E HT HT' Hp.
    - apply map_eq_nil in E. subst b. exact Hp.
    - unfold reports, spared in E. cbn [map] in E. destruct (decide (s_id x.2 ∉ lost)) as [Hx|Hx].
      + rewrite filter_cons_True in E by done. destruct b as [|y b]; [discriminate E|]. cbn [map] in E. apply (inj2 cons) in E as [Exy E]. cbn [map add_all foldl fst snd].
        apply IH; [exact E|by apply D|by apply D|]. rewrite Exy, (A _ _ T'), (A _ _ T).
        by apply (loss_add map_to_list 0 x.2 (Tree 0 (t_spans T) 0 0 0) (Tree 0 (t_spans T') 0 0 0) map_order_list).
      + rewrite filter_cons_False in E by done. cbn [map add_all foldl fst snd].
        apply (IH b); [exact E|by apply D|done|]. apply (loss_add map_to_list x.1.2 x.2 T T' map_order_list); try done. by apply dec_stable. }
  intros E. apply G; [exact E|constructor|constructor|done].
Qed.

(** Upwards. *)
Lemma kept_path all p q : (forall x y, x ∈ all -> child all x y -> s_id x ∈ lost -> s_id y ∈ lost) -> p ∈ all -> descends all p q -> s_id (List.last q p) ∉ lost ->
  s_id p ∉ lost /\ Forall K q.
Proof.
  intros Hc. revert p. induction q as [|c q IH]; intros p Hp Hq Hl; [done|]. cbn [descends] in Hq. destruct Hq as [Hch Hq]. rewrite last_cons in Hl.
  destruct (IH c) as [H1 H2]; [by destruct Hch|done|done|]. split; [|by constructor]. intros H. by apply H1, (Hc p).
Qed.
Lemma loss_descends all all' p q : all' ≡ₚ F all -> descends all' p q -> descends all p q.
Proof.
  intros Hp. revert p. induction q as [|x q IH]; intros p; [done|]. cbn [descends]. intros [(H1 & H2 & H3) Hq]. split; [|by apply IH].
  split; [|done]. rewrite Hp in H1. by apply in_F in H1 as [_ H1].
Qed.
Lemma loss_descends_back all all' p q : all' ≡ₚ F all -> Forall K q -> descends all p q -> descends all' p q.
Proof.
  intros Hp HK. revert p. induction HK as [|x q Hx _ IH]; intros p; [done|]. cbn [descends]. intros [(H1 & H2 & H3) Hq]. split; [|by apply IH].
  split; [|done]. rewrite Hp. by apply in_F.
Qed.
Lemma loss_becomes all all' root s s' : (forall x y, x ∈ all -> child all x y -> s_id x ∈ lost -> s_id y ∈ lost) -> root ∈ all -> all' ≡ₚ F all -> s_id s ∉ lost ->
  becomes all root s s' -> becomes all' root s s'.
Proof.
  intros Hc Hr Hp Hs (H1 & H2 & H3). split; [done|]. split.
  - intros q Hq. apply H2. by apply (loss_descends all all').
  - intros Hn. apply H3. intros (q & Hq & El). apply Hn. exists q. split; [|done].
    apply (loss_descends_back all); [done|by apply (kept_path all root); rewrite ?El|done].
Qed.
Lemma loss_candidate all all' r : (forall x y, x ∈ all -> child all x y -> s_id x ∈ lost -> s_id y ∈ lost) -> all' ≡ₚ F all ->
  (root_candidate all' r <-> root_candidate all r /\ s_id r ∉ lost).
Proof.
  intros Hc Hp. assert (Q : forall i, i ∈ ids all' <-> i ∈ ids all /\ i ∉ lost).
  { intros i. unfold ids. rewrite !elem_of_list_fmap. split.
    - intros (x & -> & Hx). rewrite Hp in Hx. apply in_F in Hx as [? ?]. split; [by exists x|done].
    - intros [(x & -> & Hx) Hi]. exists x. split; [done|]. rewrite Hp. by apply in_F. }
  unfold root_candidate. rewrite Q, Hp, in_F. split.
  - intros [[H1 H2] H3]. split; [|done]. split; [done|]. destruct (decide (s_parent r = s_id r)) as [|Hne]; [by left|]. right. destruct H3 as [H3|H3]; [done|].
    intros Hi. apply H3. split; [done|]. intros Hl. unfold ids in Hi. apply elem_of_list_fmap in Hi as (x & Ex & Hx). apply H1, (Hc x r); [done|by split|by rewrite <- Ex].
  - intros [[H1 [H2|H2]] H3]; (split; [done|]); [by left|right; tauto].
Qed.

Lemma loss_emission t l l' out r : NoDup (ids l) -> l' ≡ₚ F l -> emission t l out -> one_root out r -> s_id r ∉ lost -> with_all_below lost out ->
  s_id r ∈ ids l \/ (forall c, child out r c -> s_id c ∉ lost) ->
  exists out', emission t l' out' /\ out' ≡ₚ F out.
Proof.
  intros Hn Hp (all & root & Hall & Hr & Hu & HF & H1 & H2) Hone Hrl Hbelow Hcase.
  assert (Hin : forall x, x ∈ all -> exists st du, retimed x st du ∈ out).
  { intros x Hx. apply elem_of_list_lookup in Hx as [i Hi]. destruct (Forall2_lookup_l _ _ _ _ _ HF Hi) as (y & Hy & st & du & ->). exists st, du. by eapply elem_of_list_lookup_2. }
  assert (Hc : forall x y, x ∈ all -> child all x y -> s_id x ∈ lost -> s_id y ∈ lost).
  { intros x y Hx (Hy & E & Hne). destruct (Hin x Hx) as (st & du & Hx'), (Hin y Hy) as (st' & du' & Hy'). apply (Hbelow (retimed x st du) (retimed y st' du')); [done|by split]. }
  assert (Er : s_id r = s_id root).
  { apply (root_of_out all root out r); [|by split|done|done].
    destruct Hall as [->|(f & Hf & Ha)]; [done|]. by destruct (injected_is_root _ _ _ _ _ Hn Hf Ha Hr) as (_ & _ & ?). }
  assert (HA : exists all', all' ≡ₚ F all /\ (all' = l' \/ exists x, injected t l' x /\ all' ≡ₚ x :: l')).
  { destruct Hall as [->|(f & Hf & Ha)]; [exists l'; split; [done|by left]|]. destruct (injected_is_root _ _ _ _ _ Hn Hf Ha Hr) as (Ef & _ & _). subst root.
    pose proof Hf as ((a & b & cs & F1 & F2 & F3) & F4 & F5 & F6 & c & c' & Hcc & Hcc' & Hne & Hpar).
    destruct Hcase as [Hown|Hkids]; [exfalso; apply F6; by rewrite <- Er|].
    assert (Hcl : forall x y, x ∈ l -> child l x y -> s_id x ∈ lost -> s_id y ∈ lost).
    { intros x y Hx (Hy & E & Hne'). apply Hc; [rewrite Ha; by right|]. split; [rewrite Ha; by right|done]. }
    assert (Hk : forall s, root_candidate l s -> s_id s ∉ lost).
    { intros s Hs. assert (Hsa : s ∈ all) by (rewrite Ha; right; by destruct Hs). destruct (Hin s Hsa) as (st & du & Hs').
      apply (Hkids (retimed s st du)). split; [done|]. cbn [retimed s_parent s_id]. change (s_parent (retimed s st du)) with (s_parent s). change (s_id (retimed s st du)) with (s_id s). rewrite Er, (Hpar s Hs). split; [done|].
      intros E. apply F6. rewrite E. unfold ids. apply elem_of_list_fmap_1. by destruct Hs. }
    assert (Hiff : forall s, root_candidate l' s <-> root_candidate l s).
    { intros s. rewrite (loss_candidate l l' s Hcl Hp). split; [tauto|]. intros Hs. split; [done|by apply Hk]. }
    exists (f :: l'). split.
    - rewrite Hp. unfold spared. rewrite Ha. rewrite filter_cons_True; [done|]. by rewrite <- Er.
    - right. exists f. split; [|done]. split; [exists a, b, cs; split; [done|]; split; [done|]; intros s; by rewrite Hiff|]. split; [done|]. split; [done|]. split.
      + intros Hi. apply F6. unfold ids in *. apply elem_of_list_fmap in Hi as (x & -> & Hx). apply elem_of_list_fmap_1. rewrite Hp in Hx. by apply in_F in Hx as [_ Hx].
      + exists c, c'. rewrite !Hiff. split; [done|]. split; [done|]. split; [done|]. intros s Hs. apply Hpar. by apply Hiff. }
  destruct HA as (all' & Hp' & Hall').
  assert (HB : Forall2 (becomes all root) all out).
  { apply Forall2_same_length_lookup_2; [by eapply Forall2_length|]. intros i s s' Hs Hs'. split; [|split].
    - by eapply (Forall2_lookup_lr _ _ _ _ _ _ HF Hs Hs').
    - intros q Hq <-. rewrite (H1 q i Hq Hs) in Hs'. by injection Hs'.
    - intros Hno. rewrite (H2 i s Hs Hno) in Hs'. by injection Hs'. }
  assert (Hra : root ∈ all) by (by destruct Hr).
  assert (HC : Forall2 (becomes all' root) (F all) (F out)).
  { assert (G : forall m o, Forall2 (becomes all root) m o -> Forall2 (becomes all' root) (F m) (F o)); [|by apply G].
    induction 1 as [|s s' m o Hs _ IH]; [constructor|]. unfold spared in *. assert (Es : s_id s' = s_id s) by (destruct Hs as ((? & ? & ->) & _); done).
    destruct (decide (s_id s ∉ lost)) as [Hk|Hk].
    - rewrite !filter_cons_True by (by rewrite ?Es). constructor; [|done]. by apply (loss_becomes all).
    - rewrite !filter_cons_False by (by rewrite ?Es). done. }
  destruct (Permutation_Forall2 (symmetry Hp') HC) as (out' & Hout & HD). exists out'. split; [|by symmetry].
  exists all', root. split; [done|]. split; [apply (loss_candidate all all' root Hc Hp'); split; [done|by rewrite <- Er]|]. split; [|split; [|split]].
  - intros x Hx. apply (loss_candidate all all' x Hc Hp') in Hx as [Hx _]. by apply Hu.
  - eapply Forall2_impl; [exact HD|]. by intros s s' [? _].
  - intros q i Hq Hi. destruct (Forall2_lookup_l _ _ _ _ _ HD Hi) as (s' & Hs' & _ & Hb & _). rewrite Hs'. f_equal. by apply Hb.
  - intros i s Hi Hno. destruct (Forall2_lookup_l _ _ _ _ _ HD Hi) as (s' & Hs' & _ & _ & Hb). rewrite Hs'. f_equal. by apply Hb.
Qed.
End loss.

Section Runs.
  Context (lost : list Z) (evs evs' : list event) (l1 l2 l1' l2' : list entry) (t : Z) (out : list span) (r : span).
  Context (Hv : Forall valid_event evs) (Hv' : Forall valid_event evs').
  Context (E : (run evs).2 = l1 ++ LOut t (Emitted out) :: l2).
  Context (Hs : reports (pending l1' t) = spared lost (reports (pending l1 t))).
  Context (Hone : ConnectSpec.one_root out r) (Hr : s_id r ∉ lost) (Hb : with_all_below lost out).
  Context (Hc : s_id r ∈ ids (reports (pending l1 t)) \/ (forall c, child out r c -> s_id c ∉ lost)).

  Lemma loss_emitted : exists out2, emission t (merged_spans t (pending l1' t)) out2 /\ out2 ≡ₚ spared lost out.
  Proof.
    destruct (emitted_is _ _ _ _ _ Hv E) as [_ He]. apply (loss_emission lost t (merged_spans t (pending l1 t)) _ out r); try done; [apply merged_NoDup|by apply loss_adds|].
    destruct Hc as [H|H]; [left|by right]. apply merged_ids. unfold ids, reports in H. by rewrite map_map in H.
  Qed.
  Lemma loss_fate : (run evs').2 = l1' ++ LOut t NoRoot :: l2' -> False.
  Proof.
    intros E'. pose proof (run_entry _ _ _ _ Hv' E') as (_ & n1 & n2 & load & _ & Hno & _).
    destruct loss_emitted as (out2 & He & _). apply Hno. by exists out2.
  Qed.
  Lemma loss_same out' : (run evs').2 = l1' ++ LOut t (Emitted out') :: l2' -> out' ≡ₚ spared lost out.
  Proof.
    intros E'. destruct (emitted_is _ _ _ _ _ Hv' E') as [_ He']. pose proof (run_prefix _ _ _ Hv' E') as Hg'. destruct loss_emitted as (out2 & He & Hp).
    rewrite <- Hp. apply (emission_one t (pending l1' t)); [|done..].
    eapply Forall_impl; [by apply pending_ok|]. by intros x [Hx _].
  Qed.
End Runs.

Section Two.
  Context (lost : list Z) {S S' : Type} (cfg cfg' : sysconfig) (conv : converter S) (conv' : converter S') (s0 : S) (s0' : S').
  Context (evs evs' : list yevent) (st : ystate S) (st' : ystate S') (t p p' : Z).
  Context (Hr : yreachable cfg conv s0 evs st) (Hr' : yreachable cfg' conv' s0' evs' st') (Ht : t <> 0).
  Context (Hu : undisturbed t p st) (Hu' : undisturbed t p' st') (Hs : told t st' = spared lost (told t st)).
  Context (out : list span) (root : span) (He : LOut t (Emitted out) ∈ y_log st).
  Context (Hone : ConnectSpec.one_root out root) (Hl : s_id root ∉ lost) (Hb : with_all_below lost out).
  Context (Hc : s_id root ∈ ids (told t st) \/ (forall c, child out root c -> s_id c ∉ lost)).

  Lemma loss_system o' : LOut t o' ∈ y_log st' -> match o' with Emitted out' => out' ≡ₚ spared lost out | TooOld => True | _ => False end.
  Proof.
    intros Hin.
    destruct (one_record t Ht _ _ _ _ _ _ _ Hr Hu He) as (v & l1 & l2 & Hv & E & _ & _ & _ & Hp & _).
    destruct (one_record t Ht _ _ _ _ _ _ _ Hr' Hu' Hin) as (v' & l1' & l2' & Hv' & E' & _ & _ & _ & Hp' & Hm).
    rewrite <- Hp, <- Hp' in Hs. rewrite <- Hp in Hc.
    destruct o' as [out'| | | | |]; try done; [by apply (loss_same lost v v' l1 l2 l1' l2' t out root)|by apply (loss_fate lost v v' l1 l2 l1' l2' t out root)].
  Qed.

  Lemma loss_targets h out' r r' : LOut t (Emitted out') ∈ y_log st' ->
    positive_caps cfg -> positive_caps cfg' -> ystopped cfg conv st -> ystopped cfg' conv' st' -> works_as conv h -> works_as conv' h ->
    r ∈ p_readers (y_pipe st) -> r' ∈ p_readers (y_pipe st') ->
    kept h out ∈ rd_log r /\ kept h out' ∈ rd_log r' /\ kept h out' ≡ₚ kept h (spared lost out).
  Proof.
    intros He' Hp Hp' Hst Hst' Hw Hw' Hrd Hrd'. split; [by apply (got_it cfg conv s0 evs st t)|]. split; [by apply (got_it cfg' conv' s0' evs' st' t)|].
    unfold kept. apply omap_Permutation. exact (loss_system _ He').
  Qed.
End Two.
