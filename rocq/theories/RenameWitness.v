(** Concrete runs for C110. *)
From stdpp Require Import sorting.
From Verif Require Import Base SpanModel TreeModel TreeSpec TreeProofs FinishModel FinishSpec FinishWitness FinishProofs MaskWitness ShiftWitness RenameSpec RenameProofs.

Section sorting.
Context (R : Z * tree -> Z * tree -> Prop) (HR : forall p q, R p q -> t_count q.2 = t_count p.2).
Lemma list_merge_rel l1 : forall l1', Forall2 R l1 l1' -> forall l2 l2', Forall2 R l2 l2' -> Forall2 R (list_merge larger l1 l2) (list_merge larger l1' l2').
Proof.
  induction l1 as [|x l1 IH1]; intros l1' H1; inversion H1 as [|? x' ? k1 Hx Hl1]; subst.
  - intros l2 l2' H2. by rewrite !list_merge_nil_l.
  - induction 1 as [|y y' l2 l2' Hy Hl2 IH2]; [by rewrite !list_merge_nil_r|]. rewrite !list_merge_cons.
    assert (E : larger x y <-> larger x' y') by (unfold larger; by rewrite (HR _ _ Hx), (HR _ _ Hy)).
    destruct (decide (larger x y)) as [H|H]; [rewrite (decide_True (P := larger x' y')) by (by apply E)|rewrite (decide_False (P := larger x' y')) by (by rewrite <- E)].
    + constructor; [done|]. apply IH1; [done|]. by constructor.
    + constructor; [done|]. exact IH2.
Qed.
Notation RS := (Forall2 (option_Forall2 (Forall2 R))).
Lemma to_stack_rel st st' : RS st st' -> forall l l', Forall2 R l l' -> RS (merge_list_to_stack larger st l) (merge_list_to_stack larger st' l').
Proof.
  induction 1 as [|o o' st st' Ho Hst IH]; intros l l' Hl; [repeat constructor; done|]. destruct Ho as [x x' Hx|]; cbn [merge_list_to_stack].
  - constructor; [constructor|]. apply IH. by apply list_merge_rel.
  - constructor; [by constructor|done].
Qed.
Lemma stack_rel st st' : RS st st' -> Forall2 R (merge_stack larger st) (merge_stack larger st').
Proof. induction 1 as [|o o' st st' Ho Hst IH]; [constructor|]. destruct Ho as [x x' Hx|]; cbn [merge_stack]; [by apply list_merge_rel|done]. Qed.
Lemma sort_rel l l' : Forall2 R l l' -> Forall2 R (merge_sort larger l) (merge_sort larger l').
Proof.
  intros H. unfold merge_sort. assert (G : forall st st', RS st st' -> Forall2 R (merge_sort_aux larger st l) (merge_sort_aux larger st' l')).
  { induction H as [|x x' l l' Hx Hl IH]; intros st st' Hst; [by apply stack_rel|]. cbn [merge_sort_aux]. apply IH. apply to_stack_rel; [done|]. repeat constructor. done. }
  apply G. constructor.
Qed.
End sorting.

Section keys.
Context (f g : Z -> Z) (Hfg : renaming f g).
(** Iteration in the order of the names before the renaming. *)
Definition by_old_keys (_ : nat) (ts : gmap Z tree) : list (Z * tree) := omap (fun i => pair (f i) <$> ts !! f i) (elements (set_map g (dom ts) : gset Z)).
Definition old_black (b : gset Z) : list Z := map f (elements (set_map g b : gset Z)).
Definition old_keys_tick (now : Z) : tick := Tick now now (fun _ => now) map_to_list by_old_keys old_black (merge_sort larger).

Lemma by_old_keys_elem i ts k t : (k, t) ∈ by_old_keys i ts <-> ts !! k = Some t.
Proof.
  unfold by_old_keys. rewrite elem_of_list_omap. split.
  - intros (j & _ & E). destruct (ts !! f j) as [t'|] eqn:Ej; [|done]. cbn in E. by injection E as <- <-.
  - intros E. exists (g k). rewrite (fg f g Hfg), E. split; [|done]. apply elem_of_elements, elem_of_map. exists k. split; [done|]. apply elem_of_dom. eauto.
Qed.
Lemma by_old_keys_order i ts : by_old_keys i ts ≡ₚ map_to_list ts.
Proof.
  apply NoDup_Permutation; [|apply NoDup_map_to_list|intros [k t]; by rewrite by_old_keys_elem, elem_of_map_to_list].
  unfold by_old_keys. generalize (NoDup_elements (set_map g (dom ts) : gset Z)). generalize (elements (set_map g (dom ts) : gset Z)) as l. intros l Hl.
  assert (H : forall k t, (k, t) ∈ omap (fun i => pair (f i) <$> ts !! f i) l -> g k ∈ l).
  { intros k t Hk. apply elem_of_list_omap in Hk as (j & Hj & E). destruct (ts !! f j); [|done]. cbn in E. injection E as <- <-. by rewrite (gf f g Hfg). }
  induction l as [|x l IH]; [constructor|]. apply NoDup_cons in Hl as [Hx Hl]. cbn [omap list_omap].
  assert (H' : forall k t, (k, t) ∈ omap (fun i => pair (f i) <$> ts !! f i) l -> g k ∈ l).
  { intros k t Hk. apply elem_of_list_omap in Hk as (j & Hj & E). destruct (ts !! f j); [|done]. cbn in E. injection E as <- <-. by rewrite (gf f g Hfg). }
  destruct (ts !! f x) as [t|]; cbn [fmap option_fmap option_map]; [|by apply IH]. apply NoDup_cons. split; [|by apply IH].
  intros Hin. apply H' in Hin. by rewrite (gf f g Hfg) in Hin.
Qed.
Lemma old_keys_valid now : valid_tick (old_keys_tick now).
Proof.
  destruct (plain_valid now) as (A & _ & _ & C). split; [exact A|]. split; [apply by_old_keys_order|]. split; [|exact C].
  intros b. cbn [k_range_black old_keys_tick]. unfold old_black. apply NoDup_Permutation.
  - apply NoDup_fmap_2; [intros x y E; by apply (f_eq f g Hfg)|apply NoDup_elements].
  - apply NoDup_elements.
  - intros x. rewrite elem_of_list_fmap, elem_of_elements. split.
    + intros (y & -> & Hy). apply elem_of_elements, elem_of_map in Hy as (z & -> & Hz). by rewrite (fg f g Hfg).
    + intros Hx. exists (g x). rewrite (fg f g Hfg). split; [done|]. apply elem_of_elements, elem_of_map. eauto.
Qed.
Lemma keys_renamed now : renamed_tick f (keys_tick now) (old_keys_tick now).
Proof.
  split; [done|]. split; [done|]. split; [|split].
  - intros i ts ts' H. cbn [k_range keys_tick old_keys_tick]. unfold by_keys, by_old_keys.
    assert (E : (set_map g (dom ts') : gset Z) = dom ts).
    { apply set_eq. intros x. rewrite elem_of_map, elem_of_dom. split.
      - intros (y & -> & Hy). apply elem_of_dom in Hy as [t Hy]. specialize (H (g y)). rewrite (fg f g Hfg), Hy in H. inversion H; eauto.
      - intros [t Hx]. exists (f x). rewrite (gf f g Hfg). split; [done|]. apply elem_of_dom. specialize (H x). rewrite Hx in H. inversion H; eauto. }
    rewrite E. induction (elements (dom ts)) as [|x l IH]; [constructor|]. cbn [omap list_omap]. destruct (H x) as [t t' Ht|]; cbn [fmap option_fmap option_map]; [|done].
    constructor; [by split|done].
  - intros b b' H. cbn [k_range_black keys_tick old_keys_tick]. unfold old_black. do 2 f_equal. apply set_eq. intros x. rewrite elem_of_map. split.
    + intros (y & -> & Hy). apply H. by rewrite (fg f g Hfg).
    + intros Hx. exists (f x). rewrite (gf f g Hfg). split; [done|]. by apply H.
  - intros l l' H. cbn [k_sort keys_tick old_keys_tick]. apply sort_rel; [|done]. by intros p q (_ & _ & _ & _ & E).
Qed.
End keys.

(* ---------- the call of C109 under other names ---------- *)

Definition mirror (x : Z) : Z := if decide (0 < x < 100) then 100 - x else x.
Lemma mirror_renaming : renaming mirror mirror.
Proof. unfold renaming, mirror. split; [|split]; [intros x; repeat case_decide; lia|intros x; repeat case_decide; lia|done]. Qed.

Definition other_names (f g : Z -> Z) (evs : list event) : list event :=
  map (fun e => match e with ESpan ord n0 n1 s => ESpan ord n0 n1 (renamed f s) | ETick k => ETick (old_keys_tick f g (k_now1 k)) | EClose => EClose end) evs.

Lemma order_renamed f g n : renaming f g ->
  Forall2 (renamed_event f) (order n autumn) (other_names f g (order n autumn)) /\ Forall valid_event (order n autumn) /\ Forall valid_event (other_names f g (order n autumn)).
Proof.
  intros H. assert (Hv : Forall valid_event (order n autumn)) by (apply order_valid; unfold autumn; p2; lia). split; [|split; [exact Hv|]].
  - unfold order, other_names. cbn [map]. repeat (apply Forall2_cons; split; [first [exact I | apply (keys_renamed f g H) | done]|]). by apply Forall2_nil.
  - unfold other_names. apply Forall_fmap. eapply Forall_impl; [exact Hv|]. intros [ord n0 n1 s|k|] He; [exact He|by apply old_keys_valid|done].
Qed.

Lemma order_matters : exists f g evs evs' i t t' out out', renaming f g /\ Forall2 (renamed_event f) evs evs' /\ Forall valid_event evs /\ Forall valid_event evs' /\
  (run evs).2 !! i = Some (LOut t (Emitted out)) /\ (run evs').2 !! i = Some (LOut t' (Emitted out')) /\ out' <> map (renamed f) out.
Proof.
  destruct (order_renamed mirror mirror 0 mirror_renaming) as (A & B & C).
  assert (E : exists t out t' out', (run (order 0 autumn)).2 !! 7%nat = Some (LOut t (Emitted out)) /\
    (run (other_names mirror mirror (order 0 autumn))).2 !! 7%nat = Some (LOut t' (Emitted out')) /\ map s_id out' <> map s_id (map (renamed mirror) out)).
  { vm_compute. do 4 eexists. split; [reflexivity|]. split; [reflexivity|]. intros E. discriminate E. }
  destruct E as (t & out & t' & out' & E1 & E2 & E3). exists mirror, mirror, (order 0 autumn), (other_names mirror mirror (order 0 autumn)), 7%nat, t, t', out, out'.
  split; [exact mirror_renaming|]. split; [exact A|]. split; [exact B|]. split; [exact C|]. split; [exact E1|]. split; [exact E2|]. intros E. apply E3. by rewrite E.
Qed.
