(** Every step of [RaceModel] keeps the discipline (C92), case by case. *)
From Verif Require Import Base RaceSpec RaceProofs RaceModel RaceTheorems RaceSteps.
Local Open Scope nat_scope.
Implicit Types (tr : log) (o : place -> stat) (s : state) (h : hold).

Ltac flds := cbn [set_next set_queue set_lock set_kept set_pool set_encs set_see set_work set_send set_table set_fwd set_batch learn
  s_next s_queue s_lock s_kept s_pool s_encs s_see s_work s_send s_table s_fwd s_batch w_pool w_maps w_out m_own m_refs] in *.

Lemma learn_refers r s t l h x : refers r (learn t l s) h x -> refers r s h x \/ h = HT t /\ x ∈ l.
Proof.
  destruct h as [u|c n|m|p]; cbn [refers]; try (by left). flds. unfold put. case_decide as E; [subst u|by left].
  intros [[H|H]%elem_of_app|H]; [by left; left|by right|by left; right].
Qed.

Lemma protected_inj m m' : protected m = protected m' -> m = m'.
Proof. by destruct m, m'. Qed.
Lemma worker_not t : is_worker t = true -> t <> TSender /\ t <> TCorrector /\ t <> TForwarder /\ t <> TSink.
Proof. by destruct t. Qed.
Lemma lock_not t m : may_lock t m = true -> t <> TSender /\ t <> TCorrector /\ t <> TForwarder /\ t <> TSink.
Proof. by destruct t. Qed.
Lemma works r d s t : tidy r d s -> s_work s t <> Worker [] [] [] -> is_worker t = true.
Proof. intros Ht H. destruct (is_worker t) eqn:E; [done|]. by rewrite (ti_idle _ _ _ Ht t E) in H. Qed.

(** What a goroutine uses that is neither sender, corrector, forwarder nor sink. *)
Lemma has_plain r s t x : t <> TSender /\ t <> TCorrector /\ t <> TForwarder /\ t <> TSink -> has r s (HT t) x ->
  (exists m, s_lock s m = Some t /\ x = protected m) \/ x ∈ map LPooled (w_pool (s_work s t)) \/ x ∈ maps (w_out (s_work s t) ++ w_maps (s_work s t)).
Proof. intros (N1 & N2 & N3 & N4) [Q|[Q|[Q|[[E _]|[[E _]|[[E _]|[E _]]]]]]]; auto; done. Qed.

(** Sender, corrector, forwarder and sink hold no lock and parse nothing. *)
Definition special (t : thread) : Prop := t = TSender \/ t = TCorrector \/ t = TForwarder \/ t = TSink.
Lemma has_special r r' d s t x : tidy r' d s -> special t -> has r s (HT t) x ->
  t = TSender /\ send_has (s_send s) x \/ t = TCorrector /\ x ∈ s_table s \/ t = TForwarder /\ fwd_has (s_fwd s) x \/ t = TSink /\ x ∈ s_batch s.
Proof.
  intros Ht Hs [(m & H & _)|[H|[H|H]]].
  - apply (ti_lock _ _ _ Ht) in H. apply lock_not in H. destruct Hs as [->|[->|[->| ->]]]; tauto.
  - rewrite (ti_idle _ _ _ Ht) in H by (by destruct Hs as [->|[->|[->| ->]]]). by apply elem_of_nil in H.
  - rewrite (ti_idle _ _ _ Ht) in H by (by destruct Hs as [->|[->|[->| ->]]]). by apply elem_of_nil in H.
  - exact H.
Qed.

Definition keeps (kafka : bool) (e : event) : Prop :=
  forall tr o s l s', good tr o s -> step kafka e s = Some (l, s') -> exists o', good (tr ++ l) o' s'.

Ltac start := intros tr o s l s' G H; cbn [step] in H; pose proof (gd_tidy _ _ _ G) as Ht.
Ltac opt H := repeat match type of H with
  | (if ?c then _ else _) = Some _ => destruct c eqn:?; try done
  | match ?c with _ => _ end = Some _ => destruct c eqn:?; try done end.

Lemma keep_look k t x : keeps k (ELook t x).
Proof. start. destruct (decide _) as [Hx|]; [|done]. injection H as <- <-. exists o. apply good_access; [done|]. right. split; [done|]. by left. Qed.

Lemma keep_use k t m w : keeps k (EUse t m w).
Proof. start. destruct (decide _) as [Hx|]; [|done]. injection H as <- <-. exists o. apply good_access; [done|]. left. left. by exists m. Qed.
Lemma keep_pooluse k t p w : keeps k (EPoolUse t p w).
Proof. start. destruct (decide _) as [Hx|]; [|done]. injection H as <- <-. exists o. apply good_access; [done|]. left. right. left. by apply elem_of_list_fmap_1. Qed.
Lemma keep_tag k t p w : keeps k (ETag t p w).
Proof.
  start. destruct (decide _) as [Hx|]; [|done]. injection H as <- <-. exists o. apply good_access; [done|]. left. right. right. left. unfold maps. apply elem_of_list_fmap_1.
  apply elem_of_app. by right.
Qed.
Lemma keep_encuse k w : keeps k (EEncUse w).
Proof.
  start. destruct (s_send s) as [|m|m e msg|msg] eqn:E; try done. injection H as <- <-. exists o. apply good_access; [done|]. left. do 3 right. left. split; [done|].
  rewrite E. right. left. done.
Qed.
Lemma keep_enctags k : keeps k EEncTags.
Proof.
  start. destruct (s_send s) as [|m|[m|] e msg|msg] eqn:E; try done. injection H as <- <-. exists o. apply good_access; [done|]. left. do 3 right. left. split; [done|].
  rewrite E. left. by exists m.
Qed.
Lemma keep_cell k b n w : keeps k (ECell b n w).
Proof.
  start. destruct (s_send s) as [|m|m e msg|msg] eqn:E; try done. destruct (decide _) as [Hx|]; [|done]. injection H as <- <-. exists o. apply good_access; [done|]. left. do 3 right. left. split; [done|].
  rewrite E. right. left. cbn [enc_has]. destruct b; cbn [slab] in Hx; [by right|by left].
Qed.
Lemma keep_table k x w : keeps k (ETable x w).
Proof. start. destruct (decide _) as [Hx|]; [|done]. injection H as <- <-. exists o. apply good_access; [done|]. left. do 4 right. left. by split. Qed.
Lemma keep_conv k x w : keeps k (EConv x w).
Proof.
  start. destruct (s_fwd s) as [|xs|] eqn:E; try done. destruct (decide _) as [Hx|]; [|done]. injection H as <- <-. exists o. apply good_access; [done|]. left. do 5 right. left.
  split; [done|]. by rewrite E.
Qed.
Lemma keep_batch k x w : keeps k (EBatch x w).
Proof. start. destruct (decide _) as [Hx|]; [|done]. injection H as <- <-. exists o. apply good_access; [done|]. left. do 6 right. by split. Qed.

(* ---------- locks ---------- *)

Lemma keep_lock k t m : keeps k (ELock t m).
Proof.
  start. destruct (may_lock t m) eqn:Em; [|done]. destruct (s_lock s m) eqn:El; [done|]. injection H as <- <-. eexists.
  eapply (good_sync _ _ _ _ _ _ (fun x => x = protected m) (Owned (HT t)) (HL m)); [done|done| | | | | |].
  - intros x ->. apply (gd_has _ _ _ G). by split.
  - right. exists (HT t). by split.
  - intros h x Hx. apply has_off in Hx; [|done]. destruct h as [u|c n|m'|p]; [|right; by split|right|right; by split].
    + destruct Hx as [(m' & Hm & ->)|Hx]; [|right; split; [by right|done]]. flds. unfold put in Hm. case_decide as E; [injection Hm as ->; subst m'; by left|].
      right. split; [left; by exists m'|done].
    + destruct Hx as [Hm ->]. flds. unfold put in Hm. case_decide as E; [done|]. split; [by split|]. intros [= ->]. done.
  - intros h x Hx. right. apply refers_off in Hx; [|done]. apply learn_refers in Hx as [Hx|[-> Hx]].
    + destruct h as [u|c n|m'|p]; [|by exists (HM c n); split; [exact Hx|left]| |by exists (HP p); split; [exact Hx|left]].
      * destruct Hx as [Hx|(m' & Hm & Hx)]; [exists (HT u); split; [by left|by left]|]. flds. unfold put in Hm. case_decide as E.
        -- injection Hm as ->. subst m'. exists (HL m). split; [by split|right; by split].
        -- exists (HT u). split; [right; by exists m'|by left].
      * destruct Hx as [Hm Hx]. flds. unfold put in Hm. case_decide as E; [done|]. exists (HL m'). split; [by split|by left].
    + exists (HL m). split; [by split|right; by split].
  - flds. lia.
  - apply tidy_off; [done|]. destruct Ht. split; try done. intros m' t'. flds. unfold put. case_decide as E; [|apply ti_lock]. intros [= <-]. by subst.
Qed.
Lemma keep_unlock k t m : keeps k (EUnlock t m).
Proof.
  start. destruct (decide _) as [El|]; [|done]. injection H as <- <-. eexists.
  pose proof (lock_not _ _ (ti_lock _ _ _ Ht _ _ El)) as Hn.
  eapply (good_sync _ _ _ _ _ _ (fun x => x = protected m) (Owned (HL m)) (HT t)); [done|done| | | | | |].
  - intros x ->. apply (gd_has _ _ _ G). left. by exists m.
  - right. exists (HL m). by split.
  - intros h x Hx. apply has_off in Hx; [|done]. destruct h as [u|c n|m'|p]; [|right; by split| |right; by split].
    + right. destruct Hx as [(m' & Hm & ->)|Hx].
      * flds. unfold put in Hm. case_decide as E; [done|]. split; [left; by exists m'|]. intros _ Hp. apply E. by apply protected_inj.
      * split; [by right|]. intros [= ->] ->. destruct Hn as (? & ? & ? & ?). flds.
        destruct Hx as [Hx|[Hx|[[? _]|[[? _]|[[? _]|[? _]]]]]]; [| |done..].
        -- apply elem_of_list_fmap in Hx as (? & Hp & _). by destruct m.
        -- apply elem_of_list_fmap in Hx as (? & Hp & _). by destruct m.
    + destruct Hx as [Hm ->]. flds. unfold put in Hm. case_decide as E; [subst m'; by left|]. right. split; [by split|]. done.
  - intros h x Hx. right. apply refers_off in Hx; [|done]. destruct h as [u|c n|m'|p]; [|by exists (HM c n); split; [exact Hx|left]| |by exists (HP p); split; [exact Hx|left]].
    + exists (HT u). split; [|by left]. destruct Hx as [Hx|(m' & Hm & Hx)]; [by left|]. flds. unfold put in Hm, Hx. case_decide as E; [done|]. right. by exists m'.
    + destruct Hx as [Hm Hx]. flds. unfold put in Hm, Hx. case_decide as E.
      * subst m'. exists (HT t). split; [|right; by split]. apply elem_of_app in Hx as [Hx|Hx]; [right; by exists m|by left].
      * exists (HL m'). split; [by split|by left].
  - flds. lia.
  - apply tidy_off; [done|]. destruct Ht. split; try done. intros m' t'. flds. unfold put. case_decide as E; [done|apply ti_lock].
Qed.

(* ---------- new places ---------- *)

Lemma fresh_not tr o s x n : good tr o s -> address x = Some n -> s_next s <= n -> forall h, ~ has (counts tr) s h x.
Proof. intros G Hx Hn h Hh. apply (gd_has _ _ _ G) in Hh. by rewrite (gd_fresh _ _ _ G x n) in Hh. Qed.

Lemma keep_string k t : keeps k (EString t).
Proof.
  start. destruct (is_worker t) eqn:Ew; [|done]. injection H as <- <-. eexists. eapply (good_new tr o s); [exact G|done|by right|done| | |].
  - intros h y Hy. right. exact Hy.
  - intros h y Hy. apply (learn_refers (counts tr) s t) in Hy as [Hy|[-> Hy%elem_of_list_singleton]]; [by right|by left].
  - destruct Ht. by split.
Qed.
Lemma keep_fetch k n : keeps k (EFetch n).
Proof.
  start. injection H as <- <-. eexists. eapply (good_new tr o s); [exact G|done|by right|done| | |].
  - intros h y Hy. right. exact Hy.
  - intros h y Hy. apply (learn_refers (counts tr) s (TFetcher n)) in Hy as [Hy|[-> Hy%elem_of_list_singleton]]; [by right|by left].
  - destruct Ht. by split.
Qed.
Lemma keep_moved k : keeps k EMoved.
Proof.
  start. destruct (s_send s) as [|m|m e msg|msg] eqn:Es; try done. injection H as <- <-. eexists. eapply (good_new tr o s); [exact G|done|by right|done| | |].
  - intros h y Hy. right. exact Hy.
  - intros h y Hy. apply (learn_refers (counts tr) s TSender) in Hy as [Hy|[-> Hy%elem_of_list_singleton]]; [by right|by left].
  - destruct Ht. by split.
Qed.
Lemma keep_map k t : keeps k (EMap t).
Proof.
  start. destruct (is_worker t) eqn:Ew; [|done]. injection H as <- <-. eexists. eapply (good_new tr o s); [exact G|done|by left|done| | |].
  - intros h y Hy. destruct h as [u|c n|m|p]; [|by right..]. cbn [has] in *. flds. unfold put in Hy. destruct (decide (u = t)) as [->|]; [|by right]. flds.
    destruct Hy as [Hy|[Hy|[Hy|Hy]]]; [right; by left|right; right; by left| |right; by do 3 right].
    unfold maps in Hy. rewrite map_app in Hy. apply elem_of_app in Hy as [Hy|Hy]; [right; right; right; left; unfold maps; rewrite map_app; apply elem_of_app; by left|].
    cbn [map] in Hy. apply elem_of_cons in Hy as [->|Hy]; [by left|]. right. right. right. left. unfold maps. rewrite map_app. apply elem_of_app. by right.
  - intros h y Hy. right. exact Hy.
  - destruct Ht as [T1 T2 T3 T4 T5 T6 T7 T8]. split; try done.
    + intros u. flds. unfold put. case_decide as E; [|apply T3]. subst u. flds. rewrite <- Permutation_middle. apply NoDup_cons. split; [|apply T3].
      intros Hin. eapply (fresh_not _ _ _ (LMap (s_next s)) (s_next s) G eq_refl (le_n _) (HT t)). right. right. left. by apply elem_of_list_fmap_1.
    + intros u Hu. flds. unfold put. case_decide as E; [subst u; congruence|by apply T6].
Qed.
Lemma keep_newmap k : keeps k ENewMap.
Proof.
  start. injection H as <- <-. eexists. eapply (good_new tr o s); [exact G|done|by left|done| | |].
  - intros h y Hy. destruct h as [u|c n|m|p]; [|by right..]. destruct Hy as [Hy|[Hy|[Hy|[Hy|[[-> Hy]|Hy]]]]];
      [right; by left|right; right; by left|right; right; right; by left|right; do 3 right; by left| |right; by do 5 right].
    flds. apply elem_of_cons in Hy as [->|Hy]; [by left|]. right. do 4 right. by left.
  - intros h y Hy. right. exact Hy.
  - destruct Ht. by split.
Qed.
Lemma keep_newcell k : keeps k ENewCell.
Proof.
  start. injection H as <- <-. eexists. eapply (good_new tr o s); [exact G|done|by left|done| | |].
  - intros h y Hy. destruct h as [u|c n|m|p]; [|by right..]. destruct Hy as [Hy|[Hy|[Hy|[Hy|[[-> Hy]|Hy]]]]];
      [right; by left|right; right; by left|right; right; right; by left|right; do 3 right; by left| |right; by do 5 right].
    flds. apply elem_of_cons in Hy as [->|Hy]; [by left|]. right. do 4 right. by left.
  - intros h y Hy. right. exact Hy.
  - destruct Ht. by split.
Qed.
Lemma keep_convmap k : keeps k EConvMap.
Proof.
  start. destruct (s_fwd s) as [|xs|] eqn:Ef; try done. injection H as <- <-. eexists. eapply (good_new tr o s); [exact G|done|by left|done| | |].
  - intros h y Hy. destruct h as [u|c n|m|p]; [|by right..]. destruct Hy as [Hy|[Hy|[Hy|[Hy|[Hy|[[-> Hy]|Hy]]]]]];
      [right; by left|right; right; by left|right; right; right; by left|right; do 3 right; by left|right; do 4 right; by left| |right; by do 6 right].
    flds. cbn [fwd_has] in Hy. apply elem_of_cons in Hy as [->|Hy]; [by left|]. right. do 5 right. left. split; [done|]. by rewrite Ef.
  - intros h y Hy. right. exact Hy.
  - destruct Ht. by split.
Qed.
Lemma keep_batchnew k : keeps k EBatchNew.
Proof.
  start. injection H as <- <-. eexists. eapply (good_new tr o s); [exact G|done|by left|done| | |].
  - intros h y Hy. destruct h as [u|c n|m|p]; [|by right..]. destruct Hy as [Hy|[Hy|[Hy|[Hy|[Hy|[Hy|[-> Hy]]]]]]];
      [right; by left|right; right; by left|right; right; right; by left|right; do 3 right; by left|right; do 4 right; by left|right; do 5 right; by left|].
    flds. apply elem_of_cons in Hy as [->|Hy]; [by left|]. right. by do 6 right.
  - intros h y Hy. right. exact Hy.
  - destruct Ht. by split.
Qed.

(* ---------- receiving ---------- *)

Lemma worker_idle s r d t : tidy r d s -> w_pool (s_work s t) <> [] \/ w_maps (s_work s t) <> [] \/ w_out (s_work s t) <> [] -> is_worker t = true.
Proof. intros Ht H. apply (works _ _ _ _ Ht). intros E. rewrite E in H. cbn in H. tauto. Qed.

(** Messages of which only finished memory is used. *)
Lemma keep_recv k t c : keeps k (ERecv t c).
Proof.
  start. destruct (may_recv k t c) eqn:Em; [|done].
  assert (exists own refs q, s_queue s c = Msg own refs :: q /\ l = [(t, ARecv c)] /\ s' = set_queue c q (learn t refs s)) as (own & refs & q & Eq & -> & ->).
  { destruct c; try done; (destruct (s_queue s _) as [|[own refs] q] eqn:Eq; [done|]); injection H as <- <-; exists own, refs, q; done. }
  eexists. eapply (good_recv tr o s _ t c); [exact G|exact Eq|done|done| | |].
  - destruct Ht. by split.
  - intros h x Hx. left. exact Hx.
  - intros h x Hx. by apply learn_refers in Hx.
Qed.

Lemma keep_span k : keeps k ESpan.
Proof.
  start. destruct k; [|done]. destruct (s_send s) eqn:Es; try done. destruct (s_queue s CHttp) as [|[own refs] q] eqn:Eq; [done|]. injection H as <- <-. eexists.
  change (learn TSender refs (set_send (SSpan (map_of own)) (set_queue CHttp q s))) with (set_queue CHttp q (learn TSender refs (set_send (SSpan (map_of own)) s))).
  eapply (good_recv tr o s _ TSender CHttp); [exact G|exact Eq|done|done| | |].
  - destruct Ht. split; try done.
  - intros h x Hx. destruct h as [u|c n|m|p]; [|by left..]. destruct Hx as [Hx|[Hx|[Hx|[[-> Hx]|Hx]]]];
      [left; by left|left; right; by left|left; right; right; by left| |left; by do 4 right].
    right. split; [done|]. flds. destruct Hx as (n & Hn & ->). destruct own as [|[n'| | | | | | | |] own]; try done. cbn in Hn. injection Hn as ->. by left.
  - intros h x Hx. by apply (learn_refers (counts tr) s) in Hx.
Qed.

Lemma keep_take k : keeps k ETake.
Proof.
  start. set (c := if k then CKafka else CHttp) in *. destruct (s_queue s c) as [|[own refs] q] eqn:Eq; [done|]. injection H as <- <-. eexists.
  change (learn TCorrector refs (set_table (own ++ s_table s) (set_queue c q s))) with (set_queue c q (learn TCorrector refs (set_table (own ++ s_table s) s))).
  eapply (good_recv tr o s _ TCorrector c); [exact G|exact Eq|done|done| | |].
  - destruct Ht. split; try done.
  - intros h x Hx. destruct h as [u|c' n|m|p]; [|by left..]. destruct Hx as [Hx|[Hx|[Hx|[Hx|[[-> Hx]|Hx]]]]];
      [left; by left|left; right; by left|left; right; right; by left|left; do 3 right; by left| |left; by do 5 right].
    flds. apply elem_of_app in Hx as [Hx|Hx]; [by right|left; do 4 right; by left].
  - intros h x Hx. by apply (learn_refers (counts tr) s) in Hx.
Qed.

Lemma keep_convert k : keeps k EConvert.
Proof.
  start. destruct (s_fwd s) eqn:Ef; try done. destruct (s_queue s CSource) as [|[own refs] q] eqn:Eq; [done|]. injection H as <- <-. eexists.
  change (learn TForwarder refs (set_fwd (FConv own) (set_queue CSource q s))) with (set_queue CSource q (learn TForwarder refs (set_fwd (FConv own) s))).
  eapply (good_recv tr o s _ TForwarder CSource); [exact G|exact Eq|done|done| | |].
  - destruct Ht. split; try done.
  - intros h x Hx. destruct h as [u|c' n|m|p]; [|by left..]. destruct Hx as [Hx|[Hx|[Hx|[Hx|[Hx|[[-> Hx]|Hx]]]]]];
      [left; by left|left; right; by left|left; right; right; by left|left; do 3 right; by left|left; do 4 right; by left| |left; by do 6 right].
    by right.
  - intros h x Hx. by apply (learn_refers (counts tr) s) in Hx.
Qed.

(* ---------- sending ---------- *)

Lemma keep_put k t : keeps k (EPut t).
Proof.
  start. set (c := match t with TClaim _ => CKafka | _ => CHttp end) in *. destruct (w_out (s_work s t)) as [|m out] eqn:Ew; [done|]. destruct (fits c s); [|done].
  injection H as <- <-. eexists.
  pose proof (worker_not _ (worker_idle _ _ _ t Ht ltac:(right; right; by rewrite Ew))) as Hn.
  pose proof (ti_work _ _ _ Ht t) as Hd. rewrite Ew in Hd. apply NoDup_cons in Hd as [Hm Hd].
  eapply (good_send tr o s (set_work t (Worker (w_pool (s_work s t)) (w_maps (s_work s t)) out) s) t c [LMap m] (fun x => x = LMap m) (Owned (HM c (sends c tr)))); [exact G| |by right| |done|done| | |].
  - intros x ->. apply (gd_has _ _ _ G). right. right. left. rewrite Ew. by left.
  - intros x Hx. by apply elem_of_list_singleton in Hx.
  - destruct Ht as [T1 T2 T3 T4 T5 T6 T7 T8]. split; try done.
    + intros u. flds. unfold put. case_decide as E; [done|apply T3].
    + intros u Hu. flds. unfold put. case_decide as E; [|by apply T6]. subst u. specialize (T6 t Hu). rewrite T6 in Ew. done.
  - intros h x Hx. destruct h as [u|c' n|m'|p]; [|by split..]. cbn [has] in *. flds. unfold put in Hx. destruct (decide (u = t)) as [->|Hu].
    + flds. destruct Hx as [Hx|[Hx|[Hx|Hx]]].
      * split; [by left|]. intros _ ->. destruct Hx as (m' & _ & Hp). by destruct m'.
      * split; [right; by left|]. intros _ ->. by apply elem_of_list_fmap in Hx as (? & ? & _).
      * split; [right; right; left; rewrite Ew; by right|]. intros _ ->. apply elem_of_list_fmap in Hx as (? & [= <-] & Hx). done.
      * destruct Hn as (? & ? & ? & ?). destruct Hx as [[? _]|[[? _]|[[? _]|[? _]]]]; done.
    + split; [exact Hx|]. by intros [= ->].
  - intros h x Hx. right. exact Hx.
Qed.

Lemma send_refs tr o s s1 t c : good tr o s -> s_next s1 = s_next s -> s_queue s1 = s_queue s -> tidy (counts tr) (fun c => sends c tr) s1 ->
  (forall h1 x, has (counts tr) s1 h1 x -> has (counts tr) s h1 x) -> (forall h1 x, refers (counts tr) s1 h1 x -> refers (counts tr) s h1 x) ->
  good (tr ++ [(t, ASend c)]) (mv (fun _ => False) Shared o) (send t c [] s1).2.
Proof.
  intros G H1 H2 H3 H4 H5. eapply (good_send tr o s s1 t c [] (fun _ => False) Shared); [exact G|done|by left| |done|done|done| |].
  - intros x Hx. by apply elem_of_nil in Hx.
  - intros h x Hx. split; [by apply H4|intros _ []].
  - intros h x Hx. right. by apply H5.
Qed.

Lemma keep_putnil k t : keeps k (EPutNil t).
Proof. start. destruct (is_worker t && _) eqn:Ew; [|done]. injection H as <- <-. eexists. eapply (send_refs tr o s s); [exact G|done|done|done|done|done]. Qed.
Lemma keep_deliver k n : keeps k (EDeliver n).
Proof. start. destruct (fits _ s) eqn:Ew; [|done]. injection H as <- <-. eexists. eapply (send_refs tr o s s); [exact G|done|done|done|done|done]. Qed.
Lemma keep_forward k r : keeps k (EForward r).
Proof.
  start. destruct (s_fwd s) as [| |x a b] eqn:Ef; try done. destruct (if r then b else a); [done|]. destruct (fits _ s); [|done]. injection H as <- <-. eexists.
  eapply (send_refs tr o s (set_fwd (if r then FSend x a true else FSend x true b) s)); [exact G|done|done| | |].
  - destruct Ht. by split.
  - intros h y Hy. destruct h as [u|c' n|m'|p]; [|done..]. destruct Hy as [Hy|[Hy|[Hy|[Hy|[Hy|[[-> Hy]|Hy]]]]]];
      [by left|right; by left|right; right; by left|do 3 right; by left|do 4 right; by left| |by do 6 right].
    by destruct r.
  - done.
Qed.

Lemma keep_message k : keeps k EMessage.
Proof.
  start. destruct (s_send s) as [| | |msg] eqn:Es; try done. destruct (fits CProducer s); [|done]. injection H as <- <-. eexists.
  eapply (good_send tr o s (learn TSender msg (set_send SIdle s)) TSender CProducer [] (fun x => x ∈ msg) Shared); [exact G| |by left| |done|done| | |].
  - intros x Hx. apply (gd_has _ _ _ G). do 3 right. left. split; [done|]. by rewrite Es.
  - intros x Hx. by apply elem_of_nil in Hx.
  - destruct Ht. by split.
  - intros h x Hx. destruct h as [u|c' n|m|p]; [|by split..]. split.
    + destruct Hx as [Hx|[Hx|[Hx|[[-> []]|Hx]]]]; [by left|right; by left|right; right; by left|by do 4 right].
    + intros [= ->] Hm.
      assert (K : special TSender) by (by left).
      destruct Hx as [(m & Hl & _)|[Hx|[Hx|[[_ []]|[[? _]|[[? _]|[? _]]]]]]]; try done; flds.
      * apply (ti_lock _ _ _ Ht) in Hl. by destruct m.
      * rewrite (ti_idle _ _ _ Ht TSender eq_refl) in Hx. by apply elem_of_nil in Hx.
      * rewrite (ti_idle _ _ _ Ht TSender eq_refl) in Hx. by apply elem_of_nil in Hx.
  - intros h x Hx. apply (learn_refers (counts tr) s) in Hx as [Hx|[-> Hx]]; [by right|by left].
Qed.

Lemma keep_emit k x : keeps k (EEmit x).
Proof.
  start. destruct (decide (x ⊆ s_table s)) as [Hs|]; [|done]. destruct (fits CSource s); [|done]. injection H as <- <-. eexists.
  eapply (good_send tr o s (set_table (filter (fun y => y ∉ x) (s_table s)) s) TCorrector CSource x (fun y => y ∈ x) (Owned (HM CSource (sends CSource tr)))); [exact G| |by right|done|done|done| | |].
  - intros y Hy. apply (gd_has _ _ _ G). do 4 right. left. split; [done|]. by apply Hs.
  - destruct Ht. by split.
  - intros h y Hy. destruct h as [u|c' n|m|p]; [|by split..].
    destruct Hy as [Hy|[Hy|[Hy|[Hy|[[-> Hy]|Hy]]]]].
    + split; [by left|]. intros [= ->]. destruct Hy as (m & Hl & _). apply (ti_lock _ _ _ Ht) in Hl. by destruct m.
    + split; [right; by left|]. intros [= ->]. flds. rewrite (ti_idle _ _ _ Ht TCorrector eq_refl) in Hy. by apply elem_of_nil in Hy.
    + split; [right; right; by left|]. intros [= ->]. flds. rewrite (ti_idle _ _ _ Ht TCorrector eq_refl) in Hy. by apply elem_of_nil in Hy.
    + split; [do 3 right; by left|]. intros [= ->]. by destruct Hy.
    + flds. apply elem_of_list_filter in Hy as [Hn Hy]. split; [do 4 right; by left|done].
    + split; [by do 5 right|]. intros [= ->]. by destruct Hy as [[? _]|[? _]].
  - intros h y Hy. right. exact Hy.
Qed.

Lemma keep_flush k : keeps k EFlush.
Proof.
  start. destruct (fits CGrouped s); [|done]. injection H as <- <-. eexists.
  eapply (good_send tr o s (set_batch [] (learn TSink (s_batch s) s)) TSink CGrouped [] (fun y => y ∈ s_batch s) Shared); [exact G| |by left| |done|done| | |].
  - intros y Hy. apply (gd_has _ _ _ G). by do 6 right.
  - intros y Hy. by apply elem_of_nil in Hy.
  - destruct Ht. by split.
  - intros h y Hy. destruct h as [u|c' n|m|p]; [|by split..].
    destruct Hy as [Hy|[Hy|[Hy|[Hy|[Hy|[Hy|[-> Hy]]]]]]].
    + split; [by left|]. intros [= ->]. destruct Hy as (m & Hl & _). apply (ti_lock _ _ _ Ht) in Hl. by destruct m.
    + split; [right; by left|]. intros [= ->]. flds. rewrite (ti_idle _ _ _ Ht TSink eq_refl) in Hy. by apply elem_of_nil in Hy.
    + split; [right; right; by left|]. intros [= ->]. flds. rewrite (ti_idle _ _ _ Ht TSink eq_refl) in Hy. by apply elem_of_nil in Hy.
    + split; [do 3 right; by left|]. intros [= ->]. by destruct Hy.
    + split; [do 4 right; by left|]. intros [= ->]. by destruct Hy.
    + split; [do 5 right; by left|]. intros [= ->]. by destruct Hy.
    + by apply elem_of_nil in Hy.
  - intros h y Hy. apply (learn_refers (counts tr) s) in Hy as [Hy|[-> Hy]]; [by right|by left].
Qed.

(* ---------- steps without actions ---------- *)

Definition in_slab (a : nat) (x : place) : Prop := match x with LSlab b _ => b = a | _ => False end.
Global Instance in_slab_dec a x : Decision (in_slab a x).
Proof. destruct x; cbn [in_slab]; apply _. Defined.

Lemma used_below tr o s h x n : good tr o s -> has (counts tr) s h x -> address x = Some n -> n < s_next s.
Proof. intros G Hx Ha. destruct (decide (n < s_next s)) as [|Hn]; [done|]. exfalso. by eapply (fresh_not _ _ _ x n G Ha ltac:(lia) h). Qed.

Lemma keep_poolnew k t : keeps k (EPoolNew t).
Proof.
  start. destruct (is_worker t) eqn:Ew; [|done]. injection H as <- <-. rewrite app_nil_r. eexists.
  eapply (good_silent tr o s _ (fun x => x = LPooled (s_next s)) (Owned (HT t)) (HT t)); [exact G| | | | | |].
  - intros x ->. left. by apply (gd_fresh _ _ _ G _ (s_next s)).
  - intros h x Hx. destruct h as [u|c n|m|p]; [|right; split; [exact Hx|by intros _ [_ ?]]..].
    cbn [has] in *. flds. unfold put in Hx. destruct (decide (u = t)) as [->|]; [|right; split; [exact Hx|by intros _ [_ ?]]]. flds.
    destruct Hx as [Hx|[Hx|Hx]]; [right; split; [by left|by intros _ [_ ?]]| |right; split; [by do 2 right|by intros _ [_ ?]]].
    cbn [map] in Hx. apply elem_of_cons in Hx as [->|Hx]; [by left|right; split; [right; by left|by intros _ [_ ?]]].
  - intros h x Hx. right. exact Hx.
  - flds. lia.
  - intros x n -> [= <-]. flds. lia.
  - destruct Ht as [T1 T2 T3 T4 T5 T6 T7 T8]. split; try done.
    + intros u. flds. unfold put. case_decide as E; [subst u; apply T3|apply T3].
    + intros u Hu. flds. unfold put. case_decide as E; [subst u; congruence|by apply T6].
Qed.

Lemma keep_encnew k : keeps k EEncNew.
Proof.
  start. destruct (s_send s) as [|m| |] eqn:Es; try done. injection H as <- <-. rewrite app_nil_r. eexists.
  set (e := Enc (s_next s) (S (s_next s), 0) (S (S (s_next s)), 0)).
  eapply (good_silent tr o s _ (fun x => enc_has e x) (Owned (HT TSender)) (HT TSender)); [exact G| | | | | |].
  - intros x Hx. left. unfold e in Hx. destruct x; cbn in Hx; try done.
    + apply (gd_fresh _ _ _ G _ n); [done|lia].
    + apply (gd_fresh _ _ _ G _ n); [done|lia].
  - intros h x Hx. destruct h as [u|c n|m'|p]; [|right; split; [exact Hx|by intros _ [_ ?]]..].
    destruct Hx as [Hx|[Hx|[Hx|[[-> Hx]|Hx]]]]; [right; split; [by left|by intros _ [_ ?]]|right; split; [right; by left|by intros _ [_ ?]]|
      right; split; [right; right; by left|by intros _ [_ ?]]| |right; split; [by do 4 right|by intros _ [_ ?]]].
    flds. destruct Hx as [Hx|[Hx|Hx]]; [|by left|by apply elem_of_nil in Hx]. right. split; [|by intros _ [_ ?]]. do 3 right. left. split; [done|]. by rewrite Es.
  - intros h x Hx. right. exact Hx.
  - flds. lia.
  - intros x n Hx Hn. unfold e in Hx. destruct x; cbn [enc_has e_id e_buf e_slices fst snd address] in Hx, Hn; try done; injection Hn as <-; cbn; lia.
  - destruct Ht as [T1 T2 T3 T4 T5 T6 T7 T8]. split; try done. flds. split; [unfold enc_ok, e; cbn; lia|]. intros x Hx. by apply elem_of_nil in Hx.
Qed.

Lemma sends_has tr o s m e msg x : good tr o s -> s_send s = SEnc m e msg -> enc_has e x \/ x ∈ msg -> has (counts tr) s (HT TSender) x.
Proof. intros G Es Hx. do 3 right. left. split; [done|]. rewrite Es. by right. Qed.

Lemma keep_array k b : keeps k (EArray b).
Proof.
  start. destruct (s_send s) as [|m|m e msg|] eqn:Es; try done. injection H as <- <-. rewrite app_nil_r. eexists.
  eapply (good_silent tr o s _ (fun x => in_slab (s_next s) x) (Owned (HT TSender)) (HT TSender)); [exact G| | | | | |].
  - intros x Hx. left. destruct x; cbn in Hx; try done. subst n. by apply (gd_fresh _ _ _ G _ (s_next s)).
  - intros h x Hx. destruct h as [u|c n|m'|p]; [|right; split; [exact Hx|by intros _ [_ ?]]..].
    destruct Hx as [Hx|[Hx|[Hx|[[-> Hx]|Hx]]]]; [right; split; [by left|by intros _ [_ ?]]|right; split; [right; by left|by intros _ [_ ?]]|
      right; split; [right; right; by left|by intros _ [_ ?]]| |right; split; [by do 4 right|by intros _ [_ ?]]].
    flds. destruct Hx as [Hx|[Hx|Hx]].
    + right. split; [|by intros _ [_ ?]]. do 3 right. left. split; [done|]. rewrite Es. by left.
    + destruct x; try done; cbn [enc_has] in Hx.
      * right. split; [|by intros _ [_ ?]]. do 3 right. left. split; [done|]. rewrite Es. right. left. cbn [enc_has]. by destruct b.
      * destruct b; cbn [set_slab e_buf e_slices fst snd] in Hx; destruct Hx as [[Hx Hk]|[Hx Hk]].
        -- right. split; [|by intros _ [_ ?]]. do 3 right. left. split; [done|]. rewrite Es. right. left. by left.
        -- by left.
        -- by left.
        -- right. split; [|by intros _ [_ ?]]. do 3 right. left. split; [done|]. rewrite Es. right. left. by right.
    + right. split; [|by intros _ [_ ?]]. do 3 right. left. split; [done|]. rewrite Es. right. by right.
  - intros h x Hx. right. exact Hx.
  - flds. lia.
  - intros x n Hx Hn. destruct x; cbn in Hx; try done; injection Hn as <-; cbn; lia.
  - destruct Ht as [T1 T2 T3 T4 T5 T6 T7 T8]. split; try done. flds. rewrite Es in T7. destruct T7 as [Ho Hc].
    assert (B1 : fst (e_buf e) < s_next s).
    { eapply (used_below _ _ _ (HT TSender) (LSlab (fst (e_buf e)) (snd (e_buf e))) _ G); [|done]. eapply sends_has; [done|done|]. left. left. by split. }
    assert (B2 : fst (e_slices e) < s_next s).
    { eapply (used_below _ _ _ (HT TSender) (LSlab (fst (e_slices e)) (snd (e_slices e))) _ G); [|done]. eapply sends_has; [done|done|]. left. right. by split. }
    split; [unfold enc_ok in *; destruct b; cbn; lia|]. intros x Hx. destruct (Hc x Hx) as [(a & j & ->) Hn]. split; [eauto|].
    assert (a < s_next s) as Ha by (eapply (used_below _ _ _ (HT TSender) (LSlab a j) _ G); [|done]; eapply sends_has; [done|done|]; by right).
    intros He. apply Hn. destruct b; cbn in *; (destruct He as [[? ?]|[? ?]]; [try lia; by left|try lia; by right]).
Qed.

Lemma keep_carve k b n : keeps k (ECarve b n).
Proof.
  start. destruct (s_send s) as [|m|m e msg|] eqn:Es; try done. destruct (slab e b) as [a off] eqn:Eb. injection H as <- <-. rewrite app_nil_r. eexists.
  pose proof Ht as [T1 T2 T3 T4 T5 T6 T7 T8]. rewrite Es in T7. destruct T7 as [Ho Hc].
  assert (Sub : forall x, enc_has (set_slab e b (a, off + n)) x -> enc_has e x).
  { intros x. destruct x as [| | | |j|a' j| | |]; try done; [by destruct b|]. destruct e as [i [ba bo] [sa so]], b; cbn in *; injection Eb as <- <-; lia. }
  assert (New : forall x, x ∈ map (LSlab a) (seq off n) -> enc_has e x /\ ~ enc_has (set_slab e b (a, off + n)) x).
  { intros x (j & -> & Hj%elem_of_seq)%elem_of_list_fmap. unfold enc_ok in Ho. destruct e as [i [ba bo] [sa so]], b; cbn in *; injection Eb as <- <-; lia. }
  eapply (good_silent tr o s _ (fun _ => False) Shared (HT TSender)); [exact G|done| | | | |].
  - intros h x Hx. right. split; [|by intros _ [[] _]]. destruct h as [u|c j|m'|p]; [|exact Hx..].
    destruct Hx as [Hx|[Hx|[Hx|[[-> Hx]|Hx]]]]; [by left|right; by left|right; right; by left| |by do 4 right].
    do 3 right. left. split; [done|]. rewrite Es. flds. destruct Hx as [Hx|[Hx|Hx]]; [by left|right; left; by apply Sub|]. right.
    apply elem_of_app in Hx as [Hx|Hx]; [by right|]. left. by apply New.
  - intros h x Hx. right. exact Hx.
  - flds. lia.
  - done.
  - split; try done. flds. split; [unfold enc_ok in *; destruct e as [i [ba bo] [sa so]], b; cbn in *; injection Eb as <- <-; done|].
    intros x Hx. apply elem_of_app in Hx as [Hx|Hx].
    + destruct (Hc x Hx) as [Hl Hn]. split; [done|]. intros He. apply Hn. by apply Sub.
    + split; [|by apply New]. apply elem_of_list_fmap in Hx as (j & -> & _). eauto.
Qed.

Lemma keep_ready k t : keeps k (EReady t).
Proof.
  start. injection H as <- <-. rewrite app_nil_r. eexists.
  eapply (good_silent tr o s _ (fun _ => False) Shared (HT t)); [exact G|done| | | | |].
  - intros h x Hx. right. split; [|by intros _ [[] _]]. destruct h as [u|c j|m'|p]; [|exact Hx..].
    cbn [has] in *. flds. unfold put in Hx. destruct (decide (u = t)) as [->|]; [|exact Hx]. flds. by rewrite app_nil_r in Hx.
  - intros h x Hx. right. exact Hx.
  - flds. lia.
  - done.
  - destruct Ht as [T1 T2 T3 T4 T5 T6 T7 T8]. split; try done.
    + intros u. flds. unfold put. case_decide as E; [|apply T3]. subst u. flds. rewrite app_nil_r. apply T3.
    + intros u Hu. flds. unfold put. case_decide as E; [|by apply T6]. subst u. by rewrite (T6 t Hu).
Qed.

Lemma keep_converted k : keeps k EConverted.
Proof.
  start. destruct (s_fwd s) as [|xs|] eqn:Ef; try done. injection H as <- <-. rewrite app_nil_r. eexists.
  assert (Own : forall x, x ∈ xs -> o x = Owned (HT TForwarder)).
  { intros x Hx. apply (gd_has _ _ _ G). do 5 right. left. split; [done|]. by rewrite Ef. }
  eapply (good_silent tr o s _ (fun x => x ∈ xs) Shared (HT TForwarder)); [exact G| | | | | |].
  - intros x Hx. right. split; [by apply Own|done].
  - intros h x Hx. right. destruct h as [u|c j|m|p]; [|split; [exact Hx|done]..].
    destruct Hx as [Hx|[Hx|[Hx|[Hx|[Hx|[[-> []]|Hx]]]]]].
    + split; [by left|]. intros [= ->]. destruct Hx as (m & Hl & _). apply (ti_lock _ _ _ Ht) in Hl. by destruct m.
    + split; [right; by left|]. intros [= ->]. flds. rewrite (ti_idle _ _ _ Ht TForwarder eq_refl) in Hx. by apply elem_of_nil in Hx.
    + split; [right; right; by left|]. intros [= ->]. flds. rewrite (ti_idle _ _ _ Ht TForwarder eq_refl) in Hx. by apply elem_of_nil in Hx.
    + split; [do 3 right; by left|]. intros [= ->]. by destruct Hx.
    + split; [do 4 right; by left|]. intros [= ->]. by destruct Hx.
    + split; [by do 6 right|]. intros [= ->]. by destruct Hx.
  - intros h x Hx. apply (learn_refers (counts tr) s) in Hx as [Hx|[-> Hx]]; [by right|]. left. split; [done|]. split; [done|by apply Own].
  - flds. lia.
  - intros x n Hx Ha. eapply (used_below _ _ _ (HT TForwarder) x _ G); [|done]. do 5 right. left. split; [done|]. by rewrite Ef.
  - destruct Ht. by split.
Qed.

Lemma silent_less tr o s s' : good tr o s -> s_next s' = s_next s -> tidy (counts tr) (fun c => sends c tr) s' ->
  (forall h x, has (counts tr) s' h x -> has (counts tr) s h x) -> (forall h x, refers (counts tr) s' h x -> refers (counts tr) s h x) ->
  good tr (mv (fun _ => False) Shared o) s'.
Proof.
  intros G Hn Ht Hh Hr. eapply (good_silent tr o s _ (fun _ => False) Shared (HT TSender)); [exact G|done| | |lia|done|done].
  - intros h x Hx. right. split; [by apply Hh|by intros _ [[] _]].
  - intros h x Hx. right. by apply Hr.
Qed.
Lemma keep_forwarded k : keeps k EForwarded.
Proof.
  start. destruct (s_fwd s) as [| |xs [|] [|]] eqn:Ef; try done. injection H as <- <-. rewrite app_nil_r. eexists. apply (silent_less tr o s _ G); [done| | |].
  - destruct Ht. by split.
  - intros h x Hx. destruct h as [u|c j|m|p]; [|exact Hx..]. destruct Hx as [Hx|[Hx|[Hx|[Hx|[Hx|[[-> []]|Hx]]]]]];
      [by left|right; by left|right; right; by left|do 3 right; by left|do 4 right; by left|by do 6 right].
  - done.
Qed.
Lemma keep_discard k : keeps k EDiscard.
Proof.
  start. injection H as <- <-. rewrite app_nil_r. eexists. apply (silent_less tr o s _ G); [done| | |].
  - destruct Ht. by split.
  - intros h x Hx. destruct h as [u|c j|m|p]; [|exact Hx..]. destruct Hx as [Hx|[Hx|[Hx|[Hx|[Hx|[Hx|[-> Hx]]]]]]];
      [by left|right; by left|right; right; by left|do 3 right; by left|do 4 right; by left|do 5 right; by left|by apply elem_of_nil in Hx].
  - done.
Qed.

(* ---------- pools ---------- *)

Lemma delete_split {A} (l : list A) i x : l !! i = Some x -> exists l1 l2, l = l1 ++ x :: l2 /\ delete i l = l1 ++ l2.
Proof. intros H. exists (take i l), (drop (S i) l). split; [by rewrite take_drop_middle|apply delete_take_drop]. Qed.

Lemma keep_poolget k t i : keeps k (EPoolGet t i).
Proof.
  start. destruct (is_worker t) eqn:Ew; [|done]. destruct (s_pool s !! i) as [[p refs]|] eqn:Ei; [|done]. injection H as <- <-. eexists.
  pose proof (elem_of_list_lookup_2 _ _ _ Ei) as Hin. destruct (delete_split _ _ _ Ei) as (l1 & l2 & E1 & E2).
  pose proof (ti_pool _ _ _ Ht) as Hd. rewrite E1, map_app in Hd. cbn [map fst] in Hd. rewrite <- Permutation_middle, <- map_app in Hd. apply NoDup_cons in Hd as [Hd1 Hd2].
  rewrite E2.
  eapply (good_sync _ _ _ _ s _ (fun x => x = LPooled p) (Owned (HT t)) (HP (LPooled p))); [done|exact G| | | | | |].
  - intros x ->. apply (gd_has _ _ _ G). left. by exists p, refs.
  - right. exists (HT t). by split.
  - intros h x Hx. apply has_off in Hx; [|done]. destruct h as [u|c n|m|q]; [|right; by split|right; by split|].
    + cbn [has] in *. flds. unfold put in Hx. destruct (decide (u = t)) as [->|]; [|right; by split]. flds.
      destruct Hx as [Hx|[Hx|Hx]]; [right; split; [by left|done]| |right; split; [by do 2 right|done]].
      cbn [map] in Hx. apply elem_of_cons in Hx as [->|Hx]; [by left|right; split; [right; by left|done]].
    + right. destruct Hx as [(n & refs' & -> & Hn & ->)|(e & He & -> & Hx)]; flds.
      * split; [left; exists n, refs'; split; [done|]; split; [rewrite E1; apply elem_of_app in Hn as [Hn|Hn]; apply elem_of_app; [by left|right; by right]|done]|].
        intros _ [= ->]. apply Hd1. apply elem_of_list_fmap. by exists (p, refs').
      * split; [right; eauto|]. done.
  - intros h x Hx. right. apply refers_off in Hx; [|done]. apply learn_refers in Hx as [Hx|[-> Hx]].
    + exists h. split; [|by left]. destruct h as [u|c n|m|q]; [exact Hx..|]. destruct Hx as (n & refs' & -> & Hn & Hx). flds. exists n, refs'. split; [done|]. split; [|done].
      rewrite E1. apply elem_of_app in Hn as [Hn|Hn]; apply elem_of_app; [by left|right; by right].
    + exists (HP (LPooled p)). split; [by exists p, refs|]. right. by split.
  - flds. lia.
  - apply tidy_off; [done|]. destruct Ht as [T1 T2 T3 T4 T5 T6 T7 T8]. split; try done.
    + intros u. flds. unfold put. case_decide as E; [subst u; apply T3|apply T3].
    + intros u Hu. flds. unfold put. case_decide as E; [subst u; congruence|by apply T6].
Qed.

Lemma keep_poolput k t p : keeps k (EPoolPut t p).
Proof.
  start. destruct (decide (p ∈ w_pool (s_work s t))) as [Hp|]; [|done]. injection H as <- <-. eexists.
  pose proof (worker_idle _ _ _ t Ht ltac:(left; by destruct (w_pool (s_work s t)); [apply elem_of_nil in Hp|])) as Hw. pose proof (worker_not _ Hw) as (N1 & N2 & N3 & N4).
  assert (Own : o (LPooled p) = Owned (HT t)) by (apply (gd_has _ _ _ G); right; left; by apply elem_of_list_fmap_1).
  eapply (good_sync _ _ _ _ s _ (fun x => x = LPooled p) (Owned (HP (LPooled p))) (HT t)); [done|exact G| | | | | |].
  - intros x ->. done.
  - right. exists (HP (LPooled p)). by split.
  - intros h x Hx. apply has_off in Hx; [|done]. destruct h as [u|c n|m|q]; [|right; by split|right; by split|].
    + cbn [has] in *. flds. unfold put in Hx. destruct (decide (u = t)) as [->|]; [|right; split; [exact Hx|by intros [= ->]]]. flds. right.
      destruct Hx as [Hx|[Hx|[Hx|Hx]]].
      * split; [by left|]. intros _ ->. destruct Hx as (m & _ & Hm). by destruct m.
      * apply elem_of_list_fmap in Hx as (q & -> & Hq). apply elem_of_list_filter in Hq as [Hn Hq]. split; [right; left; by apply elem_of_list_fmap_1|]. by intros _ [= ->].
      * split; [right; right; by left|]. intros _ ->. by apply elem_of_list_fmap in Hx as (? & ? & _).
      * by destruct Hx as [[? _]|[[? _]|[[? _]|[? _]]]].
    + destruct Hx as [(n & refs' & -> & Hn & ->)|(e & He & -> & Hx)]; flds.
      * apply elem_of_app in Hn as [Hn|Hn]; [right; split; [left; eauto|done]|]. apply elem_of_list_singleton in Hn as [= -> ->]. by left.
      * right. split; [right; eauto|done].
  - intros h x Hx. right. apply refers_off in Hx; [|done]. destruct h as [u|c n|m|q]; [by exists (HT u); split; [exact Hx|left]|by exists (HM c n); split; [exact Hx|left]|by exists (HL m); split; [exact Hx|left]|].
    destruct Hx as (n & refs' & -> & Hn & Hx). flds. apply elem_of_app in Hn as [Hn|Hn]; [exists (HP (LPooled n)); split; [by exists n, refs'|by left]|].
    apply elem_of_list_singleton in Hn as [= -> ->]. exists (HT t). split; [by left|]. right. by split.
  - flds. lia.
  - apply tidy_off; [done|]. destruct Ht as [T1 T2 T3 T4 T5 T6 T7 T8]. split; try done.
    + flds. rewrite map_app. apply NoDup_app. split; [done|]. split; [|apply NoDup_singleton]. intros q Hq Hq'. apply elem_of_list_singleton in Hq' as ->. cbn [fst] in Hq.
      apply elem_of_list_fmap in Hq as ([q refs] & -> & Hq). cbn [fst] in *.
      assert (o (LPooled q) = Owned (HP (LPooled q))) as Eq by (apply (gd_has _ _ _ G); left; eauto). congruence.
    + intros u. flds. unfold put. case_decide as E; [subst u; apply T3|apply T3].
    + intros u Hu. flds. unfold put. case_decide as E; [subst u; congruence|by apply T6].
Qed.

Lemma keep_encget k i : keeps k (EEncGet i).
Proof.
  start. destruct (s_send s) as [|m| |] eqn:Es; try done. destruct (s_encs s !! i) as [e|] eqn:Ei; [|done]. injection H as <- <-. eexists.
  pose proof (elem_of_list_lookup_2 _ _ _ Ei) as Hin. destruct (delete_split _ _ _ Ei) as (l1 & l2 & E1 & E2).
  pose proof (ti_encs _ _ _ Ht) as Hd. rewrite E1, map_app in Hd. cbn [map] in Hd. rewrite <- Permutation_middle, <- map_app in Hd. apply NoDup_cons in Hd as [Hd1 Hd2].
  rewrite E2.
  eapply (good_sync _ _ _ _ s _ (fun x => enc_has e x) (Owned (HT TSender)) (HP (LEncoder (e_id e)))); [done|exact G| | | | | |].
  - intros x Hx. apply (gd_has _ _ _ G). right. eauto.
  - right. exists (HT TSender). by split.
  - intros h x Hx. apply has_off in Hx; [|done]. destruct h as [u|c n|m'|q]; [|right; by split|right; by split|].
    + destruct Hx as [Hx|[Hx|[Hx|[[-> Hx]|Hx]]]]; [right; split; [by left|done]|right; split; [right; by left|done]|right; split; [do 2 right; by left|done]| |right; split; [by do 4 right|done]].
      flds. destruct Hx as [Hx|[Hx|Hx]]; [|by left|by apply elem_of_nil in Hx]. right. split; [|done]. do 3 right. left. split; [done|]. by rewrite Es.
    + right. destruct Hx as [(n & refs' & -> & Hn & ->)|(e' & He & -> & Hx)]; flds.
      * split; [left; eauto|done].
      * split; [right; exists e'; split; [rewrite E1; apply elem_of_app in He as [He|He]; apply elem_of_app; [by left|right; by right]|done]|].
        intros [= E]. exfalso. apply Hd1. apply elem_of_list_fmap. by exists e'.
  - intros h x Hx. right. apply refers_off in Hx; [|done]. exists h. split; [exact Hx|by left].
  - flds. lia.
  - apply tidy_off; [done|]. destruct Ht as [T1 T2 T3 T4 T5 T6 T7 T8]. split; try done.
    + flds. intros e' He. apply T4. rewrite E1. apply elem_of_app in He as [He|He]; apply elem_of_app; [by left|right; by right].
    + flds. split; [by apply T4|]. intros x Hx. by apply elem_of_nil in Hx.
Qed.

Lemma keep_encput k : keeps k EEncPut.
Proof.
  start. destruct (s_send s) as [|m|m e msg|] eqn:Es; try done. injection H as <- <-. eexists.
  pose proof Ht as [T1 T2 T3 T4 T5 T6 T7 T8]. rewrite Es in T7. destruct T7 as [Ho Hc].
  eapply (good_sync _ _ _ _ s _ (fun x => enc_has e x) (Owned (HP (LEncoder (e_id e)))) (HT TSender)); [done|exact G| | | | | |].
  - intros x Hx. apply (gd_has _ _ _ G). eapply sends_has; [done|done|by left].
  - right. exists (HP (LEncoder (e_id e))). by split.
  - intros h x Hx. apply has_off in Hx; [|done]. destruct h as [u|c n|m'|q]; [|right; by split|right; by split|].
    + right. destruct Hx as [Hx|[Hx|[Hx|[[-> Hx]|Hx]]]].
      * split; [by left|]. intros [= ->]. destruct Hx as (m' & Hl & _). apply T5 in Hl. by destruct m'.
      * split; [right; by left|]. intros [= ->]. flds. rewrite (T6 TSender eq_refl) in Hx. by apply elem_of_nil in Hx.
      * split; [right; right; by left|]. intros [= ->]. flds. rewrite (T6 TSender eq_refl) in Hx. by apply elem_of_nil in Hx.
      * flds. cbn [send_has] in Hx. split; [eapply sends_has; [done|done|by right]|]. intros _. by apply Hc.
      * split; [by do 4 right|]. intros [= ->]. by destruct Hx as [[? _]|[[? _]|[? _]]].
    + destruct Hx as [(n & refs' & -> & Hn & ->)|(e' & He & -> & Hx)]; flds.
      * right. split; [left; eauto|done].
      * apply elem_of_app in He as [He|He]; [right; split; [right; eauto|done]|]. apply elem_of_list_singleton in He as ->. by left.
  - intros h x Hx. right. apply refers_off in Hx; [|done]. exists h. split; [exact Hx|by left].
  - flds. lia.
  - apply tidy_off; [done|]. split; try done.
    + flds. rewrite map_app. apply NoDup_app. split; [done|]. split; [|apply NoDup_singleton]. intros q Hq Hq'. apply elem_of_list_singleton in Hq' as ->.
      apply elem_of_list_fmap in Hq as (e' & Eq & He').
      assert (o (LEncoder (e_id e)) = Owned (HP (LEncoder (e_id e')))) as E1 by (apply (gd_has _ _ _ G); right; exists e'; split; [done|]; split; [done|]; by cbn [enc_has]).
      assert (o (LEncoder (e_id e)) = Owned (HT TSender)) as E2 by (apply (gd_has _ _ _ G); eapply sends_has; [done|done|]; left; by cbn [enc_has]). congruence.
    + flds. intros e' He. apply elem_of_app in He as [He|He]; [by apply T4|]. by apply elem_of_list_singleton in He as ->.
Qed.

(* ---------- all together ---------- *)

Lemma step_good k e : keeps k e.
Proof.
  destruct e; eauto using keep_look, keep_lock, keep_use, keep_unlock, keep_recv, keep_poolnew, keep_poolget, keep_pooluse, keep_poolput, keep_string, keep_map, keep_tag, keep_ready,
    keep_put, keep_putnil, keep_fetch, keep_deliver, keep_span, keep_encnew, keep_encget, keep_encuse, keep_enctags, keep_array, keep_cell, keep_carve, keep_moved, keep_encput,
    keep_message, keep_take, keep_newmap, keep_newcell, keep_table, keep_emit, keep_convert, keep_convmap, keep_conv, keep_converted, keep_forward, keep_forwarded,
    keep_batchnew, keep_batch, keep_flush, keep_discard.
Qed.
Lemma run_good k evs tr o s l s' : good tr o s -> run k evs s = Some (l, s') -> exists o', good (tr ++ l) o' s'.
Proof.
  revert tr o s l. induction evs as [|e evs IH]; intros tr o s l G H; cbn [run] in H.
  - injection H as <- <-. rewrite app_nil_r. eauto.
  - destruct (step k e s) as [[l1 s1]|] eqn:E1; [|done]. destruct (run k evs s1) as [[l2 s2]|] eqn:E2; [|done]. injection H as <- <-.
    destruct (step_good k e _ _ _ _ _ G E1) as (o1 & G1). destruct (IH _ _ _ _ G1 E2) as (o2 & G2). rewrite app_assoc. eauto.
Qed.

Definition o_init : place -> stat := fun x => match x with LCache => Owned (HL MCache) | LRing => Owned (HL MRing) | _ => Fresh end.
Lemma init_good : good [] o_init init.
Proof.
  split.
  - apply sound_nil.
  - intros h x. destruct h as [t|c n|m|p]; cbn.
    + intros [(m & ? & _)|[H|[H|[[_ []]|[[_ H]|[[_ []]|[_ H]]]]]]]; try done; by apply elem_of_nil in H.
    + intros (k & msg & H & _). by rewrite lookup_nil in H.
    + intros [_ ->]. by destruct m.
    + intros [(n & refs & _ & H & _)|(e & H & _)]; by apply elem_of_nil in H.
  - intros h x. destruct h as [t|c n|m|p]; cbn.
    + intros [H|(m & ? & _)]; [by apply elem_of_nil in H|done].
    + intros (k & msg & H & _). by rewrite lookup_nil in H.
    + intros [_ H]. by apply elem_of_nil in H.
    + intros (n & refs & _ & H & _); by apply elem_of_nil in H.
  - intros x n. by destruct x.
  - split; try done; try apply NoDup_nil_2.
    + intros t. apply NoDup_nil_2.
    + intros e H. by apply elem_of_nil in H.
Qed.

Lemma run_free k evs l s : run k evs init = Some (l, s) -> race_free l.
Proof. intros H. destruct (run_good _ _ _ _ _ _ _ init_good H) as (o & G). by eapply sd_free, gd_sound. Qed.
