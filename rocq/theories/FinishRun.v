(** Proofs for C36-C45: invariants of runs. *)
From Coq Require Import Sorted.
From Verif Require Import Base IdModel SpanModel TreeModel TreeSpec TreeProofs CorrectProofs RootProofs FinishModel FinishSpec FinishProofs.

Lemma status_snoc log e t : status (log ++ [e]) t = track t (status log t) e.
Proof. unfold status. by rewrite foldl_app. Qed.

Definition inv (st : fstate) (log : list entry) : Prop :=
  (forall t, t ∈ f_black st <-> blacklisted log t) /\ (forall t, f_traces st !! t = tree_at t (pending log t)).

Definition good (log : list entry) : Prop := forall l1 e l2, log = l1 ++ e :: l2 -> entry_ok l1 e.

Lemma good_snoc log e : good (log ++ [e]) <-> good log /\ entry_ok log e.
Proof.
  split.
  - intros H. split; [|by apply (H log e [])]. intros l1 x l2 ->. apply (H l1 x (l2 ++ [e])). by rewrite <- app_assoc.
  - intros [H He] l1 x l2 E. destruct l2 as [|y l2 _] using rev_ind.
    + apply app_inj_tail in E as [-> ->]. done.
    + rewrite app_comm_cons, app_assoc in E. apply app_inj_tail in E as [-> _]. by apply (H l1 x l2).
Qed.

Lemma good_nil : good [].
Proof. intros l1 e l2 E. by destruct l1. Qed.

(* ---------- pending spans ---------- *)

Lemma pending_ok log t : good log -> Forall (fun a => s_trace a.2 = t /\ int64_ok (s_ts a.2)) (pending log t).
Proof.
  unfold pending. induction log as [|e log IH] using rev_ind; intros Hg; [constructor|]. apply good_snoc in Hg as [Hg He]. specialize (IH Hg).
  rewrite status_snoc. destruct (status log t) as [b p]. cbn [snd] in IH. destruct e as [n0 n1 s|a b' c|t' o|t'|]; cbn [track]; try done.
  - destruct (decide _) as [H|H]; [|done]. cbn [snd]. apply Forall_app. split; [done|]. rewrite Forall_singleton. cbn. by destruct H as (-> & _).
  - destruct (decide _); [constructor|done].
  - by destruct (decide _).
Qed.

Lemma updated_keeps s new : s_trace (updated_span s new) = s_trace s /\ s_ts (updated_span s new) = s_ts s.
Proof. unfold updated_span, merged. destruct (decide _), (_ =? 0); done. Qed.

Lemma merged_ok log t : good log ->
  Forall (fun s => s_trace s = t) (merged_spans t (pending log t)) /\ Forall (fun s => int64_ok (s_ts s)) (merged_spans t (pending log t)).
Proof.
  intros Hg. pose proof (pending_ok log t Hg) as H. split.
  - apply merged_forall; [eapply Forall_impl; [exact H|]; by intros a [? _]|]. intros s new Hs _. by destruct (updated_keeps s new) as [-> _].
  - apply merged_forall; [eapply Forall_impl; [exact H|]; by intros a [_ ?]|]. intros s new Hs _. by destruct (updated_keeps s new) as [_ ->].
Qed.

(* ---------- entries ---------- *)

Lemma inv_initial : inv initial [].
Proof. split; [|done]. intros t. unfold blacklisted. cbn. set_solver. Qed.

Lemma inv_receive ord n0 n1 s st log : map_order ord -> inv st log -> inv (receive ord n0 n1 s st) (log ++ [LSpan n0 n1 s]).
Proof.
  intros Ho [Hb Ht]. unfold receive. destruct (_ || _) eqn:Eid.
  { split; intros t; unfold blacklisted, pending; rewrite status_snoc; destruct (status log t) as [b p] eqn:E; cbn [track];
      (rewrite decide_False by (apply orb_true_iff in Eid as [?|?]; intros (? & ? & ? & _); lia)).
    - unfold blacklisted in Hb. rewrite Hb, E. done.
    - rewrite Ht. unfold pending. by rewrite E. }
  apply orb_false_iff in Eid as [Eid1 Eid2].
  destruct (decide (s_trace s ∈ f_black st)) as [Hin|Hin].
  { rewrite (bool_decide_true _ Hin). apply Hb in Hin. split; intros t; unfold blacklisted, pending; rewrite status_snoc; destruct (status log t) as [b p] eqn:E; cbn [track];
      (rewrite decide_False by (intros (<- & _ & _ & ->); unfold blacklisted in Hin; by rewrite E in Hin)).
    - unfold blacklisted in Hb. rewrite Hb, E. done.
    - rewrite Ht. unfold pending. by rewrite E. }
  rewrite (bool_decide_false _ Hin). split; intros t; unfold blacklisted, pending; rewrite status_snoc; cbn [track f_black f_traces].
  - unfold blacklisted in Hb. rewrite Hb. destruct (status log t) as [b p]; cbn [track]. by destruct (decide _).
  - destruct (decide (t = s_trace s)) as [->|Hne].
    + rewrite lookup_insert. specialize (Ht (s_trace s)). unfold pending in Ht. destruct (status log (s_trace s)) as [b p] eqn:E; cbn [track]. cbn [snd] in Ht.
      rewrite decide_True.
      2: { split; [done|]. split; [lia|]. split; [lia|]. destruct b; [|done]. destruct Hin. apply Hb. unfold blacklisted. by rewrite E. }
      cbn [snd]. rewrite tree_at_snoc, add_span_ord by done. f_equal. f_equal. by rewrite Ht.
    + rewrite lookup_insert_ne by done. specialize (Ht t). unfold pending in Ht. destruct (status log t) as [b p]; cbn [track].
      rewrite decide_False by (intros (? & _); congruence). exact Ht.
Qed.

Lemma inv_other st log e : inv st log -> (forall t, track t (status log t) e = status log t) -> inv st (log ++ [e]).
Proof.
  intros [Hb Ht] H. split; intros t; unfold blacklisted, pending; rewrite status_snoc, H; [apply Hb|apply Ht].
Qed.

Lemma inv_out st log t o : inv st log ->
  inv (FState (delete t (f_traces st)) (if dropped o then {[t]} ∪ f_black st else f_black st)) (log ++ [LOut t o]).
Proof.
  intros [Hb Ht]. split; intros u; unfold blacklisted, pending; rewrite status_snoc; cbn [track f_black f_traces].
  - specialize (Hb u). unfold blacklisted in Hb. destruct (status log u) as [b p]; cbn [track]. cbn [fst] in Hb. destruct (decide (t = u)) as [->|Hne]; cbn [fst].
    + destruct (dropped o); [rewrite orb_true_r; set_solver|by rewrite orb_false_r].
    + destruct (dropped o); [|done]. rewrite <- Hb. set_solver.
  - specialize (Ht u). unfold pending in Ht. destruct (status log u) as [b p]; cbn [track]. destruct (decide (t = u)) as [->|Hne]; cbn [snd].
    + by rewrite lookup_delete.
    + rewrite lookup_delete_ne by done. exact Ht.
Qed.

Lemma inv_evict st log t : inv st log -> inv (FState (f_traces st) (f_black st ∖ {[t]})) (log ++ [LEvict t]).
Proof.
  intros [Hb Ht]. split; intros u; unfold blacklisted, pending; rewrite status_snoc; cbn [track f_black f_traces].
  - specialize (Hb u). unfold blacklisted in Hb. destruct (status log u) as [b p]; cbn [track]. cbn [fst] in Hb. destruct (decide (t = u)) as [->|Hne]; cbn [fst].
    + set_solver.
    + rewrite <- Hb. set_solver.
  - specialize (Ht u). unfold pending in Ht. destruct (status log u) as [b p]; cbn [track]. by destruct (decide (t = u)).
Qed.

(* ---------- the load ---------- *)

Lemma waiting_of st log : inv st log -> waiting log (map_to_list (f_traces st)).*1.
Proof.
  intros [_ Ht]. split; [apply NoDup_fst_map_to_list|]. intros t. rewrite elem_of_list_fmap. split.
  - intros ([t' tr] & -> & H). apply elem_of_map_to_list in H. rewrite Ht in H. by apply tree_at_fields in H as (_ & _ & _ & _ & _ & _ & H).
  - intros H. specialize (Ht t). destruct (pending log t) as [|[[n0 n1] s] a] eqn:E; [done|]. eexists (t, _). split; [done|]. apply elem_of_map_to_list. exact Ht.
Qed.

Lemma count_loop f l n : foldl (fun n (p : Z * tree) => n + f p.2) n l = n + foldr (fun p m => f p.2 + m) 0 l.
Proof. revert n. induction l as [|p l IH]; intros n; cbn; [lia|]. rewrite IH. lia. Qed.

Lemma sum_perm (f : Z * tree -> Z) l l' : l ≡ₚ l' -> foldr (fun p m => f p + m) 0 l = foldr (fun p m => f p + m) 0 l'.
Proof. induction 1; cbn; lia. Qed.

Lemma sum_trees st log (f : tree -> Z) (g : Z -> list addition -> Z) l : inv st log -> l ≡ₚ map_to_list (f_traces st) ->
  (forall t tr, f_traces st !! t = Some tr -> f tr = g t (pending log t)) ->
  foldr (fun p m => f p.2 + m) 0 l = sum (fun t => g t (pending log t)) (map_to_list (f_traces st)).*1.
Proof.
  intros Hi Hp Hfg. rewrite (sum_perm (fun p => f p.2) _ _ Hp). clear Hp.
  assert (H : forall p, p ∈ map_to_list (f_traces st) -> f p.2 = g p.1 (pending log p.1)).
  { intros [t tr] Hin. apply elem_of_map_to_list in Hin. by apply Hfg. }
  induction (map_to_list (f_traces st)) as [|p l' IH]; [done|]. cbn. rewrite (H p) by apply elem_of_list_here.
  unfold sum in IH. rewrite IH; [done|]. intros q Hq. apply H. by apply elem_of_list_further.
Qed.

Lemma sum_waiting log f ts ts' : waiting log ts -> waiting log ts' -> sum f ts = sum f ts'.
Proof.
  intros [N1 H1] [N2 H2]. assert (Hp : ts ≡ₚ ts') by (apply NoDup_Permutation; [done..|]; intros t; by rewrite H1, H2).
  clear -Hp. unfold sum. induction Hp; cbn; lia.
Qed.

Lemma buffer_time_spec n : buffer_time n = patience n.
Proof.
  unfold buffer_time, patience, seconds. cbn. destruct (Z.leb_spec 0 n), (Z.leb_spec 40000 n), (Z.leb_spec 60000 n), (Z.leb_spec 80000 n);
    repeat (destruct (decide _); try lia).
Qed.

Lemma counted_nonneg t a : 0 <= counted t a < 2^16.
Proof. unfold counted. apply Z.mod_pos_bound. p2. lia. Qed.

Lemma count_spans_spec st log l : inv st log -> l ≡ₚ map_to_list (f_traces st) ->
  count_spans l = sum (fun t => small (counted t (pending log t))) (map_to_list (f_traces st)).*1.
Proof.
  intros Hi Hp. unfold count_spans.
  assert (E : foldl (fun n p => if too_large p.2 then n else n + t_count p.2) 0 l = foldl (fun n (p : Z * tree) => n + small (t_count p.2)) 0 l).
  { clear. generalize 0 as n. induction l as [|p l IH]; intros n; [done|]. cbn [foldl]. rewrite IH. f_equal. unfold too_large, small. destruct (Z.ltb_spec (8 * 1024) (t_count p.2)), (decide _); lia. }
  rewrite E, (count_loop (fun tr => small (t_count tr))). rewrite Z.add_0_l.
  apply (sum_trees st log (fun tr => small (t_count tr)) (fun t a => small (counted t a)) l Hi Hp).
  intros t tr Ht. destruct Hi as [_ Hi]. rewrite Hi in Ht. by apply tree_at_fields in Ht as (_ & _ & -> & _).
Qed.

(* ---------- the loop over the traces ---------- *)

Lemma last_tick_snoc log e n1 n2 load : last_tick log n1 n2 load -> (forall a b c, e <> LTick a b c) -> last_tick (log ++ [e]) n1 n2 load.
Proof.
  intros (l1 & l2 & -> & H) He. exists l1, (l2 ++ [e]). split; [by rewrite <- app_assoc|]. intros a b c Hin. apply elem_of_app in Hin as [Hin|Hin]; [by eapply H|].
  apply elem_of_list_singleton in Hin. by eapply He.
Qed.

Definition kept (du ds : Z) (tr : tree) : bool := negb (too_large tr) && negb (t_started tr <? ds) && (du <? t_updated tr).

Lemma finish_one_spec k n1 n2 load st log0 log id tr :
  let du := n1 - patience load in let ds := n2 - 5 * patience load in
  map_order (k_ord k) -> inv st (log0 ++ log) -> good (log0 ++ log) -> last_tick (log0 ++ log) n1 n2 load -> f_traces st !! id = Some tr ->
  exists st' log', finish_one k du ds (st, log) (id, tr) = (st', log') /\
    inv st' (log0 ++ log') /\ good (log0 ++ log') /\ last_tick (log0 ++ log') n1 n2 load /\
    f_traces st' = (if kept du ds tr then f_traces st else delete id (f_traces st)).
Proof.
  intros du ds Ho Hi Hg Hl Hid. unfold finish_one, kept. destruct (negb (too_large tr)) eqn:E1.
  2: { apply negb_false_iff in E1. rewrite E1. cbn [andb].
    eexists _, _. split; [reflexivity|]. rewrite app_assoc. split; [apply (inv_out st (log0 ++ log) id TooLarge Hi)|]. split; [|split; [by apply last_tick_snoc|done]].
    apply good_snoc. split; [done|]. destruct Hi as [_ Ht]. rewrite Ht in Hid. apply tree_at_fields in Hid as (_ & _ & Ec & _ & _ & _ & Hne).
    split; [done|]. exists n1, n2, load. split; [done|]. rewrite <- Ec. unfold too_large in E1. lia. }
  apply negb_true_iff in E1. rewrite E1. assert (Hcnt : counted id (pending (log0 ++ log) id) <= 8192).
  { destruct Hi as [_ Ht]. rewrite Ht in Hid. apply tree_at_fields in Hid as (_ & _ & Ec & _ & _ & _ & Hne). rewrite <- Ec. unfold too_large in E1. lia. }
  destruct (t_started tr <? ds) eqn:E2; cbn [negb andb].
  { eexists _, _. split; [reflexivity|]. rewrite app_assoc. split; [apply (inv_out st (log0 ++ log) id TooOld Hi)|]. split; [|split; [by apply last_tick_snoc|done]].
    apply good_snoc. split; [done|]. destruct Hi as [_ Ht]. rewrite Ht in Hid. apply tree_at_fields in Hid as (_ & _ & Ec & Es & _ & _ & Hne).
    split; [done|]. exists n1, n2, load. split; [done|]. split; [done|]. rewrite <- Es. lia. }
  destruct (du <? t_updated tr) eqn:E3; [by exists st, log|].
  assert (Hid' := Hid). destruct Hi as [Hb Ht]. rewrite Ht in Hid'. apply tree_at_fields in Hid' as (_ & Esp & Ec & Es & Eu & Hd & Hne).
  destruct (merged_ok (log0 ++ log) id Hg) as [Htr Hok]. rewrite <- Esp in Htr, Hok.
  pose proof (finish_decide (k_ord k) (k_fake k id) id tr Ho Hd Htr Hok) as HF. destruct (find_roots (k_ord k) (k_fake k id) tr) as [tr' rs].
  rewrite Esp in HF.
  assert (Htime : touched (pending (log0 ++ log) id) <= n1 - patience load /\ n2 - 5 * patience load <= started (pending (log0 ++ log) id)).
  { rewrite <- Es, <- Eu. fold du ds. lia. }
  assert (Hno : ~ (exists out, emission id (merged_spans id (pending (log0 ++ log) id)) out) ->
    exists st' log', (FState (delete id (f_traces st)) (f_black st), log ++ [LOut id NoRoot]) = (st', log') /\
      inv st' (log0 ++ log') /\ good (log0 ++ log') /\ last_tick (log0 ++ log') n1 n2 load /\ f_traces st' = delete id (f_traces st)).
  { intros Hn. eexists _, _. split; [reflexivity|]. rewrite app_assoc. split; [apply (inv_out st (log0 ++ log) id NoRoot); by split|].
    split; [|split; [by apply last_tick_snoc|done]]. apply good_snoc. split; [done|]. split; [done|]. exists n1, n2, load. split; [done|]. by split. }
  destruct rs as [|r [|r' rs]]; [by apply Hno| |by apply Hno]. destruct HF as (out & seen & -> & Hem).
  eexists _, _. split; [reflexivity|]. rewrite app_assoc. split; [apply (inv_out st (log0 ++ log) id (Emitted out)); by split|].
  split; [|split; [by apply last_tick_snoc|done]]. apply good_snoc. split; [done|]. split; [done|]. exists n1, n2, load. split; [done|]. by split.
Qed.

Lemma finish_loop k n1 n2 load log0 l : forall st log,
  let du := n1 - patience load in let ds := n2 - 5 * patience load in
  map_order (k_ord k) -> inv st (log0 ++ log) -> good (log0 ++ log) -> last_tick (log0 ++ log) n1 n2 load -> NoDup l.*1 ->
  (forall id tr, (id, tr) ∈ l -> f_traces st !! id = Some tr) ->
  exists st' log', foldl (finish_one k du ds) (st, log) l = (st', log') /\
    inv st' (log0 ++ log') /\ good (log0 ++ log') /\ last_tick (log0 ++ log') n1 n2 load /\
    (forall id, id ∉ l.*1 -> f_traces st' !! id = f_traces st !! id) /\
    (forall id tr, (id, tr) ∈ l -> f_traces st' !! id = if kept du ds tr then Some tr else None).
Proof.
  induction l as [|[id tr] l IH]; intros st log du ds Ho Hi Hg Hl Hn Hin.
  - exists st, log. repeat (split; [done|]). intros id tr H. by apply elem_of_nil in H.
  - cbn [foldl]. destruct (finish_one_spec k n1 n2 load st log0 log id tr) as (st1 & log1 & E & Hi1 & Hg1 & Hl1 & Et); try done.
    { apply Hin, elem_of_list_here. }
    fold du ds in E, Et. rewrite E. cbn [fmap list_fmap fst] in Hn. apply NoDup_cons in Hn as [Hid Hn].
    destruct (IH st1 log1) as (st' & log' & E' & Hi' & Hg' & Hl' & Hout & Hk); try done.
    { intros id' tr' Hin'. rewrite Et. assert (id' <> id) by (intros ->; apply Hid; apply elem_of_list_fmap; by exists (id, tr')).
      assert (f_traces st !! id' = Some tr') by (by apply Hin, elem_of_list_further). destruct (kept du ds tr); [done|]. by rewrite lookup_delete_ne. }
    exists st', log'. split; [done|]. split; [done|]. split; [done|]. split; [done|]. split.
    + intros id' Hid'. cbn [fmap list_fmap fst] in Hid'. apply not_elem_of_cons in Hid' as [Hne Hid']. rewrite Hout by done. rewrite Et.
      destruct (kept du ds tr); [done|]. by rewrite lookup_delete_ne.
    + intros id' tr' Hin'. apply elem_of_cons in Hin' as [[= -> ->]|Hin']; [|by apply Hk]. rewrite Hout by done. rewrite Et. destruct (kept du ds tr).
      * apply Hin, elem_of_list_here.
      * by rewrite lookup_delete.
Qed.

(* ---------- discarding ---------- *)

Lemma discard_loop_inv log0 n1 n2 load black l : forall n traces log,
  100000 < load -> inv (FState traces black) (log0 ++ log) -> good (log0 ++ log) -> last_tick (log0 ++ log) n1 n2 load ->
  NoDup l.*1 -> (forall id tr, (id, tr) ∈ l -> traces !! id = Some tr) ->
  let '(traces', log') := discard_loop l n traces log in
  inv (FState traces' black) (log0 ++ log') /\ good (log0 ++ log') /\ last_tick (log0 ++ log') n1 n2 load.
Proof.
  induction l as [|[id tr] l IH]; intros n traces log Hld Hi Hg Hl Hn Hin; cbn [discard_loop]; [done|].
  destruct (n <? maxSpans); [done|]. cbn [fmap list_fmap fst] in Hn. apply NoDup_cons in Hn as [Hid Hn].
  apply IH; [done|..].
  - rewrite app_assoc. apply (inv_out (FState traces black) _ id Overload Hi).
  - rewrite app_assoc. apply good_snoc. split; [done|]. destruct Hi as [_ Ht]. specialize (Ht id). cbn [f_traces] in Ht. rewrite (Hin id tr) in Ht by apply elem_of_list_here.
    symmetry in Ht. apply tree_at_fields in Ht as (_ & _ & _ & _ & _ & _ & Hne). split; [done|]. by exists n1, n2, load.
  - rewrite app_assoc. by apply last_tick_snoc.
  - done.
  - intros id' tr' Hin'. assert (id' <> id) by (intros ->; apply Hid; apply elem_of_list_fmap; by exists (id, tr')).
    rewrite lookup_delete_ne by done. by apply Hin, elem_of_list_further.
Qed.

Lemma discard_inv k log0 n1 n2 load black traces log :
  valid_tick k -> 100000 < load -> inv (FState traces black) (log0 ++ log) -> good (log0 ++ log) -> last_tick (log0 ++ log) n1 n2 load ->
  let '(traces', log') := discard k traces in
  inv (FState traces' black) (log0 ++ log ++ log') /\ good (log0 ++ log ++ log') /\ last_tick (log0 ++ log ++ log') n1 n2 load.
Proof.
  intros (_ & Hr & _ & Hs) Hld Hi Hg Hl. unfold discard. destruct (_ <? maxSpans); [by rewrite app_nil_r|].
  destruct (Hs (k_range k 2 traces)) as [Hp _].
  assert (Hp' : k_sort k (k_range k 2 traces) ≡ₚ map_to_list traces) by (by rewrite Hp).
  pose proof (discard_loop_inv (log0 ++ log) n1 n2 load black (k_sort k (k_range k 2 traces))) as H.
  specialize (H (foldl (λ (n : Z) (p : Z * tree), n + t_count p.2) 0 (k_range k 2 traces)) traces []). rewrite app_nil_r in H. destruct (discard_loop _ _ _ _) as [traces' log'].
  rewrite <- !app_assoc in H. apply H; [done..| |].
  - rewrite Hp'. apply NoDup_fst_map_to_list.
  - intros id tr Hin. rewrite Hp' in Hin. by apply elem_of_map_to_list.
Qed.

(* ---------- eviction ---------- *)

Lemma evict_inv log0 l : forall traces black log,
  inv (FState traces black) (log0 ++ log) -> good (log0 ++ log) -> NoDup l -> (forall t, t ∈ l -> t ∈ black) ->
  let '(black', log') := evict l black log in
  inv (FState traces black') (log0 ++ log') /\ good (log0 ++ log').
Proof.
  induction l as [|t l IH]; intros traces black log Hi Hg Hn Hin; cbn [evict]; [done|]. destruct (Z.ltb_spec (Z.of_nat (size black)) 1024) as [|Hfull]; [done|].
  apply NoDup_cons in Hn as [Ht Hn]. apply IH.
  - rewrite app_assoc. apply (inv_evict (FState traces black) _ t Hi).
  - rewrite app_assoc. apply good_snoc. split; [done|]. split; [apply Hi; apply Hin, elem_of_list_here|].
    exists (elements black). split; [apply NoDup_elements|]. split; [|exact Hfull]. intros u. rewrite elem_of_elements. apply Hi.
  - done.
  - intros u Hu. assert (u ∈ black) by (by apply Hin, elem_of_list_further). assert (u <> t) by (by intros ->). set_solver.
Qed.

Lemma evict_size l : forall black log, (forall t, t ∈ black -> t ∈ l) -> NoDup l -> Z.of_nat (size (evict l black log).1) <= 1023.
Proof.
  induction l as [|t l IH]; intros black log Hin Hn; cbn [evict].
  - assert (black = ∅) as -> by (apply leibniz_equiv; intros t; split; [intros H; apply Hin in H; by apply elem_of_nil in H|set_solver]). cbn [fst]. rewrite size_empty. lia.
  - destruct (Z.ltb_spec (Z.of_nat (size black)) 1024); [cbn [fst]; lia|]. apply NoDup_cons in Hn as [Ht Hn]. apply IH; [|done].
    intros u Hu. assert (u ∈ black /\ u <> t) as [Hu1 Hu2] by set_solver. apply Hin in Hu1. apply elem_of_cons in Hu1 as [?|?]; done.
Qed.

(* ---------- the shape of a tick's record ---------- *)

Definition noticks (l : list entry) : Prop := forall a b c, LTick a b c ∉ l.
Lemma noticks_nil : noticks [].
Proof. intros a b c H. by apply elem_of_nil in H. Qed.
Lemma noticks_app l l' : noticks l -> noticks l' -> noticks (l ++ l').
Proof. intros H H' a b c Hin. apply elem_of_app in Hin as [?|?]; [by eapply H|by eapply H']. Qed.
Lemma noticks_one e : (forall a b c, e <> LTick a b c) -> noticks [e].
Proof. intros H a b c Hin. apply elem_of_list_singleton in Hin. by eapply H. Qed.

Definition verdict (k : tick) (du ds : Z) (p : Z * tree) : list entry :=
  let '(id, t) := p in
  if kept du ds t then []
  else if too_large t then [LOut id TooLarge]
  else if t_started t <? ds then [LOut id TooOld]
  else
    let '(t, roots) := find_roots (k_ord k) (k_fake k id) t in
    match roots with
    | [r] =>
        match correct (length (t_spans t)) (t_spans t) r None 0 with
        | Some (spans, _) => [LOut id (Emitted spans)]
        | None => [LOut id Stuck]
        end
    | _ => [LOut id NoRoot]
    end.

Lemma finish_one_verdict k du ds st log p :
  (finish_one k du ds (st, log) p).2 = log ++ verdict k du ds p.
Proof.
  destruct p as [id t]. unfold finish_one, verdict. fold (kept du ds t). destruct (kept du ds t); [by rewrite app_nil_r|].
  destruct (too_large t); [done|]. destruct (t_started t <? ds); [done|]. destruct (find_roots _ _ _) as [t' [|r [|r' rs]]]; try done. by destruct (correct _ _ _ _ _) as [[? ?]|].
Qed.

Lemma finish_loop_verdict k du ds l : forall st log, (foldl (finish_one k du ds) (st, log) l).2 = log ++ concat (map (verdict k du ds) l).
Proof.
  induction l as [|p l IH]; intros st log; [by rewrite app_nil_r|]. cbn [foldl map concat].
  pose proof (finish_one_verdict k du ds st log p) as E. destruct (finish_one k du ds (st, log) p) as [st' log']. cbn [snd] in E. rewrite IH, E. by rewrite app_assoc.
Qed.

Lemma verdict_noticks k du ds p : noticks (verdict k du ds p).
Proof.
  destruct p as [id t]. unfold verdict. destruct (kept du ds t); [apply noticks_nil|].
  destruct (too_large t); [by apply noticks_one|]. destruct (t_started t <? ds); [by apply noticks_one|].
  destruct (find_roots _ _ _) as [t' [|r [|r' rs]]]; try by apply noticks_one. destruct (correct _ _ _ _ _) as [[? ?]|]; by apply noticks_one.
Qed.

Lemma verdicts_noticks k du ds l : noticks (concat (map (verdict k du ds) l)).
Proof. induction l as [|p l IH]; [apply noticks_nil|]. cbn [map concat]. apply noticks_app; [apply verdict_noticks|done]. Qed.

Lemma discard_loop_log l : forall n traces log, exists x : list (Z * tree), (discard_loop l n traces log).2 = log ++ map (fun p => LOut p.1 Overload) x.
Proof.
  induction l as [|[id tr] l IH]; intros n traces log; cbn [discard_loop]; [exists []; by rewrite app_nil_r|].
  destruct (n <? maxSpans); [exists []; by rewrite app_nil_r|]. destruct (IH (n - t_count tr) (delete id traces) (log ++ [LOut id Overload])) as [x ->].
  exists ((id, tr) :: x). by rewrite <- app_assoc.
Qed.

Lemma discard_log k traces : exists x : list (Z * tree), (discard k traces).2 = map (fun p => LOut p.1 Overload) x.
Proof. unfold discard. destruct (_ <? _); [by exists []|]. apply discard_loop_log. Qed.

Lemma overloads_noticks (x : list (Z * tree)) : noticks (map (fun p => LOut p.1 Overload) x).
Proof. intros a b c H. apply elem_of_list_fmap in H as (p & ? & _). done. Qed.

Lemma evict_log l : forall black log, exists x, (evict l black log).2 = log ++ map LEvict x.
Proof.
  induction l as [|t l IH]; intros black log; cbn [evict]; [exists []; by rewrite app_nil_r|].
  destruct (_ <? 1024); [exists []; by rewrite app_nil_r|]. destruct (IH (black ∖ {[t]}) (log ++ [LEvict t])) as [x ->]. exists (t :: x). by rewrite <- app_assoc.
Qed.

Lemma evicts_noticks x : noticks (map LEvict x).
Proof. intros a b c H. apply elem_of_list_fmap in H as (p & ? & _). done. Qed.

(* ---------- a tick ---------- *)

Lemma finish_traces_spec k st log0 : valid_tick k -> inv st log0 -> good log0 ->
  exists st' log load, finish_traces k st = (st', log) /\ inv st' (log0 ++ log) /\ good (log0 ++ log) /\
    load = sum (fun t => small (counted t (pending log0 t))) (map_to_list (f_traces st)).*1 /\
    (exists x y, log = LTick (k_now1 k) (k_now2 k) load ::
        concat (map (verdict k (k_now1 k - patience load) (k_now2 k - 5 * patience load)) (k_range k 1 (f_traces st))) ++
        map (fun p : Z * tree => LOut p.1 Overload) x ++ map LEvict y /\ (load <= 100000 -> x = [])) /\
    (exists mid, (forall id, mid !! id = match f_traces st !! id with
                               | Some tr => if kept (k_now1 k - patience load) (k_now2 k - 5 * patience load) tr then Some tr else None
                               | None => None end) /\
       f_traces st' = (if 100000 <? load then (discard k mid).1 else mid)) /\
    Z.of_nat (size (f_black st')) <= 1023.
Proof.
  intros Hk Hi Hg. assert (Hk' := Hk). destruct Hk' as (Ho & Hr & Hrb & Hs). unfold finish_traces.
  rewrite (count_spans_spec st log0 _ Hi (Hr 0%nat (f_traces st))).
  set (load := sum _ _). rewrite buffer_time_spec. set (n1 := k_now1 k). set (n2 := k_now2 k).
  destruct (finish_loop k n1 n2 load log0 (k_range k 1 (f_traces st)) st [LTick n1 n2 load]) as (st1 & log1 & E & Hi1 & Hg1 & Hl1 & Hout & Hkept).
  - done.
  - apply inv_other; [done|]. intros t. cbn. by destruct (status log0 t).
  - apply good_snoc. split; [done|]. exists (map_to_list (f_traces st)).*1. split; [by apply waiting_of|done].
  - exists log0, []. split; [done|]. intros a b c H. by apply elem_of_nil in H.
  - rewrite Hr. apply NoDup_fst_map_to_list.
  - intros id tr Hin. rewrite Hr in Hin. by apply elem_of_map_to_list.
  - rewrite E.
    assert (Hmid : forall id, f_traces st1 !! id = match f_traces st !! id with
                               | Some tr => if kept (n1 - patience load) (n2 - 5 * patience load) tr then Some tr else None
                               | None => None end).
    { intros id. destruct (f_traces st !! id) as [tr|] eqn:Et.
      - apply Hkept. rewrite Hr. by apply elem_of_map_to_list.
      - rewrite Hout; [done|]. rewrite Hr. intros Hin. apply elem_of_list_fmap in Hin as ([id' tr] & -> & Hin). apply elem_of_map_to_list in Hin. cbn in Et. congruence. }
    assert (Hd : exists traces logd, (if maxSpans <? load then discard k (f_traces st1) else (f_traces st1, [])) = (traces, logd) /\
      inv (FState traces (f_black st1)) (log0 ++ log1 ++ logd) /\ good (log0 ++ log1 ++ logd) /\ last_tick (log0 ++ log1 ++ logd) n1 n2 load /\
      traces = (if 100000 <? load then (discard k (f_traces st1)).1 else f_traces st1) /\
      exists x : list (Z * tree), logd = map (fun p => LOut p.1 Overload) x /\ (load <= 100000 -> x = [])).
    { change maxSpans with 100000. destruct (Z.ltb_spec 100000 load).
      - pose proof (discard_inv k log0 n1 n2 load (f_black st1) (f_traces st1) log1 Hk) as H'. pose proof (discard_log k (f_traces st1)) as Hdl. destruct (discard k (f_traces st1)) as [traces logd].
        exists traces, logd. split; [done|]. destruct H' as (A & B & C); [lia|by destruct st1|done|done|].
        split; [done|]. split; [done|]. split; [done|]. split; [done|]. cbn [snd] in Hdl. destruct Hdl as [x ->]. exists x. split; [done|]. lia.
      - exists (f_traces st1), []. rewrite app_nil_r. split; [done|]. split; [by destruct st1|]. split; [done|]. split; [done|]. split; [done|]. by exists []. }
    destruct Hd as (traces & logd & -> & Hi2 & Hg2 & Hl2 & Etr & Hlogs).
    pose proof (evict_log (k_range_black k (f_black st1)) (f_black st1) []) as Hev.
    pose proof (evict_inv (log0 ++ log1 ++ logd) (k_range_black k (f_black st1)) traces (f_black st1) []) as He.
    pose proof (evict_size (k_range_black k (f_black st1)) (f_black st1) []) as Hsz.
    destruct (evict _ _ _) as [black loge]. cbn [snd app] in Hev. rewrite !app_nil_r in He. destruct He as [Hi3 Hg3]; [done|done| | |].
    { rewrite Hrb. apply NoDup_elements. }
    { intros t Ht. rewrite Hrb in Ht. by apply elem_of_elements. }
    rewrite <- !app_assoc in Hi3, Hg3.
    eexists _, _, load. split; [reflexivity|]. split; [exact Hi3|]. split; [exact Hg3|]. split; [done|]. split.
    { pose proof (finish_loop_verdict k (n1 - patience load) (n2 - 5 * patience load) (k_range k 1 (f_traces st)) st [LTick n1 n2 load]) as V. rewrite E in V. cbn [snd] in V.
      destruct Hlogs as (x & -> & Hx). destruct Hev as (y & ->). exists x, y. split; [|done]. by rewrite V. }
    split; [exists (f_traces st1); by split|]. apply Hsz.
    + intros t Ht. rewrite Hrb. by apply elem_of_elements.
    + rewrite Hrb. apply NoDup_elements.
Qed.

(* ---------- runs ---------- *)

Lemma run_snoc evs e : run (evs ++ [e]) = (let '(st, log) := step (run evs).1 e in (st, (run evs).2 ++ log)).
Proof. unfold run. by rewrite foldl_app. Qed.

Lemma run_inv evs : Forall valid_event evs -> good (run evs).2 /\ match (run evs).1 with Some st => inv st (run evs).2 | None => True end.
Proof.
  induction evs as [|e evs IH] using rev_ind; intros Hv; [split; [apply good_nil|apply inv_initial]|].
  apply Forall_app in Hv as [Hv He]. rewrite Forall_singleton in He. specialize (IH Hv). rewrite run_snoc. destruct (run evs) as [[st|] log]; cbn [fst snd] in *.
  2: { cbn. by rewrite app_nil_r. }
  destruct IH as [Hg Hi]. destruct e as [ord n0 n1 s|k|]; cbn [step].
  - destruct He as [Ho Hok]. cbn [fst snd]. split; [by apply good_snoc|]. by apply inv_receive.
  - destruct (finish_traces_spec k st log He Hi Hg) as (st' & log' & load & -> & Hi' & Hg' & _). done.
  - cbn [fst snd]. split; [|done]. by apply good_snoc.
Qed.
