(** Proofs for C97: the runs of the corrector with its memory. *)
From Verif Require Import Base IdModel SpanModel TreeModel TreeSpec TreeProofs FinishModel FinishSpec SliceModel SliceSpec SliceProofs.

(** Waiting traces have arrays of their own, none of which was sent. *)
Definition owns (mem : memory) (traces : gmap Z htree) (snt : list nat) : Prop :=
  (forall t ht, traces !! t = Some ht -> ok_slice mem (ht_spans ht)) /\
  (forall t t' ht ht' a n n', traces !! t = Some ht -> traces !! t' = Some ht' -> ht_spans ht = Some (a, n) -> ht_spans ht' = Some (a, n') -> t = t') /\
  (forall t ht a n, traces !! t = Some ht -> ht_spans ht = Some (a, n) -> a ∉ snt) /\
  (forall a, a ∈ snt -> (a < length mem)%nat) /\ NoDup snt.

Lemma owns_sub mem (traces traces' : gmap Z htree) snt : traces' ⊆ traces -> owns mem traces snt -> owns mem traces' snt.
Proof.
  intros Hs (A1 & A2 & A3 & A4 & A5). rewrite map_subseteq_spec in Hs. split; [|split; [|split; [|split; [exact A4|exact A5]]]].
  - intros t ht H. exact (A1 t ht (Hs _ _ H)).
  - intros t t' ht ht' a n n' H H'. exact (A2 t t' ht ht' a n n' (Hs _ _ H) (Hs _ _ H')).
  - intros t ht a n H. exact (A3 t ht a n (Hs _ _ H)).
Qed.

Lemma cells_same mem mem' sl : ok_slice mem sl -> (forall a n arr, sl = Some (a, n) -> mem !! a = Some arr -> mem' !! a = Some arr) -> cells mem' sl = cells mem sl /\ ok_slice mem' sl.
Proof.
  destruct sl as [[a n]|]; [|done]. intros (arr & E & Hn) H. specialize (H a n arr eq_refl E). rewrite (cells_some _ _ _ _ E), (cells_some _ _ _ _ H).
  split; [done|]. by exists arr.
Qed.

(** The slice of trace [t] moves: the others do not notice. *)
Lemma owns_moved mem traces snt t sl mem' sl' : owns mem traces snt -> (sl = None \/ exists ht, traces !! t = Some ht /\ ht_spans ht = sl) -> moved mem sl mem' sl' ->
  owns mem' (delete t traces) snt /\
  (forall t' ht', t' <> t -> traces !! t' = Some ht' -> see mem' ht' = see mem ht') /\
  (forall a, a ∈ snt -> mem' !! a = mem !! a) /\
  (forall a n, sl' = Some (a, n) -> a ∉ snt /\ (a < length mem')%nat /\ forall t' ht' n', t' <> t -> traces !! t' = Some ht' -> ht_spans ht' <> Some (a, n')).
Proof.
  intros (A1 & A2 & A3 & A4 & A5) Hsl (B1 & B2 & B3 & B4).
  assert (Hoth : forall t' ht' a n arr, t' <> t -> traces !! t' = Some ht' -> ht_spans ht' = Some (a, n) -> mem !! a = Some arr -> mem' !! a = Some arr).
  { intros t' ht' a n arr Hne Ht Hs E. apply B3; [|done]. intros m ->. destruct Hsl as [|(ht & Hht & Es)]; [done|]. apply Hne. by apply (A2 t' t ht' ht a n m). }
  assert (Hsame : forall t' ht', t' <> t -> traces !! t' = Some ht' -> cells mem' (ht_spans ht') = cells mem (ht_spans ht') /\ ok_slice mem' (ht_spans ht')).
  { intros t' ht' Hne Ht. apply cells_same; [by apply (A1 t')|]. intros a n arr Hs E. by apply (Hoth t' ht' a n arr). }
  split; [split; [|split; [|split; [|split]]]|split; [|split]].
  - intros t' ht' H. apply lookup_delete_Some in H as [Hne H]. by apply (Hsame t' ht').
  - intros t1 t2 h1 h2 a n1 n2 H1 H2. apply lookup_delete_Some in H1 as [_ H1]. apply lookup_delete_Some in H2 as [_ H2]. by apply (A2 t1 t2 h1 h2).
  - intros t1 h1 a n H1. apply lookup_delete_Some in H1 as [_ H1]. by apply (A3 t1 h1 a n).
  - intros a Ha. specialize (A4 a Ha). lia.
  - exact A5.
  - intros t' ht' Hne Ht. unfold see. by rewrite (proj1 (Hsame t' ht' Hne Ht)).
  - intros a Ha. pose proof (A4 a Ha) as Hlt. destruct (lookup_lt_is_Some_2 mem a Hlt) as [arr E]. rewrite E. apply B3; [|done]. intros n ->.
    destruct Hsl as [|(ht & Hht & Es)]; [done|]. by apply (A3 t ht a n Hht Es).
  - intros a n ->. destruct B1 as (arr & E & _). split; [|split].
    + intros Ha. destruct (B4 a n eq_refl) as [[m ->]|H]; [|specialize (A4 a Ha); lia]. destruct Hsl as [|(ht & Hht & Es)]; [done|]. by apply (A3 t ht a m Hht Es).
    + by apply lookup_lt_Some in E.
    + intros t' ht' n' Hne Ht Hs. destruct (B4 a n eq_refl) as [[m ->]|H].
      * destruct Hsl as [|(ht & Hht & Es)]; [done|]. apply Hne. by apply (A2 t' t ht' ht a n' m).
      * pose proof (A1 t' ht' Ht) as Hok. rewrite Hs in Hok. destruct Hok as (arr' & E' & _). apply lookup_lt_Some in E'. lia.
Qed.

Lemma owns_insert mem traces snt t ht : owns mem (delete t traces) snt -> ok_slice mem (ht_spans ht) ->
  (forall a n, ht_spans ht = Some (a, n) -> a ∉ snt /\ forall t' ht' n', t' <> t -> traces !! t' = Some ht' -> ht_spans ht' <> Some (a, n')) ->
  owns mem (<[t := ht]> traces) snt.
Proof.
  intros (A1 & A2 & A3 & A4 & A5) Hok Hnew.
  assert (Hc : forall t' ht', <[t := ht]> traces !! t' = Some ht' -> (t' = t /\ ht' = ht) \/ (t' <> t /\ delete t traces !! t' = Some ht' /\ traces !! t' = Some ht')).
  { intros t' ht' H. apply lookup_insert_Some in H as [[-> ->]|[Hne H]]; [by left|right]. rewrite lookup_delete_ne by done. done. }
  split; [|split; [|split; [|split; [exact A4|exact A5]]]].
  - intros t' ht' H. destruct (Hc _ _ H) as [[-> ->]|(Hne & Hd & Ht)]; [done|by apply (A1 t')].
  - intros t1 t2 h1 h2 a n1 n2 H1 H2 E1 E2. destruct (Hc _ _ H1) as [[-> ->]|(Hne1 & Hd1 & Ht1)], (Hc _ _ H2) as [[-> ->]|(Hne2 & Hd2 & Ht2)].
    + done.
    + exfalso. destruct (Hnew a n1 E1) as [_ Hx]. by apply (Hx t2 h2 n2).
    + exfalso. destruct (Hnew a n2 E2) as [_ Hx]. by apply (Hx t1 h1 n1).
    + by apply (A2 t1 t2 h1 h2 a n1 n2).
  - intros t' ht' a n H E. destruct (Hc _ _ H) as [[-> ->]|(Hne & Hd & Ht)]; [by apply (Hnew a n)|by apply (A3 t' ht' a n)].
Qed.

Lemma owns_send mem traces snt a : owns mem traces snt -> a ∉ snt -> (a < length mem)%nat -> (forall t ht n, traces !! t = Some ht -> ht_spans ht <> Some (a, n)) -> owns mem traces (snt ++ [a]).
Proof.
  intros (A1 & A2 & A3 & A4 & A5) Ha Hlt Hno. split; [exact A1|]. split; [exact A2|]. split; [|split].
  - intros t ht b n Ht E Hb. apply elem_of_app in Hb as [Hb|Hb]; [by apply (A3 t ht b n)|]. apply elem_of_list_singleton in Hb as ->. by apply (Hno t ht n).
  - intros b Hb. apply elem_of_app in Hb as [Hb|Hb]; [by apply A4|]. by apply elem_of_list_singleton in Hb as ->.
  - apply NoDup_app. split; [done|]. split; [|apply NoDup_singleton]. intros b Hb Hx. by apply elem_of_list_singleton in Hx as ->.
Qed.

(** The two machines agree. *)
Definition agree (st : hstate) (snt : list nat) (v : fstate) : Prop :=
  see (h_mem st) <$> h_traces st = f_traces v /\ h_black st = f_black v /\ owns (h_mem st) (h_traces st) snt.

Lemma see_delete mem mem' (traces : gmap Z htree) (t : Z) : (forall t' ht', t' <> t -> traces !! t' = Some ht' -> see mem' ht' = see mem ht') ->
  see mem' <$> delete t traces = delete t (see mem <$> traces).
Proof.
  intros H. apply map_eq. intros i. rewrite lookup_fmap. destruct (decide (i = t)) as [->|Hne]; [by rewrite !lookup_delete|].
  rewrite !lookup_delete_ne, lookup_fmap by done. destruct (traces !! i) as [ht|] eqn:E; [|done]. cbn. f_equal. by apply (H i).
Qed.

Lemma hreceive_spec ord extra n0 n1 s st snt v : agree st snt v ->
  exists st', hreceive ord extra n0 n1 s st = Some st' /\ agree st' snt (receive ord n0 n1 s v) /\ (forall a, a ∈ snt -> h_mem st' !! a = h_mem st !! a).
Proof.
  intros (E1 & E2 & Ho). unfold hreceive, receive. destruct ((s_trace s =? 0) || (s_id s =? 0)); [by exists st|]. rewrite <- E2.
  destruct (bool_decide (s_trace s ∈ h_black st)); [by exists st|].
  set (t := match h_traces st !! s_trace s with Some t => t | None => new_htree n0 (s_trace s) end).
  assert (Hsl : ht_spans t = None \/ exists ht, h_traces st !! s_trace s = Some ht /\ ht_spans ht = ht_spans t).
  { unfold t. destruct (h_traces st !! s_trace s) as [ht|]; [right; by exists ht|by left]. }
  assert (Hok : ok_slice (h_mem st) (ht_spans t)).
  { destruct Hsl as [->|(ht & Hht & <-)]; [done|]. destruct Ho as (A1 & _). by apply (A1 (s_trace s)). }
  assert (Et : (match f_traces v !! s_trace s with Some t => t | None => new_tree n0 (s_trace s) end) = see (h_mem st) t).
  { unfold t. rewrite <- E1, lookup_fmap. by destruct (h_traces st !! s_trace s) as [ht|]. }
  rewrite Et. destruct (hadd_spec ord extra n1 s (h_mem st) t Hok) as (mem' & t' & -> & S1 & M1). cbn [mbind option_bind].
  eexists. split; [reflexivity|]. destruct (owns_moved _ _ snt (s_trace s) _ _ _ Ho Hsl M1) as (O1 & O2 & O3 & O4).
  split; [|exact O3]. split; [|split; [done|]]; cbn [h_mem h_traces h_black f_traces f_black].
  - rewrite fmap_insert, S1, <- E1. rewrite <- (insert_delete_insert (see mem' <$> _)), <- (insert_delete_insert (see (h_mem st) <$> _)). f_equal.
    rewrite <- fmap_delete. by apply see_delete.
  - apply owns_insert; [done|by destruct M1|]. intros a n Hs. destruct (O4 a n Hs) as (? & _ & ?). done.
Qed.

(** What an entry says about the memory: an emitted trace is in the array that was sent. *)
Definition delivered (mem : memory) (e : hentry) : Prop :=
  match e with
  | (LOut _ (Emitted out), sl) => exists a, sl = Some (a, length out) /\ ok_slice mem sl /\ cells mem sl = out
  | (_, sl) => sl = None
  end.

Lemma delivered_same mem mem' log : Forall (delivered mem) log -> (forall a, a ∈ sent log -> mem' !! a = mem !! a) -> Forall (delivered mem') log.
Proof.
  intros H Hs. rewrite Forall_forall in *. intros [e sl] Hin. specialize (H _ Hin). destruct e as [| |t o| |]; try done. destruct o as [out| | | | |]; try done.
  destruct H as (a & -> & Hok & Hc). exists a. split; [done|]. 
  assert (Ha : a ∈ sent log) by (unfold sent; apply elem_of_list_omap; by exists (LOut t (Emitted out), Some (a, length out))).
  destruct (cells_same mem mem' (Some (a, length out)) Hok) as [C O]; [|by rewrite C].
  intros a' n arr [= <- <-] E. by rewrite (Hs a Ha).
Qed.

Lemma sent_app l1 l2 : sent (l1 ++ l2) = sent l1 ++ sent l2.
Proof. unfold sent. apply omap_app. Qed.

Lemma interfere_agree snt writes : forall st v, agree st snt v -> agree (HState (interfere snt writes (h_mem st)) (h_traces st) (h_black st)) snt v /\
  forall t ht, h_traces st !! t = Some ht -> see (interfere snt writes (h_mem st)) ht = see (h_mem st) ht.
Proof.
  induction writes as [|[a arr] writes IH]; intros st v Hst; [by destruct st|]. cbn [interfere foldl fst snd].
  case_bool_decide as Ha; [|exact (IH st v Hst)].
  destruct Hst as (X1 & X2 & A1 & A2 & A3 & A4 & A5).
  assert (Hsame : forall t ht, h_traces st !! t = Some ht -> cells (<[a := arr]> (h_mem st)) (ht_spans ht) = cells (h_mem st) (ht_spans ht) /\ ok_slice (<[a := arr]> (h_mem st)) (ht_spans ht)).
  { intros t ht Ht. apply cells_same; [by apply (A1 t)|]. intros b n arr' Hs E. rewrite list_lookup_insert_ne; [done|]. intros <-. by apply (A3 t ht a n). }
  destruct (IH (HState (<[a := arr]> (h_mem st)) (h_traces st) (h_black st)) v) as [B1 B2].
  - split; [|split; [done|]]; cbn [h_mem h_traces].
    + rewrite <- X1. apply map_fmap_ext. intros t ht Ht. unfold see. by rewrite (proj1 (Hsame t ht Ht)).
    + split; [|split; [exact A2|split; [exact A3|split; [|exact A5]]]].
      * intros t ht Ht. by apply (Hsame t ht).
      * intros b Hb. rewrite insert_length. by apply A4.
  - split; [exact B1|]. intros t ht Ht. cbn [h_mem h_traces] in B2. etrans; [exact (B2 t ht Ht)|]. unfold see. by rewrite (proj1 (Hsame t ht Ht)).
Qed.

Lemma hfinish_calm_spec k extra du ds st log snt v vlog id t : agree st (snt ++ sent log) v -> map fst log = vlog -> h_traces st !! id = Some t ->
  exists st' log', hfinish_one k extra (fun _ => []) snt du ds (Some (st, log)) (id, t) = Some (st', log') /\
    agree st' (snt ++ sent log') (finish_one k du ds (v, vlog) (id, see (h_mem st) t)).1 /\
    map fst log' = (finish_one k du ds (v, vlog) (id, see (h_mem st) t)).2 /\
    (forall t' ht', t' <> id -> h_traces st !! t' = Some ht' -> h_traces st' !! t' = Some ht' /\ see (h_mem st') ht' = see (h_mem st) ht') /\
    (Forall (delivered (h_mem st)) log -> Forall (delivered (h_mem st')) log') /\ (forall a, a ∈ snt ++ sent log -> h_mem st' !! a = h_mem st !! a).
Proof.
  intros (E1 & E2 & Ho) El Hid. unfold hfinish_one, finish_one, too_large. cbn [mbind option_bind interfere foldl h_mem h_traces h_black].
  change (t_count (see (h_mem st) t)) with (ht_count t). change (t_updated (see (h_mem st) t)) with (ht_updated t). change (t_started (see (h_mem st) t)) with (ht_started t).
  destruct (negb (8 * 1024 <? ht_count t) && negb (ht_started t <? ds) && (du <? ht_updated t)).
  { eexists _, _. split; [reflexivity|]. split; [done|]. split; [done|]. split; [|done]. done. }
  assert (Hdrop : forall o black, delivered (h_mem st) (LOut id o, None) ->
    agree (HState (h_mem st) (delete id (h_traces st)) black) (snt ++ sent (log ++ [(LOut id o, None)])) (FState (delete id (f_traces v)) black) /\
    map fst (log ++ [(LOut id o, None)]) = vlog ++ [LOut id o] /\
    (forall t' ht', t' <> id -> h_traces st !! t' = Some ht' -> delete id (h_traces st) !! t' = Some ht' /\ see (h_mem st) ht' = see (h_mem st) ht') /\
    (Forall (delivered (h_mem st)) log -> Forall (delivered (h_mem st)) (log ++ [(LOut id o, None)])) /\ (forall a, a ∈ snt ++ sent log -> h_mem st !! a = h_mem st !! a)).
  { intros o black Hd. split; [|split; [|split; [|split]]].
    - split; [cbn [h_mem h_traces f_traces]; by rewrite fmap_delete, E1|]. split; [done|]. cbn [h_mem h_traces]. rewrite sent_app. cbn [sent omap list_omap snd fmap option_fmap option_map].
      rewrite app_nil_r. apply (owns_sub _ (h_traces st)); [apply delete_subseteq|exact Ho].
    - by rewrite map_app, <- El.
    - intros t' ht' Hne Ht. by rewrite lookup_delete_ne.
    - intros Hdel. apply Forall_app. split; [done|]. by apply Forall_cons_2.
    - done. }
  destruct (8 * 1024 <? ht_count t).
  { eexists _, _. split; [reflexivity|]. rewrite <- E2. apply Hdrop. done. }
  destruct (ht_started t <? ds).
  { eexists _, _. split; [reflexivity|]. rewrite <- E2. apply Hdrop. done. }
  clear Hdrop. assert (Hok : ok_slice (h_mem st) (ht_spans t)) by (destruct Ho as (A1 & _); by apply (A1 id)).
  destruct (hfind_spec (k_ord k) (extra id) (k_fake k id) (h_mem st) t Hok) as (m1 & t1 & rs & -> & -> & Hrs & M1). cbn [mbind option_bind].
  assert (Hsl : ht_spans t = None \/ exists ht, h_traces st !! id = Some ht /\ ht_spans ht = ht_spans t) by (right; by exists t).
  assert (Hend : forall m2 o sl', moved (h_mem st) (ht_spans t) m2 (ht_spans t1) -> delivered m2 (LOut id o, sl') -> sl' = None \/ sl' = ht_spans t1 ->
    agree (HState m2 (delete id (h_traces st)) (h_black st)) (snt ++ sent (log ++ [(LOut id o, sl')])) (FState (delete id (f_traces v)) (f_black v)) /\
    map fst (log ++ [(LOut id o, sl')]) = vlog ++ [LOut id o] /\
    (forall t' ht', t' <> id -> h_traces st !! t' = Some ht' -> delete id (h_traces st) !! t' = Some ht' /\ see m2 ht' = see (h_mem st) ht') /\
    (Forall (delivered (h_mem st)) log -> Forall (delivered m2) (log ++ [(LOut id o, sl')])) /\ (forall a, a ∈ snt ++ sent log -> m2 !! a = h_mem st !! a)).
  { intros m2 o sl' M2 Hd Hcase. destruct (owns_moved _ _ _ id _ _ _ Ho Hsl M2) as (O1 & O2 & O3 & O4). split; [|split; [|split; [|split]]].
    - split; [cbn [h_mem h_traces f_traces]; rewrite (see_delete (h_mem st) m2); [by rewrite E1|exact O2]|]. split; [done|]. cbn [h_mem h_traces]. rewrite sent_app, app_assoc.
      destruct sl' as [[a n]|]; cbn [sent omap list_omap snd fmap option_fmap option_map fst]; [|by rewrite app_nil_r].
      destruct Hcase as [|Hcase]; [done|]. destruct (O4 a n (eq_sym Hcase)) as (Q1 & Q2 & Q3).
      apply owns_send; [done|done|done|]. intros t' ht' n' Ht. apply lookup_delete_Some in Ht as [Hne Ht]. by apply (Q3 t').
    - by rewrite map_app, <- El.
    - intros t' ht' Hne Ht. rewrite lookup_delete_ne by done. split; [done|]. by apply (O2 t').
    - intros Hdel. apply Forall_app. split; [|by apply Forall_cons_2]. apply (delivered_same (h_mem st)); [done|]. intros a Ha. apply O3. apply elem_of_app. by right.
    - exact O3. }
  assert (Hroots : Forall (fun i => (i < length (cells m1 (ht_spans t1)))%nat) rs) by (rewrite Hrs; apply Forall_forall; intros i Hi; by apply indices_bound in Hi).
  assert (Hnone : ht_spans t1 = None -> rs = []) by (intros E; rewrite Hrs, E; done).
  destruct rs as [|r [|r' rs]].
  - assert (pointers (ht_spans t1) [] = []) as -> by (by destruct (ht_spans t1) as [[??]|]). eexists _, _. split; [reflexivity|]. apply Hend; [done|done|by left].
  - destruct (ht_spans t1) as [[a n]|] eqn:Es1; [|by specialize (Hnone eq_refl)]. cbn [pointers map]. rewrite <- Es1 in *.
    apply Forall_inv in Hroots. rewrite Es1 in Hroots. assert (Hok1 : ok_slice m1 (Some (a, n))) by (destruct M1 as [M1 _]; by rewrite Es1 in M1).
    rewrite (cells_length _ _ _ Hok1) in Hroots.
    pose proof (hcorrect_spec a n (length (cells m1 (ht_spans t1))) m1 r None 0 Hok1 Hroots I) as Hc. cbn [fmap option_fmap option_map] in Hc. rewrite <- Es1 in Hc.
    change (t_spans (see m1 t1)) with (cells m1 (ht_spans t1)).
    destruct (correct (length (cells m1 (ht_spans t1))) (cells m1 (ht_spans t1)) r None 0) as [[l sn]|].
    + destruct Hc as (m2 & -> & C2 & M2). rewrite C2. eexists _, _. split; [reflexivity|].
      assert (Hok2 : ok_slice m2 (Some (a, n))) by (destruct M2 as [M2 _]; by rewrite Es1 in M2).
      apply Hend; [by eapply moved_trans| |by right]. cbn [delivered]. exists a. rewrite Es1 in C2 |- *. split; [|done]. by rewrite <- C2, cells_length.
    + rewrite Hc. eexists _, _. split; [reflexivity|]. apply Hend; [done|done|by left].
  - destruct (ht_spans t1) as [[a n]|] eqn:Es1; [|by specialize (Hnone eq_refl)]. cbn [pointers map]. rewrite <- Es1 in *. eexists _, _. split; [reflexivity|]. apply Hend; [done|done|by left].
Qed.

(** With what the receivers write before. *)
Lemma hfinish_one_spec k extra others du ds st log snt v vlog id t : agree st (snt ++ sent log) v -> map fst log = vlog -> h_traces st !! id = Some t ->
  exists st' log', hfinish_one k extra others snt du ds (Some (st, log)) (id, t) = Some (st', log') /\
    agree st' (snt ++ sent log') (finish_one k du ds (v, vlog) (id, see (h_mem st) t)).1 /\
    map fst log' = (finish_one k du ds (v, vlog) (id, see (h_mem st) t)).2 /\
    (forall t' ht', t' <> id -> h_traces st !! t' = Some ht' -> h_traces st' !! t' = Some ht' /\ see (h_mem st') ht' = see (h_mem st) ht') /\
    (others id = [] -> Forall (delivered (h_mem st)) log -> Forall (delivered (h_mem st')) log') /\
    (others id = [] -> forall a, a ∈ snt ++ sent log -> h_mem st' !! a = h_mem st !! a).
Proof.
  intros Ha El Hid. set (st0 := HState (interfere (snt ++ sent log) (others id) (h_mem st)) (h_traces st) (h_black st)).
  assert (E0 : hfinish_one k extra others snt du ds (Some (st, log)) (id, t) = hfinish_one k extra (fun _ => []) snt du ds (Some (st0, log)) (id, t)) by reflexivity.
  rewrite E0. destruct (interfere_agree (snt ++ sent log) (others id) st v Ha) as [A0 B0].
  assert (Es : see (h_mem st0) t = see (h_mem st) t) by (by apply (B0 id)).
  destruct (hfinish_calm_spec k extra du ds st0 log snt v vlog id t A0 El Hid) as (st' & log' & E & A & B & C & D & F). rewrite Es in A, B.
  exists st', log'. split; [exact E|]. split; [exact A|]. split; [exact B|]. split; [|split].
  - intros t' ht' Hne Ht. destruct (C t' ht' Hne Ht) as [C1 C2]. split; [exact C1|]. rewrite C2. by apply (B0 t').
  - intros Hq. unfold st0 in D. rewrite Hq in D. exact D.
  - intros Hq. unfold st0 in F. rewrite Hq in F. exact F.
Qed.

Lemma hfinish_loop k extra others du ds snt : forall l st log v vlog, agree st (snt ++ sent log) v -> map fst log = vlog -> NoDup (l.*1) ->
  Forall (fun p => h_traces st !! p.1 = Some p.2) l ->
  exists st' log', foldl (hfinish_one k extra others snt du ds) (Some (st, log)) l = Some (st', log') /\
    agree st' (snt ++ sent log') (foldl (finish_one k du ds) (v, vlog) (map (fun p => (p.1, see (h_mem st) p.2)) l)).1 /\
    map fst log' = (foldl (finish_one k du ds) (v, vlog) (map (fun p => (p.1, see (h_mem st) p.2)) l)).2 /\
    ((forall id, others id = []) -> Forall (delivered (h_mem st)) log -> Forall (delivered (h_mem st')) log') /\
    ((forall id, others id = []) -> forall a, a ∈ snt ++ sent log -> h_mem st' !! a = h_mem st !! a).
Proof.
  induction l as [|[id t] l IH]; intros st log v vlog Ha El Hnd Hl.
  - by exists st, log.
  - cbn [fmap list_fmap fst] in Hnd. apply NoDup_cons in Hnd as [Hnin Hnd]. apply Forall_cons in Hl as [Hid Hl]. cbn [fst snd] in Hid.
    destruct (hfinish_one_spec k extra others du ds st log snt v vlog id t Ha El Hid) as (s1 & l1 & E1 & A1 & B1 & C1 & D1 & F1).
    cbn [foldl]. rewrite E1. cbn [map foldl fst snd]. destruct (finish_one k du ds (v, vlog) (id, see (h_mem st) t)) as [v1 vl1] eqn:Ev. cbn [fst snd] in A1, B1.
    assert (Hne : forall p, p ∈ l -> p.1 <> id).
    { intros p Hp Hx. apply Hnin. rewrite <- Hx. apply elem_of_list_fmap. by exists p. }
    destruct (IH s1 l1 v1 vl1 A1 B1 Hnd) as (s2 & l2 & E2 & A2 & B2 & D2 & F2).
    { rewrite Forall_forall in Hl |- *. intros p Hp. by apply (C1 p.1 p.2); [apply Hne|apply Hl]. }
    assert (Hm : map (fun p => (p.1, see (h_mem s1) p.2)) l = map (fun p => (p.1, see (h_mem st) p.2)) l).
    { apply map_ext_in. intros p Hp. apply elem_of_list_In in Hp. f_equal. rewrite Forall_forall in Hl. apply (C1 p.1 p.2); [by apply Hne|by apply Hl]. }
    rewrite Hm in A2, B2. exists s2, l2. split; [exact E2|]. split; [exact A2|]. split; [exact B2|]. split; [intros Hq Hd; apply (D2 Hq), (D1 (Hq id)), Hd|].
    assert (Hmon : forall a, a ∈ sent log -> a ∈ sent l1).
    { intros a Ha'. clear -E1 Ha'. unfold hfinish_one in E1. cbn [mbind option_bind] in E1.
      assert (forall e, a ∈ sent (log ++ e)) by (intros e; rewrite sent_app; apply elem_of_app; by left).
      repeat (case_match; simplify_eq; try done; cbn [mbind option_bind] in *). 
      all: destruct (hfind _ _ _ _ _) as [[[??]?]|]; cbn [mbind option_bind] in *; try done; repeat (case_match; simplify_eq; try done). }
    intros Hq a Ha'. rewrite (F2 Hq); [by apply (F1 (Hq id))|]. apply elem_of_app in Ha' as [Ha'|Ha']; apply elem_of_app; [by left|right; by apply Hmon].
Qed.

Lemma hdiscard_loop_spec mem : forall l n traces log, 
  see mem <$> (hdiscard_loop (map (fun p => (p.1, t_count p.2)) l) n traces log).1 = (discard_loop l n (see mem <$> traces) (map fst log)).1 /\
  map fst (hdiscard_loop (map (fun p => (p.1, t_count p.2)) l) n traces log).2 = (discard_loop l n (see mem <$> traces) (map fst log)).2 /\
  (hdiscard_loop (map (fun p => (p.1, t_count p.2)) l) n traces log).1 ⊆ traces /\
  (Forall (fun e => e.2 = None /\ forall t o, e.1 <> LOut t (Emitted o)) log -> Forall (fun e => e.2 = None /\ forall t o, e.1 <> LOut t (Emitted o)) (hdiscard_loop (map (fun p => (p.1, t_count p.2)) l) n traces log).2).
Proof.
  induction l as [|[id t] l IH]; intros n traces log; cbn [map hdiscard_loop discard_loop fst snd]; [done|]. destruct (n <? maxSpans); [done|].
  destruct (IH (n - t_count t) (delete id traces) (log ++ [(LOut id Overload, None)])) as (A & B & C & D). rewrite A, B, fmap_delete, map_app. split; [done|]. split; [done|]. split.
  - etrans; [exact C|]. apply delete_subseteq.
  - intros H. apply D. apply Forall_app. split; [done|]. by apply Forall_cons_2.
Qed.

Lemma quiet_sent (log : list hentry) : Forall (fun e => e.2 = None /\ forall t o, e.1 <> LOut t (Emitted o)) log -> sent log = [] /\ forall mem, Forall (delivered mem) log.
Proof.
  intros H. split.
  - induction H as [|[e sl] log [Hx _] H IH]; [done|]. cbn [snd] in Hx. subst sl. cbn. exact IH.
  - intros mem. eapply Forall_impl; [exact H|]. intros [e sl] [Hx Hy]. cbn [fst snd] in *. subst sl. destruct e as [| |t o| |]; try done. destruct o; try done. by destruct (Hy t spans).
Qed.

Lemma evict_quiet l : forall black log, (forall e, e ∈ log -> exists t, e = LEvict t) -> forall e, e ∈ (evict l black log).2 -> exists t, e = LEvict t.
Proof.
  induction l as [|id l IH]; intros black log H e; cbn [evict]; [apply H|]. destruct (_ <? 1024); [apply H|]. apply IH. intros e' He.
  apply elem_of_app in He as [He|He]; [by apply H|]. apply elem_of_list_singleton in He as ->. by exists id.
Qed.

Lemma hfinish_spec k extra others st snt v : agree st snt v -> valid_tick k ->
  exists st' log', hfinish k extra others snt st = Some (st', log') /\ agree st' (snt ++ sent log') (finish_traces k v).1 /\ map fst log' = (finish_traces k v).2 /\
    ((forall id, others id = []) -> Forall (delivered (h_mem st')) log' /\ (forall a, a ∈ snt -> h_mem st' !! a = h_mem st !! a)).
Proof.
  intros (E1 & E2 & Ho) (_ & Hrange & _). unfold hfinish, finish_traces. rewrite E1.
  set (load := count_spans (k_range k 0 (f_traces v))). set (du := k_now1 k - buffer_time load). set (ds := k_now2 k - 5 * buffer_time load).
  set (vl := k_range k 1 (f_traces v)). set (l := omap (fun p => (fun t => (p.1, t)) <$> h_traces st !! p.1) vl).
  assert (Hvl : Forall (fun p => exists ht, h_traces st !! p.1 = Some ht /\ p.2 = see (h_mem st) ht) vl).
  { apply Forall_forall. intros p Hp. unfold vl in Hp. rewrite (Hrange 1%nat (f_traces v)) in Hp. destruct p as [i x]. apply elem_of_map_to_list in Hp.
    rewrite <- E1, lookup_fmap in Hp. cbn [fst snd]. destruct (h_traces st !! i) as [ht|]; [|done]. cbn in Hp. exists ht. split; [done|congruence]. }
  assert (Hndv : NoDup (vl.*1)) by (unfold vl; rewrite (Hrange 1%nat (f_traces v)); apply NoDup_fst_map_to_list).
  assert (Hl : map (fun p => (p.1, see (h_mem st) p.2)) l = vl /\ l.*1 = vl.*1 /\ Forall (fun p => h_traces st !! p.1 = Some p.2) l).
  { unfold l. clear -Hvl. induction Hvl as [|[i x] vl (ht & E & Hx) Hvl (IH1 & IH2 & IH3)]; [split; [done|]; split; [done|]; apply Forall_nil_2|]. cbn [fst snd] in E, Hx. cbn [omap list_omap fst snd]. rewrite E. cbn [fmap option_fmap option_map list_fmap fst snd map].
    split; [rewrite Hx; f_equal; exact IH1|]. split; [f_equal; exact IH2|]. apply Forall_cons_2; [done|exact IH3]. }
  destruct Hl as (Hl1 & Hl2 & Hl3).
  destruct (hfinish_loop k extra others du ds snt l st [(LTick (k_now1 k) (k_now2 k) load, None)] v [LTick (k_now1 k) (k_now2 k) load]) as (s1 & l1 & F1 & A1 & B1 & D1 & G1).
  { cbn [sent omap list_omap snd fmap option_fmap option_map]. rewrite app_nil_r. split; [done|]. split; [done|exact Ho]. }
  { done. }
  { by rewrite Hl2. }
  { exact Hl3. }
  match goal with |- context [foldl (hfinish_one k extra others snt du ds) ?a ?b] => replace (foldl (hfinish_one k extra others snt du ds) a b) with (Some (s1, l1)) by (symmetry; exact F1) end.
  cbn [mbind option_bind]. rewrite Hl1 in A1, B1. destruct (foldl (finish_one k du ds) (v, [LTick (k_now1 k) (k_now2 k) load]) vl) as [v1 vl1]. cbn [fst snd] in A1, B1.
  destruct A1 as (X1 & X2 & X3).
  assert (Hdis : exists traces logd, (if maxSpans <? load then hdiscard k (h_mem s1) (h_traces s1) else (h_traces s1, [])) = (traces, logd) /\
    (if maxSpans <? load then discard k (f_traces v1) else (f_traces v1, [])) = (see (h_mem s1) <$> traces, map fst logd) /\ traces ⊆ h_traces s1 /\
    Forall (fun e => e.2 = None /\ forall t o, e.1 <> LOut t (Emitted o)) logd).
  { rewrite <- X1. destruct (maxSpans <? load); [|by exists (h_traces s1), []]. unfold hdiscard, discard.
    destruct (foldl (fun n p => n + t_count p.2) 0 (k_range k 2 (see (h_mem s1) <$> h_traces s1)) <? maxSpans); [by exists (h_traces s1), []|].
    eexists _, _. split; [apply surjective_pairing|].
    edestruct (hdiscard_loop_spec (h_mem s1)) as (P1 & P2 & P3 & P4). rewrite P1, P2. split; [apply surjective_pairing|]. split; [exact P3|]. apply P4, Forall_nil_2. }
  destruct Hdis as (traces & logd & -> & -> & Hsub & Hquiet). rewrite X2. destruct (evict (k_range_black k (f_black v1)) (f_black v1) []) as [black loge] eqn:Ee.
  assert (Hqe : Forall (fun e : hentry => e.2 = None /\ forall t o, e.1 <> LOut t (Emitted o)) (map (fun e => (e, None)) loge)).
  { apply Forall_forall. intros e He. apply elem_of_list_fmap in He as (x & -> & Hx). cbn [fst snd]. split; [done|]. intros t o ->.
    destruct (evict_quiet (k_range_black k (f_black v1)) (f_black v1) [] ltac:(intros e He; by apply elem_of_nil in He) (LOut t (Emitted o))) as [t' Ht]; [by rewrite Ee|done]. }
  destruct (quiet_sent _ Hquiet) as [Sq Dq]. destruct (quiet_sent _ Hqe) as [Se De].
  eexists _, _. split; [reflexivity|]. cbn [fst snd]. split; [|split; [|intros Hq; split]].
  - rewrite !sent_app, Sq, Se, !app_nil_r. split; [done|]. split; [done|]. cbn [h_mem h_traces]. by apply (owns_sub _ (h_traces s1)).
  - rewrite !map_app, map_map, <- B1. f_equal. f_equal. apply map_id.
  - cbn [h_mem]. apply Forall_app. split; [apply (D1 Hq); by apply Forall_cons_2|]. apply Forall_app. split; [apply Dq|apply De].
  - cbn [h_mem]. intros a Ha. apply (G1 Hq). apply elem_of_app. by left.
Qed.

(* ---------- runs ---------- *)

Definition run_agree (acc : option hstate * list hentry) (v : option fstate * list entry) : Prop :=
  map fst acc.2 = v.2 /\ NoDup (sent acc.2) /\
  match acc.1, v.1 with None, None => True | Some st, Some v => agree st (sent acc.2) v | _, _ => False end.

Lemma hstep_spec extra others e acc v : run_agree acc v -> valid_event e ->
  exists acc' new, hstep acc (HEvent extra others e) = Some acc' /\ run_agree acc' (let '(st, log) := step v.1 e in (st, v.2 ++ log)) /\ acc'.2 = acc.2 ++ new /\
    match acc.1, acc'.1 with Some st, Some st' => (forall id, others id = []) -> (forall a, a ∈ sent acc.2 -> h_mem st' !! a = h_mem st !! a) /\ Forall (delivered (h_mem st')) new | _, _ => sent new = [] end.
Proof.
  destruct acc as [st log], v as [vst vlog]. intros (E1 & Hnd & Hst) He. unfold hstep. cbn [fst snd] in *.
  destruct st as [st|], vst as [v|]; try done; cbn [step].
  2: { exists (None, log), []. split; [done|]. split; [|by rewrite app_nil_r]. split; [cbn [fst snd]; by rewrite app_nil_r|]. done. }
  destruct e as [ord n0 n1 s|k|].
  - destruct (hreceive_spec ord (extra (s_trace s)) n0 n1 s st (sent log) v Hst) as (st' & -> & A & F). cbn [mbind option_bind].
    eexists _, [(LSpan n0 n1 s, None)]. split; [reflexivity|]. cbn [fst snd]. split; [|split; [done|]].
    + split; [cbn [fst snd]; by rewrite map_app, <- E1|]. cbn [fst snd]. rewrite sent_app. cbn [sent omap list_omap snd fmap option_fmap option_map]. rewrite app_nil_r. done.
    + intros _. split; [done|]. by apply Forall_cons_2.
  - destruct (hfinish_spec k extra others st (sent log) v Hst He) as (st' & log' & -> & A & B & DF). cbn [mbind option_bind].
    eexists _, log'. split; [reflexivity|]. cbn [fst snd]. split; [|split; [done|intros Hq; by destruct (DF Hq)]]. destruct (finish_traces k v) as [v' vl']. cbn [fst snd] in *.
    split; [cbn [fst snd]; by rewrite map_app, <- E1, <- B|]. cbn [fst snd]. rewrite sent_app. split; [|done]. by destruct A as (_ & _ & _ & _ & _ & _ & ?).
  - eexists _, [(LClose, None)]. split; [reflexivity|]. cbn [fst snd]. split; [|done]. split; [cbn [fst snd]; by rewrite map_app, <- E1|]. cbn [fst snd].
    rewrite sent_app. cbn [sent omap list_omap snd fmap option_fmap option_map]. by rewrite app_nil_r.
Qed.

Lemma hother_spec writes acc v : run_agree acc v -> exists acc', hstep acc (HOther writes) = Some acc' /\ acc'.2 = acc.2 /\ run_agree acc' v.
Proof.
  destruct acc as [st log], v as [vst vlog]. intros (E1 & Hnd & Hst). unfold hstep. cbn [fst snd] in *.
  destruct st as [st|], vst as [v|]; try done; [|by exists (None, log)]. eexists. split; [reflexivity|]. split; [done|]. split; [done|]. split; [done|]. cbn [fst snd].
  by apply interfere_agree.
Qed.

Lemma hrun_snoc evs e : hrun (evs ++ [e]) = hrun evs ≫= fun acc => hstep acc e.
Proof. unfold hrun. by rewrite foldl_app. Qed.

Lemma run_snoc evs e : run (evs ++ [e]) = let '(st, log) := step (run evs).1 e in (st, (run evs).2 ++ log).
Proof. unfold run. by rewrite foldl_app. Qed.

Lemma own_snoc evs e : own_events (evs ++ [e]) = own_events evs ++ match e with HEvent _ _ e => [e] | HOther _ => [] end.
Proof. unfold own_events. rewrite omap_app. by destruct e. Qed.

Lemma runs_agree evs : Forall valid_event (own_events evs) -> exists acc, hrun evs = Some acc /\ run_agree acc (run (own_events evs)).
Proof.
  induction evs as [|e evs IH] using rev_ind; intros Hv.
  - exists (Some hinitial, []). split; [done|]. split; [done|]. split; [apply NoDup_nil_2|]. split; [cbn [h_mem h_traces hinitial]; apply fmap_empty|]. split; [done|].
    split; [intros t ht H; cbn [h_traces hinitial] in H; by rewrite lookup_empty in H|]. split; [intros t t' ht ht' a n n' H; cbn [h_traces hinitial] in H; by rewrite lookup_empty in H|].
    split; [intros t ht a n H; cbn [h_traces hinitial] in H; by rewrite lookup_empty in H|]. split; [intros a H; by apply elem_of_nil in H|apply NoDup_nil_2].
  - rewrite own_snoc in Hv. apply Forall_app in Hv as [Hv He]. destruct (IH Hv) as (acc & E & Ha). rewrite hrun_snoc, E, own_snoc. cbn [mbind option_bind].
    destruct e as [extra others e|writes].
    + apply Forall_cons in He as [He _]. destruct (hstep_spec extra others e acc _ Ha He) as (acc' & new & E' & A' & _). exists acc'. split; [exact E'|]. rewrite run_snoc. exact A'.
    + rewrite app_nil_r. destruct (hother_spec writes acc _ Ha) as (acc' & E' & _ & A'). by exists acc'.
Qed.

(* ---------- C97 ---------- *)

Lemma slices_refine evs : Forall valid_event (own_events evs) ->
  exists st log, hrun evs = Some (st, log) /\ map fst log = (run (own_events evs)).2 /\
    ((fun st => (see (h_mem st) <$> h_traces st, h_black st)) <$> st) = ((fun v => (f_traces v, f_black v)) <$> (run (own_events evs)).1).
Proof.
  intros Hv. destruct (runs_agree evs Hv) as ([st log] & E & E1 & _ & Hst). exists st, log. split; [exact E|]. split; [exact E1|]. cbn [fst snd] in Hst.
  destruct st as [st|], ((run (own_events evs)).1) as [v|]; try done. destruct Hst as (X1 & X2 & _). cbn. by rewrite X1, X2.
Qed.

Lemma slices_owned evs st log : Forall valid_event (own_events evs) -> hrun evs = Some (st, log) ->
  NoDup (sent log) /\
  forall st', st = Some st' ->
    (forall t ht a n, h_traces st' !! t = Some ht -> ht_spans ht = Some (a, n) -> a ∉ sent log) /\
    (forall t t' ht ht' a n n', h_traces st' !! t = Some ht -> h_traces st' !! t' = Some ht' -> ht_spans ht = Some (a, n) -> ht_spans ht' = Some (a, n') -> t = t').
Proof.
  intros Hv E. destruct (runs_agree evs Hv) as (acc & E' & _ & Hnd & Hst). rewrite E in E'. injection E' as <-. cbn [fst snd] in *. split; [done|]. intros st' ->.
  destruct ((run (own_events evs)).1) as [v|]; [|done]. destruct Hst as (_ & _ & A1 & A2 & A3 & _). done.
Qed.

Lemma slices_step evs extra others e st log st' log' : Forall valid_event (own_events evs) -> valid_event e ->
  undisturbed (HEvent extra others e) -> hrun evs = Some (Some st, log) -> hrun (evs ++ [HEvent extra others e]) = Some (Some st', log') ->
  (forall a, a ∈ sent log -> h_mem st' !! a = h_mem st !! a) /\
  exists new, log' = log ++ new /\ (forall t out sl, (LOut t (Emitted out), sl) ∈ new -> exists a arr, sl = Some (a, length out) /\ h_mem st' !! a = Some arr /\ take (length out) arr = out) /\
    (forall e a n, (e, Some (a, n)) ∈ new -> exists t out, e = LOut t (Emitted out)).
Proof.
  intros Hv He Hq E E'. destruct (runs_agree evs Hv) as (acc & E1 & Ha). rewrite E in E1. injection E1 as <-.
  destruct (hstep_spec extra others e _ _ Ha He) as (acc' & new & E2 & _ & Hlog & Hf). rewrite hrun_snoc, E in E'. cbn [mbind option_bind] in E'. rewrite E2 in E'. injection E' as ->. cbn [fst snd] in *.
  destruct (Hf Hq) as [F D]. split; [exact F|]. exists new. split; [done|]. rewrite Forall_forall in D. split.
  - intros t out sl Hin. specialize (D _ Hin). cbn [delivered] in D. destruct D as (a & -> & (arr & Ea & Hn) & Hc). exists a, arr. split; [done|]. split; [done|].
    by rewrite (cells_some _ _ _ _ Ea) in Hc.
  - intros x a n Hin. specialize (D _ Hin). destruct x as [| |t o| |]; try done. destruct o as [out| | | | |]; try done. by exists t, out.
Qed.
