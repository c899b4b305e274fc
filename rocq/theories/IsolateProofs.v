(** Proofs for C103. *)
From Verif Require Import Base SpanModel TreeModel TreeSpec FinishModel FinishSpec FinishProofs FinishRun FinishTheorems DecideSpec DecideProofs IsolateSpec.

Lemma about_app t l l' : about t (l ++ l') = about t l ++ about t l'.
Proof. apply omap_app. Qed.
Lemma loads_app l l' : loads (l ++ l') = loads l ++ loads l'.
Proof. apply omap_app. Qed.

(** The state of a trace is in the part of the record about it. *)
Lemma track_about t log : forall acc, foldl (track t) acc log = foldl (track t) acc (about t log).
Proof.
  induction log as [|e log IH]; intros acc; [done|]. change (e :: log) with ([e] ++ log). rewrite about_app, !foldl_app, <- IH. f_equal.
  destruct acc as [b p]. destruct e as [n0 n1 s|n1 n2 l|u o|u|]; try done; unfold about; cbn [omap list_omap foldl track].
  - destruct (decide (s_trace s = t)) as [H|H]; [reflexivity|]. cbn [foldl]. rewrite decide_False; [done|]. by intros (H1 & _).
  - destruct (decide (u = t)) as [->|H]; [cbn [foldl track]; by rewrite decide_True|reflexivity].
  - destruct (decide (u = t)) as [->|H]; [cbn [foldl track]; by rewrite decide_True|reflexivity].
Qed.
Lemma status_about t log log' : about t log = about t log' -> status log t = status log' t.
Proof. intros E. unfold status. by rewrite (track_about t log), (track_about t log'), E. Qed.

Definition ticks (log : list entry) : nat := length (loads log).
Lemma ticks_about t log : length (loads log) = length (loads (about t log)).
Proof.
  induction log as [|e log IH]; [done|]. change (e :: log) with ([e] ++ log). rewrite about_app, !loads_app, !app_length, IH. f_equal.
  destruct e; try done; unfold about; cbn [omap list_omap]; by destruct (decide _).
Qed.

Lemma about_verdict k du ds t id tr : id <> t -> about t (verdict k du ds (id, tr)) = [].
Proof.
  intros Hne. unfold verdict. assert (Ho : forall o, about t [LOut id o] = []) by (intros o; unfold about; cbn [omap list_omap]; by destruct (decide _)).
  destruct (kept du ds tr); [done|]. destruct (too_large tr); [done|]. destruct (_ <? ds); [done|]. destruct (find_roots _ _ _) as [tr' [|r [|? ?]]]; try done.
  by destruct (correct _ _ _ _ _) as [[? ?]|].
Qed.
Lemma about_verdicts k du ds t (l : list (Z * tree)) : t ∉ l.*1 -> about t (concat (map (verdict k du ds) l)) = [].
Proof.
  induction l as [|[id tr] l IH]; intros H; [done|]. cbn [map concat]. rewrite about_app. cbn in H. apply not_elem_of_cons in H as [H1 H2].
  by rewrite about_verdict, IH.
Qed.
Lemma about_own k du ds t tr (l : list (Z * tree)) : NoDup l.*1 -> (t, tr) ∈ l ->
  about t (concat (map (verdict k du ds) l)) = about t (verdict k du ds (t, tr)).
Proof.
  intros Hn Hin. apply elem_of_list_split in Hin as (l1 & l2 & ->). rewrite fmap_app in Hn. cbn in Hn. apply NoDup_app in Hn as (_ & H1 & H2). apply NoDup_cons in H2 as [H2 _].
  rewrite map_app, concat_app. cbn [map concat]. rewrite !about_app, !about_verdicts, app_nil_r; [done|done|]. intros H. by apply (H1 t H), elem_of_list_here.
Qed.
Lemma about_evicts t y : t ∉ y -> about t (map LEvict y) = [].
Proof.
  induction y as [|u y IH]; intros H; [done|]. apply not_elem_of_cons in H as [H1 H2]. unfold about. cbn [map omap list_omap]. rewrite decide_False by congruence. by apply IH.
Qed.

(** One check, seen from [t]. *)
Definition canonical : tick := Tick 0 0 (fun _ => 0) map_to_list (fun _ => map_to_list) elements (fun l => l).
Lemma check_about evs k st0 log0 t : Forall valid_event evs -> valid_tick k -> run evs = (Some st0, log0) ->
  exists st1 log1 load, run (evs ++ [ETick k]) = (Some st1, log0 ++ log1) /\ loads log1 = [load] /\
    (load <= 100000 -> LEvict t ∉ log1 -> about t log1 = LTick (k_now1 k) (k_now2 k) 0 ::
      match tree_at t (pending log0 t) with Some tr => about t (verdict canonical (k_now1 k - patience load) (k_now2 k - 5 * patience load) (t, tr)) | None => [] end).
Proof.
  intros Hv Hk E. destruct (tick_step _ _ _ _ Hv Hk E) as (Hi & Hg & st1 & log1 & EF & ER).
  destruct (finish_traces_spec k st0 log0 Hk Hi Hg) as (st' & log' & load & EF' & Hi' & Hg' & Hld & (x & y & Hlog & Hx) & _).
  rewrite EF in EF'. injection EF' as <- <-. exists st1, log1, load. split; [done|].
  set (du := k_now1 k - patience load) in *. set (ds := k_now2 k - 5 * patience load) in *.
  assert (Hl : loads (concat (map (verdict k du ds) (k_range k 1 (f_traces st0)))) = []).
  { generalize (k_range k 1 (f_traces st0)) as l. induction l as [|p l IH]; [done|]. cbn [map concat]. rewrite loads_app, IH, app_nil_r.
    pose proof (verdict_finished k du ds p) as Hf. induction Hf as [|e es He _ IHe]; [done|]. change (e :: es) with ([e] ++ es). rewrite loads_app, IHe. by destruct e. }
  split.
  { rewrite Hlog. change (LTick ?a ?b ?c :: ?l) with ([LTick a b c] ++ l). rewrite !loads_app, Hl.
    assert (H1 : loads (map (fun p : Z * tree => LOut p.1 Overload) x) = []) by (clear; by induction x). assert (H2 : loads (map LEvict y) = []) by (clear; by induction y). by rewrite H1, H2. }
  intros Hle Hev. rewrite Hlog, (Hx Hle). cbn [map]. rewrite app_nil_l. change (LTick ?a ?b ?c :: ?l) with ([LTick a b c] ++ l). rewrite (about_app t [_]), about_app, (about_evicts t y).
  2: { intros Hy. apply Hev. rewrite Hlog. apply elem_of_list_further, elem_of_app. right. apply elem_of_app. right. by apply elem_of_list_fmap_1. }
  rewrite app_nil_r. change (about t [LTick ?a ?b ?c] ++ ?l) with (LTick a b 0 :: l). f_equal. destruct Hi as [_ Hit]. specialize (Hit t). destruct Hk as (Ho & Hr & _).
  destruct (tree_at t (pending log0 t)) as [tr|].
  - rewrite (about_own k du ds t tr); [|rewrite Hr; apply NoDup_fst_map_to_list|rewrite Hr; by apply elem_of_map_to_list].
    f_equal. apply verdict_ord; [done|apply map_order_list].
  - apply about_verdicts. rewrite Hr. intros H. apply elem_of_list_fmap in H as ([u tr] & -> & H). apply elem_of_map_to_list in H. cbn [fst] in Hit. congruence.
Qed.

(** Two runs that are the same to [t]. *)
Definition comparable (log log' : list entry) : Prop :=
  forall i l l', loads log !! i = Some l -> loads log' !! i = Some l' -> patience l = patience l' /\ l <= 100000 /\ l' <= 100000.

Lemma comparable_sym log log' : comparable log log' -> comparable log' log.
Proof. intros H i l l' Hl Hl'. destruct (H i l' l Hl' Hl) as (A & B & C). done. Qed.
Lemma comparable_prefix log more log' more' : comparable (log ++ more) (log' ++ more') -> comparable log log'.
Proof. intros H i l l' Hl Hl'. apply (H i l l'); rewrite loads_app; by apply lookup_app_l_Some. Qed.

Lemma run_log_prefix evs e : exists more, (run (evs ++ [e])).2 = (run evs).2 ++ more.
Proof. rewrite run_snoc. destruct (step (run evs).1 e) as [st log]. by exists log. Qed.

Lemma alike_sym l l' : Forall2 alike l l' -> Forall2 alike l' l.
Proof. induction 1 as [|e e' l l' He _ IH]; [constructor|]. constructor; [|exact IH]. destruct e, e'; cbn in *; naive_solver. Qed.

Lemma isolated n : forall evs evs' t, (length evs + length evs' <= n)%nat -> Forall valid_event evs -> Forall valid_event evs' ->
  Forall2 alike (List.filter (own t) evs) (List.filter (own t) evs') -> comparable (run evs).2 (run evs').2 -> LEvict t ∉ (run evs).2 -> LEvict t ∉ (run evs').2 ->
  about t (run evs).2 = about t (run evs').2 /\ ((run evs).1 = None <-> (run evs').1 = None).
Proof.
  induction n as [|n IH]; intros evs evs' t Hn Hv Hv' Ha Hc He He'.
  { destruct evs, evs'; cbn in Hn; [done|lia..]. }
  (* an event of another trace at the end of one of them *)
  assert (Hskip : forall evs e evs', (length (evs ++ [e]) + length evs' <= S n)%nat -> own t e = false -> Forall valid_event (evs ++ [e]) -> Forall valid_event evs' ->
    Forall2 alike (List.filter (own t) (evs ++ [e])) (List.filter (own t) evs') -> comparable (run (evs ++ [e])).2 (run evs').2 -> LEvict t ∉ (run (evs ++ [e])).2 -> LEvict t ∉ (run evs').2 ->
    about t (run (evs ++ [e])).2 = about t (run evs').2 /\ ((run (evs ++ [e])).1 = None <-> (run evs').1 = None)).
  { clear - IH. intros evs e evs' Hn Ho Hv Hv' Ha Hc He He'. destruct e as [ord n0 n1 s|k|]; [|done..]. cbn [own] in Ho. apply bool_decide_eq_false in Ho.
    apply Forall_app in Hv as [Hv _]. rewrite List.filter_app in Ha. cbn [List.filter own] in Ha. rewrite bool_decide_eq_false_2, app_nil_r in Ha by done.
    rewrite app_length in Hn. cbn [length] in Hn.
    assert (Hlast : about t (run (evs ++ [ESpan ord n0 n1 s])).2 = about t (run evs).2 /\ ((run (evs ++ [ESpan ord n0 n1 s])).1 = None <-> (run evs).1 = None)).
    { rewrite run_snoc. destruct (run evs) as [[st|] log]; cbn [fst snd step]; [|by rewrite app_nil_r]. split; [|done]. rewrite about_app. unfold about at 2. cbn [omap list_omap]. rewrite decide_False by done. by rewrite app_nil_r. }
    destruct Hlast as [-> ->]. destruct (run_log_prefix evs (ESpan ord n0 n1 s)) as [more Em]. rewrite Em in Hc, He. apply IH; [lia|done..| |by intros H; apply He, elem_of_app; left|done].
    apply (comparable_prefix _ more _ []). by rewrite app_nil_r. }
  destruct evs as [|e evs _] using rev_ind.
  - destruct evs' as [|e' evs' _] using rev_ind; [done|]. destruct (own t e') eqn:Eo.
    + exfalso. rewrite List.filter_app in Ha. cbn [List.filter] in Ha. rewrite Eo in Ha. apply Forall2_length in Ha. rewrite app_length in Ha. cbn in Ha. lia.
    + destruct (Hskip evs' e' [] ltac:(rewrite Nat.add_comm; exact Hn) Eo Hv' Hv (alike_sym _ _ Ha) (comparable_sym _ _ Hc) He' He) as [A B]. by rewrite A, B.
  - destruct (own t e) eqn:Eo; [|by apply Hskip]. destruct evs' as [|e' evs' _] using rev_ind.
    { exfalso. rewrite List.filter_app in Ha. cbn [List.filter] in Ha. rewrite Eo in Ha. apply Forall2_length in Ha. rewrite app_length in Ha. cbn in Ha. lia. }
    destruct (own t e') eqn:Eo'.
    2: { destruct (Hskip evs' e' (evs ++ [e]) ltac:(rewrite Nat.add_comm; exact Hn) Eo' Hv' Hv (alike_sym _ _ Ha) (comparable_sym _ _ Hc) He' He) as [A B]. by rewrite A, B. }
    rewrite !List.filter_app in Ha. cbn [List.filter] in Ha. rewrite Eo, Eo' in Ha. apply Forall2_app_inv in Ha as [Ha Hae].
    2: { apply Forall2_length in Ha. rewrite !app_length in Ha. cbn in Ha. lia. }
    apply Forall2_cons in Hae as [Hae _]. apply Forall_app in Hv as [Hv Hve], Hv' as [Hv' Hve']. rewrite Forall_singleton in Hve, Hve'.
    rewrite !app_length in Hn. cbn [length] in Hn.
    destruct (run_log_prefix evs e) as [m Em], (run_log_prefix evs' e') as [m' Em']. assert (Hc2 := Hc). rewrite Em, Em' in Hc2. apply comparable_prefix in Hc2.
    destruct (IH evs evs' t) as [IA IB]; try done; [lia|by intros H; apply He; rewrite Em; apply elem_of_app; left|by intros H; apply He'; rewrite Em'; apply elem_of_app; left|].
    destruct (run evs) as [st log] eqn:Er, (run evs') as [st' log'] eqn:Er'. cbn [fst snd] in *.
    destruct st as [st|]; [destruct st' as [st'|]; [|by destruct IB as [_ IB]; specialize (IB eq_refl)]|].
    2: { destruct IB as [IB _]. rewrite (IB eq_refl) in Er'. rewrite !run_snoc, Er, Er'. cbn [fst snd step]. rewrite !app_nil_r. done. }
    destruct e as [ord n0 n1 s|k|], e' as [ord' n0' n1' s'|k'|]; try done.
    + destruct Hae as (<- & <- & <-). rewrite !run_snoc, Er, Er'. cbn [fst snd step]. rewrite !about_app, IA. done.
    + destruct Hae as [H1 H2]. destruct (check_about evs k st log t Hv Hve Er) as (st1 & log1 & load & R1 & L1 & A1). destruct (check_about evs' k' st' log' t Hv' Hve' Er') as (st2 & log2 & load' & R2 & L2 & A2).
      rewrite R1 in Hc, He |- *. rewrite R2 in Hc, He' |- *. cbn [fst snd] in *. split; [|done].
      destruct (Hc (length (loads log)) load load') as (P & Q1 & Q2).
      { rewrite loads_app, L1. by apply list_lookup_middle. }
      { rewrite loads_app, L2. apply list_lookup_middle. by rewrite (ticks_about t log), (ticks_about t log'), IA. }
      rewrite !about_app, IA, A1, A2; [|done|by intros H; apply He', elem_of_app; right|done|by intros H; apply He, elem_of_app; right].
      rewrite H1, H2, P. unfold pending. by rewrite (status_about t log log' IA).
    + rewrite !run_snoc, Er, Er'. cbn [fst snd step]. by rewrite !about_app, IA.
Qed.

(* ---------- alone ---------- *)

Definition only (t : Z) (e : entry) : Prop := match e with LSpan _ _ s => s_trace s = t | _ => True end.

Lemma alone_only evs t : Forall valid_event evs -> Forall (fun e => own t e = true) evs -> Forall (only t) (run evs).2.
Proof.
  induction evs as [|e evs IH] using rev_ind; intros Hv Ho; [constructor|]. apply Forall_app in Hv as [Hv Hve], Ho as [Ho Hoe]. rewrite Forall_singleton in Hve, Hoe. specialize (IH Hv Ho).
  destruct (run evs) as [[st|] log] eqn:E.
  2: { rewrite run_snoc, E. cbn [fst snd step]. by rewrite app_nil_r. }
  destruct e as [ord n0 n1 s|k|].
  - rewrite run_snoc, E. cbn [fst snd step]. apply Forall_app. split; [done|]. repeat constructor. cbn. cbn in Hoe. by apply bool_decide_eq_true in Hoe.
  - destruct (tick_step _ _ _ _ Hv Hve E) as (Hi & Hg & st1 & log1 & EF & ER).
    destruct (finish_traces_spec k st log Hve Hi Hg) as (st' & log' & load & EF' & _ & _ & _ & (x & y & Hlog & _) & _). rewrite EF in EF'. injection EF' as <- <-.
    rewrite ER. cbn [snd]. apply Forall_app. split; [done|]. rewrite Hlog. constructor; [done|]. eapply Forall_impl; [apply no_spans_tick|]. by intros [].
  - rewrite run_snoc, E. cbn [fst snd step]. apply Forall_app. split; [done|]. by repeat constructor.
Qed.

Lemma others_untouched log t u : good log -> Forall (only t) log -> u <> t -> status log u = (false, []).
Proof.
  intros Hg Ho Hne. induction log as [|e log IH] using rev_ind; [done|]. apply good_snoc in Hg as [Hg He]. apply Forall_app in Ho as [Ho Hoe]. rewrite Forall_singleton in Hoe. specialize (IH Hg Ho).
  unfold status in *. rewrite foldl_app, IH. cbn [foldl track]. destruct e as [n0 n1 s|n1 n2 l|v o|v|]; try done.
  - rewrite decide_False; [done|]. cbn in Hoe. intros (H & _). congruence.
  - destruct (decide (v = u)) as [->|]; [|done]. destruct He as [He _]. exfalso. apply He. unfold pending, status. by rewrite IH.
  - by destruct (decide (v = u)).
Qed.

Lemma loads_in log i l : loads log !! i = Some l -> exists l1 l2 n1 n2, log = l1 ++ LTick n1 n2 l :: l2.
Proof.
  intros H. apply elem_of_list_lookup_2, elem_of_list_omap in H as (e & He & Hl). destruct e; try done. injection Hl as ->. apply elem_of_list_split in He as (l1 & l2 & ->). eauto.
Qed.

Lemma small_range t a : 0 <= small (counted t a) <= 8192.
Proof.
  unfold small. assert (0 <= counted t a) by (apply Z.mod_pos_bound; lia). destruct (decide _); lia.
Qed.
Lemma sum_nonneg (f : Z -> Z) ts : (forall t, 0 <= f t) -> 0 <= sum f ts.
Proof. intros H. induction ts as [|t ts IH]; [done|]. cbn. specialize (H t). fold (sum f ts). lia. Qed.
Lemma singles (ts : list Z) t : NoDup ts -> (forall u, u ∈ ts -> u = t) -> ts = [] \/ ts = [t].
Proof.
  intros Hn H. destruct ts as [|a [|b ts]]; [by left|right; rewrite (H a); [done|apply elem_of_list_here]|]. exfalso. apply NoDup_cons in Hn as [Hn _]. apply Hn.
  rewrite (H a), (H b); [apply elem_of_list_here|apply elem_of_list_further, elem_of_list_here|apply elem_of_list_here].
Qed.

Lemma alone_load evs t i l : Forall valid_event evs -> Forall (fun e => own t e = true) evs -> loads (run evs).2 !! i = Some l -> 0 <= l <= 8192.
Proof.
  intros Hv Ho Hl. pose proof (alone_only evs t Hv Ho) as Honly. destruct (run_inv evs Hv) as [Hg _]. apply loads_in in Hl as (l1 & l2 & n1 & n2 & El). rewrite El in *.
  destruct (Hg l1 _ l2 eq_refl) as (ts & [Hn Hw] & ->). apply Forall_app in Honly as [H1 _].
  destruct (singles ts t Hn) as [->| ->].
  - intros u Hu. apply Hw in Hu. destruct (decide (u = t)); [done|]. exfalso. apply Hu. unfold pending. by rewrite (others_untouched l1 t u (good_prefix _ _ Hg) H1).
  - cbn. lia.
  - cbn. pose proof (small_range t (pending l1 t)). lia.
Qed.
Lemma alone_not_evicted evs t u : Forall valid_event evs -> Forall (fun e => own t e = true) evs -> LEvict u ∉ (run evs).2.
Proof.
  intros Hv Ho Hin. pose proof (alone_only evs t Hv Ho) as Honly. destruct (run_inv evs Hv) as [Hg _]. apply elem_of_list_split in Hin as (l1 & l2 & El). rewrite El in *.
  destruct (Hg l1 _ l2 eq_refl) as (_ & ts & Hn & Hw & Hlen). apply Forall_app in Honly as [H1 _].
  destruct (singles ts t Hn) as [->| ->]; [|cbn in Hlen; lia..]. intros v Hv'. apply Hw in Hv'. destruct (decide (v = t)); [done|]. exfalso. unfold blacklisted in Hv'.
  by rewrite (others_untouched l1 t v (good_prefix _ _ Hg) H1) in Hv'.
Qed.

Lemma load_nonneg evs i l : Forall valid_event evs -> loads (run evs).2 !! i = Some l -> 0 <= l.
Proof.
  intros Hv Hl. destruct (run_inv evs Hv) as [Hg _]. apply loads_in in Hl as (l1 & l2 & n1 & n2 & El). rewrite El in *.
  destruct (Hg l1 _ l2 eq_refl) as (ts & _ & ->). apply sum_nonneg. intros t. apply small_range.
Qed.

Lemma filter_own_idem t evs : List.filter (own t) (List.filter (own t) evs) = List.filter (own t) evs.
Proof. induction evs as [|e evs IH]; [done|]. cbn [List.filter]. destruct (own t e) eqn:E; [|done]. cbn [List.filter]. by rewrite E, IH. Qed.
Lemma filter_own_all t evs : Forall (fun e => own t e = true) (List.filter (own t) evs).
Proof. apply Forall_forall. intros e He. by apply elem_of_list_In, filter_In in He as [_ He]. Qed.
Lemma filter_own_valid t evs : Forall valid_event evs -> Forall valid_event (List.filter (own t) evs).
Proof. rewrite !Forall_forall. intros H e He. apply elem_of_list_In, filter_In in He as [He _]. apply H. by apply elem_of_list_In. Qed.

Lemma isolated_pair evs evs' t : Forall valid_event evs -> Forall valid_event evs' -> Forall2 alike (List.filter (own t) evs) (List.filter (own t) evs') ->
  (forall i l l', loads (run evs).2 !! i = Some l -> loads (run evs').2 !! i = Some l' -> patience l = patience l' /\ l <= 100000 /\ l' <= 100000) ->
  LEvict t ∉ (run evs).2 -> LEvict t ∉ (run evs').2 -> about t (run evs).2 = about t (run evs').2.
Proof. intros Hv Hv' Ha Hc He He'. by destruct (isolated (length evs + length evs') evs evs' t) as [H _]. Qed.

Lemma alone evs t : Forall valid_event evs -> Forall (fun l => l < 40000) (loads (run evs).2) -> LEvict t ∉ (run evs).2 ->
  about t (run evs).2 = about t (run (List.filter (own t) evs)).2.
Proof.
  intros Hv Hl He. pose proof (filter_own_valid t evs Hv) as Hv'. pose proof (filter_own_all t evs) as Ho. apply isolated_pair; try done.
  - rewrite filter_own_idem. clear. induction (List.filter (own t) evs) as [|e l IH]; [constructor|]. constructor; [|exact IH]. by destruct e.
  - intros i l l' E E'. pose proof (load_nonneg _ _ _ Hv E). pose proof (alone_load _ _ _ _ Hv' Ho E'). rewrite Forall_forall in Hl. assert (l < 40000) by (apply Hl; by eapply elem_of_list_lookup_2).
    unfold patience. rewrite !(decide_False (P := _ < 0)) by lia. rewrite !decide_True by lia. lia.
  - by apply (alone_not_evicted _ t).
Qed.

(* ---------- by what was heard ---------- *)

Definition logged (e : event) (x : entry) : Prop :=
  match e, x with
  | ESpan _ n0 n1 s, LSpan n0' n1' s' => n0 = n0' /\ n1 = n1' /\ s = s'
  | ETick k, LTick n1 n2 _ => k_now1 k = n1 /\ k_now2 k = n2
  | EClose, LClose => True
  | _, _ => False
  end.

Lemma heard_app t l l' : heard t (l ++ l') = heard t l ++ heard t l'.
Proof. unfold heard. by rewrite about_app, List.filter_app. Qed.

Lemma heard_finished t l : Forall (fun e => match e with LOut _ _ | LEvict _ => True | _ => False end) l -> heard t l = [].
Proof.
  induction 1 as [|e l He _ IH]; [done|]. change (e :: l) with ([e] ++ l). rewrite heard_app, IH. destruct e; try done; unfold heard, about; cbn [omap list_omap]; by destruct (decide _).
Qed.

Lemma run_heard evs st log t : Forall valid_event evs -> run evs = (Some st, log) -> Forall2 logged (List.filter (own t) evs) (heard t log).
Proof.
  revert st log. induction evs as [|e evs IH] using rev_ind; intros st log Hv E; [injection E as <- <-; constructor|]. apply Forall_app in Hv as [Hv Hve]. rewrite Forall_singleton in Hve.
  rewrite List.filter_app. destruct (run evs) as [[st0|] log0] eqn:E0.
  2: { rewrite run_snoc, E0 in E. done. }
  specialize (IH st0 log0 Hv eq_refl). destruct e as [ord n0 n1 s|k|].
  - rewrite run_snoc, E0 in E. cbn [fst snd step] in E. injection E as _ <-. rewrite heard_app. cbn [List.filter own]. unfold heard at 2, about. cbn [omap list_omap].
    apply Forall2_app; [done|]. destruct (decide (s_trace s = t)) as [H|H]; [rewrite bool_decide_true by done|rewrite bool_decide_false by done]; cbn [List.filter]; by repeat constructor.
  - destruct (tick_step _ _ _ _ Hv Hve E0) as (Hi & Hg & st1 & log1 & EF & ER).
    destruct (finish_traces_spec k st0 log0 Hve Hi Hg) as (st' & log' & load & EF' & _ & _ & _ & (x & y & Hlog & _) & _). rewrite EF in EF'. injection EF' as <- <-.
    rewrite ER in E. injection E as _ <-. rewrite heard_app. apply Forall2_app; [done|]. cbn [List.filter own]. rewrite Hlog. change (LTick ?a ?b ?c :: ?l) with ([LTick a b c] ++ l). rewrite heard_app.
    rewrite (heard_finished t (_ ++ _)); [rewrite app_nil_r; by repeat constructor|].
    rewrite !Forall_app. split; [|split; apply Forall_forall; intros e He; apply elem_of_list_fmap in He as (z & -> & _); done].
    generalize (k_range k 1 (f_traces st0)) as l. induction l as [|p l IHl]; [constructor|]. cbn [map concat]. apply Forall_app. split; [|done].
    eapply Forall_impl; [apply verdict_finished|]. by intros [].
  - rewrite run_snoc, E0 in E. done.
Qed.

Lemma logged_alike l l' h : Forall2 logged l h -> Forall2 logged l' h -> Forall2 alike l l'.
Proof.
  intros H. revert l'. induction H as [|e x l h He _ IH]; intros l' H'; [apply Forall2_nil_inv_r in H' as ->; constructor|]. apply Forall2_cons_inv_r in H' as (e' & l'' & He' & H' & ->). constructor; [|by apply IH].
  destruct e, e', x; cbn in *; naive_solver.
Qed.

Lemma isolated_heard evs evs' st st' log log' t : Forall valid_event evs -> Forall valid_event evs' -> run evs = (Some st, log) -> run evs' = (Some st', log') ->
  heard t log = heard t log' ->
  (forall i l l', loads log !! i = Some l -> loads log' !! i = Some l' -> patience l = patience l' /\ l <= 100000 /\ l' <= 100000) ->
  LEvict t ∉ log -> LEvict t ∉ log' -> about t log = about t log'.
Proof.
  intros Hv Hv' E E' Hh Hc He He'. pose proof (run_heard _ _ _ t Hv E) as H. pose proof (run_heard _ _ _ t Hv' E') as H'. rewrite <- Hh in H'.
  pose proof (isolated_pair evs evs' t Hv Hv' (logged_alike _ _ _ H H')) as Hi. rewrite E, E' in Hi. cbn [snd] in Hi. by apply Hi.
Qed.
