(** Proofs for C117. *)
From Coq Require Import Sorted.
From Verif Require Import Base IdModel SpanModel TreeModel TreeSpec TreeProofs CorrectProofs RootProofs FinishModel FinishSpec FinishProofs FinishRun FinishTheorems
  ForwardModel ForwardSpec PipelineModel PipelineSpec SystemModel SystemSpec SystemProofs SystemTheorems ConnectSpec ConnectProofs WholeSpec WholeProofs
  OrderSpec OrderProofs OrderRun DatadogModel UnseenSpec UnseenProofs ClockSpec ClockProofs HostsSpec.

(** Reports in another order. *)
Section Level.
  Context (t : Z) (a b : list addition) (out out' : list span) (r : span).
  Context (Ho : orderly (reports a)) (Hs : same_reports (reports a) (reports b)) (H0 : 0 ∉ ids (reports a)).
  Context (Ht : Forall (fun s => s_trace s = t) (merged_spans t a)).
  Context (He : emission t (merged_spans t a) out) (He' : emission t (merged_spans t b) out') (Hr : one_root out r).
  Context (Hc : forall x, x ∈ out -> connected out r x).

  Lemma level_all : (forall x, x ∈ out -> x ∈ out') -> out' ≡ₚ out.
  Proof.
    intros Hsub. destruct (emission_ids _ _ _ He (merged_NoDup _ _) Ht) as (_ & Hno & _).
    pose proof (emission_length t _ _ _ _ (merged_NoDup t a) (same_trace t _ _ Ho Hs) He He') as Hl. symmetry.
    apply submseteq_Permutation_length_le; [lia|]. apply NoDup_submseteq; [|done]. unfold ids in Hno. by apply NoDup_fmap_1 in Hno.
  Qed.
  Lemma level_own : s_id r ∈ ids (reports a) -> out' ≡ₚ out.
  Proof.
    intros Hin. apply level_all. intros x Hx.
    apply (own_root_same t _ _ _ _ r x (merged_NoDup t a) (same_trace t _ _ Ho Hs) He He' Hr); [by apply merged_report_ids|done|by apply Hc].
  Qed.
  Lemma level_any : settled (reports a) -> out' ≡ₚ out.
  Proof.
    intros Hall. apply level_all. intros x Hx.
    assert (Halone : forall c, alone (reports a) c <-> alone (reports b) c).
    { intros c. unfold alone. split; intros H y Hy; apply H; by apply Hs. }
    assert (Hids : forall i, i ∈ ids (reports b) -> i ∈ ids (reports a)).
    { intros i Hi. unfold ids in *. apply elem_of_list_fmap in Hi as (z & -> & Hz). apply elem_of_list_fmap_1. by apply Hs. }
    apply (any_root_same t _ _ out out' r x (merged_NoDup t a) (same_trace t _ _ Ho Hs)); [| |done|done|done|done|by apply Hc].
    - intros c Hcand. destruct (candidate_alone t a c Ho H0 Hall Hcand) as [H1 H2]. apply alone_held; [by apply Hs|by apply Halone].
    - intros c Hcand. destruct (candidate_alone t b c) as [H1 H2].
      + intros u v Hu Hv. apply Ho; by apply Hs.
      + intros H. by apply H0, Hids.
      + apply Forall_forall. intros u Hu. unfold settled in Hall. rewrite Forall_forall in Hall. destruct (Hall u) as [H|(y & Hy & Ey & Hp & Hne)]; [by apply Hs|left; by apply Halone|right].
        exists y. split; [by apply Hs|]. split; [done|]. split; [|done]. unfold ids in *. apply elem_of_list_fmap in Hp as (z & -> & Hz). apply elem_of_list_fmap_1. by apply Hs.
      + done.
      + apply alone_held; [by apply Hs|by apply Halone].
  Qed.
End Level.

Lemma alike_ids l m : Forall2 alike l m -> Forall2 same_ids l m.
Proof. intros H. eapply Forall2_impl; [exact H|]. intros x y ->. by split. Qed.

(** All of what is alike descends from the root. *)
Lemma alike_connected out m r : NoDup (ids out) -> Forall2 alike out m -> one_root out r -> (forall x, x ∈ out -> ~ circular out x) ->
  exists r', s_id r' = s_id r /\ one_root m r' /\ forall y, y ∈ m -> connected m r' y.
Proof.
  intros Hn HA Hr Hc. pose proof (alike_ids _ _ HA) as HI. destruct (one_root_transfer out m r Hn HI Hr) as (r' & Hrr & Hr').
  exists r'. split; [by destruct Hrr|]. split; [done|]. intros y Hy. pose proof Hy as Hy0. apply elem_of_list_lookup in Hy as [i Hi].
  destruct (Forall2_lookup_r _ _ _ _ _ HI Hi) as (x & Hx & Ex & _). assert (Hxin : x ∈ out) by (by eapply elem_of_list_lookup_2).
  destruct (not_circular_connected out r x Hr Hxin (Hc x Hxin)) as (q & Hq & Eq).
  destruct (descends_transfer _ _ _ _ _ HI Hq Hrr) as (q' & Hq' & Elast & _). exists q'. split; [done|].
  assert (Hnm : NoDup (ids m)) by (by rewrite (same_ids_ids _ _ HI)).
  apply (same_by_id m); [done|apply RootProofs.descends_in; [by destruct Hr' as [[? _] _]|done]|done|]. by rewrite Elast, Eq, Ex.
Qed.

Lemma one_root_perm l m r : l ≡ₚ m -> one_root l r -> one_root m r.
Proof.
  intros Hp [[Hin Hr] Hu]. assert (Hi : ids l ≡ₚ ids m) by (by apply Permutation_map).
  split; [split; [by rewrite <- Hp|by rewrite <- Hi]|]. intros y [Hy Hyr]. apply Hu. split; [by rewrite Hp|by rewrite Hi].
Qed.

(** Additions with other spans. *)
Definition readd (l : list span) : list addition := map (fun s => (0, 0, s)) l.
Lemma readd_reports l : reports (readd l) = l.
Proof. unfold reports, readd. rewrite map_map. cbn. apply map_id. Qed.

Section Two.
  Context {S S' : Type} (cfg cfg' : sysconfig) (conv : converter S) (conv' : converter S') (s0 : S) (s0' : S').
  Context (evs evs' : list yevent) (st : ystate S) (st' : ystate S') (t p p' : Z) (outer inner : Z -> Z).
  Context (Hr : yreachable cfg conv s0 evs st) (Hr' : yreachable cfg' conv' s0' evs' st') (Ht : t <> 0).
  Context (Hu : undisturbed t p st) (Hu' : undisturbed t p' st').
  Context (out : list span) (r : span) (He : LOut t (Emitted out) ∈ y_log st).
  Context (Hone : one_root out r) (Hb : by_host outer inner out r).

  Lemma hosts_fate o' : retold outer inner (told t st) (told t st') -> s_id r ∈ ids (told t st) ->
    LOut t o' ∈ y_log st' -> match o' with Emitted _ | TooOld => True | _ => False end.
  Proof.
    intros (mid & HF & Ho & Hs) Hown Hin. destruct (one_record t Ht _ _ _ _ _ _ _ Hr Hu He) as (f & l1 & l2 & Hv & E & _ & _ & _ & Hp & _).
    destruct (one_record t Ht _ _ _ _ _ _ _ Hr' Hu' Hin) as (f' & l1' & l2' & Hv' & E' & _ & _ & _ & Hp' & Hm).
    destruct o'; try done. destruct (emitted_is _ _ _ _ _ Hv E) as [_ Hem].
    pose proof (run_entry _ _ _ _ Hv' E') as (_ & n1 & n2 & load & _ & Hno & _). pose proof (run_prefix _ _ _ Hv' E') as Hg.
    destruct (merged_ok l1' t Hg) as [Ht' Hok]. apply Hno.
    assert (Hmid : Forall (fun a => int64_ok (s_ts a.2)) (readd mid)).
    { unfold readd. rewrite Forall_map. apply Forall_forall. intros s Hsin. cbn. apply Hs in Hsin. rewrite <- Hp' in Hsin. apply elem_of_list_fmap in Hsin as (a & -> & Ha).
      pose proof (pending_ok l1' t Hg) as H. rewrite Forall_forall in H. by destruct (H a Ha). }
    apply (emission_exists t (readd mid)); [by rewrite readd_reports|by rewrite readd_reports, Hp'|done|done|].
    apply (reclocked_exists outer inner t (merged_spans t (pending l1 t)) (merged_spans t (readd mid)) out r); [apply R_merged; by rewrite Hp, readd_reports|apply merged_NoDup|done|done| |done|].
    - apply merged_report_ids. by rewrite Hp.
    - apply merged_forall; [done|]. intros s new Hsn _. by destruct (updated_keeps s new) as [_ ->].
  Qed.

  Context (out' : list span) (He' : LOut t (Emitted out') ∈ y_log st') (Hcirc : forall x, x ∈ out -> ~ circular out x).

  Lemma hosts_same :
    retold outer inner (told t st) (told t st') /\ s_id r ∈ ids (told t st) \/
    retold_settled outer inner (told t st) (told t st') /\ s_id r ∉ ids (told t st) /\ (forall c, child out r c -> inner (s_id c) = 0) ->
    exists out2, out2 ≡ₚ out' /\ Forall2 alike out out2.
  Proof.
    intros Hcase.
    assert (exists mid, Forall2 (reclocked outer inner) (told t st) mid /\ orderly mid /\ same_reports mid (told t st') /\
      (s_id r ∈ ids (told t st) \/ settled mid /\ s_id r ∉ ids (told t st) /\ forall c, child out r c -> inner (s_id c) = 0)) as (mid & HF & Ho & Hs & Hcase').
    { destruct Hcase as [[(mid & ? & ? & ?) ?]|[(mid & ? & ? & ? & ?) [? ?]]]; exists mid; (split; [done|split; [done|split; [done|]]]); [by left|by right]. }
    clear Hcase. destruct (one_record t Ht _ _ _ _ _ _ _ Hr Hu He) as (f & l1 & l2 & Hv & E & _ & _ & _ & Hp & _).
    destruct (one_record t Ht _ _ _ _ _ _ _ Hr' Hu' He') as (f' & l1' & l2' & Hv' & E' & _ & _ & _ & Hp' & _).
    destruct (emitted_is _ _ _ _ _ Hv E) as [_ Hem]. destruct (emitted_is _ _ _ _ _ Hv' E') as [_ Hem']. destruct (emitted_trace _ _ _ _ _ Hv E) as (_ & Hno & _).
    pose proof (run_prefix _ _ _ Hv' E') as Hg. pose proof (pending_ok l1' t Hg) as Hpo.
    assert (Hmid : Forall (fun a => s_trace a.2 = t /\ int64_ok (s_ts a.2)) (readd mid)).
    { unfold readd. rewrite Forall_map. apply Forall_forall. intros s Hsin. cbn. apply Hs in Hsin. rewrite <- Hp' in Hsin. apply elem_of_list_fmap in Hsin as (a & -> & Ha).
      rewrite Forall_forall in Hpo. by destruct (Hpo a Ha). }
    assert (Ht2 : Forall (fun s => s_trace s = t) (merged_spans t (readd mid))).
    { apply merged_forall; [eapply Forall_impl; [exact Hmid|]; by intros a [? _]|]. intros s new Hsn _. by destruct (updated_keeps s new) as [-> _]. }
    assert (Hok2 : Forall (fun s => int64_ok (s_ts s)) (merged_spans t (readd mid))).
    { apply merged_forall; [eapply Forall_impl; [exact Hmid|]; by intros a [_ ?]|]. intros s new Hsn _. by destruct (updated_keeps s new) as [_ ->]. }
    assert (Ho2 : orderly (reports (readd mid))) by (by rewrite readd_reports).
    assert (Hs2 : same_reports (reports (readd mid)) (reports (pending l1' t))) by (by rewrite readd_reports, Hp').
    destruct (emission_exists t (pending l1' t) (readd mid)) as (out2 & Hem2); [|intros s; symmetry; apply Hs2|done|done|by exists out'|].
    { intros u v Hu1 Hv1. apply Ho2; by apply Hs2. }
    assert (HR : Forall2 (reclocked outer inner) (merged_spans t (pending l1 t)) (merged_spans t (readd mid))) by (apply R_merged; by rewrite Hp, readd_reports).
    assert (Hown : forall i, i ∈ ids (merged_spans t (pending l1 t)) <-> i ∈ ids (told t st)) by (intros i; by rewrite merged_report_ids, Hp).
    assert (Hal : exists m, m ≡ₚ out2 /\ Forall2 alike out m).
    { destruct Hcase' as [Hin|(_ & Hin & Htop)].
      - exists out2. split; [done|]. apply (reclocked_same outer inner t (merged_spans t (pending l1 t)) (merged_spans t (readd mid)) out r); [done|apply merged_NoDup|done|done|by apply Hown|done|done|done].
      - apply (injected_same outer inner t (merged_spans t (pending l1 t)) (merged_spans t (readd mid)) out out2 r); [done|apply merged_NoDup|done|done|done|by rewrite Hown|done|done|done]. }
    destruct Hal as (m & Hm & HA). exists m. split; [|done]. destruct (alike_connected out m r Hno HA Hone Hcirc) as (r2 & Er & Hr2 & Hc2).
    assert (Hr2' : one_root out2 r2) by (by apply (one_root_perm m)).
    assert (Hc2' : forall x, x ∈ out2 -> connected out2 r2 x).
    { intros x Hx. rewrite <- Hm in Hx. destruct (Hc2 x Hx) as (q & Hq & Eq). exists q. split; [|done]. by apply (descends_perm m). }
    assert (H0 : 0 ∉ ids (reports (readd mid))).
    { intros H. apply (pending_id_nonzero l1' t). unfold ids in *. apply elem_of_list_fmap in H as (z & -> & Hz). apply elem_of_list_fmap_1. by apply Hs2. }
    rewrite Hm. symmetry. destruct Hcase' as [Hin|(Hset & _)].
    - apply (level_own t (readd mid) (pending l1' t) out2 out' r2); try done. rewrite readd_reports, Er. unfold ids in Hin |- *. by rewrite (R_all_ids outer inner _ _ HF).
    - apply (level_any t (readd mid) (pending l1' t) out2 out' r2); try done. by rewrite readd_reports.
  Qed.
  Lemma hosts_own : retold outer inner (told t st) (told t st') -> s_id r ∈ ids (told t st) -> exists out2, out2 ≡ₚ out' /\ Forall2 alike out out2.
  Proof. intros H1 H2. apply hosts_same. by left. Qed.
  Lemma hosts_injected : retold_settled outer inner (told t st) (told t st') -> s_id r ∉ ids (told t st) -> (forall c, child out r c -> inner (s_id c) = 0) ->
    exists out2, out2 ≡ₚ out' /\ Forall2 alike out out2.
  Proof. intros H1 H2 H3. apply hosts_same. by right. Qed.
End Two.

Lemma alike_kept g out out' : overlooks g -> Forall2 alike out out' -> Forall2 alike (kept g out) (kept g out').
Proof.
  intros Hg. unfold kept. induction 1 as [|x y l l' H _ IH]; [constructor|]. cbn [omap list_omap]. destruct (Hg x y H) as [E2 E1].
  assert (Hi : s_id (g y).1 = s_id (g x).1 /\ s_trace (g y).1 = s_trace (g x).1) by (rewrite E1; by split). destruct Hi as [Hi Hj].
  rewrite E2, Hi, Hj. destruct (decide _); [|done]. by constructor.
Qed.

Lemma hosts_targets {S S' : Type} cfg cfg' (conv : converter S) (conv' : converter S') s0 s0' evs evs' st st' t p p' outer inner g out out' root r r' :
  yreachable cfg conv s0 evs st -> yreachable cfg' conv' s0' evs' st' -> t <> 0 -> undisturbed t p st -> undisturbed t p' st' ->
  LOut t (Emitted out) ∈ y_log st -> LOut t (Emitted out') ∈ y_log st' -> one_root out root -> by_host outer inner out root ->
  retold outer inner (told t st) (told t st') -> s_id root ∈ ids (told t st) -> (forall x, x ∈ out -> ~ circular out x) ->
  positive_caps cfg -> positive_caps cfg' -> ystopped cfg conv st -> ystopped cfg' conv' st' -> works_as conv g -> works_as conv' g -> overlooks g ->
  r ∈ p_readers (y_pipe st) -> r' ∈ p_readers (y_pipe st') ->
  kept g out ∈ rd_log r /\ kept g out' ∈ rd_log r' /\ map dd_convert (kept g out') ≡ₚ map dd_convert (kept g out).
Proof.
  intros Hr Hr' Ht Hu Hu' He He' Hone Hb Hre Hown Hcirc Hp Hp' Hst Hst' Hg Hg' Hov Hrd Hrd'.
  split; [by apply (got_it cfg conv s0 evs st t)|]. split; [by apply (got_it cfg' conv' s0' evs' st' t)|].
  destruct (hosts_same cfg cfg' conv conv' s0 s0' evs evs' st st' t p p' outer inner Hr Hr' Ht Hu Hu' out root He Hone Hb out' He' Hcirc) as (m & Hm & HA); [by left|].
  rewrite <- (alike_datadog _ _ (alike_kept g _ _ Hov HA)). apply Permutation_map. unfold kept. apply omap_Permutation. by symmetry.
Qed.
