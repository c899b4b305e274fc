(** Proofs for C115. *)
From Verif Require Import Base SpanModel TreeModel TreeSpec FinishModel FinishSpec ForwardModel ForwardSpec PipelineModel PipelineSpec SystemModel SystemSpec SystemProofs SystemTheorems
  ConnectSpec WholeSpec WholeProofs OrderSpec OrderRun UnseenSpec.

Lemma additions_received t log : reports (additions t log) = filter (fun s => s_trace s = t /\ s_id s <> 0) (SystemSpec.received log).
Proof.
  unfold reports, additions, SystemSpec.received. induction log as [|e log IH]; [done|].
  destruct e as [n0 n1 s| | | |]; cbn [omap list_omap map concat app]; try exact IH.
  rewrite filter_cons. destruct (decide (s_trace s = t /\ s_id s <> 0)); cbn [map snd]; [by f_equal|exact IH].
Qed.

Lemma told_reports {S} cfg (conv : converter S) s0 evs st t : yreachable cfg conv s0 evs st -> y_input st = [] ->
  reports (additions t (y_log st)) = told t st.
Proof.
  intros Hr Hi. destruct (system_ingest _ _ _ _ _ Hr) as (_ & _ & _ & E & _). unfold told.
  rewrite E, Hi, app_nil_r. apply additions_received.
Qed.

Section Two.
  Context {S S' : Type} (cfg cfg' : sysconfig) (conv : converter S) (conv' : converter S') (s0 : S) (s0' : S').
  Context (evs evs' : list yevent) (st : ystate S) (st' : ystate S') (t p p' : Z).
  Context (Hr : yreachable cfg conv s0 evs st) (Hr' : yreachable cfg' conv' s0' evs' st') (Ht : t <> 0).
  Context (Hu : undisturbed t p st) (Hu' : undisturbed t p' st').
  Context (Ho : orderly (told t st)) (Hs : same_reports (told t st) (told t st')).
  Context (out : list span) (He : LOut t (Emitted out) ∈ y_log st).

  Lemma one_record {T} cfg1 (conv1 : converter T) s1 evs1 st1 p1 o : yreachable cfg1 conv1 s1 evs1 st1 -> undisturbed t p1 st1 -> LOut t o ∈ y_log st1 ->
    exists fevs l1 l2, Forall valid_event fevs /\ (run fevs).2 = l1 ++ LOut t o :: l2 /\ y_log st1 = l1 ++ LOut t o :: l2 /\
      (forall o', LOut t o' ∉ l1) /\ (forall o', LOut t o' ∉ l2) /\ reports (pending l1 t) = told t st1 /\
      match o with Emitted _ | NoRoot | TooOld => True | _ => False end.
  Proof.
    intros Hr1 (Hi & Hst & Hb & Hc & Hn) Hin. destruct (system_record _ _ _ _ _ Hr1) as (fevs & Hv & E).
    assert (El : (run fevs).2 = y_log st1) by (by rewrite E).
    apply elem_of_list_split in Hin as (l1 & l2 & Hin).
    assert (E2 : (run fevs).2 = l1 ++ LOut t o :: l2) by (by rewrite El).
    rewrite <- El in Hst, Hb, Hc, Hn.
    destruct (not_split fevs t p1 Hv Ht Hst Hb Hc Hn l1 o l2 E2) as (H1 & H2 & _ & Hp & Hm).
    exists fevs, l1, l2. repeat split; [done..| |].
    - rewrite Hp, El. by apply (told_reports _ _ _ _ _ _ Hr1).
    - by destruct o.
  Qed.

  Lemma unseen_fate o' : LOut t o' ∈ y_log st' -> match o' with Emitted _ | TooOld => True | _ => False end.
  Proof.
    intros Hin. destruct (one_record _ _ _ _ _ _ _ Hr Hu He) as (f & l1 & l2 & Hv & E & _ & _ & _ & Hp & _).
    destruct (one_record _ _ _ _ _ _ _ Hr' Hu' Hin) as (f' & l1' & l2' & Hv' & E' & _ & _ & _ & Hp' & Hm).
    destruct o'; try done.
    apply (order_fate f f' l1 l2 l1' l2' t out Hv Hv' E); [by rewrite Hp|by rewrite Hp, Hp'|done].
  Qed.

  Lemma unseen_once out' : LOut t (Emitted out') ∈ y_log st -> out' = out.
  Proof.
    intros Hin. destruct (one_record _ _ _ _ _ _ _ Hr Hu He) as (f & l1 & l2 & _ & _ & E & H1 & H2 & _).
    rewrite E in Hin. apply elem_of_app in Hin as [Hin|Hin]; [by apply H1 in Hin|].
    apply elem_of_cons in Hin as [Hin|Hin]; [by inversion Hin|by apply H2 in Hin].
  Qed.

  Context (out' : list span) (He' : LOut t (Emitted out') ∈ y_log st').

  Lemma unseen_content : length out' = length out /\ forall x, x ∈ out -> exists start dur, retimed x start dur ∈ out'.
  Proof.
    destruct (one_record _ _ _ _ _ _ _ Hr Hu He) as (f & l1 & l2 & Hv & E & _ & _ & _ & Hp & _).
    destruct (one_record _ _ _ _ _ _ _ Hr' Hu' He') as (f' & l1' & l2' & Hv' & E' & _ & _ & _ & Hp' & _).
    apply (order_content f f' l1 l2 l1' l2' t out Hv Hv' E); [by rewrite Hp|by rewrite Hp, Hp'|done].
  Qed.

  Lemma unseen_same :
    (exists r, one_root out r /\ s_id r ∈ ids (told t st)) \/ Forall (fun x => alone (told t st) x \/ attached (told t st) x) (told t st) ->
    (forall x, x ∈ out -> ~ circular out x) -> out' ≡ₚ out.
  Proof.
    destruct (one_record _ _ _ _ _ _ _ Hr Hu He) as (f & l1 & l2 & Hv & E & _ & _ & _ & Hp & _).
    destruct (one_record _ _ _ _ _ _ _ Hr' Hu' He') as (f' & l1' & l2' & Hv' & E' & _ & _ & _ & Hp' & _).
    intros Hroot Hcirc. apply (order_whole f f' l1 l2 l1' l2' t out Hv Hv' E); [by rewrite Hp|by rewrite Hp, Hp'|done|by rewrite Hp|done].
  Qed.
End Two.

Lemma works_converts {S} (conv : converter S) g s l s' l' : works_as conv g -> converts conv s l s' l' -> l' = kept g l.
Proof.
  intros Hg. unfold kept. induction 1 as [s|s x l s1 c s2 l' E Hi Ht _ IH|s x l s1 c err s2 l' E Hd _ IH]; [done|..];
    specialize (Hg s x); rewrite E in Hg; cbn [snd] in Hg; cbn [omap list_omap]; rewrite <- Hg; cbn [fst snd].
  - rewrite decide_True by done. by f_equal.
  - rewrite decide_False; [done|]. intros (-> & H1 & H2). by destruct Hd as [Hd|[Hd|Hd]].
Qed.
Lemma works_converts_all {S} (conv : converter S) g s l s' l' : works_as conv g -> converts_all conv s l s' l' -> l' = map (kept g) l.
Proof.
  intros Hg. induction 1 as [s|s x l s1 y s2 l' E _ IH]; cbn [map]; [done|]. by rewrite IH, (works_converts conv g _ _ _ _ Hg E).
Qed.

Lemma got_it {S} cfg (conv : converter S) s0 evs st t out g r : positive_caps cfg -> yreachable cfg conv s0 evs st -> ystopped cfg conv st -> works_as conv g ->
  LOut t (Emitted out) ∈ y_log st -> r ∈ p_readers (y_pipe st) -> kept g out ∈ rd_log r.
Proof.
  intros Hp Hr Hst Hg Hin Hrd. destruct (system_progress _ _ _ _ _ Hp Hr) as [(e & st1 & Hi & _ & E)|(_ & _ & _ & s1 & ts & Hc & Hl)].
  - by rewrite (Hst e Hi) in E.
  - apply (elem_of_list_fmap_1 rd_log) in Hrd. change (fmap rd_log) with (map rd_log) in Hrd. rewrite Hl in Hrd. apply elem_of_replicate in Hrd as [-> _].
    rewrite (works_converts_all _ _ _ _ _ _ Hg Hc). apply (elem_of_list_fmap_1 (kept g)). clear -Hin. unfold emitted.
    induction (y_log st) as [|e l IH]; [by apply elem_of_nil in Hin|]. cbn [map concat]. apply elem_of_app.
    apply elem_of_cons in Hin as [<-|Hin]; [left; apply elem_of_list_here|]. right. by apply IH.
Qed.

(** Targets: the trace they read in the one execution and in the other. *)
Lemma unseen_targets {S S' : Type} cfg cfg' (conv : converter S) (conv' : converter S') s0 s0' evs evs' st st' t p p' g out out' r r' :
  yreachable cfg conv s0 evs st -> yreachable cfg' conv' s0' evs' st' -> t <> 0 -> undisturbed t p st -> undisturbed t p' st' ->
  orderly (told t st) -> same_reports (told t st) (told t st') -> LOut t (Emitted out) ∈ y_log st -> LOut t (Emitted out') ∈ y_log st' ->
  (exists r, one_root out r /\ s_id r ∈ ids (told t st)) \/ Forall (fun x => alone (told t st) x \/ attached (told t st) x) (told t st) ->
  (forall x, x ∈ out -> ~ circular out x) ->
  positive_caps cfg -> positive_caps cfg' -> ystopped cfg conv st -> ystopped cfg' conv' st' -> works_as conv g -> works_as conv' g ->
  r ∈ p_readers (y_pipe st) -> r' ∈ p_readers (y_pipe st') ->
  kept g out ∈ rd_log r /\ kept g out' ∈ rd_log r' /\ kept g out' ≡ₚ kept g out.
Proof.
  intros Hr Hr' Ht Hu Hu' Ho Hs He He' Hroot Hcirc Hp Hp' Hst Hst' Hg Hg' Hrd Hrd'.
  split; [by apply (got_it cfg conv s0 evs st t)|]. split; [by apply (got_it cfg' conv' s0' evs' st' t)|].
  unfold kept. apply omap_Permutation. exact (unseen_same cfg cfg' conv conv' s0 s0' evs evs' st st' t p p' Hr Hr' Ht Hu Hu' Ho Hs out He out' He' Hroot Hcirc).
Qed.
