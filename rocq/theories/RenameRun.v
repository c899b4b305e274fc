(** Proofs for C110: runs. *)
From Verif Require Import Base IdModel SpanModel TreeModel TreeSpec TreeProofs RootProofs CorrectProofs FinishModel FinishSpec FinishProofs DecideProofs RenameSpec RenameProofs.

(** What becomes of a trace that is neither too large nor too old. *)
Definition verdict (ord : gmap gostring gostring -> list (gostring * gostring)) (now : Z) (t : tree) : outcome :=
  let '(t, rs) := find_roots ord now t in
  match rs with
  | [r] => match correct (length (t_spans t)) (t_spans t) r None 0 with Some (spans, _) => Emitted spans | None => Stuck end
  | _ => NoRoot
  end.
Lemma finish_one_verdict k du ds st log id t : finish_one k du ds (st, log) (id, t) =
  if negb (too_large t) && negb (t_started t <? ds) && (du <? t_updated t) then (st, log)
  else (FState (delete id (f_traces st)) (if too_large t || (t_started t <? ds) then {[id]} ∪ f_black st else f_black st),
        log ++ [LOut id (if too_large t then TooLarge else if t_started t <? ds then TooOld else verdict (k_ord k) (k_fake k id) t)]).
Proof.
  unfold finish_one, verdict. destruct (_ && _ && _); [done|]. destruct (too_large t); [done|]. destruct (t_started t <? ds); [done|]. cbn [orb].
  destruct (find_roots (k_ord k) (k_fake k id) t) as [t' [|r [|r' rs]]]; [done| |done]. by destruct (correct _ _ _ _ _) as [[? ?]|].
Qed.

Section run.
Context (f g : Z -> Z) (Hfg : renaming f g).
Notation F := (renamed f).
Notation RE := (renamed_entry f).

Lemma renamed_back t t' : t_spans t' ≡ₚ map F (t_spans t) -> t_spans t ≡ₚ map (renamed g) (t_spans t').
Proof.
  intros Hp. assert (E : forall l, map (renamed g) (map F l) = l).
  { induction l as [|x l IH]; [done|]. cbn [map]. by rewrite (GF f g Hfg), IH. }
  symmetry. etransitivity; [exact (Permutation_map (renamed g) Hp)|]. by rewrite E.
Qed.

Lemma rename_verdict ord ord' now now' id t t' : map_order ord -> map_order ord' -> proper id t -> proper (f id) t' -> renamed_tree f t t' ->
  renamed_outcome f (verdict ord now t) (verdict ord' now' t').
Proof.
  intros Ho Ho' (Hd & Ht & Hok) (Hd' & Ht' & Hok') (Hp & _). unfold verdict.
  pose proof (finish_decide ord now id t Ho Hd Ht Hok) as H. pose proof (finish_decide ord' now' (f id) t' Ho' Hd' Ht' Hok') as H'.
  assert (A : (exists out, emission id (t_spans t) out) -> exists out, emission (f id) (t_spans t') out).
  { intros [out He]. destruct (rename_emission f g Hfg id _ _ out Hp He) as (out' & He' & _). eauto. }
  assert (B : (exists out, emission (f id) (t_spans t') out) -> exists out, emission id (t_spans t) out).
  { intros [out He]. destruct (rename_emission g f (renaming_sym f g Hfg) (f id) _ _ out (renamed_back t t' Hp) He) as (out' & He' & _). rewrite (gf f g Hfg) in He'. eauto. }
  destruct (find_roots ord now t) as [t1 rs], (find_roots ord' now' t') as [t1' rs'].
  assert (Hcase : (exists r out seen, rs = [r] /\ correct (length (t_spans t1)) (t_spans t1) r None 0 = Some (out, seen) /\ emission id (t_spans t) out) \/
    ((match rs with [r] => False | _ => True end) /\ ~ exists out, emission id (t_spans t) out)).
  { destruct rs as [|r [|r2 rs]]; [by right| |by right]. left. destruct H as (out & seen & E & He). eauto 10. }
  assert (Hcase' : (exists r out seen, rs' = [r] /\ correct (length (t_spans t1')) (t_spans t1') r None 0 = Some (out, seen) /\ emission (f id) (t_spans t') out) \/
    ((match rs' with [r] => False | _ => True end) /\ ~ exists out, emission (f id) (t_spans t') out)).
  { destruct rs' as [|r [|r2 rs']]; [by right| |by right]. left. destruct H' as (out & seen & E & He). eauto 10. }
  clear H H'. destruct Hcase as [(r & out & seen & -> & -> & He)|[Hr Hn]], Hcase' as [(r' & out' & seen' & -> & -> & He')|[Hr' Hn']].
  - destruct (rename_emission f g Hfg id _ _ out Hp He) as (out2 & He2 & Hp2). cbn [renamed_outcome]. rewrite <- Hp2. apply (emission_unique (f id) (t_spans t')); [by apply descending_NoDup|done..].
  - exfalso. apply Hn', A. eauto.
  - exfalso. apply Hn, B. eauto.
  - destruct rs as [|? [|? ?]], rs' as [|? [|? ?]]; done.
Qed.

(** Two states that differ by the renaming. *)
Definition fine_state (st : fstate) : Prop := forall id t, f_traces st !! id = Some t -> proper id t.
Definition related (st st' : fstate) : Prop :=
  renamed_traces f (f_traces st) (f_traces st') /\ renamed_set f (f_black st) (f_black st') /\ fine_state st /\ fine_state st'.

Lemma rename_delete id ts ts' : renamed_traces f ts ts' -> renamed_traces f (delete id ts) (delete (f id) ts').
Proof.
  intros H i. destruct (decide (i = id)) as [->|Hne]; [rewrite !lookup_delete; constructor|]. rewrite !lookup_delete_ne; [apply H| |done]. intros E. apply Hne. symmetry. by apply (f_eq f g Hfg).
Qed.
Lemma rename_black id b b' : renamed_set f b b' -> renamed_set f ({[id]} ∪ b) ({[f id]} ∪ b').
Proof. intros H i. rewrite !elem_of_union, !elem_of_singleton, (H i), (f_eq f g Hfg). done. Qed.
Lemma rename_white id b b' : renamed_set f b b' -> renamed_set f (b ∖ {[id]}) (b' ∖ {[f id]}).
Proof. intros H i. rewrite !elem_of_difference, !elem_of_singleton, (H i), (f_eq f g Hfg). done. Qed.
Lemma rename_size b b' : renamed_set f b b' -> size b = size b'.
Proof.
  intros H. change (length (elements b) = length (elements b')). rewrite <- (map_length f (elements b)). apply Permutation_length. apply NoDup_Permutation.
  - apply NoDup_fmap_2; [intros x y E; by apply (f_eq f g Hfg)|apply NoDup_elements].
  - apply NoDup_elements.
  - intros x. cbn. rewrite <- (fg f g Hfg x), (in_ids_F f g Hfg), !elem_of_elements. apply H.
Qed.
Lemma fine_delete id ts b : fine_state (FState ts b) -> forall b', fine_state (FState (delete id ts) b').
Proof. intros H b' i t Hi. cbn in Hi. apply lookup_delete_Some in Hi as [_ Hi]. by apply H. Qed.

Lemma rename_receive ord ord' n0 n1 s st st' : map_order ord -> map_order ord' -> int64_ok (s_ts s) -> related st st' ->
  related (receive ord n0 n1 s st) (receive ord' n0 n1 (F s) st').
Proof.
  intros Ho Ho' Hi (Ht & Hb & Hw & Hw'). unfold receive. change (s_trace (F s)) with (f (s_trace s)). change (s_id (F s)) with (f (s_id s)). rewrite !(f_eqb0 f g Hfg).
  destruct (_ || _); [done|]. rewrite (bool_decide_ext (f (s_trace s) ∈ f_black st') (s_trace s ∈ f_black st)) by (symmetry; apply Hb).
  destruct (bool_decide _); [done|].
  set (t := match f_traces st !! s_trace s with Some t => t | None => new_tree n0 (s_trace s) end).
  set (t' := match f_traces st' !! f (s_trace s) with Some t => t | None => new_tree n0 (f (s_trace s)) end).
  assert (P : proper (s_trace s) t). { unfold t. destruct (f_traces st !! s_trace s) eqn:E; [by apply Hw|]. split; [constructor|]. split; constructor. }
  assert (P' : proper (f (s_trace s)) t'). { unfold t'. destruct (f_traces st' !! f (s_trace s)) eqn:E; [by apply Hw'|]. split; [constructor|]. split; constructor. }
  assert (R : renamed_tree f t t'). { unfold t, t'. destruct (Ht (s_trace s)) as [x y Hxy|]; [done|]. split; [|done]. constructor. }
  split; [|split; [done|split]]; cbn [f_traces].
  - intros i. destruct (decide (i = s_trace s)) as [->|Hne].
    + rewrite !lookup_insert. constructor. by apply (rename_add f g Hfg ord ord' n1 (s_trace s)).
    + rewrite !lookup_insert_ne; [apply Ht| |done]. intros E. apply Hne. symmetry. by apply (f_eq f g Hfg).
  - intros i x. cbn [f_traces]. destruct (decide (i = s_trace s)) as [->|Hne]; [rewrite lookup_insert; intros [= <-]; by apply proper_add|rewrite lookup_insert_ne by done; apply Hw].
  - intros i x. cbn [f_traces]. destruct (decide (i = f (s_trace s))) as [->|Hne]; [rewrite lookup_insert; intros [= <-]; by apply proper_add|rewrite lookup_insert_ne by done; apply Hw'].
Qed.

Lemma rename_finish_one k k' du ds st st' log log' p p' : map_order (k_ord k) -> map_order (k_ord k') -> renamed_pair f p p' -> proper p.1 p.2 -> proper p'.1 p'.2 ->
  related st st' -> Forall2 RE log log' ->
  related (finish_one k du ds (st, log) p).1 (finish_one k' du ds (st', log') p').1 /\ Forall2 RE (finish_one k du ds (st, log) p).2 (finish_one k' du ds (st', log') p').2.
Proof.
  intros Ho Ho' [Ei Ht] Hp Hp' Hst Hlog. destruct p as [id t], p' as [id' t']. cbn [fst snd] in *. subst id'. rewrite !finish_one_verdict.
  assert (El : too_large t' = too_large t) by (unfold too_large; by destruct Ht as (_ & _ & _ & ->)).
  assert (Es : t_started t' = t_started t) by apply Ht. assert (Eu : t_updated t' = t_updated t) by apply Ht. rewrite El, Es, Eu.
  destruct (_ && _ && _); [done|]. cbn [fst snd]. destruct Hst as (H1 & H2 & H3 & H4). split.
  - split; [by apply rename_delete|]. split; [cbn [f_black]; destruct (_ || _); [by apply rename_black|done]|]. destruct st, st'. split; by eapply fine_delete.
  - apply Forall2_app; [done|]. constructor; [|constructor]. split; [done|]. destruct (too_large t); [done|]. destruct (_ <? ds); [done|]. by apply (rename_verdict _ _ _ _ id).
Qed.

Lemma rename_finish_all k k' du ds : map_order (k_ord k) -> map_order (k_ord k') -> forall l l' st st' log log',
  Forall2 (renamed_pair f) l l' -> (forall p, p ∈ l -> proper p.1 p.2) -> (forall p, p ∈ l' -> proper p.1 p.2) ->
  related st st' -> Forall2 RE log log' ->
  related (foldl (finish_one k du ds) (st, log) l).1 (foldl (finish_one k' du ds) (st', log') l').1 /\
  Forall2 RE (foldl (finish_one k du ds) (st, log) l).2 (foldl (finish_one k' du ds) (st', log') l').2.
Proof.
  intros Ho Ho' l l' st st' log log' H. revert st st' log log'. induction H as [|p p' l l' Hp _ IH]; intros st st' log log' Hl Hl' Hst Hlog; [done|]. cbn [foldl].
  destruct (rename_finish_one k k' du ds st st' log log' p p' Ho Ho' Hp) as [A B]; [apply Hl; left|apply Hl'; left|done..|].
  destruct (finish_one k du ds (st, log) p) as [st1 log1], (finish_one k' du ds (st', log') p') as [st1' log1']. cbn [fst snd] in *.
  apply IH; [intros q Hq; apply Hl; by right|intros q Hq; apply Hl'; by right|done|done].
Qed.

Lemma rename_fold (h : Z -> Z -> Z) l l' : Forall2 (renamed_pair f) l l' -> forall n, foldl (fun n p => h n (t_count p.2)) n l = foldl (fun n p => h n (t_count p.2)) n l'.
Proof. induction 1 as [|p p' l l' [_ (_ & _ & _ & E)] _ IH]; intros n; [done|]. cbn [foldl]. by rewrite E, IH. Qed.

Lemma rename_discard_loop l l' : Forall2 (renamed_pair f) l l' -> forall n ts ts' log log', renamed_traces f ts ts' -> Forall2 RE log log' ->
  renamed_traces f (discard_loop l n ts log).1 (discard_loop l' n ts' log').1 /\ Forall2 RE (discard_loop l n ts log).2 (discard_loop l' n ts' log').2.
Proof.
  induction 1 as [|[id t] [id' t'] l l' [Ei (_ & _ & _ & E)] _ IH]; intros n ts ts' log log' Ht Hlog; [done|]. cbn [discard_loop fst snd] in *. subst id'. rewrite E.
  destruct (n <? maxSpans); [done|]. apply IH; [by apply rename_delete|]. apply Forall2_app; [done|]. constructor; [done|constructor].
Qed.
Lemma discard_loop_fine l : forall n ts log, (forall id t, ts !! id = Some t -> proper id t) -> forall id t, (discard_loop l n ts log).1 !! id = Some t -> proper id t.
Proof.
  induction l as [|[i x] l IH]; intros n ts log H; [done|]. cbn [discard_loop]. destruct (n <? maxSpans); [done|]. apply IH. intros id t Hi. apply lookup_delete_Some in Hi as [_ Hi]. by apply H.
Qed.

Lemma rename_evict l : forall b b' log log', renamed_set f b b' -> Forall2 RE log log' ->
  renamed_set f (evict l b log).1 (evict (map f l) b' log').1 /\ Forall2 RE (evict l b log).2 (evict (map f l) b' log').2.
Proof.
  induction l as [|x l IH]; intros b b' log log' Hb Hlog; [done|]. cbn [evict map]. rewrite (rename_size b b' Hb). destruct (_ <? 1024); [done|].
  apply IH; [by apply rename_white|]. apply Forall2_app; [done|]. constructor; [done|constructor].
Qed.

Lemma rename_finish k k' st st' : renamed_tick f k k' -> valid_tick k -> valid_tick k' -> related st st' ->
  related (finish_traces k st).1 (finish_traces k' st').1 /\ Forall2 RE (finish_traces k st).2 (finish_traces k' st').2.
Proof.
  intros (E1 & E2 & Hr & Hb & Hs) (Ho & Hv & _) (Ho' & Hv' & _) Hst. pose proof Hst as (Ht & Hbl & Hw & Hw'). unfold finish_traces. rewrite E1, E2.
  assert (Ec : count_spans (k_range k' 0 (f_traces st')) = count_spans (k_range k 0 (f_traces st))).
  { unfold count_spans, too_large. symmetry. apply (rename_fold (fun n c => if 8 * 1024 <? c then n else n + c)). by apply Hr. }
  rewrite Ec. set (m := count_spans _). clearbody m.
  destruct (rename_finish_all k k' (k_now1 k - buffer_time m) (k_now2 k - 5 * buffer_time m) Ho Ho' (k_range k 1 (f_traces st)) (k_range k' 1 (f_traces st')) st st'
    [LTick (k_now1 k) (k_now2 k) m] [LTick (k_now1 k) (k_now2 k) m]) as [A B]; [by apply Hr| | |done|repeat constructor|].
  { intros [id t] Hp. rewrite Hv in Hp. apply elem_of_map_to_list in Hp. by apply Hw. }
  { intros [id t] Hp. rewrite Hv' in Hp. apply elem_of_map_to_list in Hp. by apply Hw'. }
  destruct (foldl (finish_one k _ _) _ _) as [st1 log1], (foldl (finish_one k' _ _) _ _) as [st1' log1']. cbn [fst snd] in *. destruct A as (A1 & A2 & A3 & A4).
  assert (D : let x := (if maxSpans <? m then discard k (f_traces st1) else (f_traces st1, [])) in
    let x' := (if maxSpans <? m then discard k' (f_traces st1') else (f_traces st1', [])) in
    renamed_traces f x.1 x'.1 /\ Forall2 RE x.2 x'.2 /\ (forall id t, x.1 !! id = Some t -> proper id t) /\ (forall id t, x'.1 !! id = Some t -> proper id t)).
  { cbv zeta. destruct (maxSpans <? m); [|cbn; split; [done|]; split; [constructor|done]]. unfold discard.
    rewrite (rename_fold Z.add (k_range k 2 (f_traces st1)) (k_range k' 2 (f_traces st1'))) by (by apply Hr).
    destruct (_ <? maxSpans); [cbn; split; [done|]; split; [constructor|done]|].
    destruct (rename_discard_loop (k_sort k (k_range k 2 (f_traces st1))) (k_sort k' (k_range k' 2 (f_traces st1'))) (Hs _ _ (Hr 2%nat _ _ A1)) (foldl (fun n p => n + t_count p.2) 0 (k_range k' 2 (f_traces st1'))) (f_traces st1) (f_traces st1') [] [] A1) as [X Y]; [constructor|].
    split; [done|]. split; [done|]. split; by apply discard_loop_fine. }
  cbv zeta in D. destruct (if maxSpans <? m then discard k (f_traces st1) else (f_traces st1, [])) as [tr logd], (if maxSpans <? m then discard k' (f_traces st1') else (f_traces st1', [])) as [tr' logd'].
  cbn [fst snd] in D. destruct D as (D1 & D2 & D3 & D4). rewrite (Hb _ _ A2).
  destruct (rename_evict (k_range_black k (f_black st1)) (f_black st1) (f_black st1') [] [] A2) as [X Y]; [constructor|].
  destruct (evict (k_range_black k (f_black st1)) (f_black st1) []) as [bl loge], (evict (map f (k_range_black k (f_black st1))) (f_black st1') []) as [bl' loge']. cbn [fst snd] in *.
  split; [done|]. apply Forall2_app; [done|]. by apply Forall2_app.
Qed.

Lemma rename_run evs evs' : Forall2 (renamed_event f) evs evs' -> Forall valid_event evs -> Forall valid_event evs' -> Forall2 RE (run evs).2 (run evs').2.
Proof.
  intros H Hv Hv'. unfold run.
  assert (K : forall evs evs', Forall2 (renamed_event f) evs evs' -> Forall valid_event evs -> Forall valid_event evs' -> forall st st' log log',
    option_Forall2 related st st' -> Forall2 RE log log' ->
    let h := fun acc e => let '(st, log) := step acc.1 e in (st, acc.2 ++ log) in
    Forall2 RE (foldl h (st, log) evs).2 (foldl h (st', log') evs').2).
  { clear evs evs' H Hv Hv'. induction 1 as [|e e' evs evs' He _ IH]; intros Hv Hv' st st' log log' Hst Hlog; [done|]. cbn [foldl fst snd].
    apply Forall_cons in Hv as [Hv Hvs], Hv' as [Hv' Hvs'].
    assert (S1 : option_Forall2 related (step st e).1 (step st' e').1 /\ Forall2 RE (step st e).2 (step st' e').2).
    { destruct Hst as [st st' Hst|]; [|split; constructor]. destruct e as [ord n0 n1 s|k|], e' as [ord' n0' n1' s'|k'|]; try done.
      - destruct He as (-> & -> & ->), Hv as [Ho Hi], Hv' as [Ho' _]. cbn [step fst snd]. split; [constructor; by apply rename_receive|repeat constructor].
      - destruct (rename_finish k k' st st' He Hv Hv' Hst) as [A B]. cbn [step]. destruct (finish_traces k st), (finish_traces k' st'). cbn [fst snd] in *. split; [by constructor|done].
      - cbn. split; repeat constructor. }
    destruct S1 as [A B]. destruct (step st e) as [st1 log1], (step st' e') as [st1' log1']. cbn [fst snd] in *. apply IH; [done|done|done|]. by apply Forall2_app. }
  apply K; [done..| |constructor]. constructor. split; [|split; [|split]]; cbn.
  - intros id. rewrite !lookup_empty. constructor.
  - intros id. split; intros Hx; by apply not_elem_of_empty in Hx.
  - intros id t Hi. cbn in Hi. by rewrite lookup_empty in Hi.
  - intros id t Hi. cbn in Hi. by rewrite lookup_empty in Hi.
Qed.
End run.
