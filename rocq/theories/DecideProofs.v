(** Proofs for C101. *)
From Verif Require Import Base SpanModel TreeModel TreeSpec TreeProofs CorrectProofs RootProofs FinishModel FinishSpec FinishProofs FinishRun FinishTheorems FinishWitness ReplaySpec ReplayProofs ConnectSpec ConnectProofs OrderProofs DecideSpec.

(* ---------- of which spans a trace can be made ---------- *)

Lemma emission_emittable t spans out : NoDup (ids spans) -> emission t spans out -> emittable t spans.
Proof.
  intros Hn (all & root & [->|(f & Hf & Hall)] & Hr & Hu & _); [left; by exists root|right].
  destruct (injected_is_root _ _ _ _ _ Hn Hf Hall Hr) as (_ & HT & _). destruct Hf as (_ & _ & _ & _ & c & c' & Hc & Hc' & Hne & Hp).
  split; [done|]. split; [by exists c, c'|]. by exists (s_id f).
Qed.

Lemma emittable_emission ord (now : Z) t tr : map_order ord -> descending (ids (t_spans tr)) ->
  Forall (fun s => s_trace s = t) (t_spans tr) -> Forall (fun s => int64_ok (s_ts s)) (t_spans tr) ->
  emittable t (t_spans tr) -> exists out, emission t (t_spans tr) out.
Proof.
  intros Ho Hd Ht Hok He. pose proof (descending_NoDup _ Hd) as Hn. destruct He as [(r & Hr & Hu)|(HT & (c & c' & Hc & Hc' & Hne) & P & HP)].
  - destruct (unique_root_index _ _ Hn Hr Hu) as (i & Hi & _).
    destruct (emission_of t (t_spans tr) (t_spans tr) i (length (t_spans tr))) as (out & _ & _ & He); try done; [by left|]. by exists out.
  - assert (Hl : (1 < length (roots (t_spans tr)))%nat) by (by apply (many_roots _ c c')).
    destruct (injected_root ord now tr t P Ho Hd Ht Hl HP) as (tr' & rs & first & last & g & EF & _ & _ & _ & _ & _ & Hin & _).
    destruct (Hin HT) as (i & -> & _). pose proof (finish_decide ord now t tr Ho Hd Ht Hok) as Hfd. rewrite EF in Hfd.
    destruct Hfd as (out & _ & _ & He). by exists out.
Qed.

Lemma emittable_exact log t : good log -> (emittable t (merged_spans t (pending log t)) <-> exists out, emission t (merged_spans t (pending log t)) out).
Proof.
  intros Hg. destruct (merged_ok log t Hg) as [Ht Hok]. split.
  - by apply (emittable_emission map_to_list 0 t (add_all map_to_list (map (fun a => (a.1.2, a.2)) (pending log t)) (new_tree 0 t)) map_order_list (merged_descending t (pending log t)) Ht Hok).
  - intros [out H]. by apply (emission_emittable t _ out (merged_NoDup _ _)).
Qed.

(* ---------- at most one outcome ---------- *)

Lemma outcomes_app t l1 l2 : outcomes t (l1 ++ l2) = outcomes t l1 ++ outcomes t l2.
Proof. apply omap_app. Qed.

Lemma pending_snoc log e t : pending (log ++ [e]) t = (track t (status log t) e).2.
Proof. unfold pending, status. by rewrite foldl_app. Qed.

Definition no_spans (log : list entry) : Prop := Forall (fun e => match e with LSpan _ _ _ => False | _ => True end) log.

Lemma at_most_one log : forall log0 t, good (log0 ++ log) -> no_spans log ->
  (pending log0 t = [] -> outcomes t log = []) /\ (length (outcomes t log) <= 1)%nat /\
  pending (log0 ++ log) t = match outcomes t log with [] => pending log0 t | _ => [] end.
Proof.
  induction log as [|e log IH]; intros log0 t Hg Hs; [rewrite app_nil_r; split; [done|]; split; [cbn; lia|done]|]. apply Forall_cons in Hs as [He Hs].
  assert (Hg' : good ((log0 ++ [e]) ++ log)) by (by rewrite <- app_assoc). destruct (IH (log0 ++ [e]) t Hg' Hs) as (H1 & H2 & H3). rewrite <- app_assoc in H3. cbn [app] in H3.
  rewrite H3. clear H3. rewrite pending_snoc in H1 |- *. unfold pending in H1 |- *. destruct (status log0 t) as [b p] eqn:E.
  assert (Hsame : (track t (b, p) e).2 = p -> (forall o, e <> LOut t o) ->
    (p = [] -> outcomes t (e :: log) = []) /\ (length (outcomes t (e :: log)) <= 1)%nat /\
    match outcomes t log with [] => (track t (b, p) e).2 | _ => [] end = match outcomes t (e :: log) with [] => p | _ => [] end).
  { intros Ep Hne. assert (Eo : outcomes t (e :: log) = outcomes t log).
    { unfold outcomes. cbn [omap list_omap]. destruct e as [| |t' o| |]; try done. destruct (decide (t' = t)) as [->|]; [by destruct (Hne o)|done]. }
    rewrite Eo. rewrite Ep in H1 |- *. done. }
  destruct e as [n0 n1 s|n1 n2 load|t' o|t'|]; [done|by apply Hsame| | |by apply Hsame].
  - destruct (decide (t' = t)) as [->|Hne].
    + assert (Et : (track t (b, p) (LOut t o)).2 = []) by (cbn; by rewrite decide_True). rewrite Et in *.
      assert (Eo : outcomes t (LOut t o :: log) = [o]) by (unfold outcomes; cbn [omap list_omap]; fold (outcomes t log); by rewrite decide_True, H1).
      rewrite Eo, (H1 eq_refl). split; [|done]. intros Hp0. cbn in Hp0. subst p. exfalso. destruct (Hg log0 _ log eq_refl) as [Hp _]. apply Hp. unfold pending. by rewrite E.
    + apply Hsame; [cbn; by rewrite decide_False|]. intros o' [=]. done.
  - apply Hsame; [cbn; by destruct (decide _)|done].
Qed.

(* ---------- a check ---------- *)

Lemma no_spans_tick k du ds l (x : list (Z * tree)) y : no_spans (concat (map (verdict k du ds) l) ++ map (fun p => LOut p.1 Overload) x ++ map LEvict y).
Proof.
  unfold no_spans. rewrite !Forall_app. split; [|split; apply Forall_forall; intros e He; apply elem_of_list_fmap in He as (z & -> & _); done].
  induction l as [|p l IH]; [constructor|]. cbn [map concat]. apply Forall_app. split; [|done]. pose proof (verdict_finished k du ds p) as H.
  eapply Forall_impl; [exact H|]. by intros [].
Qed.

Lemma outcomes_evicts t y : outcomes t (map LEvict y) = [].
Proof. by induction y. Qed.
Lemma outcomes_overload t (x : list (Z * tree)) : Forall (fun o => o = Overload) (outcomes t (map (fun p => LOut p.1 Overload) x)) .
Proof. induction x as [|p x IH]; [constructor|]. unfold outcomes. cbn [map omap list_omap]. fold (outcomes t (map (fun p : Z * tree => LOut p.1 Overload) x)). destruct (decide _); [by constructor|done]. Qed.

Lemma outcomes_verdict k du ds t id tr : id <> t -> outcomes t (verdict k du ds (id, tr)) = [].
Proof.
  intros Hne. unfold verdict. assert (Ho : forall o, outcomes t [LOut id o] = []) by (intros o; unfold outcomes; cbn [omap list_omap]; by destruct (decide _)).
  destruct (kept du ds tr); [done|]. destruct (too_large tr); [done|]. destruct (_ <? ds); [done|]. destruct (find_roots _ _ _) as [tr' [|r [|? ?]]]; try done.
  by destruct (correct _ _ _ _ _) as [[? ?]|].
Qed.
Lemma outcomes_verdicts k du ds t (l : list (Z * tree)) : t ∉ l.*1 -> outcomes t (concat (map (verdict k du ds) l)) = [].
Proof.
  induction l as [|[id tr] l IH]; intros H; [done|]. cbn [map concat]. rewrite outcomes_app. cbn in H. apply not_elem_of_cons in H as [H1 H2].
  by rewrite outcomes_verdict, IH.
Qed.
Lemma outcomes_own k du ds t tr (l : list (Z * tree)) : NoDup l.*1 -> (t, tr) ∈ l ->
  outcomes t (concat (map (verdict k du ds) l)) = outcomes t (verdict k du ds (t, tr)).
Proof.
  intros Hn Hin. apply elem_of_list_split in Hin as (l1 & l2 & ->). rewrite fmap_app in Hn. cbn in Hn. apply NoDup_app in Hn as (_ & H1 & H2). apply NoDup_cons in H2 as [H2 _].
  rewrite map_app, concat_app. cbn [map concat]. rewrite !outcomes_app, !outcomes_verdicts, app_nil_r; [done|done|]. intros H. by apply (H1 t H), elem_of_list_here.
Qed.

Lemma check_decides evs k st0 log0 : Forall valid_event evs -> valid_tick k -> run evs = (Some st0, log0) ->
  exists load log, (run (evs ++ [ETick k])).2 = log0 ++ LTick (k_now1 k) (k_now2 k) load :: log /\
    (forall ts, waiting log0 ts -> load = sum (fun t => small (counted t (pending log0 t))) ts) /\
    forall t, if decide (pending log0 t = []) then outcomes t log = []
      else decision t (pending log0 t) (k_now1 k) (k_now2 k) load (outcomes t log) /\
        pending (run (evs ++ [ETick k])).2 t = match outcomes t log with [] => pending log0 t | _ => [] end.
Proof.
  intros Hv Hk E. destruct (tick_step _ _ _ _ Hv Hk E) as (Hi & Hg & st1 & log1 & EF & ER). rewrite ER. cbn [snd].
  destruct (finish_traces_spec k st0 log0 Hk Hi Hg) as (st' & log' & load & EF' & Hi' & Hg' & Hld & (x & y & Hlog & Hx) & _).
  rewrite EF in EF'. injection EF' as <- <-. rewrite Hlog in Hg' |- *.
  set (n1 := k_now1 k) in *. set (n2 := k_now2 k) in *. set (du := n1 - patience load) in *. set (ds := n2 - 5 * patience load) in *.
  set (vs := concat _) in *. exists load, (vs ++ map (fun p : Z * tree => LOut p.1 Overload) x ++ map LEvict y). split; [done|]. split.
  { intros ts Hts. rewrite Hld. apply (sum_waiting log0); [by apply waiting_of|done]. }
  intros t. pose proof (no_spans_tick k du ds (k_range k 1 (f_traces st0)) x y) as Hns. fold vs in Hns.
  destruct (at_most_one (LTick n1 n2 load :: vs ++ map (fun p : Z * tree => LOut p.1 Overload) x ++ map LEvict y) log0 t Hg') as (A1 & A2 & A3); [by constructor|].
  change (outcomes t (LTick n1 n2 load :: ?l)) with (outcomes t l) in A1, A2, A3.
  destruct (decide _) as [Hp|Hp]; [by apply A1|]. assert (Hi2 := Hi). destruct Hi2 as [_ Hit]. specialize (Hit t).
  destruct (f_traces st0 !! t) as [tr|] eqn:Et.
  2: { exfalso. unfold tree_at in Hit. by destruct (pending log0 t) as [|[[? ?] ?] ?]. }
  symmetry in Hit. apply tree_at_fields in Hit as (_ & Esp & Ec & Es & Eu & Hd & _).
  destruct (merged_ok log0 t Hg) as [Htr Hok]. rewrite <- Esp in Htr, Hok.
  assert (Ev : outcomes t vs = outcomes t (verdict k du ds (t, tr))).
  { destruct Hk as (_ & Hr & _). apply outcomes_own; [rewrite Hr; apply NoDup_fst_map_to_list|]. rewrite Hr. by apply elem_of_map_to_list. }
  rewrite !outcomes_app, Ev, outcomes_evicts, app_nil_r in A2, A3. rewrite !outcomes_app, Ev, outcomes_evicts, app_nil_r.
  pose proof (outcomes_overload t x) as Hov. set (ov := outcomes t (map _ x)) in *.
  assert (Hone : forall o, outcomes t [LOut t o] = [o]) by (intros o; unfold outcomes; cbn [omap list_omap]; by rewrite decide_True).
  assert (Hx' : ov <> [] -> 100000 < load).
  { intros Hne. destruct (decide (load <= 100000)) as [Hle|]; [|lia]. destruct Hne. unfold ov. by rewrite (Hx Hle). }
  assert (Hlast : forall o, verdict k du ds (t, tr) = [LOut t o] -> outcomes t (verdict k du ds (t, tr)) ++ ov = [o]).
  { intros o Eo. rewrite Eo, Hone in A2 |- *. destruct ov; [done|]. cbn in A2. lia. }
  split; [|exact A3].
  pose proof (emittable_exact log0 t Hg) as Hem. unfold decision. rewrite <- Ec, <- Es, <- Eu. rewrite <- Esp in *. fold du ds.
  assert (Hk' : kept du ds tr = false -> too_large tr = false -> t_started tr <? ds = false ->
    (emittable t (t_spans tr) /\ exists out, outcomes t (verdict k du ds (t, tr)) ++ ov = [Emitted out] /\ emission t (t_spans tr) out) \/
    (~ emittable t (t_spans tr) /\ outcomes t (verdict k du ds (t, tr)) ++ ov = [NoRoot])).
  { intros K1 K2 K3. destruct Hk as (Ho & _). pose proof (finish_decide (k_ord k) (k_fake k t) t tr Ho Hd Htr Hok) as HF.
    unfold verdict in Hlast |- *. rewrite K1, K2, K3 in Hlast |- *. destruct (find_roots (k_ord k) (k_fake k t) tr) as [tr' rs].
    destruct rs as [|r [|r' rs]].
    - right. split; [by rewrite Hem|by apply Hlast].
    - destruct HF as (out & seen & Eout & He). rewrite Eout in Hlast |- *. left. split; [apply Hem; by exists out|]. exists out. split; [by apply Hlast|done].
    - right. split; [by rewrite Hem|by apply Hlast]. }
  assert (B : forall a b, (a <? b) = bool_decide (a < b)) by (intros a b; destruct (Z.ltb_spec a b); [by rewrite bool_decide_true|rewrite bool_decide_false; [done|lia]]).
  destruct (decide (8192 < t_count tr)) as [D1|D1].
  { apply Hlast. unfold verdict, kept, too_large. change (8 * 1024) with 8192. by rewrite !B, (bool_decide_true _ D1). }
  assert (K1 : too_large tr = false) by (unfold too_large; change (8 * 1024) with 8192; by rewrite B, (bool_decide_false _ D1)).
  destruct (decide (t_started tr < ds)) as [D2|D2].
  { apply Hlast. unfold verdict, kept. by rewrite K1, !B, (bool_decide_true _ D2). }
  assert (K2 : t_started tr <? ds = false) by (by rewrite B, (bool_decide_false _ D2)).
  destruct (decide (t_updated tr <= du)) as [D3|D3].
  { apply Hk'; [|done..]. unfold kept. rewrite K1, K2. cbn [negb andb]. rewrite B. apply bool_decide_false. lia. }
  assert (K3 : du <? t_updated tr = true) by (rewrite B; apply bool_decide_true; lia).
  assert (Ekept : outcomes t (verdict k du ds (t, tr)) = []) by (unfold verdict, kept; by rewrite K1, K2, K3).
  rewrite Ekept in A2 |- *. cbn [app] in A2 |- *. destruct ov as [|o [|? ?]]; [by left| |cbn in A2; lia]. right. apply Forall_cons in Hov as [-> _]. split; [done|]. by apply Hx'.
Qed.

(* ---------- one trace only ---------- *)

Lemma connected_perm l m root s : l ≡ₚ m -> connected l root s -> connected m root s.
Proof. intros Hp (path & Hd & El). exists path. split; [by apply (descends_perm l)|done]. Qed.

Lemma emission_within t spans out out' : NoDup (ids spans) -> emission t spans out -> emission t spans out' -> forall x, x ∈ out -> x ∈ out'.
Proof.
  intros Hn (all & root & Ha & Hr & Hu & HF & H1 & H2) (all' & root' & Ha' & Hr' & Hu' & HF' & H1' & H2') x Hx.
  assert (all ≡ₚ all' /\ NoDup (ids all)) as [Hp Hna].
  { destruct Ha as [->|(f & Hf & Ha)], Ha' as [->|(g & Hg & Ha')]; [done| | |].
    - exfalso. destruct Hg as (_ & _ & _ & _ & c & c' & Hc & Hc' & Hne & _). apply Hne. by rewrite (Hu c), (Hu c').
    - exfalso. destruct Hf as (_ & _ & _ & _ & c & c' & Hc & Hc' & Hne & _). apply Hne. by rewrite (Hu' c), (Hu' c').
    - destruct (injected_is_root _ _ _ _ _ Hn Hf Ha Hr) as (_ & _ & Hna). split; [|done]. rewrite Ha, Ha'.
      destruct Hf as ((f1 & l1 & cs1 & Ef & Hh1 & Hm1) & _ & _ & _ & c & _ & Hc & _ & _ & Hpar).
      destruct Hg as ((f2 & l2 & cs2 & Eg & Hh2 & Hm2) & _ & _ & _ & _ & _ & _ & _ & _ & Hpar').
      destruct (hull_unique _ _ _ _ _ _ Hh1 Hh2) as [-> ->]; [intros s; by rewrite Hm1, Hm2|]. rewrite Ef, Eg.
      assert (s_id f = s_id g) as -> by (rewrite <- (Hpar c Hc), <- (Hpar' c Hc); done). done. }
  assert (root' = root) as -> by (apply Hu; by apply (root_candidate_perm all')).
  apply elem_of_list_lookup in Hx as [i Hi]. destruct (Forall2_lookup_r _ _ _ _ _ HF Hi) as (s & Hs & _).
  assert (Hsin : s ∈ all) by (by eapply elem_of_list_lookup_2). assert (Hsin' : s ∈ all') by (by rewrite <- Hp). apply elem_of_list_lookup in Hsin' as [j Hj].
  apply elem_of_list_lookup. exists j. destruct (connected_or_circular all s Hsin) as [(r & Hcr & Hc)|Hc].
  - rewrite (Hu r Hcr) in Hc. destruct Hc as (path & Hd & El). rewrite <- El in Hs, Hj. rewrite (H1 path i Hd Hs) in Hi. injection Hi as <-.
    apply H1'; [by apply (descends_perm all)|done].
  - assert (Hnc : ~ connected all root s) by (intros Hcon; by apply (circular_not all root s)).
    rewrite (H2 i s Hs Hnc) in Hi. injection Hi as <-. apply H2'; [done|]. intros Hcon. apply Hnc. by apply (connected_perm all').
Qed.

Lemma emission_unique t spans out out' : NoDup (ids spans) -> Forall (fun s => s_trace s = t) spans -> emission t spans out -> emission t spans out' -> out ≡ₚ out'.
Proof.
  intros Hn Ht He He'. destruct (emission_ids _ _ _ He Hn Ht) as (_ & N & _). destruct (emission_ids _ _ _ He' Hn Ht) as (_ & N' & _).
  apply NoDup_Permutation; [by apply NoDup_fmap_1 in N|by apply NoDup_fmap_1 in N'|]. intros x. split; by apply (emission_within t spans).
Qed.

Definition proper_addition (t : Z) (x : addition) : Prop := s_trace x.2 = t /\ int64_ok (s_ts x.2).
Lemma proper_merged t a : Forall (proper_addition t) a -> Forall (fun s => s_trace s = t) (merged_spans t a) /\ Forall (fun s => int64_ok (s_ts s)) (merged_spans t a).
Proof.
  intros H. split.
  - apply merged_forall; [eapply Forall_impl; [exact H|]; by intros x [? _]|]. intros s new Hs _. by destruct (updated_keeps s new) as [-> _].
  - apply merged_forall; [eapply Forall_impl; [exact H|]; by intros x [_ ?]|]. intros s new Hs _. by destruct (updated_keeps s new) as [_ ->].
Qed.

Lemma emittable_is t a : Forall (fun x => s_trace x.2 = t /\ int64_ok (s_ts x.2)) a ->
  (emittable t (merged_spans t a) <-> exists out, emission t (merged_spans t a) out).
Proof.
  intros H. destruct (proper_merged t a H) as [Ht Hok]. split.
  - by apply (emittable_emission map_to_list 0 t (add_all map_to_list (map (fun a => (a.1.2, a.2)) a) (new_tree 0 t)) map_order_list (merged_descending t a) Ht Hok).
  - intros [out He]. by apply (emission_emittable t _ out (merged_NoDup _ _)).
Qed.
Lemma emission_one t a out out' : Forall (fun x => s_trace x.2 = t) a -> emission t (merged_spans t a) out -> emission t (merged_spans t a) out' -> out ≡ₚ out'.
Proof.
  intros H. apply emission_unique; [apply merged_NoDup|]. apply merged_forall; [done|]. intros s new Hs _. by destruct (updated_keeps s new) as [-> _].
Qed.

(** C43: exactly the traces that count as too large are dropped as such. *)
Lemma too_large_exact evs k st0 log0 t : Forall valid_event evs -> valid_tick k -> run evs = (Some st0, log0) ->
  exists log, (run (evs ++ [ETick k])).2 = log0 ++ log /\
    (LOut t TooLarge ∈ log <-> 8192 < Z.of_nat (length (merged_spans t (pending log0 t))) mod 65536).
Proof.
  intros Hv Hk E. destruct (check_decides evs k st0 log0 Hv Hk E) as (load & log & -> & _ & H). specialize (H t). exists (LTick (k_now1 k) (k_now2 k) load :: log). split; [done|].
  assert (Hin : LOut t TooLarge ∈ LTick (k_now1 k) (k_now2 k) load :: log <-> TooLarge ∈ outcomes t log).
  { unfold outcomes. rewrite elem_of_list_omap, elem_of_cons. split.
    - intros [?|Hin]; [done|]. exists (LOut t TooLarge). split; [done|]. by rewrite decide_True.
    - intros (e & He & Ee). right. destruct e; try done. destruct (decide (t0 = t)) as [->|]; [|done]. by injection Ee as ->. }
  rewrite Hin. change 65536 with (2^16). fold (counted t (pending log0 t)). destruct (decide _) as [Hp|Hp].
  - rewrite H, Hp. split; [by intros ?%elem_of_nil|]. change (counted t []) with 0. lia.
  - destruct H as [H _]. unfold decision in H. destruct (decide (8192 < _)) as [D|D]; [rewrite H; split; [done|intros _; apply elem_of_list_here]|]. split; [|done]. intros Hx. exfalso.
    destruct (decide _); [rewrite H in Hx; by apply elem_of_list_singleton in Hx|]. destruct (decide _).
    + destruct H as [(_ & out & Ho & _)|[_ Ho]]; rewrite Ho in Hx; by apply elem_of_list_singleton in Hx.
    + destruct H as [Ho|[Ho _]]; rewrite Ho in Hx; [by apply elem_of_nil in Hx|by apply elem_of_list_singleton in Hx].
Qed.
