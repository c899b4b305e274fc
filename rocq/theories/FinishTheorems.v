(** Statements C36-C45, from the invariants. *)
From Coq Require Import Sorted.
From Verif Require Import Base IdModel SpanModel TreeModel TreeSpec TreeProofs CorrectProofs RootProofs FinishModel FinishSpec FinishProofs FinishRun.

(* ---------- C36, C37 ---------- *)

Lemma run_entry evs l1 e l2 : Forall valid_event evs -> (run evs).2 = l1 ++ e :: l2 -> entry_ok l1 e.
Proof. intros Hv E. destruct (run_inv evs Hv) as [Hg _]. rewrite E in Hg. by apply (Hg l1 e l2). Qed.

Lemma good_prefix l1 l2 : good (l1 ++ l2) -> good l1.
Proof. intros Hg a x b ->. apply (Hg a x (b ++ l2)). by rewrite <- app_assoc. Qed.

Lemma run_prefix evs l1 l2 : Forall valid_event evs -> (run evs).2 = l1 ++ l2 -> good l1.
Proof. intros Hv E. destruct (run_inv evs Hv) as [Hg _]. rewrite E in Hg. by eapply good_prefix. Qed.

Lemma merged_ids t a id : id ∈ ids (merged_spans t a) <-> id ∈ map (fun a => s_id a.2) a.
Proof.
  destruct (tree_contents map_to_list 0 t (adds a) map_order_list) as (_ & H & _). unfold merged_spans. fold (adds a). rewrite H.
  unfold ids, adds. by rewrite !map_map.
Qed.

Lemma merged_NoDup t a : NoDup (ids (merged_spans t a)).
Proof. destruct (tree_contents map_to_list 0 t (adds a) map_order_list) as (H & _). by apply descending_NoDup. Qed.

Lemma retimed_ids l l' : Forall2 (fun s s' => exists start dur, s' = retimed s start dur) l l' -> ids l' = ids l /\ map s_trace l' = map s_trace l.
Proof. unfold ids. induction 1 as [|s s' l l' (st & du & ->) _ [IH1 IH2]]; [done|]. cbn [map]. by rewrite IH1, IH2. Qed.

Lemma emission_ids t spans out : emission t spans out -> NoDup (ids spans) -> Forall (fun s => s_trace s = t) spans ->
  Forall (fun s => s_trace s = t) out /\ NoDup (ids out) /\
  exists extra, (forall id, id ∈ ids out <-> id ∈ extra \/ id ∈ ids spans) /\
    (extra = [] \/ exists f, extra = [s_id f] /\ injected t spans f).
Proof.
  intros (all & root & Hall & _ & _ & Hre & _) Hn Ht. destruct (retimed_ids _ _ Hre) as [E1 E2].
  assert (Hout : Forall (fun x => x = t) (map s_trace all) -> Forall (fun s => s_trace s = t) out).
  { rewrite <- E2. rewrite !Forall_map. done. }
  destruct Hall as [->|(f & Hf & Hp)].
  - split; [apply Hout; by rewrite Forall_map|]. rewrite E1. split; [done|]. exists []. split; [|by left]. intros id. split; [by right|]. intros [H|H]; [by apply elem_of_nil in H|done].
  - assert (Hpi : ids all ≡ₚ s_id f :: ids spans) by (change (s_id f :: ids spans) with (ids (f :: spans)); by apply Permutation_map).
    split; [apply Hout; rewrite Forall_map, Hp; constructor; [by destruct Hf as (_ & ? & _)|done]|]. rewrite E1. split.
    + rewrite Hpi. apply NoDup_cons. split; [by destruct Hf as (_ & _ & _ & ? & _)|done].
    + exists [s_id f]. split; [|right; by exists f]. intros id. rewrite Hpi, elem_of_cons, elem_of_list_singleton. done.
Qed.

Lemma emitted_trace evs l1 t out l2 : Forall valid_event evs -> (run evs).2 = l1 ++ LOut t (Emitted out) :: l2 ->
  Forall (fun s => s_trace s = t) out /\ NoDup (ids out) /\
  exists extra, (forall id, id ∈ ids out <-> id ∈ extra \/ id ∈ pending_ids l1 t) /\
    (extra = [] \/ exists f, extra = [s_id f] /\ injected t (merged_spans t (pending l1 t)) f).
Proof.
  intros Hv E. pose proof (run_entry _ _ _ _ Hv E) as (Hne & n1 & n2 & load & _ & Hem & _). pose proof (run_prefix _ _ _ Hv E) as Hg.
  destruct (merged_ok l1 t Hg) as [Ht _]. destruct (emission_ids _ _ _ Hem (merged_NoDup _ _) Ht) as (H1 & H2 & extra & H3 & H4).
  split; [done|]. split; [done|]. exists extra. split; [|done]. intros id. rewrite H3, merged_ids. done.
Qed.

Lemma emitted_is evs l1 t out l2 : Forall valid_event evs -> (run evs).2 = l1 ++ LOut t (Emitted out) :: l2 ->
  pending l1 t <> [] /\ emission t (merged_spans t (pending l1 t)) out.
Proof. intros Hv E. pose proof (run_entry _ _ _ _ Hv E) as (Hne & n1 & n2 & load & _ & Hem & _). done. Qed.

(** A pending span stays pending until the trace leaves. *)
Lemma status_app l1 l2 t : status (l1 ++ l2) t = foldl (track t) (status l1 t) l2.
Proof. unfold status. by rewrite foldl_app. Qed.

Lemma pending_stays l t : (forall o, LOut t o ∉ l) -> forall acc, exists more, (foldl (track t) acc l).2 = acc.2 ++ more.
Proof.
  induction l as [|e l IH]; intros Hno acc; [exists []; by rewrite app_nil_r|]. cbn [foldl].
  assert (Hno' : forall o, LOut t o ∉ l) by (intros o Ho; eapply Hno; by apply elem_of_list_further).
  destruct (IH Hno' (track t acc e)) as [more ->]. destruct acc as [b p]. destruct e as [n0 n1 s|? ? ?|t' o|t'|]; cbn [track]; try (by exists more).
  - destruct (decide _); cbn [snd]; [|by exists more]. exists ((n0, n1, s) :: more). by rewrite <- app_assoc.
  - destruct (decide _) as [->|]; [|by exists more]. exfalso. apply (Hno o), elem_of_list_here.
  - destruct (decide _); by exists more.
Qed.

Lemma received_pending l1 n0 n1 s l2 : s_trace s <> 0 -> s_id s <> 0 -> ~ blacklisted l1 (s_trace s) ->
  (forall o, LOut (s_trace s) o ∉ l2) -> (n0, n1, s) ∈ pending (l1 ++ LSpan n0 n1 s :: l2) (s_trace s).
Proof.
  intros Ht Hi Hb Hno. unfold pending. rewrite status_app. cbn [foldl].
  destruct (pending_stays l2 (s_trace s) Hno (track (s_trace s) (status l1 (s_trace s)) (LSpan n0 n1 s))) as [more ->].
  unfold blacklisted in Hb. destruct (status l1 (s_trace s)) as [b p]. cbn [track fst] in *.
  rewrite decide_True by (repeat split; try done; by destruct b). cbn [snd]. apply elem_of_app. left. apply elem_of_app. right. apply elem_of_list_here.
Qed.

Lemma not_lost evs st log l1 n0 n1 s l2 : Forall valid_event evs -> run evs = (Some st, log) -> log = l1 ++ LSpan n0 n1 s :: l2 ->
  s_trace s <> 0 -> s_id s <> 0 -> ~ blacklisted l1 (s_trace s) -> (forall o, LOut (s_trace s) o ∉ l2) ->
  exists tr, f_traces st !! s_trace s = Some tr /\ s_id s ∈ ids (t_spans tr).
Proof.
  intros Hv E El Ht Hi Hb Hno. destruct (run_inv evs Hv) as [_ Hinv]. rewrite E in Hinv. cbn [fst snd] in Hinv. destruct Hinv as [_ Hinv].
  pose proof (received_pending l1 n0 n1 s l2 Ht Hi Hb Hno) as Hp. rewrite <- El in Hp. specialize (Hinv (s_trace s)).
  destruct (f_traces st !! s_trace s) as [tr|] eqn:Etr.
  - exists tr. split; [done|]. symmetry in Hinv. apply tree_at_fields in Hinv as (_ & -> & _). apply merged_ids. apply elem_of_list_fmap. by exists (n0, n1, s).
  - destruct (pending log (s_trace s)) as [|[[? ?] ?] ?]; [by apply elem_of_nil in Hp|done].
Qed.

Lemma not_lost_emitted evs log l1 n0 n1 s l2 out l3 : Forall valid_event evs -> (run evs).2 = log ->
  log = l1 ++ LSpan n0 n1 s :: l2 ++ LOut (s_trace s) (Emitted out) :: l3 ->
  s_trace s <> 0 -> s_id s <> 0 -> ~ blacklisted l1 (s_trace s) -> (forall o, LOut (s_trace s) o ∉ l2) -> s_id s ∈ ids out.
Proof.
  intros Hv E El Ht Hi Hb Hno. rewrite El, app_comm_cons, app_assoc in E.
  destruct (emitted_trace _ _ _ _ _ Hv E) as (_ & _ & extra & H & _). apply H. right.
  apply elem_of_list_fmap. exists (n0, n1, s). split; [done|]. by apply received_pending.
Qed.

(* ---------- C38, C39 ---------- *)

Lemma emitted_idle evs l1 t out l2 : Forall valid_event evs -> (run evs).2 = l1 ++ LOut t (Emitted out) :: l2 ->
  exists n1 n2 load, last_tick l1 n1 n2 load /\ touched (pending l1 t) <= n1 - patience load /\ n2 - 5 * patience load <= started (pending l1 t).
Proof.
  intros Hv E. pose proof (run_entry _ _ _ _ Hv E) as (Hne & n1 & n2 & load & Hl & _ & _ & H1 & H2). by exists n1, n2, load.
Qed.

Lemma tick_load evs l1 n1 n2 load l2 ts : Forall valid_event evs -> (run evs).2 = l1 ++ LTick n1 n2 load :: l2 -> waiting l1 ts ->
  load = sum (fun t => small (counted t (pending l1 t))) ts.
Proof.
  intros Hv E Hts. pose proof (run_entry _ _ _ _ Hv E) as (ts' & Hts' & ->). by apply (sum_waiting l1).
Qed.

Lemma waiting_unique log ts ts' : waiting log ts -> waiting log ts' -> ts ≡ₚ ts'.
Proof. intros [N1 H1] [N2 H2]. apply NoDup_Permutation; [done..|]. intros t. by rewrite H1, H2. Qed.

Lemma discard_loop_sub l : forall n traces log, (discard_loop l n traces log).1 ⊆ traces.
Proof.
  induction l as [|[id tr] l IH]; intros n traces log; cbn [discard_loop]; [done|]. destruct (_ <? _); [done|]. etransitivity; [apply IH|]. apply delete_subseteq.
Qed.
Lemma discard_sub k traces : (discard k traces).1 ⊆ traces.
Proof. unfold discard. destruct (_ <? _); [done|]. apply discard_loop_sub. Qed.

Lemma tick_step evs k st0 log0 : Forall valid_event evs -> valid_tick k -> run evs = (Some st0, log0) ->
  inv st0 log0 /\ good log0 /\ exists st1 log1, finish_traces k st0 = (st1, log1) /\ run (evs ++ [ETick k]) = (Some st1, log0 ++ log1).
Proof.
  intros Hv Hk E. destruct (run_inv evs Hv) as [Hg Hi]. rewrite run_snoc. rewrite E in *. cbn [fst snd step] in *.
  split; [done|]. split; [done|]. destruct (finish_traces k st0) as [st1 log1]. by exists st1, log1.
Qed.

Lemma after_tick evs k st0 log0 : Forall valid_event evs -> valid_tick k -> run evs = (Some st0, log0) ->
  exists st log load, run (evs ++ [ETick k]) = (Some st, log) /\ last_tick log (k_now1 k) (k_now2 k) load /\
    (forall ts, waiting log0 ts -> load = sum (fun t => small (counted t (pending log0 t))) ts) /\
    forall t, pending log t <> [] ->
      k_now1 k - patience load < touched (pending log t) /\ k_now2 k - 5 * patience load <= started (pending log t) /\
      counted t (pending log t) <= 8192.
Proof.
  intros Hv Hk E. destruct (tick_step _ _ _ _ Hv Hk E) as (Hi & Hg & st1 & log1 & EF & ER). rewrite ER.
  destruct (finish_traces_spec k st0 log0 Hk Hi Hg) as (st' & log' & load & EF' & Hi' & _ & Hld & (x & y & Hlog & _) & (mid & Hmid & Htr) & _).
  rewrite EF in EF'. injection EF' as <- <-. exists st1, (log0 ++ log1), load. split; [done|]. split; [|split].
  - exists log0, (concat (map (verdict k (k_now1 k - patience load) (k_now2 k - 5 * patience load)) (k_range k 1 (f_traces st0))) ++
        map (fun p : Z * tree => LOut p.1 Overload) x ++ map LEvict y). split; [by rewrite Hlog|].
    apply noticks_app; [apply verdicts_noticks|]. apply noticks_app; [apply overloads_noticks|apply evicts_noticks].
  - intros ts Hts. rewrite Hld. apply (sum_waiting log0); [by apply waiting_of|done].
  - intros t Hne. destruct Hi' as [_ Hi']. specialize (Hi' t). destruct (f_traces st1 !! t) as [tr|] eqn:Et.
    2: { unfold tree_at in Hi'. destruct (pending (log0 ++ log1) t) as [|[[? ?] ?] ?]; done. }
    symmetry in Hi'. apply tree_at_fields in Hi' as (_ & _ & Ec & Es & Eu & _).
    assert (Hm : mid !! t = Some tr).
    { rewrite Htr in Et. destruct (100000 <? load); [|done]. eapply lookup_weaken; [exact Et|apply discard_sub]. }
    rewrite Hmid in Hm. destruct (f_traces st0 !! t) as [tr0|]; [|done]. destruct (kept _ _ _) eqn:Ek; [|done]. injection Hm as ->.
    unfold kept, too_large in Ek. rewrite <- Ec, <- Es, <- Eu. lia.
Qed.

Lemma patience_table n : 0 <= n ->
  patience n = (if decide (n < 40000) then seconds 8 else if decide (n < 60000) then seconds 6 else if decide (n < 80000) then seconds 4 else seconds 2).
Proof. intros H. unfold patience. by rewrite decide_False by lia. Qed.

Lemma buffer_time_table n m : 0 <= n <= m ->
  buffer_time n = (if decide (n < 40000) then seconds 8 else if decide (n < 60000) then seconds 6 else if decide (n < 80000) then seconds 4 else seconds 2) /\
  seconds 2 <= buffer_time m <= buffer_time n /\ buffer_time n <= seconds 8.
Proof.
  intros H. rewrite !buffer_time_spec. split; [apply patience_table; lia|]. rewrite !patience_table by lia. unfold seconds.
  repeat (destruct (decide _); try lia).
Qed.

(* ---------- C40 ---------- *)

Lemma blacklist_is evs st log t : Forall valid_event evs -> run evs = (Some st, log) -> (t ∈ f_black st <-> blacklisted log t).
Proof. intros Hv E. destruct (run_inv evs Hv) as [_ Hi]. rewrite E in Hi. apply Hi. Qed.

Lemma blacklisted_ignored evs st log ord n0 n1 s : Forall valid_event evs -> run evs = (Some st, log) -> blacklisted log (s_trace s) ->
  run (evs ++ [ESpan ord n0 n1 s]) = (Some st, log ++ [LSpan n0 n1 s]).
Proof.
  intros Hv E Hb. apply (blacklist_is _ _ _ _ Hv E) in Hb. rewrite run_snoc, E. cbn [fst snd step]. do 2 f_equal.
  unfold receive. destruct (_ || _); [done|]. by rewrite (bool_decide_true _ Hb).
Qed.

Lemma blacklist_bound evs k st0 log0 ts : Forall valid_event evs -> valid_tick k -> run evs = (Some st0, log0) ->
  NoDup ts -> (forall t, t ∈ ts -> blacklisted (run (evs ++ [ETick k])).2 t) -> Z.of_nat (length ts) <= 1023.
Proof.
  intros Hv Hk E Hn Hts. destruct (tick_step _ _ _ _ Hv Hk E) as (Hi & Hg & st1 & log1 & EF & ER). rewrite ER in Hts. cbn [snd] in Hts.
  destruct (finish_traces_spec k st0 log0 Hk Hi Hg) as (st' & log' & load & EF' & Hi' & _ & _ & _ & _ & Hsz).
  rewrite EF in EF'. injection EF' as <- <-.
  assert (Hsub : ts ⊆+ elements (f_black st1)).
  { apply NoDup_submseteq; [done|]. intros t Ht. apply elem_of_elements. apply Hi'. by apply Hts. }
  apply submseteq_length in Hsub. change (length (elements (f_black st1))) with (size (f_black st1)) in Hsub. lia.
Qed.

Lemma blacklisted_why evs l1 t o l2 : Forall valid_event evs -> (run evs).2 = l1 ++ LOut t o :: l2 -> dropped o = true ->
  8192 < counted t (pending l1 t) \/
  exists n1 n2 load, last_tick l1 n1 n2 load /\ started (pending l1 t) < n2 - 5 * patience load.
Proof.
  intros Hv E Hd. pose proof (run_entry _ _ _ _ Hv E) as (_ & n1 & n2 & load & Hl & H). destruct o; try done; [by left|right]. destruct H as [_ H]. by exists n1, n2, load.
Qed.

Lemma evicted_when_full evs l1 t l2 : Forall valid_event evs -> (run evs).2 = l1 ++ LEvict t :: l2 ->
  blacklisted l1 t /\ exists ts, NoDup ts /\ (forall u, u ∈ ts <-> blacklisted l1 u) /\ 1024 <= Z.of_nat (length ts).
Proof. intros Hv E. exact (run_entry _ _ _ _ Hv E). Qed.

(* ---------- C41, C42 ---------- *)

Lemma total_delete m id tr : m !! id = Some tr -> total (delete id m) = total m - t_count tr.
Proof.
  intros H. unfold total. rewrite <- (sum_perm (fun p => t_count p.2) _ _ (map_to_list_delete m id tr H)). cbn [foldr snd]. lia.
Qed.

Lemma discard_loop_spec l : forall n traces log, l ≡ₚ map_to_list traces -> n = total traces -> 
  exists removed rest, l = removed ++ rest /\ rest ≡ₚ map_to_list (discard_loop l n traces log).1 /\
    (discard_loop l n traces log).2 = log ++ map (fun p => LOut p.1 Overload) removed /\
    total (discard_loop l n traces log).1 < maxSpans /\
    ((removed = [] /\ n < maxSpans) \/ exists r p, removed = r ++ [p] /\ maxSpans <= total (discard_loop l n traces log).1 + t_count p.2).
Proof.
  induction l as [|[id tr] l IH]; intros n traces log Hl Hn; cbn [discard_loop].
  - exists [], []. split; [done|]. split; [done|]. rewrite app_nil_r. split; [done|]. unfold total. cbn [fst]. apply Permutation_nil in Hl.
    unfold total in Hn. rewrite Hl in *. cbn in *. split; [done|]. left. unfold maxSpans. split; [done|]. lia.
  - destruct (Z.ltb_spec n maxSpans) as [Hlt|Hge].
    + exists [], ((id, tr) :: l). split; [done|]. split; [done|]. rewrite app_nil_r. split; [done|]. cbn [fst]. split; [lia|]. by left.
    + assert (Hid : traces !! id = Some tr) by (apply elem_of_map_to_list; rewrite <- Hl; apply elem_of_list_here).
      destruct (IH (n - t_count tr) (delete id traces) (log ++ [LOut id Overload])) as (removed & rest & E1 & E2 & E3 & E4 & E5).
      { apply Permutation_cons_inv with (id, tr). by rewrite Hl, map_to_list_delete. }
      { rewrite (total_delete _ _ _ Hid). lia. }
      exists ((id, tr) :: removed), rest. split; [by rewrite E1|]. split; [done|]. split; [rewrite E3, <- app_assoc; done|]. split; [done|]. right.
      destruct E5 as [[-> E5]|(r & p & -> & E5)].
      * exists [], (id, tr). split; [done|]. cbn [snd]. cbn [app] in E1. subst l. rewrite E2 in *.
        assert (Et : total (discard_loop rest (n - t_count tr) (delete id traces) (log ++ [LOut id Overload])).1 = total (delete id traces)).
        { destruct rest as [|[id' tr'] rest]; cbn [discard_loop]; [done|]. destruct (Z.ltb_spec (n - t_count tr) maxSpans); [done|lia]. }
        rewrite Et, (total_delete _ _ _ Hid). lia.
      * exists ((id, tr) :: r), p. done.
Qed.

Lemma discard_spec k traces : valid_tick k ->
  let '(rest, log) := discard k traces in
  if decide (total traces < maxSpans) then rest = traces /\ log = []
  else total rest < maxSpans /\ rest ⊆ traces /\
    (forall id tr, traces !! id = Some tr -> (LOut id Overload ∈ log <-> rest !! id = None)) /\
    (forall id tr id' tr', traces !! id = Some tr -> rest !! id = None -> rest !! id' = Some tr' -> t_count tr' <= t_count tr) /\
    (exists id tr, last log = Some (LOut id Overload) /\ traces !! id = Some tr /\ maxSpans <= total rest + t_count tr).
Proof.
  intros (_ & Hr & _ & Hs). unfold discard.
  assert (Et : foldl (fun n (p : Z * tree) => n + t_count p.2) 0 (k_range k 2 traces) = total traces).
  { rewrite (count_loop t_count), Z.add_0_l. apply (sum_perm (fun p => t_count p.2)), Hr. }
  rewrite Et. destruct (Z.ltb_spec (total traces) maxSpans) as [Hlt|Hge]; [by cbv iota beta; rewrite decide_True by lia|].
  destruct (Hs (k_range k 2 traces)) as [Hp0 Hsort]. assert (Hp : k_sort k (k_range k 2 traces) ≡ₚ map_to_list traces) by (rewrite Hp0; apply Hr).
  pose proof (discard_loop_sub (k_sort k (k_range k 2 traces)) (total traces) traces []) as Hsub.
  destruct (discard_loop_spec (k_sort k (k_range k 2 traces)) (total traces) traces [] Hp eq_refl) as (removed & rest & E1 & E2 & E3 & E4 & E5).
  destruct (discard_loop _ _ _ _) as [m log]. rewrite decide_False by lia. cbn [fst snd] in *. split; [done|]. split; [done|].
  assert (Hnd : NoDup (removed ++ rest).*1) by (rewrite <- E1, Hp; apply NoDup_fst_map_to_list).
  assert (Hrest : forall id tr, m !! id = Some tr <-> (id, tr) ∈ rest) by (intros id tr; rewrite E2; by rewrite elem_of_map_to_list).
  assert (Hall : forall id tr, traces !! id = Some tr <-> (id, tr) ∈ removed \/ (id, tr) ∈ rest).
  { intros id tr. rewrite <- elem_of_app, <- E1, Hp. by rewrite elem_of_map_to_list. }
  assert (Hdis : forall id tr tr', (id, tr) ∈ removed -> (id, tr') ∈ rest -> False).
  { intros id tr tr' H1 H2. rewrite fmap_app in Hnd. apply NoDup_app in Hnd as (_ & Hnd & _). apply (Hnd id); apply elem_of_list_fmap; [by exists (id, tr)|by exists (id, tr')]. }
  split; [|split].
  - intros id tr Hid. rewrite E3. cbn [app]. rewrite elem_of_list_fmap. split.
    + intros ([id' tr'] & [= <-] & Hin). destruct (m !! id) as [x|] eqn:Ex; [|done]. apply Hrest in Ex. exfalso. by eapply Hdis.
    + intros Hnone. apply Hall in Hid as [Hid|Hid]; [by exists (id, tr)|]. apply Hrest in Hid. congruence.
  - intros id tr id' tr' Hid Hnone Hid'. apply Hrest in Hid'. apply Hall in Hid as [Hid|Hid]; [|apply Hrest in Hid; congruence].
    rewrite E1 in Hsort. apply StronglySorted_app in Hsort as (Hsort & _ & _). apply (Hsort (id, tr) (id', tr')); done.
  - destruct E5 as [[_ E5]|(r & [id tr] & -> & E5)]; [lia|]. exists id, tr. split; [|split].
    + rewrite E3. cbn [app]. rewrite map_app. cbn [map fst]. apply last_snoc.
    + apply Hall. left. apply elem_of_app. right. apply elem_of_list_here.
    + done.
Qed.

Lemma foldr_sum_app {A} (f : A -> Z) l l' : foldr (fun x n => f x + n) 0 (l ++ l') = foldr (fun x n => f x + n) 0 l + foldr (fun x n => f x + n) 0 l'.
Proof. induction l as [|x l IH]; cbn [app foldr]; [lia|]. rewrite IH. lia. Qed.

Lemma foldr_sum_le {A} (f g : A -> Z) l : (forall x, x ∈ l -> f x <= g x) -> foldr (fun x n => f x + n) 0 l <= foldr (fun x n => g x + n) 0 l.
Proof.
  induction l as [|x l IH]; intros H; cbn [foldr]; [lia|]. specialize (H x (elem_of_list_here _ _)) as Hx.
  assert (foldr (fun x n => f x + n) 0 l <= foldr (fun x n => g x + n) 0 l) by (apply IH; intros y Hy; apply H; by apply elem_of_list_further). lia.
Qed.

Lemma foldr_sum_nonneg {A} (f : A -> Z) l : (forall x, x ∈ l -> 0 <= f x) -> 0 <= foldr (fun x n => f x + n) 0 l.
Proof.
  intros H. etransitivity; [|apply (foldr_sum_le (fun _ => 0) f); done]. clear. induction l; cbn [foldr]; lia.
Qed.

Lemma total_sum st log ts : inv st log -> waiting log ts -> total (f_traces st) = sum (fun t => counted t (pending log t)) ts.
Proof.
  intros Hi Hts. unfold total. rewrite (sum_trees st log t_count counted _ Hi (Permutation_refl _)).
  - apply (sum_waiting log); [by apply waiting_of|done].
  - intros t tr Ht. destruct Hi as [_ Hi]. rewrite Hi in Ht. by apply tree_at_fields in Ht as (_ & _ & -> & _).
Qed.

Lemma inflight_bound evs k st0 log0 ts : Forall valid_event evs -> valid_tick k -> run evs = (Some st0, log0) ->
  let log := (run (evs ++ [ETick k])).2 in
  waiting log ts -> sum (fun t => counted t (pending log t)) ts <= 100000.
Proof.
  intros Hv Hk E log. destruct (tick_step _ _ _ _ Hv Hk E) as (Hi & Hg & st1 & log1 & EF & ER). unfold log. rewrite ER. cbn [snd]. intros Hts.
  destruct (finish_traces_spec k st0 log0 Hk Hi Hg) as (st' & log' & load & EF' & Hi' & _ & Hld & _ & (mid & Hmid & Htr) & _).
  rewrite EF in EF'. injection EF' as <- <-. rewrite <- (total_sum _ _ _ Hi' Hts), Htr. destruct (Z.ltb_spec 100000 load) as [Hgt|Hle].
  - pose proof (discard_spec k mid Hk) as HD. destruct (discard k mid) as [rest logd]. cbn [fst]. unfold maxSpans in HD.
    destruct (decide _); [destruct HD as [-> _]; lia|]. destruct HD as [? _]. lia.
  - etransitivity; [|exact Hle].
    assert (Hsmall : load = foldr (fun p n => small (t_count p.2) + n) 0 (map_to_list (f_traces st0))).
    { rewrite Hld. symmetry. apply (sum_trees st0 log0 (fun tr => small (t_count tr)) (fun t a => small (counted t a)) _ Hi (Permutation_refl _)).
      intros t tr Ht. destruct Hi as [_ Hi]. rewrite Hi in Ht. by apply tree_at_fields in Ht as (_ & _ & -> & _). }
    rewrite Hsmall. unfold total.
    assert (Hsub : map_to_list mid ⊆+ map_to_list (f_traces st0)).
    { apply NoDup_submseteq; [apply NoDup_map_to_list|]. intros [t tr] Ht. apply elem_of_map_to_list in Ht. apply elem_of_map_to_list. rewrite Hmid in Ht.
      destruct (f_traces st0 !! t); [|done]. destruct (kept _ _ _); [congruence|done]. }
    apply submseteq_Permutation in Hsub as [rest Hp]. rewrite (sum_perm (fun p => small (t_count p.2)) _ _ Hp), (foldr_sum_app (fun p => small (t_count p.2))).
    assert (Hpos : 0 <= foldr (fun p n => small (t_count p.2) + n) 0 rest).
    { apply (foldr_sum_nonneg (fun p : Z * tree => small (t_count p.2))). intros [t tr] Hin. cbn [snd].
      assert (Ht : (t, tr) ∈ map_to_list (f_traces st0)) by (rewrite Hp; apply elem_of_app; by right). apply elem_of_map_to_list in Ht.
      destruct Hi as [_ Hi]. rewrite Hi in Ht. apply tree_at_fields in Ht as (_ & _ & -> & _). pose proof (counted_nonneg t (pending log0 t)). unfold small. destruct (decide _); lia. }
    enough (foldr (fun p n => t_count p.2 + n) 0 (map_to_list mid) <= foldr (fun p n => small (t_count p.2) + n) 0 (map_to_list mid)) by lia.
    apply (foldr_sum_le (fun p : Z * tree => t_count p.2) (fun p => small (t_count p.2))). intros [t tr] Ht. apply elem_of_map_to_list in Ht. rewrite Hmid in Ht. cbn [snd].
    destruct (f_traces st0 !! t); [|done]. destruct (kept _ _ _) eqn:Ek; [|done]. injection Ht as ->. unfold kept, too_large in Ek. unfold small. rewrite decide_True; lia.
Qed.

(** Guarded by the counter's range: the real number of spans. *)
Lemma inflight_bound_real evs k st0 log0 ts : Forall valid_event evs -> valid_tick k -> run evs = (Some st0, log0) ->
  let log := (run (evs ++ [ETick k])).2 in
  waiting log ts -> (forall t, Z.of_nat (length (merged_spans t (pending log t))) < 2^16) ->
  sum (fun t => Z.of_nat (length (merged_spans t (pending log t)))) ts <= 100000.
Proof.
  intros Hv Hk E log Hts Hsm. etransitivity; [|apply (inflight_bound evs k st0 log0 ts Hv Hk E Hts)]. fold log.
  unfold sum. apply (foldr_sum_le (fun t => Z.of_nat (length (merged_spans t (pending log t))))). intros t _.
  unfold counted. rewrite Z.mod_small; [lia|]. specialize (Hsm t). lia.
Qed.

(* ---------- C43 ---------- *)

Lemma oversized evs l1 t out l2 : Forall valid_event evs -> (run evs).2 = l1 ++ LOut t (Emitted out) :: l2 ->
  Z.of_nat (length (merged_spans t (pending l1 t))) < 2^16 -> Z.of_nat (length (merged_spans t (pending l1 t))) <= 8192.
Proof.
  intros Hv E Hs. pose proof (run_entry _ _ _ _ Hv E) as (_ & n1 & n2 & load & _ & _ & Hc & _). unfold counted in Hc. rewrite Z.mod_small in Hc; lia.
Qed.

(* ---------- C45 ---------- *)

Lemma find_roots_ord ord ord' now now' t : map_order ord -> map_order ord' ->
  t_spans (find_roots ord now t).1 = t_spans (find_roots ord' now' t).1 /\ (find_roots ord now t).2 = (find_roots ord' now' t).2.
Proof.
  intros Ho Ho'. unfold find_roots. destruct (omap _ _) as [|s0 [|s1 rest]]; [done..|]. destruct (all_the_same_parent _ _); [|done].
  cbn [fst snd]. rewrite (add_span_ord ord), (add_span_ord ord') by done.
  assert (E : t_spans (add_span map_to_list now (create_fake_root s0 (s1 :: rest)) t) = t_spans (add_span map_to_list now' (create_fake_root s0 (s1 :: rest)) t)).
  { unfold add_span. by destruct (get_span_ref _ _). }
  by rewrite E.
Qed.

Lemma verdict_ord k k' du ds p : map_order (k_ord k) -> map_order (k_ord k') -> verdict k du ds p = verdict k' du ds p.
Proof.
  intros Ho Ho'. destruct p as [id t]. unfold verdict. destruct (kept du ds t); [done|]. destruct (too_large t); [done|]. destruct (_ <? ds); [done|].
  destruct (find_roots_ord (k_ord k) (k_ord k') (k_fake k id) (k_fake k' id) t Ho Ho') as [E1 E2].
  destruct (find_roots (k_ord k) _ t) as [t1 r1], (find_roots (k_ord k') _ t) as [t2 r2]. cbn [fst snd] in *. by rewrite E1, E2.
Qed.

Lemma verdict_finished k du ds p : Forall (fun e => finished e = true) (verdict k du ds p).
Proof.
  destruct p as [id t]. unfold verdict. destruct (kept du ds t); [constructor|]. destruct (too_large t); [by repeat constructor|]. destruct (_ <? ds); [by repeat constructor|].
  destruct (find_roots _ _ _) as [t' [|r [|r' rs]]]; try by repeat constructor. destruct (correct _ _ _ _ _) as [[? ?]|]; by repeat constructor.
Qed.

Lemma finished_filter k st log0 load x y : let vs := concat (map (verdict k (k_now1 k - patience load) (k_now2 k - 5 * patience load)) (k_range k 1 (f_traces st))) in
  log0 = LTick (k_now1 k) (k_now2 k) load :: vs ++ map (fun p : Z * tree => LOut p.1 Overload) x ++ map LEvict y ->
  List.filter finished log0 = vs.
Proof.
  intros vs ->. cbn [List.filter finished]. rewrite !List.filter_app.
  assert (E1 : List.filter finished (map (fun p : Z * tree => LOut p.1 Overload) x) = []) by (clear; induction x; done).
  assert (E2 : List.filter finished (map LEvict y) = []) by (clear; induction y; done).
  rewrite E1, E2, !app_nil_r. unfold vs. clear. induction (k_range k 1 (f_traces st)) as [|p l IH]; [done|]. cbn [map concat]. rewrite List.filter_app, IH. f_equal.
  pose proof (verdict_finished k (k_now1 k - patience load) (k_now2 k - 5 * patience load) p) as H. induction H as [|e l' He _ IH']; [done|]. cbn [List.filter]. by rewrite He, IH'.
Qed.

Lemma order_free evs k k' st0 log0 : Forall valid_event evs -> valid_tick k -> valid_tick k' -> k_now1 k = k_now1 k' -> k_now2 k = k_now2 k' ->
  run evs = (Some st0, log0) ->
  exists st1 st2 log1 log2 load, finish_traces k st0 = (st1, LTick (k_now1 k) (k_now2 k) load :: log1) /\
    finish_traces k' st0 = (st2, LTick (k_now1 k) (k_now2 k) load :: log2) /\
    List.filter finished log1 ≡ₚ List.filter finished log2 /\ (load <= 100000 -> f_traces st1 = f_traces st2).
Proof.
  intros Hv Hk Hk' E1 E2 E. destruct (run_inv evs Hv) as [Hg Hi]. rewrite E in *. cbn [fst snd] in *.
  destruct (finish_traces_spec k st0 log0 Hk Hi Hg) as (st1 & log1 & load & EF1 & _ & _ & Hld & (x & y & Hlog & Hx) & (mid & Hmid & Htr) & _).
  destruct (finish_traces_spec k' st0 log0 Hk' Hi Hg) as (st2 & log2 & load' & EF2 & _ & _ & Hld' & (x' & y' & Hlog' & Hx') & (mid' & Hmid' & Htr') & _).
  assert (load' = load) as -> by congruence. pose proof (finished_filter _ _ _ _ _ _ Hlog) as F1. pose proof (finished_filter _ _ _ _ _ _ Hlog') as F2.
  rewrite Hlog in EF1, F1. rewrite Hlog' in EF2, F2. rewrite EF1, EF2. cbn [List.filter finished] in F1, F2. rewrite <- E1, <- E2 in *.
  eexists st1, st2, _, _, load. split; [done|]. split; [done|]. split.
  - rewrite F1, F2. destruct Hk as (Ho & Hr & _), Hk' as (Ho' & Hr' & _).
    assert (Hp : k_range k 1 (f_traces st0) ≡ₚ k_range k' 1 (f_traces st0)) by (by rewrite Hr, Hr').
    assert (Ev : forall l, map (verdict k (k_now1 k - patience load) (k_now2 k - 5 * patience load)) l = map (verdict k' (k_now1 k - patience load) (k_now2 k - 5 * patience load)) l).
    { intros l. apply map_ext. intros p. by apply verdict_ord. }
    rewrite Ev. clear -Hp. induction Hp; cbn [map concat]; [done|by rewrite IHHp|by rewrite !app_assoc, (Permutation_app_comm (verdict _ _ _ y))|by rewrite IHHp1].
  - intros Hle. rewrite Htr, Htr'. destruct (Z.ltb_spec 100000 load); [lia|]. apply map_eq. intros id. by rewrite Hmid, Hmid'.
Qed.

Lemma outcome_reason evs l1 t o l2 : Forall valid_event evs -> (run evs).2 = l1 ++ LOut t o :: l2 -> entry_ok l1 (LOut t o).
Proof. apply run_entry. Qed.

(* ---------- C44, guarded ---------- *)

Lemma close_guarded evs st log l1 n0 n1 s l2 : Forall valid_event evs -> run evs = (Some st, log) -> f_traces st = ∅ ->
  (run (evs ++ [EClose])).2 = l1 ++ LSpan n0 n1 s :: l2 ->
  s_trace s <> 0 -> s_id s <> 0 -> ~ blacklisted l1 (s_trace s) -> exists o, LOut (s_trace s) o ∈ l2 /\ o <> Stuck.
Proof.
  intros Hv E Hem Hlog Ht Hi Hb. assert (Hv' : Forall valid_event (evs ++ [EClose])) by (apply Forall_app; split; [done|by apply Forall_singleton]).
  assert (Hlog' := Hlog). rewrite run_snoc, E in Hlog. cbn [fst snd step] in Hlog.
  destruct l2 as [|x l2 _] using rev_ind.
  { apply app_inj_tail in Hlog as [_ ?]. done. }
  rewrite app_comm_cons, app_assoc in Hlog. apply app_inj_tail in Hlog as [-> <-].
  assert (Hdec : forall o, (LOut (s_trace s) o ∈ l2) -> exists o, LOut (s_trace s) o ∈ l2 ++ [LClose] /\ o <> Stuck).
  { intros o Ho. exists o. split; [apply elem_of_app; by left|]. intros ->. apply elem_of_list_split in Ho as (a & b & ->).
    rewrite <- app_assoc, app_comm_cons, app_assoc in Hlog'. rewrite <- app_comm_cons in Hlog'.
    pose proof (run_entry _ _ _ _ Hv' Hlog') as (_ & ? & ? & ? & _ & []). }
  destruct (existsb (fun e => match e with LOut t _ => t =? s_trace s | _ => false end) l2) eqn:Hex.
  - apply existsb_exists in Hex as (e & He & Hm). destruct e as [| |t o| |]; try done. apply Z.eqb_eq in Hm as ->.
    apply (Hdec o). by apply elem_of_list_In.
  - exfalso. destruct (not_lost evs st (l1 ++ LSpan n0 n1 s :: l2) l1 n0 n1 s l2) as (tr & Htr & _); try done.
    + intros o Ho. apply not_true_iff_false in Hex. apply Hex, existsb_exists. exists (LOut (s_trace s) o).
      split; [by apply elem_of_list_In|apply Z.eqb_refl].
    + by rewrite Hem in Htr.
Qed.

Lemma quiet_tick_empties evs k st0 log0 : Forall valid_event evs -> valid_tick k -> run evs = (Some st0, log0) ->
  (forall t, touched (pending log0 t) <= k_now1 k - seconds 8) ->
  exists st log, run (evs ++ [ETick k]) = (Some st, log) /\ f_traces st = ∅.
Proof.
  intros Hv Hk E Hq. destruct (tick_step _ _ _ _ Hv Hk E) as (Hi & Hg & st1 & log1 & EF & ER). rewrite ER. exists st1, (log0 ++ log1). split; [done|].
  destruct (finish_traces_spec k st0 log0 Hk Hi Hg) as (st' & log' & load & EF' & Hi' & _ & Hld & _ & (mid & Hmid & Htr) & _).
  rewrite EF in EF'. injection EF' as <- <-.
  assert (Hm : mid = ∅).
  { apply map_eq. intros t. rewrite Hmid, lookup_empty. destruct (f_traces st0 !! t) as [tr|] eqn:Et; [|done].
    destruct Hi as [_ Hi]. rewrite Hi in Et. apply tree_at_fields in Et as (_ & _ & _ & _ & Eu & _). specialize (Hq t).
    assert (patience load <= seconds 8) by (unfold patience, seconds; repeat (destruct (decide _); try lia)).
    unfold kept. destruct (Z.ltb_spec (k_now1 k - patience load) (t_updated tr)); [lia|]. by rewrite andb_false_r. }
  rewrite Htr. destruct (100000 <? load); [|done]. apply map_eq. intros t. rewrite lookup_empty.
  destruct ((discard k mid).1 !! t) as [tr|] eqn:Et; [|done]. apply (lookup_weaken _ mid) in Et; [|apply discard_sub]. by rewrite Hm in Et.
Qed.
