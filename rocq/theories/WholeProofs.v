(** Proofs for C42 (runs), C71, C72. *)
From Coq Require Import Sorted.
From Verif Require Import Base IdModel SpanModel TreeModel TreeSpec TreeProofs FinishModel FinishSpec FinishProofs FinishRun FinishTheorems WholeSpec.

(* ---------- clocks ---------- *)

Lemma steady_le l1 e1 l2 e2 l3 a b : steady (l1 ++ e1 :: l2 ++ e2 :: l3) -> a ∈ readings e1 -> b ∈ readings e2 -> a <= b.
Proof.
  unfold steady. intros H Ha Hb. rewrite map_app, concat_app in H. apply StronglySorted_app in H as (_ & _ & H).
  cbn [map concat] in H. apply StronglySorted_app in H as (H & _ & _). apply H; [done|].
  rewrite map_app, concat_app, elem_of_app. right. cbn [map concat]. apply elem_of_app. by left.
Qed.

Lemma steady_split l1 e1 l2 e2 a b : steady (l1 ++ l2) -> e1 ∈ l1 -> e2 ∈ l2 -> a ∈ readings e1 -> b ∈ readings e2 -> a <= b.
Proof.
  intros H H1 H2 Ha Hb. apply elem_of_list_split in H1 as (x & y & ->). apply elem_of_list_split in H2 as (u & v & ->).
  apply (steady_le x e1 (y ++ u) e2 v); [|done..]. rewrite <- !app_assoc in H. rewrite <- app_assoc. exact H.
Qed.

(* ---------- additions ---------- *)

Lemma additions_app t a b : additions t (a ++ b) = additions t a ++ additions t b.
Proof. apply omap_app. Qed.

Lemma additions_elem t log x : x ∈ additions t log <-> LSpan x.1.1 x.1.2 x.2 ∈ log /\ s_trace x.2 = t /\ s_id x.2 <> 0.
Proof.
  unfold additions. rewrite elem_of_list_omap. split.
  - intros ([n0 n1 s| | | |] & Hin & E); try done. destruct (decide _) as [[? ?]|]; [|done]. injection E as <-. done.
  - intros (Hin & Ht & Hi). eexists. split; [exact Hin|]. cbn. rewrite decide_True by done. by destruct x as [[? ?] ?].
Qed.

(** A trace that has not left the buffer waits with all its spans. *)
Lemma pending_additions t log : t <> 0 -> (forall o, LOut t o ∉ log) -> status log t = (false, additions t log).
Proof.
  intros Ht. induction log as [|e log IH] using rev_ind; intros Hno; [done|].
  rewrite status_snoc, IH by (intros o Ho; apply (Hno o); apply elem_of_app; by left). rewrite additions_app.
  destruct e as [n0 n1 s|n1 n2 load|t' o|t'|]; cbn [track additions omap list_omap]; rewrite ?app_nil_r; try done.
  - destruct (decide (s_trace s = t /\ s_id s <> 0)) as [[H1 H2]|Hn].
    + by rewrite decide_True.
    + rewrite decide_False by (intros (? & _ & ? & _); by apply Hn). by rewrite app_nil_r.
  - destruct (decide (t' = t)) as [->|]; [|done]. exfalso. apply (Hno o). apply elem_of_app. right. apply elem_of_list_here.
  - by destruct (decide (t' = t)).
Qed.

(** Without further spans a trace that has left stays away. *)
Lemma pending_none t l : additions t l = [] -> forall b, (foldl (track t) (b, []) l).2 = [].
Proof.
  induction l as [|e l IH]; intros Ha b; [done|]. cbn [foldl]. change (e :: l) with ([e] ++ l) in Ha. rewrite additions_app in Ha.
  apply app_eq_nil in Ha as [He Hl]. destruct e as [n0 n1 s|n1 n2 load|t' o|t'|]; cbn [track]; try (by apply IH).
  - destruct (decide _) as [(H1 & _ & H2 & _)|]; [|by apply IH]. cbn in He. by rewrite decide_True in He.
  - destruct (decide _); by apply IH.
  - destruct (decide _); by apply IH.
Qed.

Lemma counted_additions t a : counted t a <= Z.of_nat (length a).
Proof.
  unfold counted. transitivity (Z.of_nat (length (merged_spans t a))); [apply Z.mod_le; [lia|done]|].
  assert (H : ids (merged_spans t a) ⊆+ map (fun a => s_id a.2) a) by (apply NoDup_submseteq; [apply merged_NoDup|]; intros id; by rewrite merged_ids).
  apply submseteq_length in H. unfold ids in H. rewrite !map_length in H. apply Nat2Z.inj_le. exact H.
Qed.

(** The first time an entry with a property occurs. *)
Lemma first_such {A} (P : A -> bool) l : existsb P l = true -> exists a x b, l = a ++ x :: b /\ P x = true /\ forall y, y ∈ a -> P y = false.
Proof.
  induction l as [|y l IH]; [done|]. cbn [existsb]. destruct (P y) eqn:Ey.
  - intros _. exists [], y, l. split; [done|]. split; [done|]. intros z Hz. by apply elem_of_nil in Hz.
  - cbn [orb]. intros H. destruct (IH H) as (a & x & b & -> & Hx & Ha). exists (y :: a), x, b. split; [done|]. split; [done|].
    intros z Hz. apply elem_of_cons in Hz as [->|Hz]; [done|by apply Ha].
Qed.

Definition is_out (t : Z) (e : entry) : bool := match e with LOut t' _ => t' =? t | _ => false end.
Lemma is_out_true t e : is_out t e = true -> exists o, e = LOut t o.
Proof. destruct e; cbn; try done. intros ->%Z.eqb_eq. by eexists. Qed.
Lemma is_out_none t (l : list entry) : (forall y, y ∈ l -> is_out t y = false) -> forall o, LOut t o ∉ l.
Proof. intros H o Ho. apply H in Ho. cbn in Ho. by rewrite Z.eqb_refl in Ho. Qed.

Lemma last_tick_in log n1 n2 load : last_tick log n1 n2 load -> LTick n1 n2 load ∈ log.
Proof. intros (a & b & -> & _). apply elem_of_app. right. apply elem_of_list_here. Qed.

(* ---------- C71: not split ---------- *)

Section split.
  Context (evs : list event) (t p : Z).
  Let log := (run evs).2.
  Context (Hv : Forall valid_event evs) (Ht : t <> 0) (Hs : steady log) (Hb : brisk p (additions t log)) (Hc : calm p log)
    (Hn : Z.of_nat (length (additions t log)) <= 8192).

  Lemma first_out a o b : log = a ++ LOut t o :: b -> (forall o', LOut t o' ∉ a) -> additions t b = [].
  Proof.
    intros E Hno. unfold log in *. pose proof (run_entry _ _ _ _ Hv E) as (Hne & n1 & n2 & load & Hl & Hr).
    assert (Hp : pending a t = additions t a) by (unfold pending; by rewrite pending_additions).
    destruct (additions t b) as [|y ys] eqn:Eb; [done|exfalso].
    pose proof (last_tick_in _ _ _ _ Hl) as Hin.
    assert (Hin' : LTick n1 n2 load ∈ (run evs).2) by (rewrite E; apply elem_of_app; by left).
    destruct (Hc _ _ _ Hin') as [Hld Hpat].
    assert (Hy : y ∈ additions t b) by (rewrite Eb; apply elem_of_list_here). apply additions_elem in Hy as (Hy & _).
    assert (Hle : forall c, c ∈ [n1; n2] -> c <= y.1.2).
    { intros c Hcc. rewrite E in Hs. apply (steady_split a (LTick n1 n2 load) (LOut t o :: b) (LSpan y.1.1 y.1.2 y.2) c y.1.2 Hs); [done| |done|].
      - by apply elem_of_list_further.
      - cbn. apply elem_of_list_further, elem_of_list_here. }
    assert (Eall : additions t (run evs).2 = additions t a ++ y :: ys).
    { rewrite E, additions_app. change (LOut t o :: b) with ([LOut t o] ++ b). rewrite additions_app, Eb. done. }
    assert (H1 : n1 <= y.1.2) by (apply Hle, elem_of_list_here). assert (H2 : n2 <= y.1.2) by (apply Hle, elem_of_list_further, elem_of_list_here).
    destruct Hb as [Hgap Hspread]. rewrite Eall in Hgap, Hspread, Hn. rewrite Hp in *.
    assert (Hidle : touched (additions t a) <= n1 - patience load -> False).
    { intros Hid. destruct (additions t a) as [|x xs _] using rev_ind; [done|]. unfold touched in Hid. rewrite last_snoc in Hid.
      destruct x as [[x0 x1] xs']. specialize (Hgap xs (x0, x1, xs') y ys). rewrite <- app_assoc in Hgap. specialize (Hgap eq_refl). cbn [fst snd] in Hgap. lia. }
    assert (Hold : started (additions t a) < n2 - 5 * patience load -> False).
    { intros Hid. destruct (additions t a) as [|[[x0 x1] xs'] xs]; [done|]. cbn [started] in Hid.
      specialize (Hspread (x0, x1, xs') y). cbn [fst snd] in Hspread. assert (y.1.2 - x0 <= 5 * p); [|lia].
      apply Hspread; [apply elem_of_list_here|]. apply elem_of_app. right. apply elem_of_list_here. }
    pose proof (counted_additions t (additions t a)) as Hcnt. rewrite app_length in Hn.
    destruct o; [by apply Hidle, Hr|lia|by apply Hold, Hr|by apply Hidle, Hr|lia|done].
  Qed.

  Lemma not_split l1 o l2 : log = l1 ++ LOut t o :: l2 ->
    (forall o', LOut t o' ∉ l1) /\ (forall o', LOut t o' ∉ l2) /\ additions t l2 = [] /\ pending l1 t = additions t log /\
    match o with
    | Emitted out => emission t (merged_spans t (additions t log)) out
    | NoRoot => ~ exists out, emission t (merged_spans t (additions t log)) out
    | TooOld => exists n1 n2 load, last_tick l1 n1 n2 load /\ started (additions t log) + 5 * patience load < n2
    | _ => False
    end.
  Proof.
    intros E.
    assert (Hex : existsb (is_out t) log = true).
    { rewrite E. apply existsb_exists. exists (LOut t o). split; [|by cbn; rewrite Z.eqb_refl]. apply in_app_iff. right. by left. }
    destruct (first_such _ _ Hex) as (a & x & b & E' & Hx & Ha). apply is_out_true in Hx as [o' ->].
    pose proof (is_out_none t a Ha) as Hno. pose proof (first_out a o' b E' Hno) as Hab.
    assert (Hnob : forall o'', LOut t o'' ∉ b).
    { intros o'' Ho. apply elem_of_list_split in Ho as (u & v & ->).
      assert (E2 : (run evs).2 = (a ++ LOut t o' :: u) ++ LOut t o'' :: v) by (rewrite <- app_assoc; exact E').
      pose proof (run_entry _ _ _ _ Hv E2) as (Hne & _). apply Hne. unfold pending. rewrite status_app. cbn [foldl].
      destruct (status a t) as [bl pe]. cbn [track]. rewrite decide_True by done. apply pending_none.
      rewrite additions_app in Hab. by apply app_eq_nil in Hab as [? _]. }
    assert (l1 = a /\ o = o' /\ l2 = b) as (-> & -> & ->).
    { rewrite E' in E. symmetry in E. clear -E Hno Hnob. revert a E Hno. induction l1 as [|e l1 IH]; intros [|e' a] E Hno; cbn in E.
      - by injection E as -> ->.
      - injection E as <- E. exfalso. apply (Hno o), elem_of_list_here.
      - injection E as -> E. exfalso. apply (Hnob o). rewrite <- E. apply elem_of_app. right. apply elem_of_list_here.
      - injection E as -> E. destruct (IH a E) as (-> & -> & ->); [|done]. intros o2 Ho2. apply (Hno o2). by apply elem_of_list_further. }
    assert (Hp : pending a t = additions t log).
    { unfold pending. rewrite pending_additions by done. cbn [snd]. rewrite E, additions_app. change (LOut t o' :: b) with ([LOut t o'] ++ b).
      rewrite additions_app, Hab. cbn. by rewrite app_nil_r. }
    split; [done|]. split; [done|]. split; [done|]. split; [exact Hp|].
    pose proof (run_entry _ _ _ _ Hv E) as (Hne & n1 & n2 & load & Hl & Hr). rewrite Hp in Hr.
    pose proof (counted_additions t (additions t log)) as Hcnt.
    assert (Hin' : LTick n1 n2 load ∈ (run evs).2) by (fold log; rewrite E; apply elem_of_app; left; by apply last_tick_in).
    destruct (Hc _ _ _ Hin') as [Hld _].
    destruct o'; [apply Hr|lia| |apply Hr|lia|done]. exists n1, n2, load. split; [done|]. destruct Hr. lia.
  Qed.
End split.

(* ---------- C71: emitted in time ---------- *)

Lemma in_time evs k st0 log0 t ts load : Forall valid_event evs -> valid_tick k -> run evs = (Some st0, log0) -> t <> 0 ->
  (forall o, LOut t o ∉ log0) -> additions t log0 <> [] -> Z.of_nat (length (additions t log0)) <= 8192 ->
  waiting log0 ts -> load = sum (fun t => small (counted t (pending log0 t))) ts ->
  touched (additions t log0) + patience load <= k_now1 k -> k_now2 k <= started (additions t log0) + 5 * patience load ->
  exists l1 o l2, (run (evs ++ [ETick k])).2 = log0 ++ l1 ++ LOut t o :: l2 /\ (forall o', LOut t o' ∉ l1) /\
    match o with
    | Emitted out => emission t (merged_spans t (additions t log0)) out
    | NoRoot => ~ exists out, emission t (merged_spans t (additions t log0)) out
    | _ => False
    end.
Proof.
  intros Hv Hk E Ht Hno Hne Hn Hts Hload Hu Hst. destruct (tick_step _ _ _ _ Hv Hk E) as (Hi & Hg & st1 & log1 & EF & ER).
  destruct (finish_traces_spec k st0 log0 Hk Hi Hg) as (st' & log' & load' & EF' & Hi' & Hg' & Hld & (x & y & Hlog & _) & _).
  rewrite EF in EF'. injection EF' as <- <-.
  assert (load' = load) as -> by (rewrite Hld, Hload; apply (sum_waiting log0); [by apply waiting_of|done]).
  assert (Hp : pending log0 t = additions t log0) by (unfold pending; by rewrite pending_additions).
  destruct Hi as [Hbl Htr]. specialize (Htr t). rewrite Hp in Htr.
  destruct (f_traces st0 !! t) as [tr|] eqn:Etr.
  2: { unfold tree_at in Htr. by destruct (additions t log0) as [|[[? ?] ?] ?]. }
  symmetry in Htr. apply tree_at_fields in Htr as (_ & _ & Ec & Es & Eu & _).
  set (du := k_now1 k - patience load) in *. set (ds := k_now2 k - 5 * patience load) in *.
  assert (Hver : exists o, verdict k du ds (t, tr) = [LOut t o] /\ ((exists out, o = Emitted out) \/ o = NoRoot \/ o = Stuck)).
  { pose proof (counted_additions t (additions t log0)) as Hcnt. unfold verdict, kept.
    assert (E1 : too_large tr = false) by (unfold too_large; lia). assert (E2 : (t_started tr <? ds) = false) by lia. assert (E3 : (du <? t_updated tr) = false) by lia.
    rewrite E1, E2, E3. cbn [negb andb]. destruct (find_roots _ _ _) as [t' [|r [|r' rs]]]; [exists NoRoot; tauto| |exists NoRoot; tauto].
    destruct (correct _ _ _ _ _) as [[out ?]|]; [exists (Emitted out)|exists Stuck]; eauto. }
  destruct Hver as (o & Hver & Ho).
  assert (Hin : (t, tr) ∈ k_range k 1 (f_traces st0)) by (destruct Hk as (_ & Hr & _); rewrite Hr; by apply elem_of_map_to_list).
  assert (Hnd : NoDup (k_range k 1 (f_traces st0)).*1) by (destruct Hk as (_ & Hr & _); rewrite Hr; apply NoDup_fst_map_to_list).
  apply elem_of_list_split in Hin as (before & after & Esp).
  set (l1 := LTick (k_now1 k) (k_now2 k) load :: concat (map (verdict k du ds) before)).
  set (l2 := concat (map (verdict k du ds) after) ++ map (fun p : Z * tree => LOut p.1 Overload) x ++ map LEvict y).
  assert (Elog : log0 ++ log1 = log0 ++ l1 ++ LOut t o :: l2).
  { rewrite Hlog, Esp, map_app, concat_app. cbn [map concat]. rewrite Hver. unfold l1, l2. cbn [app]. rewrite <- !app_assoc. done. }
  assert (Hno1 : forall o', LOut t o' ∉ l1).
  { intros o' Ho'. unfold l1 in Ho'. apply elem_of_cons in Ho' as [?|Ho']; [done|]. apply elem_of_list_In, in_concat in Ho' as (v & Hv1 & Hv2).
    apply in_map_iff in Hv1 as ([id' tr'] & <- & Hin'). apply elem_of_list_In in Hv2, Hin'.
    assert (id' = t) as ->.
    { unfold verdict in Hv2. destruct (kept du ds tr'); [by apply elem_of_nil in Hv2|]. destruct (too_large tr'); [apply elem_of_list_singleton in Hv2; congruence|].
      destruct (_ <? _); [apply elem_of_list_singleton in Hv2; congruence|].
      destruct (find_roots _ _ _) as [t' [|r [|r' rs]]]; try (apply elem_of_list_singleton in Hv2; congruence).
      destruct (correct _ _ _ _ _) as [[? ?]|]; apply elem_of_list_singleton in Hv2; congruence. }
    rewrite Esp, fmap_app in Hnd. apply NoDup_app in Hnd as (_ & Hnd & _). apply (Hnd t).
    - apply elem_of_list_fmap. by exists (t, tr').
    - apply elem_of_list_here. }
  rewrite ER. cbn [snd]. exists l1, o, l2. split; [exact Elog|]. split; [exact Hno1|].
  assert (Hent : entry_ok (log0 ++ l1) (LOut t o)) by (apply (Hg' (log0 ++ l1) _ l2); rewrite Elog; by rewrite <- app_assoc).
  assert (Hp1 : pending (log0 ++ l1) t = additions t log0).
  { unfold pending. rewrite pending_additions; [|done|].
    - cbn [snd]. rewrite additions_app.
      assert (E0 : additions t l1 = []); [|by rewrite E0, app_nil_r].
      destruct (additions t l1) as [|z zs] eqn:Ez; [done|]. assert (Hz : z ∈ additions t l1) by (rewrite Ez; apply elem_of_list_here).
      apply additions_elem in Hz as (Hz & _). unfold l1 in Hz. apply elem_of_cons in Hz as [?|Hz]; [done|].
      apply elem_of_list_In, in_concat in Hz as (v & Hv1 & Hv2). apply in_map_iff in Hv1 as (q & <- & _). apply elem_of_list_In in Hv2.
      pose proof (verdict_finished k du ds q) as HF. rewrite Forall_forall in HF. apply HF in Hv2. done.
    - intros o' Ho'. apply elem_of_app in Ho' as [Ho'|Ho']; [by eapply Hno|by eapply Hno1]. }
  destruct Hent as (_ & n1 & n2 & ld & _ & Hr). rewrite Hp1 in Hr. destruct Ho as [[out ->]|[->| ->]]; [apply Hr|apply Hr|done].
Qed.

(* ---------- C42 for runs ---------- *)

Lemma discard_loop_each log0 black l : forall traces log,
  l ≡ₚ map_to_list traces -> StronglySorted (fun p q : Z * tree => t_count q.2 <= t_count p.2) l -> inv (FState traces black) (log0 ++ log) ->
  forall a t b, (discard_loop l (total traces) traces log).2 = log ++ a ++ LOut t Overload :: b ->
  (forall ts, waiting (log0 ++ log ++ a) ts -> 100000 <= sum (fun t => counted t (pending (log0 ++ log ++ a) t)) ts) /\
  (forall u, pending (log0 ++ log ++ a) u <> [] -> counted u (pending (log0 ++ log ++ a) u) <= counted t (pending (log0 ++ log ++ a) t)).
Proof.
  induction l as [|[id tr] l IH]; intros traces log Hl Hso Hi a t b E; cbn [discard_loop] in E.
  { exfalso. cbn [snd] in E. apply (f_equal length) in E. rewrite !app_length in E. cbn in E. lia. }
  destruct (Z.ltb_spec (total traces) maxSpans) as [Hlt|Hge].
  { exfalso. cbn [snd] in E. apply (f_equal length) in E. rewrite !app_length in E. cbn in E. lia. }
  assert (Hid : traces !! id = Some tr) by (apply elem_of_map_to_list; rewrite <- Hl; apply elem_of_list_here).
  apply StronglySorted_inv in Hso as [Hso Hhd].
  destruct a as [|e a].
  - rewrite app_nil_r. cbn [app] in E. destruct (discard_loop_log l (total traces - t_count tr) (delete id traces) (log ++ [LOut id Overload])) as [x Ex].
    rewrite Ex, <- app_assoc in E. apply app_inv_head in E. injection E as <- _. split.
    + intros ts Hts. rewrite <- (total_sum _ _ _ Hi Hts). exact Hge.
    + intros u Hu. assert (Hall : forall v tv, traces !! v = Some tv -> t_count tv = counted v (pending (log0 ++ log) v)).
      { intros v tv Hv. destruct Hi as [_ Hi]. specialize (Hi v). cbn [f_traces] in Hi. rewrite Hi in Hv. by apply tree_at_fields in Hv as (_ & _ & ? & _). }
      assert (exists tu, traces !! u = Some tu) as [tu Htu].
      { destruct Hi as [_ Hi]. specialize (Hi u). cbn [f_traces] in Hi. destruct (pending (log0 ++ log) u) as [|[[? ?] ?] ?]; [done|]. rewrite Hi. by eexists. }
      rewrite <- (Hall _ _ Htu), <- (Hall _ _ Hid). assert (Hin : (u, tu) ∈ (id, tr) :: l) by (rewrite Hl; by apply elem_of_map_to_list).
      apply elem_of_cons in Hin as [[= -> ->]|Hin]; [lia|]. rewrite Forall_forall in Hhd. apply (Hhd (u, tu) Hin).
  - assert (Hi2 : inv (FState (delete id traces) black) (log0 ++ log ++ [LOut id Overload])).
    { rewrite app_assoc. apply (inv_out (FState traces black) _ id Overload Hi). }
    assert (El : l ≡ₚ map_to_list (delete id traces)) by (apply Permutation_cons_inv with (id, tr); by rewrite Hl, map_to_list_delete).
    rewrite <- (total_delete _ _ _ Hid) in E. destruct (discard_loop_log l (total (delete id traces)) (delete id traces) (log ++ [LOut id Overload])) as [x Ex].
    assert (e = LOut id Overload) as ->.
    { rewrite Ex, <- app_assoc in E. apply app_inv_head in E. by injection E as <- _. }
    destruct (IH (delete id traces) (log ++ [LOut id Overload]) El Hso Hi2 a t b) as [H1 H2].
    { rewrite E, <- app_assoc. done. }
    rewrite <- !app_assoc in H1, H2. cbn [app] in H1, H2. by split.
Qed.

(** Splitting a list before an element that does not occur in its first part. *)
Lemma split_after {A} (v w a : list A) x b : v ++ w = a ++ x :: b -> x ∉ v -> exists a', a = v ++ a' /\ w = a' ++ x :: b.
Proof.
  revert a. induction v as [|y v IH]; intros a E Hx; [by exists a|]. destruct a as [|z a]; cbn in E.
  - injection E as -> _. exfalso. apply Hx, elem_of_list_here.
  - injection E as -> E. destruct (IH a E) as (a' & -> & Hw); [intros H; by apply Hx, elem_of_list_further|]. by exists a'.
Qed.
Lemma split_before {A} (v w a : list A) x b : v ++ w = a ++ x :: b -> x ∉ w -> exists b', v = a ++ x :: b'.
Proof.
  revert a. induction v as [|y v IH]; intros a E Hx.
  - exfalso. apply Hx. cbn in E. rewrite E. apply elem_of_app. right. apply elem_of_list_here.
  - destruct a as [|z a]; cbn in E; injection E as -> E; [by exists v|]. destruct (IH a E Hx) as [b' ->]. by exists b'.
Qed.

Lemma overload_each evs k st0 log0 a t b : Forall valid_event evs -> valid_tick k -> run evs = (Some st0, log0) ->
  (run (evs ++ [ETick k])).2 = log0 ++ a ++ LOut t Overload :: b ->
  (forall ts, waiting (log0 ++ a) ts -> 100000 <= sum (fun t => counted t (pending (log0 ++ a) t)) ts) /\
  (forall u, pending (log0 ++ a) u <> [] -> counted u (pending (log0 ++ a) u) <= counted t (pending (log0 ++ a) t)).
Proof.
  intros Hv Hk E Elog. assert (Hk' := Hk). destruct Hk' as (Ho & Hr & Hrb & Hs).
  destruct (tick_step _ _ _ _ Hv Hk E) as (Hi & Hg & st1 & log1 & EF & ER). rewrite ER in Elog. cbn [snd] in Elog. apply app_inv_head in Elog.
  unfold finish_traces in EF. rewrite (count_spans_spec st0 log0 _ Hi (Hr 0%nat (f_traces st0))) in EF.
  set (load := sum _ _) in EF. rewrite buffer_time_spec in EF. set (n1 := k_now1 k) in *. set (n2 := k_now2 k) in *.
  destruct (finish_loop k n1 n2 load log0 (k_range k 1 (f_traces st0)) st0 [LTick n1 n2 load]) as (stm & logm & Em & Him & Hgm & Hlm & _).
  - done.
  - apply inv_other; [done|]. intros u. cbn. by destruct (status log0 u).
  - apply good_snoc. split; [done|]. exists (map_to_list (f_traces st0)).*1. split; [by apply waiting_of|done].
  - exists log0, []. split; [done|]. intros x y z H. by apply elem_of_nil in H.
  - rewrite Hr. apply NoDup_fst_map_to_list.
  - intros id tr Hin. rewrite Hr in Hin. by apply elem_of_map_to_list.
  - rewrite Em in EF. pose proof (finish_loop_verdict k (n1 - patience load) (n2 - 5 * patience load) (k_range k 1 (f_traces st0)) st0 [LTick n1 n2 load]) as V. rewrite Em in V. cbn [snd] in V.
    assert (Hnm : LOut t Overload ∉ logm).
    { rewrite V. intros Hin. apply elem_of_cons in Hin as [?|Hin]; [done|]. apply elem_of_list_In, in_concat in Hin as (v & Hv1 & Hv2).
      apply in_map_iff in Hv1 as (q & <- & _). apply elem_of_list_In in Hv2. pose proof (verdict_finished k (n1 - patience load) (n2 - 5 * patience load) q) as HF.
      rewrite Forall_forall in HF. apply HF in Hv2. done. }
    destruct (if maxSpans <? load then _ else _) as [traces logd] eqn:Ed. destruct (evict _ _ _) as [black loge] eqn:Ee. injection EF as <- <-.
    apply split_after in Elog as (a' & -> & Elog); [|done].
    destruct (evict_log (k_range_black k (f_black stm)) (f_black stm) []) as [y Ey]. rewrite Ee in Ey. cbn [snd app] in Ey.
    apply split_before in Elog as [b' Elog]; [|intros Hin; rewrite Ey in Hin; by apply elem_of_list_fmap in Hin as (? & ? & _)].
    destruct (maxSpans <? load); [|injection Ed as <- <-; by destruct a']. unfold discard in Ed.
    assert (Et : foldl (fun n (p : Z * tree) => n + t_count p.2) 0 (k_range k 2 (f_traces stm)) = total (f_traces stm)).
    { rewrite (count_loop t_count), Z.add_0_l. apply (sum_perm (fun p => t_count p.2)), Hr. }
    rewrite Et in Ed. destruct (total (f_traces stm) <? maxSpans); [injection Ed as <- <-; by destruct a'|].
    destruct (Hs (k_range k 2 (f_traces stm))) as [Hp0 Hsort].
    destruct (discard_loop_each (log0 ++ logm) (f_black stm) (k_sort k (k_range k 2 (f_traces stm))) (f_traces stm) []) with (a := a') (t := t) (b := b') as [H1 H2].
    + rewrite Hp0. apply Hr.
    + exact Hsort.
    + rewrite app_nil_r. by destruct stm.
    + rewrite Ed. exact Elog.
    + cbn [app] in H1, H2. rewrite <- !app_assoc in H1, H2. by split.
Qed.

(* ---------- C72: a late check ---------- *)

Lemma late evs k st0 log0 t ts load : Forall valid_event evs -> valid_tick k -> run evs = (Some st0, log0) ->
  waiting log0 ts -> load = sum (fun t => small (counted t (pending log0 t))) ts -> pending log0 t <> [] ->
  started (pending log0 t) + 5 * patience load < k_now2 k ->
  exists st log1 o, run (evs ++ [ETick k]) = (Some st, log0 ++ log1) /\ LOut t o ∈ log1 /\ (o = TooLarge \/ o = TooOld).
Proof.
  intros Hv Hk E Hts Hload Hne Hst. destruct (tick_step _ _ _ _ Hv Hk E) as (Hi & Hg & st1 & log1 & EF & ER).
  destruct (finish_traces_spec k st0 log0 Hk Hi Hg) as (st' & log' & load' & EF' & Hi' & Hg' & Hld & (x & y & Hlog & _) & _).
  rewrite EF in EF'. injection EF' as <- <-.
  assert (load' = load) as -> by (rewrite Hld, Hload; apply (sum_waiting log0); [by apply waiting_of|done]).
  destruct Hi as [_ Htr]. specialize (Htr t). destruct (f_traces st0 !! t) as [tr|] eqn:Etr.
  2: { unfold tree_at in Htr. by destruct (pending log0 t) as [|[[? ?] ?] ?]. }
  symmetry in Htr. apply tree_at_fields in Htr as (_ & _ & _ & Es & _).
  assert (Hver : exists o, verdict k (k_now1 k - patience load) (k_now2 k - 5 * patience load) (t, tr) = [LOut t o] /\ (o = TooLarge \/ o = TooOld)).
  { unfold verdict, kept. assert (E2 : (t_started tr <? k_now2 k - 5 * patience load) = true) by lia. rewrite E2. cbn [negb]. rewrite andb_false_r. cbn [andb].
    destruct (too_large tr); [exists TooLarge|exists TooOld]; tauto. }
  destruct Hver as (o & Hver & Ho). exists st1, log1, o. split; [done|]. split; [|done]. rewrite Hlog. apply elem_of_list_further, elem_of_app. left.
  apply elem_of_list_In, in_concat. exists [LOut t o]. split; [|by left]. apply in_map_iff. exists (t, tr). split; [done|].
  apply elem_of_list_In. destruct Hk as (_ & Hr & _). rewrite Hr. by apply elem_of_map_to_list.
Qed.

(* ---------- checks for the examples ---------- *)

Fixpoint gaps (p : Z) (a : list addition) : bool :=
  match a with x :: ((y :: _) as a') => (y.1.2 - x.1.2 <? p) && gaps p a' | _ => true end.
Definition briskb (p : Z) (a : list addition) : bool :=
  gaps p a && forallb (fun x : addition => forallb (fun y : addition => y.1.2 - x.1.1 <=? 5 * p) a) a.
Lemma briskb_spec p a : briskb p a = true -> brisk p a.
Proof.
  unfold briskb. intros [Hg Hall]%andb_true_iff. split.
  - intros a1. revert a Hg Hall. induction a1 as [|u a1 IH]; intros a Hg Hall x y a2 ->.
    + cbn [gaps app] in Hg. apply andb_true_iff in Hg as [Hg _]. lia.
    + apply (IH (a1 ++ x :: y :: a2)) with (a2 := a2); [|clear Hg|done].
      * destruct (a1 ++ x :: y :: a2) eqn:E; [done|]. cbn [app] in Hg. rewrite E in Hg. cbn [gaps] in Hg. by apply andb_true_iff in Hg as [_ Hg].
      * rewrite forallb_forall in Hall. apply forallb_forall. intros v Hv. assert (Hv' := Hall v (or_intror Hv)). cbn [app forallb] in Hv'. by apply andb_true_iff in Hv' as [_ Hv'].
  - intros x y Hx Hy. rewrite forallb_forall in Hall. apply elem_of_list_In, Hall in Hx. rewrite forallb_forall in Hx. apply elem_of_list_In, Hx in Hy. lia.
Qed.

Definition calmb (p : Z) (log : list entry) : bool :=
  forallb (fun e => match e with LTick _ _ load => (load <=? 100000) && (p <=? patience load) | _ => true end) log.
Lemma calmb_spec p log : calmb p log = true -> calm p log.
Proof. unfold calmb. rewrite forallb_forall. intros H n1 n2 load Hin. apply elem_of_list_In, H in Hin. lia. Qed.

Fixpoint ascending (l : list Z) : bool := match l with a :: (b :: _) as l' => (a <=? b) && ascending l' | _ => true end.
Lemma ascending_sorted l : ascending l = true -> StronglySorted Z.le l.
Proof.
  intros H. apply Sorted_StronglySorted; [intros a b c; lia|]. induction l as [|a l IH]; [constructor|]. cbn [ascending] in H.
  destruct l as [|b l]; [repeat constructor|]. apply andb_true_iff in H as [H1 H2]. constructor; [by apply IH|]. constructor. lia.
Qed.

Lemma pending_from log t x : x ∈ pending log t -> LSpan x.1.1 x.1.2 x.2 ∈ log /\ s_trace x.2 = t.
Proof.
  unfold pending. induction log as [|e log IH] using rev_ind; [by intros ?%elem_of_nil|]. rewrite status_snoc. destruct (status log t) as [b p]. cbn [snd] in IH. rewrite elem_of_app.
  destruct e as [n0 n1 s|n1 n2 load|t' o|t'|]; cbn [track]; repeat destruct (decide _) as [H|H]; cbn [snd]; intros Hx; try (destruct (IH Hx) as [? ?]; split; [by left|done]); [|by apply elem_of_nil in Hx].
  apply elem_of_app in Hx as [Hx| ->%elem_of_list_singleton]; [destruct (IH Hx) as [? ?]; split; [by left|done]|]. split; [right; apply elem_of_list_here|apply H].
Qed.

Definition waitingb (log : list entry) (ts : list Z) : bool :=
  bool_decide (NoDup ts) && forallb (fun t => match pending log t with [] => false | _ => true end) ts &&
  forallb (fun e => match e with LSpan _ _ s => bool_decide (s_trace s ∈ ts) || match pending log (s_trace s) with [] => true | _ => false end | _ => true end) log.
Lemma waitingb_spec log ts : waitingb log ts = true -> waiting log ts.
Proof.
  unfold waitingb. rewrite !andb_true_iff, bool_decide_eq_true, !forallb_forall. intros [[Hn H1] H2]. split; [done|]. intros t. split.
  - intros Ht E. apply elem_of_list_In, H1 in Ht. by rewrite E in Ht.
  - intros Hp. destruct (pending log t) as [|x l] eqn:E; [done|]. destruct (pending_from log t x) as [Hx Ht]; [rewrite E; apply elem_of_list_here|].
    apply elem_of_list_In, H2 in Hx. rewrite Ht, E, orb_false_r in Hx. by apply bool_decide_eq_true in Hx.
Qed.
