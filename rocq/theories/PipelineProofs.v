(** Proofs about the pipeline (C53, C54). *)
From Verif Require Import Base SpanModel ForwardModel ForwardSpec ForwardProofs PipelineModel PipelineSpec.

(* ---------- conversion of sequences ---------- *)

Lemma converts_all_length {S} (conv : converter S) s l s1 ts : converts_all conv s l s1 ts -> length ts = length l.
Proof. induction 1; cbn; congruence. Qed.

Lemma converts_all_app {S} (conv : converter S) s l1 s1 ts1 l2 s2 ts2 :
  converts_all conv s l1 s1 ts1 -> converts_all conv s1 l2 s2 ts2 -> converts_all conv s (l1 ++ l2) s2 (ts1 ++ ts2).
Proof. induction 1; intros H2; cbn; [done|]. econstructor; eauto. Qed.

Lemma converts_all_total {S} (conv : converter S) l : forall s, exists s1 ts, converts_all conv s l s1 ts.
Proof.
  induction l as [|t l IH]; intros s; [eexists _, _; constructor|].
  destruct (converts_total conv t s) as (s1 & t' & H & _). destruct (IH s1) as (s2 & ts & H2). eexists _, _. econstructor; eauto.
Qed.

(* ---------- slices of traces ---------- *)

Definition slices (ts : list (list span)) : list slice := imap (fun j t => Slice j (length t)) ts.

Lemma slices_length ts : length (slices ts) = length ts.
Proof. apply imap_length. Qed.
Lemma slices_snoc ts t : slices (ts ++ [t]) = slices ts ++ [Slice (length ts) (length t)].
Proof. unfold slices. rewrite imap_app. cbn. by rewrite Nat.add_0_r. Qed.
Lemma slices_lookup ts j : slices ts !! j = (fun t => Slice j (length t)) <$> ts !! j.
Proof. apply list_lookup_imap. Qed.
Lemma slices_take n ts : take n (slices ts) = slices (take n ts).
Proof.
  apply list_eq. intros j. destruct (decide (j < n)%nat).
  - rewrite slices_lookup, !lookup_take, slices_lookup by done. done.
  - rewrite slices_lookup, !lookup_take_ge by lia. done.
Qed.

Lemma drop_cons_lookup {A} (l : list A) n x rest : drop n l = x :: rest -> l !! n = Some x /\ rest = drop (n + 1) l.
Proof.
  intros E. split.
  - rewrite <- (Nat.add_0_r n), <- lookup_drop, E. done.
  - rewrite <- drop_drop, E. done.
Qed.

(* ---------- invariant ---------- *)

(** A target that was sent the first [k] of the converted traces [ts]. *)
Definition target_ok (ts : list (list span)) (k : nat) (q : list slice) (r : reader) : Prop :=
  rd_log r = take (length (rd_log r)) ts /\
  match rd_cur r with
  | None => (length (rd_log r) <= k)%nat /\ q = drop (length (rd_log r)) (slices (take k ts))
  | Some (sl, pos, acc) => (length (rd_log r) < k)%nat /\ q = drop (length (rd_log r) + 1) (slices (take k ts)) /\
      exists t, ts !! length (rd_log r) = Some t /\ sl = Slice (length (rd_log r)) (length t) /\ acc = take pos t /\ (pos <= length t)%nat
  end.

Record pinv {S} (cfg : config) (conv : converter S) (s0 : S) (ins : list (list span)) (st : pstate S) : Prop := {
  i_caps : (length (p_source st) <= g_source cfg)%nat /\ length (p_queues st) = length (g_targets cfg) /\ length (p_readers st) = length (g_targets cfg) /\
    forall i q cap, p_queues st !! i = Some q -> g_targets cfg !! i = Some cap -> (length q <= cap)%nat;
  i_heap : length (p_heap st) = length ins;
  i_done : exists d s1 ts, (d <= length ins)%nat /\ converts_all conv s0 (take d ins) s1 ts /\
    (forall j t, ts !! j = Some t -> exists arr, p_heap st !! j = Some arr /\ take (length t) arr = t) /\
    (forall j, (d < j)%nat -> p_heap st !! j = ins !! j) /\
    match p_fwd st with
    | FIdle => p_conv st = s1 /\ p_source st = drop d (slices ins) /\ p_heap st !! d = ins !! d
    | FConv sl idx n => p_source st = drop (d + 1) (slices ins) /\
        exists t arr r, ins !! d = Some t /\ sl = Slice d (length t) /\ (idx <= length t)%nat /\ n = length r /\ (n <= idx)%nat /\
          converts conv s1 (take idx t) (p_conv st) r /\ p_heap st !! d = Some arr /\ length arr = length t /\
          take n arr = r /\ drop idx arr = drop idx t
    | FSend sl k => p_conv st = s1 /\ p_source st = drop d (slices ins) /\ p_heap st !! d = ins !! d /\ (k <= length (g_targets cfg))%nat /\
        exists d' t, d = (d' + 1)%nat /\ ts !! d' = Some t /\ sl = Slice d' (length t)
    end /\
    forall i q r, p_queues st !! i = Some q -> p_readers st !! i = Some r ->
      target_ok ts (match p_fwd st with FSend _ k => if decide (i < k)%nat then d else (d - 1)%nat | _ => d end) q r }.

Lemma target_ok_mono ts k q r t : (k <= length ts)%nat -> target_ok ts k q r -> target_ok (ts ++ [t]) k q r.
Proof.
  intros Hk [Hl Hc]. assert (Hlen : (length (rd_log r) <= length ts)%nat).
  { rewrite Hl at 1. rewrite take_length. lia. }
  unfold target_ok. rewrite (take_app_le ts) by done. split; [done|].
  rewrite (take_app_le ts) by done. destruct (rd_cur r) as [[[sl pos] acc]|]; [|done].
  destruct Hc as (H1 & H2 & t' & H3 & H4). split; [done|]. split; [done|]. exists t'. split; [|done]. rewrite lookup_app_l; [done|]. by eapply lookup_lt_Some.
Qed.

Lemma target_ok_send ts k q r t : ts !! k = Some t -> target_ok ts k q r -> target_ok ts (k + 1) (q ++ [Slice k (length t)]) r.
Proof.
  intros Hk [Hl Hc]. unfold target_ok. split; [done|].
  assert (Hsl : slices (take (k + 1) ts) = slices (take k ts) ++ [Slice k (length t)]).
  { rewrite Nat.add_1_r, (take_S_r ts k t) by done. rewrite slices_snoc. rewrite take_length. f_equal. f_equal. f_equal. apply lookup_lt_Some in Hk. lia. }
  assert (Hlk : length (slices (take k ts)) = k) by (rewrite slices_length, take_length; apply lookup_lt_Some in Hk; lia).
  rewrite Hsl. destruct (rd_cur r) as [[[sl pos] acc]|].
  - destruct Hc as (H1 & -> & H2). split; [lia|]. rewrite drop_app_le by lia. done.
  - destruct Hc as (H1 & ->). split; [lia|]. rewrite drop_app_le by lia. done.
Qed.

Lemma target_recv ts k sl q log : (k <= length ts)%nat -> target_ok ts k (sl :: q) (Reader log None) -> target_ok ts k q (Reader log (Some (sl, 0%nat, []))).
Proof.
  intros Hk [Hl (Hle & Hq)]. cbn [rd_log rd_cur] in *. split; [done|]. cbn [rd_log rd_cur]. symmetry in Hq. apply drop_cons_lookup in Hq as [Hs ->].
  assert (Hlt : (length log < k)%nat).
  { apply lookup_lt_Some in Hs. rewrite slices_length, take_length in Hs. lia. }
  split; [done|]. split; [done|]. rewrite slices_lookup, lookup_take in Hs by done. destruct (ts !! length log) as [t|]; [|done]. cbn in Hs. injection Hs as <-.
  exists t. split_and!; try done. lia.
Qed.

Lemma target_read ts k q log sl pos acc h x : (forall j t, ts !! j = Some t -> exists arr, h !! j = Some arr /\ take (length t) arr = t) ->
  target_ok ts k q (Reader log (Some (sl, pos, acc))) -> (pos < sl_len sl)%nat -> get h (sl_arr sl) pos = Some x ->
  target_ok ts k q (Reader log (Some (sl, (pos + 1)%nat, acc ++ [x]))).
Proof.
  intros Hh [Hl (Hlt & Hq & t & Ht & -> & -> & Hp)] Hpos Hg. cbn [rd_log rd_cur sl_len sl_arr] in *. split; [done|]. cbn [rd_log rd_cur].
  split; [done|]. split; [done|]. exists t. split; [done|]. split; [done|]. split; [|lia].
  destruct (Hh _ _ Ht) as (arr & Ha & Hta). unfold get in Hg. rewrite Ha in Hg. cbn in Hg.
  assert (t !! pos = Some x). { rewrite <- Hta. by rewrite lookup_take. }
  rewrite Nat.add_1_r. symmetry. by apply take_S_r.
Qed.

Lemma target_finish ts k q log sl pos acc : target_ok ts k q (Reader log (Some (sl, pos, acc))) -> pos = sl_len sl ->
  target_ok ts k q (Reader (log ++ [acc]) None).
Proof.
  intros [Hl (Hlt & Hq & t & Ht & -> & -> & Hp)] Hpos. cbn [rd_log rd_cur sl_len] in *. subst pos.
  unfold target_ok. cbn [rd_log rd_cur]. rewrite app_length. cbn [length]. split; [|split; [lia|done]].
  rewrite Nat.add_1_r. rewrite (take_S_r ts _ t) by done. rewrite firstn_all. f_equal. done.
Qed.

Lemma pinv_init {S} cfg (conv : converter S) s0 : pinv cfg conv s0 [] (pinit cfg s0).
Proof.
  split; cbn [pinit p_heap p_conv p_source p_fwd p_queues p_readers]; rewrite ?map_length.
  - split; [cbn; lia|]. split; [done|]. split; [done|]. intros i q cap Hq _. apply list_lookup_fmap_Some in Hq as (? & ? & ->). cbn. lia.
  - done.
  - exists 0%nat, s0, []. split; [lia|]. split; [constructor|]. split; [done|]. split; [done|]. split; [done|].
    intros i q r Hq Hr. apply list_lookup_fmap_Some in Hq as (? & _ & ->). apply list_lookup_fmap_Some in Hr as (? & _ & ->). split; [done|]. cbn. split; [lia|done].
Qed.

Lemma insert_lookup_cases {A} (l : list A) i x j y : <[i := x]> l !! j = Some y -> (i = j /\ y = x) \/ (i <> j /\ l !! j = Some y).
Proof. intros H. apply list_lookup_insert_Some in H as [(? & ? & ?)|[? ?]]; auto. Qed.

Lemma pstep_ok {S} cfg (conv : converter S) s0 ins st e : pinv cfg conv s0 ins st ->
  match pstep cfg conv e st with
  | Next st' => pinv cfg conv s0 (ins ++ match e with PInput t => [t] | _ => [] end) st'
  | Blocked => True
  | Panicked => False end.
Proof.
  intros [Hcaps Hheap (d & s1 & ts & Hd & Hts & Hread & Hrest & Hf & Htgt)]. destruct st as [h s src f qs rs]. cbn [p_heap p_conv p_source p_fwd p_queues p_readers] in *.
  assert (Hlts : length ts = d). { rewrite (converts_all_length _ _ _ _ _ Hts), take_length. lia. }
  destruct Hcaps as (Hcs & Hcq & Hcr & Hcc).
  destruct e as [t| | | | | |i|i|i]; cbn [pstep]; rewrite ?app_nil_r.
  - (* PInput *)
    case_decide as Hlt; [|done]. split; cbn [p_heap p_conv p_source p_fwd p_queues p_readers].
    + split; [rewrite app_length; cbn; lia|done].
    + rewrite !app_length. cbn. lia.
    + exists d, s1, ts. split; [rewrite app_length; lia|]. split; [by rewrite take_app_le|].
      split. { intros j t' Hj. destruct (Hread j t' Hj) as (arr & Ha & Hta). exists arr. split; [|done]. rewrite lookup_app_l; [done|]. by eapply lookup_lt_Some. }
      assert (Hsame : forall j, h !! j = ins !! j -> (h ++ [t]) !! j = (ins ++ [t]) !! j).
      { intros j Hj. destruct (decide (j < length h)%nat).
        - rewrite !lookup_app_l by lia. done.
        - rewrite !lookup_app_r by lia. by rewrite Hheap. }
      split. { intros j Hj. apply Hsame. by apply Hrest. }
      split; [|done].
      rewrite slices_snoc, Hheap. destruct f as [|sl idx n|sl k].
      * destruct Hf as (-> & -> & Hhd). split; [done|]. split; [rewrite drop_app_le by (rewrite slices_length; lia); done|]. by apply Hsame.
      * destruct Hf as (-> & t' & arr & r & Hin & -> & H3). assert (Hdl : (d < length ins)%nat) by (by eapply lookup_lt_Some). split; [rewrite drop_app_le by (rewrite slices_length; lia); done|].
        exists t', arr, r. split; [by rewrite lookup_app_l|]. split; [done|]. destruct H3 as (?&?&?&?&?&?&?&?). split_and!; try done. rewrite lookup_app_l by lia. done.
      * destruct Hf as (-> & -> & Hhd & Hrst). split; [done|]. split; [rewrite drop_app_le by (rewrite slices_length; lia); done|]. split; [by apply Hsame|done].
  - (* PTake *)
    destruct f as [|sl idx n|sl k]; try done. destruct src as [|sl src]; [done|]. destruct Hf as (-> & Hsrc & Hhd).
    symmetry in Hsrc. apply drop_cons_lookup in Hsrc as [Hs ->]. rewrite slices_lookup in Hs. destruct (ins !! d) as [t|] eqn:Ht; [|done]. cbn in Hs. injection Hs as <-.
    split; cbn [p_heap p_conv p_source p_fwd p_queues p_readers]; [cbn [length] in Hcs; split; [lia|done]|done|].
    exists d, s1, ts. split_and!; try done. exists t, t, []. split_and!; try done; cbn; try lia. constructor.
  - (* PConv *)
    destruct f as [|sl idx n|sl k]; try done. case_decide as Hlt; [|done].
    destruct Hf as (-> & t & arr & r & Hin & -> & Hidx & -> & Hn & Hc & Ha & Hla & Hta & Hda). cbn [sl_len sl_arr] in *.
    destruct (lookup_lt_is_Some_2 t idx Hlt) as [x Hx].
    destruct (convert_one_ok conv d t s h idx arr r x s1) as (s2 & h2 & arr2 & r2 & E & Hc2 & Ha2 & Hl2 & Hr2 & Hd2 & Hle2 & Hh2 & Ho2); try done.
    rewrite E. split; cbn [p_heap p_conv p_source p_fwd p_queues p_readers]; [done|congruence|].
    exists d, s1, ts. split; [done|]. split; [done|]. split.
    { intros j t' Hj. assert (j < d)%nat by (apply lookup_lt_Some in Hj; lia). rewrite Ho2 by lia. by apply Hread. }
    split. { intros j Hj. rewrite Ho2 by lia. by apply Hrest. }
    split; [|done]. split; [done|]. exists t, arr2, r2. split_and!; try done. lia.
  - (* PDone *)
    destruct f as [|sl idx n|sl k]; try done. case_decide as Hlt; [|done].
    destruct Hf as (-> & t & arr & r & Hin & -> & Hidx & -> & Hn & Hc & Ha & Hla & Hta & Hda). cbn [sl_len sl_arr] in *. subst idx.
    rewrite firstn_all in Hc. assert (Hdl : (d < length ins)%nat) by (by eapply lookup_lt_Some).
    split; cbn [p_heap p_conv p_source p_fwd p_queues p_readers]; [done|done|].
    exists (d + 1)%nat, s, (ts ++ [r]). split; [lia|]. split.
    { rewrite Nat.add_1_r, (take_S_r ins d t) by done. eapply converts_all_app; [done|]. econstructor; [done|constructor]. }
    split.
    { intros j t' Hj. apply lookup_app_Some in Hj as [Hj|[Hj Hj']]; [by apply Hread|]. apply list_lookup_singleton_Some in Hj' as [Hj' <-].
      assert (j = d) as -> by lia. by exists arr. }
    split. { intros j Hj. apply Hrest. lia. }
    split.
    { split; [done|]. split; [done|]. split; [apply Hrest; lia|]. split; [lia|]. exists d, r. split; [done|]. split; [|done]. by rewrite lookup_app_r, Hlts, Nat.sub_diag by lia. }
    intros i q r' Hq Hr'. rewrite decide_False by lia. replace (d + 1 - 1)%nat with d by lia. apply target_ok_mono; [lia|]. by apply (Htgt i).
  - (* PSend *)
    destruct f as [|sl idx n|sl k]; try done. destruct (qs !! k) as [q|] eqn:Eq; [|done]. destruct (g_targets cfg !! k) as [cap|] eqn:Ec; [|done].
    case_decide as Hlt; [|done]. destruct Hf as (-> & -> & Hhd & Hk & d' & t & -> & Ht & ->).
    assert (Hkl : (k < length qs)%nat) by (by eapply lookup_lt_Some).
    split; cbn [p_heap p_conv p_source p_fwd p_queues p_readers]; [|done|].
    { split; [done|]. split; [by rewrite insert_length|]. split; [done|]. intros j q' cap' Hj Hc'. apply insert_lookup_cases in Hj as [[-> ->]|[Hne Hj]]; [|by eapply Hcc].
      rewrite Ec in Hc'. injection Hc' as <-. rewrite app_length. cbn. lia. }
    exists (d' + 1)%nat, s1, ts. split_and!; try done; try lia.
    { exists d', t. done. }
    intros j q' r' Hj Hr'. apply insert_lookup_cases in Hj as [[-> ->]|[Hne Hj]].
    + rewrite decide_True by lia. specialize (Htgt j q r' Eq Hr'). rewrite decide_False in Htgt by lia. replace (d' + 1 - 1)%nat with d' in Htgt by lia. by apply target_ok_send.
    + specialize (Htgt j q' r' Hj Hr'). destruct (decide (j < k)%nat).
      * by rewrite decide_True by lia.
      * by rewrite decide_False by lia.
  - (* PNext *)
    destruct f as [|sl idx n|sl k]; try done. case_decide as Hlt; [|done]. destruct Hf as (-> & -> & Hhd & Hk & d' & t & -> & Ht & ->).
    split; cbn [p_heap p_conv p_source p_fwd p_queues p_readers]; [done|done|]. exists (d' + 1)%nat, s1, ts. split_and!; try done.
    intros i q r Hq Hr. specialize (Htgt i q r Hq Hr). rewrite decide_True in Htgt; [done|]. apply lookup_lt_Some in Hq. lia.
  - (* PRecv *)
    destruct (qs !! i) as [[|sl q]|] eqn:Eq; try done. destruct (rs !! i) as [[log [c|]]|] eqn:Er; try done.
    split; cbn [p_heap p_conv p_source p_fwd p_queues p_readers]; [|done|].
    { split; [done|]. split; [by rewrite insert_length|]. split; [by rewrite insert_length|]. intros j q' cap' Hj Hc'. apply insert_lookup_cases in Hj as [[-> ->]|[Hne Hj]]; [|by eapply Hcc].
      specialize (Hcc _ _ _ Eq Hc'). cbn in Hcc. lia. }
    exists d, s1, ts. split_and!; try done. intros j q' r' Hj Hr'. apply insert_lookup_cases in Hj as [[-> ->]|[Hne Hj]]; apply insert_lookup_cases in Hr' as [[? ->]|[? Hr']]; try done.
    + apply target_recv; [|by apply (Htgt j)]. destruct f; [lia|lia|]. destruct (decide _); lia.
    + by apply (Htgt j).
  - (* PRead *)
    destruct (rs !! i) as [[log [[[sl pos] acc]|]]|] eqn:Er; try done. case_decide as Hlt; [|done].
    assert (Hil : (i < length qs)%nat) by (apply lookup_lt_Some in Er; lia). destruct (lookup_lt_is_Some_2 qs i Hil) as [q Eq].
    assert (Hti := Htgt i q _ Eq Er). destruct Hti as [Hlog (Hltk & Hq & t & Ht & Esl & Eacc & Hp)]. cbn [rd_log rd_cur] in *.
    destruct (Hread _ _ Ht) as (arr & Ha & Hta). subst sl. cbn [sl_len sl_arr] in *.
    destruct (get h (length log) pos) as [x|] eqn:Eg.
    + split; cbn [p_heap p_conv p_source p_fwd p_queues p_readers]; [|done|].
      { split; [done|]. split; [done|]. split; [by rewrite insert_length|done]. }
      exists d, s1, ts. split_and!; try done. intros j q' r' Hj Hr'. apply insert_lookup_cases in Hr' as [[-> ->]|[? Hr']]; [|by apply (Htgt j)].
      eapply target_read; [done|by apply (Htgt j)|done|done].
    + unfold get in Eg. rewrite Ha in Eg. cbn in Eg. apply lookup_ge_None in Eg. apply (f_equal length) in Hta. rewrite take_length in Hta. lia.
  - (* PFinish *)
    destruct (rs !! i) as [[log [[[sl pos] acc]|]]|] eqn:Er; try done. case_decide as Hlt; [|done].
    split; cbn [p_heap p_conv p_source p_fwd p_queues p_readers]; [|done|].
    { split; [done|]. split; [done|]. split; [by rewrite insert_length|done]. }
    exists d, s1, ts. split_and!; try done. intros j q' r' Hj Hr'. apply insert_lookup_cases in Hr' as [[-> ->]|[? Hr']]; [|by apply (Htgt j)].
    eapply target_finish; [by apply (Htgt j)|done].
Qed.

Lemma inputs_cons e evs : inputs (e :: evs) = match e with PInput t => [t] | _ => [] end ++ inputs evs.
Proof. done. Qed.

Lemma prun_ok {S} cfg (conv : converter S) s0 evs : forall ins st, pinv cfg conv s0 ins st ->
  match prun cfg conv evs st with Next st' => pinv cfg conv s0 (ins ++ inputs evs) st' | Blocked => True | Panicked => False end.
Proof.
  induction evs as [|e evs IH]; intros ins st Hi; cbn [prun].
  - unfold inputs. cbn. by rewrite app_nil_r.
  - pose proof (pstep_ok cfg conv s0 ins st e Hi) as Hs. destruct (pstep cfg conv e st) as [st'| |]; try done.
    specialize (IH _ _ Hs). destruct (prun cfg conv evs st'); try done. rewrite inputs_cons, app_assoc. done.
Qed.

Lemma reachable_inv {S} cfg (conv : converter S) s0 evs st : reachable cfg conv s0 evs st -> pinv cfg conv s0 (inputs evs) st.
Proof. intros H. pose proof (prun_ok cfg conv s0 evs [] _ (pinv_init cfg conv s0)) as Hr. by rewrite H in Hr. Qed.
