(** Delivery, progress and termination of the pipeline (C53, C54). *)
From Verif Require Import Base SpanModel ForwardModel ForwardSpec ForwardProofs PipelineModel PipelineSpec PipelineProofs.

Lemma pipeline_no_panic {S} cfg (conv : converter S) s0 evs : prun cfg conv evs (pinit cfg s0) <> Panicked.
Proof. intros H. pose proof (prun_ok cfg conv s0 evs [] _ (pinv_init cfg conv s0)) as Hr. by rewrite H in Hr. Qed.

Lemma take_of_prefix {A} (l m : list A) k : (k <= length l)%nat -> take k l = take k (l ++ m).
Proof. intros. by rewrite take_app_le. Qed.

Lemma slices_read h ts : (forall j t, ts !! j = Some t -> exists arr, h !! j = Some arr /\ take (length t) arr = t) -> map (read h) (slices ts) = ts.
Proof.
  intros H. apply list_eq. intros j. rewrite list_lookup_fmap, slices_lookup. destruct (ts !! j) as [t|] eqn:E; [|done]. cbn. f_equal.
  destruct (H j t E) as (arr & Ha & Ht). unfold read. cbn [sl_arr sl_len]. by rewrite Ha.
Qed.

(** What [pipeline_delivers] says about a target. *)
Lemma target_split h ts k q r : (k <= length ts)%nat ->
  (forall j t, ts !! j = Some t -> exists arr, h !! j = Some arr /\ take (length t) arr = t) -> target_ok ts k q r ->
  exists cur, take k ts = rd_log r ++ cur ++ map (read h) q /\
    match rd_cur r with None => cur = [] | Some (_, pos, acc) => exists t, cur = [t] /\ acc = take pos t /\ (pos <= length t)%nat end.
Proof.
  intros Hk Hread [Hl Hc]. set (c := length (rd_log r)) in *.
  assert (Hrk : map (read h) (slices (take k ts)) = take k ts).
  { apply slices_read. intros j t Hj. apply Hread. apply lookup_take_Some in Hj. tauto. }
  destruct (rd_cur r) as [[[sl pos] acc]|].
  - destruct Hc as (Hlt & -> & t & Ht & -> & -> & Hp). exists [t]. split; [|by exists t].
    rewrite <- skipn_map, Hrk.
    assert (Htk : take k ts !! c = Some t) by (rewrite lookup_take by done; done).
    rewrite <- (take_drop c (take k ts)) at 1. rewrite take_take, Nat.min_l by lia. rewrite <- Hl. f_equal.
    rewrite (drop_S _ t c) by done. cbn. by rewrite Nat.add_1_r.
  - destruct Hc as (Hle & ->). exists []. split; [|done]. rewrite <- skipn_map, Hrk.
    rewrite <- (take_drop c (take k ts)) at 1. rewrite take_take, Nat.min_l by lia. by rewrite <- Hl.
Qed.

(** Number of traces sent to target [i] when [d] are converted. *)
Definition sent_to {S} (st : pstate S) (d i : nat) : nat := match p_fwd st with FSend _ k => if decide (i < k)%nat then d else (d - 1)%nat | _ => d end.

Lemma pipeline_delivers {S} cfg (conv : converter S) s0 evs st : reachable cfg conv s0 evs st ->
  exists s1 ts, converts_all conv s0 (inputs evs) s1 ts /\
  length (p_queues st) = length (g_targets cfg) /\ length (p_readers st) = length (g_targets cfg) /\
  forall i q r, p_queues st !! i = Some q -> p_readers st !! i = Some r ->
  exists cur rest, ts = rd_log r ++ cur ++ map (read (p_heap st)) q ++ rest /\
    match rd_cur r with None => cur = [] | Some (_, pos, acc) => exists t, cur = [t] /\ acc = take pos t /\ (pos <= length t)%nat end /\
    length rest = (held st i + length (p_source st))%nat.
Proof.
  intros Hr. apply reachable_inv in Hr as [Hcaps Hheap (d & s1 & ts & Hd & Hts & Hread & Hrest & Hf & Htgt)].
  destruct Hcaps as (_ & Hq & Hrd & _). set (ins := inputs evs) in *.
  destruct (converts_all_total conv (drop d ins) s1) as (s2 & ts2 & H2).
  pose proof (converts_all_app _ _ _ _ _ _ _ _ Hts H2) as Hall. rewrite take_drop in Hall.
  exists s2, (ts ++ ts2). split; [done|]. split; [done|]. split; [done|].
  assert (Hlts : length ts = d). { rewrite (converts_all_length _ _ _ _ _ Hts), take_length. lia. }
  assert (Hlts2 : length ts2 = (length ins - d)%nat). { rewrite (converts_all_length _ _ _ _ _ H2), drop_length. lia. }
  intros i q r Hqi Hri. specialize (Htgt i q r Hqi Hri). fold (sent_to st d i) in Htgt.
  assert (Hsent : (sent_to st d i <= d)%nat). { unfold sent_to. destruct (p_fwd st); try lia. destruct (decide _); lia. }
  destruct (target_split (p_heap st) ts (sent_to st d i) q r) as (cur & Hsp & Hcur); [lia|done|done|].
  exists cur, (drop (sent_to st d i) ts ++ ts2). split; [|split; [done|]].
  - rewrite <- (take_drop (sent_to st d i) ts) at 1. rewrite Hsp. rewrite <- !app_assoc. done.
  - rewrite app_length, drop_length, Hlts, Hlts2. unfold sent_to, held. destruct (p_fwd st) as [|sl idx n|sl k].
    + destruct Hf as (_ & -> & _). rewrite drop_length, slices_length. lia.
    + destruct Hf as (-> & t & _ & _ & Hin & _). apply lookup_lt_Some in Hin. rewrite drop_length, slices_length. lia.
    + destruct Hf as (_ & -> & _ & _ & d' & t & -> & _). rewrite drop_length, slices_length. case_decide; lia.
Qed.

Lemma pipeline_bounded {S} cfg (conv : converter S) s0 evs st : reachable cfg conv s0 evs st ->
  (length (p_source st) <= g_source cfg)%nat /\
  forall i q cap, p_queues st !! i = Some q -> g_targets cfg !! i = Some cap -> (length q <= cap)%nat.
Proof. intros Hr. apply reachable_inv in Hr as [(H1 & _ & _ & H2) _ _]. done. Qed.

(* ---------- progress ---------- *)

Lemma readers_progress {S} cfg (conv : converter S) s0 ins st i q r : pinv cfg conv s0 ins st -> p_queues st !! i = Some q -> p_readers st !! i = Some r ->
  q = [] /\ rd_cur r = None \/ exists e st', internal e /\ pstep cfg conv e st = Next st'.
Proof.
  intros Hi Hq Hr. pose proof (pstep_ok cfg conv s0 ins st (PRead i) Hi) as Hp. destruct st as [h s src f qs rs]. cbn [p_queues p_readers] in *. destruct r as [log [[[sl pos] acc]|]].
  - right. destruct (decide (pos = sl_len sl)) as [E|E].
    + exists (PFinish i). eexists. split; [done|]. cbn [pstep]. rewrite Hr, decide_True by done. done.
    + exists (PRead i). cbn [pstep] in *. rewrite Hr in *.
      destruct Hi as [(Hcs & Hcq & Hcr & Hcc) Hheap (d & s1 & ts & Hd & Hts & Hread & Hrest & Hf & Htgt)].
      assert (pos < sl_len sl)%nat. { destruct (Htgt i q _ Hq Hr) as [_ (_ & _ & t & _ & Esl & _ & Hpos)]. cbn [rd_log] in Esl. subst sl. cbn [sl_len] in *. lia. }
      rewrite decide_True in * by done. destruct (get h (sl_arr sl) pos); [|done]. eexists. split; [done|reflexivity].
  - destruct q as [|sl q]; [by left|right]. exists (PRecv i). eexists. split; [done|]. cbn [pstep]. rewrite Hq, Hr. done.
Qed.

Definition at_rest {S} (st : pstate S) : Prop :=
  p_source st = [] /\ p_fwd st = FIdle /\ Forall (fun q => q = []) (p_queues st) /\ Forall (fun r => rd_cur r = None) (p_readers st).

Lemma list_progress {A} (P : A -> Prop) (Q : Prop) (l : list A) : (forall i x, l !! i = Some x -> P x \/ Q) -> Forall P l \/ Q.
Proof.
  induction l as [|x l IH]; intros H; [by left; constructor|]. destruct (H 0%nat x eq_refl) as [Hx|]; [|by right].
  destruct IH as [Hl|]; [intros i y Hy; by apply (H (Datatypes.S i))|left; by constructor|by right].
Qed.

Lemma pipeline_progress_inv {S} cfg (conv : converter S) s0 ins st : Forall (fun c => 0 < c)%nat (g_targets cfg) -> pinv cfg conv s0 ins st ->
  at_rest st \/ exists e st', internal e /\ pstep cfg conv e st = Next st'.
Proof.
  intros Hpos Hi. pose proof Hi as [(Hcs & Hcq & Hcr & Hcc) Hheap (d & s1 & ts & Hd & Hts & Hread & Hrest & Hf & Htgt)].
  assert (HQ : Forall (fun q => q = []) (p_queues st) \/ exists e st', internal e /\ pstep cfg conv e st = Next st').
  { apply list_progress. intros i q Hq. destruct (lookup_lt_is_Some_2 (p_readers st) i) as [r Hr]; [apply lookup_lt_Some in Hq; lia|].
    destruct (readers_progress _ _ _ _ _ _ _ _ Hi Hq Hr) as [[? ?]|]; [by left|by right]. }
  destruct HQ as [HQ|]; [|by right].
  assert (HR : Forall (fun r => rd_cur r = None) (p_readers st) \/ exists e st', internal e /\ pstep cfg conv e st = Next st').
  { apply list_progress. intros i r Hr. destruct (lookup_lt_is_Some_2 (p_queues st) i) as [q Hq]; [apply lookup_lt_Some in Hr; lia|].
    destruct (readers_progress _ _ _ _ _ _ _ _ Hi Hq Hr) as [[? ?]|]; [by left|by right]. }
  destruct HR as [HR|]; [|by right].
  pose proof (pstep_ok cfg conv s0 ins st PConv Hi) as Hp.
  destruct st as [h s src f qs rs]. cbn [p_heap p_conv p_source p_fwd p_queues p_readers] in *. destruct f as [|sl idx n|sl k].
  - destruct src as [|sl src]; [by left|right]. exists PTake. eexists. split; [done|]. reflexivity.
  - right. destruct (decide (idx = sl_len sl)) as [E|E].
    + exists PDone. eexists. split; [done|]. cbn [pstep]. by rewrite decide_True.
    + exists PConv. cbn [pstep] in *. destruct Hf as (_ & t & arr & r & Hin & -> & Hidx & _). cbn [sl_len] in *. rewrite decide_True in * by lia.
      destruct (convert_one conv _ _ _) as [[[? ?] ?]|]; [|done]. eexists. split; [done|reflexivity].
  - right. destruct Hf as (_ & _ & _ & Hk & _). destruct (decide (k = length (g_targets cfg))) as [E|E].
    + exists PNext. eexists. split; [done|]. cbn [pstep]. by rewrite decide_True.
    + exists PSend. destruct (lookup_lt_is_Some_2 qs k) as [q Eq]; [lia|]. destruct (lookup_lt_is_Some_2 (g_targets cfg) k) as [cap Ec]; [lia|].
      assert (q = []) as -> by (rewrite Forall_lookup in HQ; by apply (HQ k)). cbn [pstep]. rewrite Eq, Ec.
      rewrite decide_True; [eexists; split; [done|reflexivity]|]. cbn. rewrite Forall_lookup in Hpos. by apply (Hpos k).
Qed.

(* ---------- termination ---------- *)

Fixpoint sum (l : list nat) : nat := match l with [] => 0 | x :: l' => x + sum l' end.
Lemma sum_app l1 l2 : sum (l1 ++ l2) = (sum l1 + sum l2)%nat.
Proof. induction l1; cbn; lia. Qed.
Lemma sum_insert {A} (f : A -> nat) l i x y : l !! i = Some x -> (sum (map f (<[i := y]> l)) + f x = sum (map f l) + f y)%nat.
Proof.
  revert i. induction l as [|z l IH]; intros [|i] H; try done.
  - injection H as ->. change (<[0%nat := y]> (x :: l)) with (y :: l). cbn [map sum]. lia.
  - change (<[Datatypes.S i := y]> (z :: l)) with (z :: <[i := y]> l). cbn [map sum]. specialize (IH i H). lia.
Qed.

Definition slice_cost (sl : slice) : nat := sl_len sl + 2.
Definition queue_cost (q : list slice) : nat := sum (map slice_cost q).
Lemma queue_cost_snoc q sl : queue_cost (q ++ [sl]) = (queue_cost q + sl_len sl + 2)%nat.
Proof. unfold queue_cost. rewrite map_app, sum_app. cbn [map sum]. unfold slice_cost at 2. lia. Qed.
Definition reader_cost (r : reader) : nat := match rd_cur r with None => 0 | Some (sl, pos, _) => sl_len sl - pos + 1 end.
Definition source_cost (n : nat) (sl : slice) : nat := sl_len sl + 3 + n * (sl_len sl + 3).
Definition fwd_cost (n : nat) (f : forwarder) : nat :=
  match f with FIdle => 0 | FConv sl idx m => sl_len sl - idx + 2 + n * (sl_len sl + 3) | FSend sl k => (n - k) * (sl_len sl + 3) + 1 end.
Definition cost {S} (cfg : config) (st : pstate S) : nat :=
  let n := length (g_targets cfg) in
  sum (map (source_cost n) (p_source st)) + fwd_cost n (p_fwd st) + sum (map queue_cost (p_queues st)) + sum (map reader_cost (p_readers st)).

Lemma cost_decreases {S} cfg (conv : converter S) s0 ins st e st' : pinv cfg conv s0 ins st -> internal e -> pstep cfg conv e st = Next st' ->
  (cost cfg st' < cost cfg st)%nat.
Proof.
  intros [(Hcs & Hcq & Hcr & Hcc) Hheap (d & s1 & ts & Hd & Hts & Hread & Hrest & Hf & Htgt)] He. destruct st as [h s src f qs rs].
  cbn [p_heap p_conv p_source p_fwd p_queues p_readers] in *. unfold cost. cbn [p_heap p_conv p_source p_fwd p_queues p_readers].
  set (n := length (g_targets cfg)) in *. destruct e as [t| | | | | |i|i|i]; cbn [pstep]; try done.
  - destruct f; try done. destruct src as [|sl src]; [done|]. intros [= <-]. cbn [p_heap p_conv p_source p_fwd p_queues p_readers map sum fwd_cost]. unfold source_cost at 2. lia.
  - destruct f as [|sl idx m|sl k]; try done. case_decide; [|done]. destruct (convert_one conv _ _ _) as [[[? ?] ?]|]; [|done]. intros [= <-]. cbn [p_heap p_conv p_source p_fwd p_queues p_readers fwd_cost]. lia.
  - destruct f as [|sl idx m|sl k]; try done. case_decide; [|done]. intros [= <-]. cbn [p_heap p_conv p_source p_fwd p_queues p_readers fwd_cost sl_len].
    destruct Hf as (_ & t & arr & r & _ & -> & _ & -> & Hle & _). cbn [sl_len] in *. assert (length r <= length t)%nat by lia.
    pose proof (Nat.mul_le_mono_l (length r + 3) (length t + 3) n ltac:(lia)). rewrite Nat.sub_0_r. lia.
  - destruct f as [|sl idx m|sl k]; try done. destruct (qs !! k) as [q|] eqn:Eq; [|done]. destruct (g_targets cfg !! k) as [cap|] eqn:Ec; [|done]. case_decide; [|done]. intros [= <-].
    cbn [p_heap p_conv p_source p_fwd p_queues p_readers fwd_cost]. pose proof (sum_insert queue_cost qs k q (q ++ [sl]) Eq) as E.
    rewrite queue_cost_snoc in E.
    assert (k < n)%nat by (apply lookup_lt_Some in Ec; done). assert (E2 : ((n - k) * (sl_len sl + 3) = (n - (k + 1)) * (sl_len sl + 3) + (sl_len sl + 3))%nat).
    { replace (n - k)%nat with (Datatypes.S (n - (k + 1)))%nat by lia. cbn. lia. }
    lia.
  - destruct f as [|sl idx m|sl k]; try done. case_decide; [|done]. intros [= <-]. cbn [p_heap p_conv p_source p_fwd p_queues p_readers fwd_cost]. lia.
  - destruct (qs !! i) as [[|sl q]|] eqn:Eq; try done. destruct (rs !! i) as [[log [c|]]|] eqn:Er; try done. intros [= <-]. cbn [p_heap p_conv p_source p_fwd p_queues p_readers].
    pose proof (sum_insert queue_cost qs i _ q Eq) as E1. pose proof (sum_insert reader_cost rs i _ (Reader log (Some (sl, 0%nat, []))) Er) as E2.
    cbn [reader_cost rd_cur] in E2. change (queue_cost (sl :: q)) with (sl_len sl + 2 + queue_cost q)%nat in E1. lia.
  - destruct (rs !! i) as [[log [[[sl pos] acc]|]]|] eqn:Er; try done. case_decide; [|done]. destruct (get h _ _) as [x|]; [|done]. intros [= <-]. cbn [p_heap p_conv p_source p_fwd p_queues p_readers].
    pose proof (sum_insert reader_cost rs i _ (Reader log (Some (sl, (pos + 1)%nat, acc ++ [x]))) Er) as E2. cbn [reader_cost rd_cur] in E2. lia.
  - destruct (rs !! i) as [[log [[[sl pos] acc]|]]|] eqn:Er; try done. case_decide; [|done]. intros [= <-]. cbn [p_heap p_conv p_source p_fwd p_queues p_readers].
    pose proof (sum_insert reader_cost rs i _ (Reader (log ++ [acc]) None) Er) as E2. cbn [reader_cost rd_cur] in E2. lia.
Qed.

Lemma inputs_internal evs : Forall internal evs -> inputs evs = [].
Proof. induction 1 as [|e evs He _ IH]; [done|]. rewrite inputs_cons, IH. by destruct e. Qed.

Lemma internal_bounded {S} cfg (conv : converter S) s0 evs : forall ins st st', pinv cfg conv s0 ins st -> Forall internal evs ->
  prun cfg conv evs st = Next st' -> (length evs + cost cfg st' <= cost cfg st)%nat.
Proof.
  induction evs as [|e evs IH]; intros ins st st' Hi Hint; cbn [prun length]; [intros [= ->]; lia|].
  inversion Hint as [|? ? He Hes]; subst. pose proof (pstep_ok cfg conv s0 ins st e Hi) as Hs. pose proof (cost_decreases cfg conv s0 ins st e) as Hc.
  destruct (pstep cfg conv e st) as [st1| |]; try done. intros Hrun. specialize (Hc st1 Hi He eq_refl). specialize (IH _ _ _ Hs Hes Hrun). lia.
Qed.

Lemma prun_app {S} cfg (conv : converter S) evs1 evs2 st st1 : prun cfg conv evs1 st = Next st1 -> prun cfg conv (evs1 ++ evs2) st = prun cfg conv evs2 st1.
Proof. revert st. induction evs1 as [|e evs1 IH]; intros st; cbn [prun app]; [by intros [= ->]|]. destruct (pstep cfg conv e st); try done. apply IH. Qed.

Lemma reachable_app {S} cfg (conv : converter S) s0 evs evs' st st' : reachable cfg conv s0 evs st -> prun cfg conv evs' st = Next st' -> reachable cfg conv s0 (evs ++ evs') st'.
Proof. unfold reachable. intros H1 H2. by rewrite (prun_app _ _ _ _ _ _ H1). Qed.

Lemma inputs_app evs evs' : inputs (evs ++ evs') = inputs evs ++ inputs evs'.
Proof. unfold inputs. by rewrite map_app, concat_app. Qed.

Lemma pipeline_terminates {S} cfg (conv : converter S) s0 evs st : reachable cfg conv s0 evs st ->
  exists bound, forall evs' st', Forall internal evs' -> prun cfg conv evs' st = Next st' -> (length evs' <= bound)%nat.
Proof.
  intros Hr. exists (cost cfg st). intros evs' st' Hint Hrun. pose proof (internal_bounded cfg conv s0 evs' _ _ _ (reachable_inv _ _ _ _ _ Hr) Hint Hrun). lia.
Qed.

Lemma stopped_rest {S} cfg (conv : converter S) s0 evs st : Forall (fun c => 0 < c)%nat (g_targets cfg) -> reachable cfg conv s0 evs st -> stopped cfg conv st -> at_rest st.
Proof.
  intros Hpos Hr Hs. destruct (pipeline_progress_inv cfg conv s0 _ st Hpos (reachable_inv _ _ _ _ _ Hr)) as [|(e & st' & He & Hst)]; [done|].
  rewrite (Hs e He) in Hst. done.
Qed.

Lemma rest_delivered {S} cfg (conv : converter S) s0 evs st : reachable cfg conv s0 evs st -> at_rest st ->
  exists s1 ts, converts_all conv s0 (inputs evs) s1 ts /\ map rd_log (p_readers st) = replicate (length (g_targets cfg)) ts.
Proof.
  intros Hr (Hsrc & Hfwd & HQ & HR). destruct (pipeline_delivers cfg conv s0 evs st Hr) as (s1 & ts & Hall & Hlq & Hlr & Ht). exists s1, ts. split; [done|].
  apply list_eq. intros i. rewrite list_lookup_fmap. destruct (p_readers st !! i) as [r|] eqn:Er.
  - pose proof (lookup_lt_Some _ _ _ Er) as Hlt. destruct (lookup_lt_is_Some_2 (p_queues st) i) as [q Eq]; [lia|]. rewrite lookup_replicate_2 by lia. cbn. f_equal.
    destruct (Ht i q r Eq Er) as (cur & rest & E & Hcur & Hrest). rewrite Forall_lookup in HQ. rewrite Forall_lookup in HR. rewrite (HR i r Er) in Hcur. rewrite (HQ i q Eq), Hcur in E.
    unfold held in Hrest. rewrite Hfwd, Hsrc in Hrest. cbn in Hrest. apply nil_length_inv in Hrest as ->. cbn in E. by rewrite app_nil_r in E.
  - cbn. symmetry. apply lookup_replicate_None. apply lookup_ge_None in Er. lia.
Qed.

Lemma stopped_delivered {S} cfg (conv : converter S) s0 evs st : Forall (fun c => 0 < c)%nat (g_targets cfg) -> reachable cfg conv s0 evs st -> stopped cfg conv st ->
  exists s1 ts, converts_all conv s0 (inputs evs) s1 ts /\ map rd_log (p_readers st) = replicate (length (g_targets cfg)) ts.
Proof. intros Hpos Hr Hs. eapply rest_delivered; [done|]. by eapply stopped_rest. Qed.

Lemma rest_stopped {S} cfg (conv : converter S) (st : pstate S) : at_rest st -> stopped cfg conv st.
Proof.
  destruct st as [h s src f qs rs]. intros (Hsrc & Hfwd & HQ & HR). cbn in *. subst src f. rewrite Forall_lookup in HQ. rewrite Forall_lookup in HR. intros e He. destruct e as [t| | | | | |i|i|i]; cbn [pstep]; try done.
  - destruct (qs !! i) as [q|] eqn:Eq; [|done]. by rewrite (HQ i q Eq).
  - destruct (rs !! i) as [[log c]|] eqn:Er; [|done]. specialize (HR i _ Er). cbn in HR. by subst c.
  - destruct (rs !! i) as [[log c]|] eqn:Er; [|done]. specialize (HR i _ Er). cbn in HR. by subst c.
Qed.

Lemma pipeline_can_drain {S} cfg (conv : converter S) s0 evs st : Forall (fun c => 0 < c)%nat (g_targets cfg) -> reachable cfg conv s0 evs st ->
  exists evs' st', Forall internal evs' /\ prun cfg conv evs' st = Next st' /\ stopped cfg conv st'.
Proof.
  intros Hpos Hr. apply reachable_inv in Hr. revert Hr. generalize (inputs evs) as ins. intros ins. remember (cost cfg st) as c eqn:Ec. revert st Ec.
  induction c as [c IH] using lt_wf_ind. intros st Ec Hi. destruct (pipeline_progress_inv cfg conv s0 _ st Hpos Hi) as [Hrest|(e & st1 & He & Hst)].
  - exists [], st. split; [constructor|]. split; [done|]. by apply rest_stopped.
  - pose proof (pstep_ok cfg conv s0 ins st e Hi) as Hs. rewrite Hst in Hs. destruct (IH (cost cfg st1)) with (st := st1) as (evs' & st' & H1 & H2 & H3).
    + subst c. by eapply cost_decreases.
    + done.
    + destruct e; try done; by rewrite app_nil_r in Hs.
    + exists (e :: evs'), st'. split; [by constructor|]. split; [|done]. cbn [prun]. by rewrite Hst.
Qed.

Lemma pipeline_progress {S} cfg (conv : converter S) s0 evs st : Forall (fun c => 0 < c)%nat (g_targets cfg) -> reachable cfg conv s0 evs st ->
  (exists e st', internal e /\ pstep cfg conv e st = Next st') \/
  (stopped cfg conv st /\ exists s1 ts, converts_all conv s0 (inputs evs) s1 ts /\ map rd_log (p_readers st) = replicate (length (g_targets cfg)) ts).
Proof.
  intros Hpos Hr. destruct (pipeline_progress_inv cfg conv s0 _ st Hpos (reachable_inv _ _ _ _ _ Hr)) as [Hrest|]; [right|by left].
  split; [by apply rest_stopped|]. by eapply rest_delivered.
Qed.

Lemma pipeline_drains {S} cfg (conv : converter S) s0 evs st : Forall (fun c => 0 < c)%nat (g_targets cfg) -> reachable cfg conv s0 evs st ->
  exists s1 ts, converts_all conv s0 (inputs evs) s1 ts /\
  (exists evs' st', Forall internal evs' /\ prun cfg conv evs' st = Next st' /\ stopped cfg conv st') /\
  forall evs' st', Forall internal evs' -> prun cfg conv evs' st = Next st' -> stopped cfg conv st' ->
    map rd_log (p_readers st') = replicate (length (g_targets cfg)) ts.
Proof.
  intros Hpos Hr. destruct (converts_all_total conv (inputs evs) s0) as (s1 & ts & Hall). exists s1, ts. split; [done|]. split; [by eapply pipeline_can_drain|].
  intros evs' st' Hint Hrun Hs. pose proof (reachable_app _ _ _ _ _ _ _ Hr Hrun) as Hr'.
  destruct (stopped_delivered _ _ _ _ _ Hpos Hr' Hs) as (s2 & ts2 & Hall2 & E). rewrite inputs_app, (inputs_internal evs' Hint), app_nil_r in Hall2.
  assert (ts2 = ts) as ->; [|done]. clear -Hall Hall2. revert s2 ts2 Hall2. induction Hall as [|s t l s1 t' s2 ts' Hc Hall IH]; intros s3 ts3 H3; inversion H3; subst; [done|].
  match goal with H : converts conv s t _ _ |- _ => destruct (converts_det _ _ _ _ _ Hc _ _ H) as [<- <-] end. f_equal. by eapply IH.
Qed.
