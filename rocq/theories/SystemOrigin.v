(** Where the spans that reach the targets come from (C60), and what the two targets make of them (C61). *)
From Verif Require Import Base SpanModel JsonModel CodecModel HandlerModel HandlerSpec TreeModel TreeSpec FinishModel FinishSpec FinishRun FinishTheorems
  ForwardModel ForwardSpec ForwardProofs RingModel RingSpec RingProofs DatadogModel DatadogSpec DatadogProofs DatadogTheorems
  PipelineModel PipelineSpec PipelineProofs PipelineTheorems SystemModel SystemSpec SystemProofs SystemTheorems.

Lemma pending_received log t a : a ∈ pending log t -> LSpan a.1.1 a.1.2 a.2 ∈ log /\ s_trace a.2 = t.
Proof.
  unfold pending, status. induction log as [|e log IH] using rev_ind; [by intros H%elem_of_nil|]. rewrite foldl_app. cbn [foldl].
  destruct (foldl (track t) (false, []) log) as [b p]. cbn [snd] in IH. unfold track. destruct e as [n0 n1 s| |t' o|t'|]; cbn [snd].
  - case_decide as H; cbn [snd].
    + intros [Ha|Ha]%elem_of_app; [destruct (IH Ha); split; [apply elem_of_app; by left|done]|]. apply elem_of_list_singleton in Ha as ->. cbn. split; [apply elem_of_app; right; left|tauto].
    + intros Ha. destruct (IH Ha). split; [apply elem_of_app; by left|done].
  - intros Ha. destruct (IH Ha). split; [apply elem_of_app; by left|done].
  - case_decide; cbn [snd]; [by intros H0%elem_of_nil|]. intros Ha. destruct (IH Ha). split; [apply elem_of_app; by left|done].
  - case_decide; cbn [snd]; intros Ha; destruct (IH Ha); (split; [apply elem_of_app; by left|done]).
  - intros Ha. destruct (IH Ha). split; [apply elem_of_app; by left|done].
Qed.

Lemma emitted_out log out : out ∈ emitted log -> exists l1 t l2, log = l1 ++ LOut t (Emitted out) :: l2.
Proof.
  induction log as [|e log IH]; [by intros H%elem_of_nil|]. change (emitted (e :: log)) with (match e with LOut _ (Emitted l) => [l] | _ => [] end ++ emitted log).
  intros [H|H]%elem_of_app.
  - destruct e as [| |t [l| | | | |]| |]; try by apply elem_of_nil in H. apply elem_of_list_singleton in H as ->. by exists [], t, log.
  - destruct (IH H) as (l1 & t & l2 & ->). by exists (e :: l1), t, l2.
Qed.

Lemma converts_origin {S} (conv : converter S) s l s' l' y : converts conv s l s' l' -> y ∈ l' ->
  exists x c c', x ∈ l /\ conv c x = (c', (y, false)) /\ s_id y <> 0 /\ s_trace y <> 0.
Proof.
  induction 1 as [|s x l s1 c s2 l' Hc Hi Ht _ IH|s x l s1 c err s2 l' _ _ _ IH]; intros Hy.
  - by apply elem_of_nil in Hy.
  - apply elem_of_cons in Hy as [->|Hy]; [exists x, s, s1; split; [left|done]|]. destruct (IH Hy) as (x' & c1 & c2 & Hx & H). exists x', c1, c2. split; [by right|done].
  - destruct (IH Hy) as (x' & c1 & c2 & Hx & H). exists x', c1, c2. split; [by right|done].
Qed.

Lemma converts_all_origin {S} (conv : converter S) s l s' ts t' : converts_all conv s l s' ts -> t' ∈ ts -> exists t c c', t ∈ l /\ converts conv c t c' t'.
Proof.
  induction 1 as [|s t l s1 t1 s2 ts Hc _ IH]; intros H; [by apply elem_of_nil in H|]. apply elem_of_cons in H as [->|H].
  - exists t, s, s1. split; [left|done].
  - destruct (IH H) as (u & c & c' & Hu & Hcc). exists u, c, c'. split; [by right|done].
Qed.

Lemma elem_of_concat {A} (x : A) ll : x ∈ concat ll <-> exists l, l ∈ ll /\ x ∈ l.
Proof.
  induction ll as [|l ll IH]; cbn [concat].
  - split; [by intros H%elem_of_nil|]. intros (l & H%elem_of_nil & _). done.
  - rewrite elem_of_app, IH. split.
    + intros [H|(l' & H1 & H2)]; [exists l; split; [left|done]|exists l'; split; [by right|done]].
    + intros (l' & [->|H1]%elem_of_cons & H2); [by left|right; by exists l'].
Qed.

Lemma system_log_in {S} cfg (conv : converter S) s0 evs st i r t' : yreachable cfg conv s0 evs st -> p_readers (y_pipe st) !! i = Some r -> t' ∈ rd_log r ->
  exists l1 t out l2 c c', y_log st = l1 ++ LOut t (Emitted out) :: l2 /\ converts conv c out c' t'.
Proof.
  intros Hr Hi Ht. destruct (system_delivers _ _ _ _ _ Hr) as (s1 & ts & Hall & Hq & Hrd & Htg). destruct (lookup_lt_is_Some_2 (p_queues (y_pipe st)) i) as [q Eq]; [apply lookup_lt_Some in Hi; lia|].
  destruct (Htg i q r Eq Hi) as (cur & rest & -> & _). destruct (converts_all_origin _ _ _ _ _ t' Hall) as (out & c & c' & Hout & Hc); [apply elem_of_app; by left|].
  destruct (emitted_out _ _ Hout) as (l1 & t & l2 & El). by exists l1, t, out, l2, c, c'.
Qed.

Lemma system_origin {S} cfg (conv : converter S) s0 evs st i r y : yreachable cfg conv s0 evs st -> p_readers (y_pipe st) !! i = Some r -> y ∈ concat (rd_log r) ->
  exists l1 t out l2 x, y_log st = l1 ++ LOut t (Emitted out) :: l2 /\ x ∈ out /\ s_trace x = t /\
    (exists c c', conv c x = (c', (y, false))) /\ s_id y <> 0 /\ s_trace y <> 0 /\
    ((exists f, injected t (merged_spans t (pending l1 t)) f /\ s_id x = s_id f) \/
     (exists j x0, (j, x0) ∈ y_puts st /\ (j < length (requests evs))%nat /\ s_trace x0 = t /\ s_id x0 = s_id x)).
Proof.
  intros Hr Hi Hy. apply elem_of_concat in Hy as (t' & Ht & Hy). destruct (system_log_in _ _ _ _ _ _ _ _ Hr Hi Ht) as (l1 & t & out & l2 & c & c' & El & Hc).
  destruct (converts_origin _ _ _ _ _ _ Hc Hy) as (x & c1 & c2 & Hx & Hcx & Hid & Htr). exists l1, t, out, l2, x. split; [done|]. split; [done|].
  destruct (system_record _ _ _ _ _ Hr) as (fevs & Hfv & Hrun).
  assert (El' : (run fevs).2 = l1 ++ LOut t (Emitted out) :: l2) by (by rewrite Hrun).
  destruct (emitted_trace _ _ _ _ _ Hfv El') as (Hall & _ & extra & Hids & Hextra). rewrite Forall_forall in Hall. split; [by apply Hall|].
  split; [by exists c1, c2|]. split; [done|]. split; [done|].
  assert (Hxid : s_id x ∈ ids out) by (unfold ids; apply elem_of_list_fmap; by exists x).
  apply Hids in Hxid as [Hxid|Hxid].
  - left. destruct Hextra as [->|(f & -> & Hf)]; [by apply elem_of_nil in Hxid|]. apply elem_of_list_singleton in Hxid. by exists f.
  - right. unfold pending_ids in Hxid. apply elem_of_list_fmap in Hxid as (a & Ea & Ha). destruct (pending_received _ _ _ Ha) as [Hin Htra].
    destruct (system_ingest _ _ _ _ _ Hr) as (_ & _ & Hk & Hputs & _).
    assert (Hrec : a.2 ∈ map snd (y_puts st)).
    { rewrite Hputs. apply elem_of_app. left. unfold SystemSpec.received. apply elem_of_concat. exists [a.2]. split; [|left]. apply elem_of_list_fmap. exists (LSpan a.1.1 a.1.2 a.2). split; [done|]. rewrite El. apply elem_of_app. by left. }
    apply elem_of_list_fmap in Hrec as ([j x0] & Ex0 & Hj). cbn in Ex0. subst x0. exists j, a.2. split; [done|]. rewrite Forall_forall in Hk. split; [apply (Hk _ Hj)|]. done.
Qed.

(* ---------- the ring ---------- *)

Lemma visible_all l : Forall (fun s => s_id s <> 0) l -> visible l = l.
Proof. unfold visible. induction 1 as [|x l Hx _ IH]; [done|]. rewrite filter_cons_True by done. by rewrite IH. Qed.

Lemma system_ring {S} cfg (conv : converter S) s0 evs st i r cap : yreachable cfg conv s0 evs st -> p_readers (y_pipe st) !! i = Some r -> (0 < cap)%nat ->
  exists b, read_from (new_ring cap) (rd_log r) = Some b /\ to_slice b ≡ₚ lastn cap (concat (rd_log r)).
Proof.
  intros Hr Hi Hcap. destruct (ring_recent cap (rd_log r) Hcap) as (b & Hb & older & newer & Hl & _ & Hs). exists b. split; [done|].
  assert (Hnz : Forall (fun s => s_id s <> 0) (concat (rd_log r))).
  { apply Forall_forall. intros y Hy. destruct (system_origin _ _ _ _ _ _ _ _ Hr Hi Hy) as (?&?&?&?&?&_&_&_&_&H&_). done. }
  assert (Hnz2 : Forall (fun s => s_id s <> 0) (older ++ newer)).
  { rewrite <- Hl. unfold lastn. by apply Forall_drop. }
  apply Forall_app in Hnz2 as [Ho Hn]. rewrite Hs, Hl, !visible_all by done. apply Permutation_app_comm.
Qed.

(* ---------- the sink ---------- *)

Definition traces_of (evs : list devent) : list (list span) := concat (map (fun e => match e with DTrace t _ => [t] | _ => [] end) evs).

Lemma sink_flush_received b now st : DatadogSpec.received (sink_flush b now st).2 = [].
Proof. unfold sink_flush. by destruct (b && _). Qed.

Lemma dd_received_app l1 l2 : DatadogSpec.received (l1 ++ l2) = DatadogSpec.received l1 ++ DatadogSpec.received l2.
Proof. unfold DatadogSpec.received. by rewrite map_app, concat_app. Qed.

Lemma dstep_received e st s : s ∈ DatadogSpec.received (dstep e st).2 -> s ∈ concat (traces_of [e]).
Proof.
  destruct e as [t now|since now|ord|]; cbn [dstep].
  - destruct (k_open st); [|by intros H%elem_of_nil]. pose proof (sink_flush_received (flushSpanCount <=? k_count (set_count (k_count (foldl sink_span st t) + Z.of_nat (length t)) (foldl sink_span st t))) now
      (set_count (k_count (foldl sink_span st t) + Z.of_nat (length t)) (foldl sink_span st t))) as Hf. destruct (sink_flush _ _ _) as [st3 log]. cbn [snd] in *.
    change (DatadogSpec.received (XTrace t :: log)) with (t ++ DatadogSpec.received log). rewrite Hf, app_nil_r. cbn. by rewrite app_nil_r.
  - destruct (k_open st); [|by intros H%elem_of_nil]. pose proof (sink_flush_received (due (k_last st) since) now st) as Hf. destruct (sink_flush _ _ _) as [st3 log]. cbn [snd] in *.
    change (DatadogSpec.received (XTick since :: log)) with (DatadogSpec.received log). by rewrite Hf.
  - destruct (k_queue st); [done|]. cbn [snd]. destruct (map _ (ord g)); done.
  - destruct (k_open st); done.
Qed.

Lemma drun_received evs s : forall st, s ∈ DatadogSpec.received (drun_from st evs).2 -> s ∈ concat (traces_of evs).
Proof.
  induction evs as [|e evs IH]; intros st; cbn [drun_from]; [done|]. pose proof (dstep_received e st s) as He. destruct (dstep e st) as [st1 l1]. specialize (IH st1). destruct (drun_from st1 evs) as [st2 l2]. cbn [snd] in *.
  rewrite dd_received_app. intros H. replace (traces_of (e :: evs)) with (traces_of [e] ++ traces_of evs) by (unfold traces_of; cbn; by rewrite app_nil_r).
  rewrite concat_app. apply elem_of_app in H as [H|H]; apply elem_of_app; [left; by apply He|right; by apply IH].
Qed.

Lemma system_sink {S} cfg (conv : converter S) s0 evs st i r devs dst dlog l1 p l2 g d : yreachable cfg conv s0 evs st -> p_readers (y_pipe st) !! i = Some r ->
  traces_of devs = rd_log r -> Forall valid_devent devs -> drun devs = (dst, dlog) -> dlog = l1 ++ XSend p :: l2 -> g ∈ p -> d ∈ g ->
  exists y, y ∈ concat (rd_log r) /\ converted y d.
Proof.
  intros Hr Hi Htr Hv Hrun El Hg Hd. pose proof (sent_converted _ _ _ _ _ _ Hv Hrun El) as H. rewrite Forall_forall in H. destruct (H g Hg) as (_ & t & Ht).
  rewrite Forall_forall in Ht. destruct (Ht d Hd) as (_ & y & Hy & Hc). exists y. split; [|done]. rewrite <- Htr. apply (drun_received devs y new_sink).
  change (drun_from new_sink devs) with (drun devs). rewrite Hrun. cbn [snd]. rewrite El, dd_received_app. apply elem_of_app. by left.
Qed.
