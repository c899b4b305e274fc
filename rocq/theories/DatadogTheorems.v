(** Theorems about the sink (C49-C51). *)
From Verif Require Import Base SpanModel IdModel DatadogModel DatadogSpec DatadogProofs.

Lemma drun_entry evs st log l1 e l2 : Forall valid_devent evs -> drun evs = (st, log) -> log = l1 ++ e :: l2 -> dentry_ok l1 e.
Proof. intros Hv E El. destruct (drun_ok _ _ _ Hv E) as [_ Hl]. exact (Hl _ _ _ El). Qed.

(* ---------- C50 ---------- *)

Lemma flush_spec evs st log l1 a b now l2 : Forall valid_devent evs -> drun evs = (st, log) -> log = l1 ++ XFlush a b now :: l2 ->
  flush_due l1 /\ grouped (buffered l1) b /\ (a = true <-> (length (accepted l1) < sent l1 + 8)%nat).
Proof. apply drun_entry. Qed.

Lemma send_spec evs st log l1 p l2 : Forall valid_devent evs -> drun evs = (st, log) -> log = l1 ++ XSend p :: l2 ->
  p <> [] /\ exists b, accepted l1 !! sent l1 = Some b /\ p ≡ₚ (map_to_list b).*2.
Proof. apply drun_entry. Qed.

Lemma buffered_small evs st log : Forall valid_devent evs -> drun evs = (st, log) ->
  Z.of_nat (length (buffered log)) < 1000 /\ ~ flush_due log /\ (sent log <= length (accepted log) <= sent log + 8)%nat.
Proof. intros Hv E. destruct (drun_ok _ _ _ Hv E) as [[] _]. split; [lia|]. done. Qed.

Lemma buffered_state evs st log : Forall valid_devent evs -> drun evs = (st, log) ->
  grouped (buffered log) (deref (k_mem st) (k_by st)) /\ map (deref (k_mem st)) (k_queue st) = drop (sent log) (accepted log).
Proof. intros Hv E. destruct (drun_ok _ _ _ Hv E) as [[Hm] _]. destruct Hm. done. Qed.

(** The received spans are cut into consecutive pieces, one per flush, and the buffered rest. *)
Lemma conservation evs st log : Forall valid_devent evs -> drun evs = (st, log) ->
  exists chunks, received log = concat chunks ++ buffered log /\ Forall2 grouped chunks (flushes log).
Proof.
  intros Hv E. destruct (drun_ok _ _ _ Hv E) as [_ Hl]. clear E. induction log as [|e log IH] using rev_ind.
  - exists []. split; [done|constructor].
  - destruct IH as (chunks & Hr & Hf). { intros a x b E. eapply (Hl a x (b ++ [e])). rewrite E. by rewrite <- app_assoc. }
    assert (He := Hl log e [] eq_refl). cbn [app] in He.
    assert (Hre : received [e] = match e with XTrace t => t | _ => [] end) by (unfold received; cbn; by rewrite app_nil_r).
    assert (Hfe : flushes [e] = match e with XFlush _ b _ => [b] | _ => [] end) by (unfold flushes; cbn; by rewrite app_nil_r).
    rewrite received_app, buffered_app, flushes_app, Hr, Hre, Hfe. destruct e as [t|now|a b now|p|]; cbn [foldl pend]; rewrite ?app_nil_r.
    + exists chunks. by rewrite <- app_assoc.
    + by exists chunks.
    + exists (chunks ++ [buffered log]). rewrite concat_app. cbn [concat]. rewrite !app_nil_r. split; [done|].
      apply Forall2_app; [done|]. constructor; [|constructor]. apply He.
    + by exists chunks.
    + by exists chunks.
Qed.

(* ---------- C49 ---------- *)

Lemma accepted_in log b i : accepted log !! i = Some b -> exists l1 now l2, log = l1 ++ XFlush true b now :: l2.
Proof.
  intros H. apply elem_of_list_lookup_2 in H. induction log as [|e log IH]; [by apply elem_of_nil in H|].
  unfold accepted in H. cbn [map concat] in H. apply elem_of_app in H as [H|H].
  - destruct e as [| |[] b' now| |]; try by apply elem_of_nil in H. apply elem_of_list_singleton in H as ->. by exists [], now, log.
  - destruct (IH H) as (l1 & now & l2 & ->). by exists (e :: l1), now, l2.
Qed.

Lemma buffered_received log s : s ∈ buffered log -> s ∈ received log.
Proof.
  induction log as [|e log IH] using rev_ind; [done|]. rewrite buffered_app, received_app. cbn [foldl]. intros H. apply elem_of_app.
  destruct e as [t|now|a b now|p|]; cbn [pend] in H; [|by left; apply IH|by apply elem_of_nil in H|by left; apply IH|by left; apply IH].
  apply elem_of_app in H as [H|H]; [left; by apply IH|right]. unfold received. cbn. by rewrite app_nil_r.
Qed.

Lemma sent_converted evs st log l1 p l2 : Forall valid_devent evs -> drun evs = (st, log) -> log = l1 ++ XSend p :: l2 ->
  Forall (fun g => g <> [] /\ exists t, Forall (fun d => d_trace d = t /\ exists s, s ∈ received l1 /\ converted s d) g) p.
Proof.
  intros Hv E El. destruct (send_spec _ _ _ _ _ _ Hv E El) as [_ (b & Hb & Hp)].
  destruct (accepted_in _ _ _ Hb) as (a1 & now & a2 & Ea). rewrite Ea in El.
  rewrite <- app_assoc in El. cbn [app] in El. destruct (flush_spec _ _ _ _ _ _ _ _ Hv E El) as (_ & Hg & _).
  rewrite Hp. apply Forall_forall. intros g Hin. apply elem_of_list_fmap in Hin as ((t & g') & -> & Hin). apply elem_of_map_to_list in Hin. cbn [snd].
  specialize (Hg t). rewrite Hin in Hg. destruct Hg as [Hne Hg]. split; [done|]. exists t. rewrite Forall_lookup. intros i d Hd.
  destruct (Forall2_lookup_r _ _ _ _ _ Hg Hd) as (s & Hs & Hc). apply elem_of_list_lookup_2, elem_of_list_filter in Hs as [Ht Hs].
  split; [|exists s; split; [|done]].
  - destruct Hc as [_ Hct _ _ _ _ _ _ _ _]. clear - Hct Ht. zlia.
  - rewrite Ea, received_app. apply elem_of_app. left. by apply buffered_received.
Qed.

Lemma never_shared evs st log : Forall valid_devent evs -> drun evs = (st, log) -> unshared (k_queue st ++ [k_by st]).
Proof. intros Hv E. destruct (drun_ok _ _ _ Hv E) as [[Hm] _]. apply (m_unshared _ _ _ Hm). Qed.

(* ---------- C51 ---------- *)

Lemma drun_from_app e1 : forall st e2, drun_from st (e1 ++ e2) =
  let '(st1, l1) := drun_from st e1 in let '(st2, l2) := drun_from st1 e2 in (st2, l1 ++ l2).
Proof.
  induction e1 as [|e e1 IH]; intros st e2; cbn [app drun_from].
  - by destruct (drun_from st e2).
  - destruct (dstep e st) as [st1 l1]. rewrite IH. destruct (drun_from st1 e1) as [st2 l2]. destruct (drun_from st2 e2) as [st3 l3]. by rewrite app_assoc.
Qed.

Lemma closed_no_flush evs : forall st, k_open st = false -> k_queue st = [] -> drun_from st evs = (st, []).
Proof.
  induction evs as [|e evs IH]; intros st Ho Hq; cbn [drun_from]; [done|].
  assert (dstep e st = (st, [])) as ->. { destruct e; cbn [dstep]; by rewrite ?Ho, ?Hq. } by rewrite IH.
Qed.

Lemma sink_close_loses : exists evs s st log, Forall valid_devent evs /\ drun evs = (st, log) /\ XTrace [s] ∈ log /\ span_ok s /\ s_id s <> 0 /\ s_trace s <> 0 /\
  forall more, (drun (evs ++ more)).2 = log /\ sent log = 0%nat.
Proof.
  set (s := new_span [] 1 2 3). exists [DTrace [s] 0; DClose], s, (drun [DTrace [s] 0; DClose]).1, [XTrace [s]; XClose].
  assert (Hs : span_ok s) by (unfold span_ok, timings_ok, s, new_span, zero_timings; cbn; unfold int64_ok; p2; lia).
  assert (E : (drun [DTrace [s] 0; DClose]).2 = [XTrace [s]; XClose]) by done.
  split. { constructor; [|constructor; [done|constructor]]. by constructor. }
  split. { rewrite <- E. by destruct (drun _). }
  split; [apply elem_of_list_here|]. split; [done|]. split; [done|]. split; [done|]. intros more. split; [|done].
  unfold drun in *. rewrite drun_from_app. destruct (drun_from new_sink [DTrace [s] 0; DClose]) as [st log] eqn:Es. cbn [snd] in E. subst log.
  rewrite closed_no_flush; [done| |]; apply (f_equal fst) in Es; cbn [fst] in Es; rewrite <- Es; reflexivity.
Qed.

(** Taking as often as there are batches sends everything accepted. *)
Lemma takes_drain ords : forall st log, Forall valid_devent (map DTake ords) -> dinv st log -> (length (accepted log) - sent log <= length ords)%nat ->
  let '(st', new) := drun_from st (map DTake ords) in
  accepted (log ++ new) = accepted log /\ sent (log ++ new) = length (accepted log) /\ received (log ++ new) = received log /\ flushes (log ++ new) = flushes log.
Proof.
  induction ords as [|ord ords IH]; intros st log Hv Hi Hle; cbn [map drun_from].
  - rewrite app_nil_r. split_and!; try done. destruct Hi. cbn in Hle. lia.
  - inversion Hv as [|? ? Ho Hv']; subst. pose proof (dstep_ok (DTake ord) st log Ho Hi) as Hs.
    destruct (dstep (DTake ord) st) as [st1 l1] eqn:E1. destruct Hs as [Hi1 Hl1].
    assert (Hn : (exists p, l1 = [XSend p]) \/ (l1 = [] /\ (length (accepted log) - sent log = 0)%nat)).
    { cbn [dstep] in E1. destruct Hi as [Hm Hse _ _ _ _ _ Hne]. assert (Hq := queue_length _ _ _ Hm). rewrite drop_length in Hq.
      destruct (k_queue st) as [|b q] eqn:Eq; [right; injection E1 as <- <-; split; [done|cbn in Hq; lia]|].
      destruct (map _ (ord b)) as [|x tr] eqn:Et; injection E1 as <- <-; [|left; eauto]. exfalso.
      apply map_eq_nil in Et. assert (Hb := Ho b). rewrite Et in Hb. symmetry in Hb. apply Permutation_nil_r, map_to_list_empty_iff in Hb. subst b.
      assert (Hin := m_queue _ _ _ Hm). rewrite Eq in Hin. cbn [map] in Hin.
      assert (accepted log !! sent log = Some (deref (k_mem st) ∅)) as Ha. { rewrite <- (Nat.add_0_r (sent log)), <- lookup_drop, <- Hin. done. }
      rewrite Forall_lookup in Hne. apply (Hne _ _ Ha). apply fmap_empty. }
    specialize (IH st1 (log ++ l1) Hv' Hi1).
    destruct Hn as [[p ->]|[-> Hz]].
    + assert (Ha : accepted (log ++ [XSend p]) = accepted log) by (rewrite accepted_app; by rewrite app_nil_r).
      assert (Hse : sent (log ++ [XSend p]) = (sent log + 1)%nat) by (by rewrite sent_app).
      assert (Hr : received (log ++ [XSend p]) = received log) by (rewrite received_app; by rewrite app_nil_r).
      assert (Hf : flushes (log ++ [XSend p]) = flushes log) by (rewrite flushes_app; by rewrite app_nil_r).
      rewrite Ha, Hse, Hr, Hf in IH. cbn [length] in Hle. specialize (IH ltac:(lia)). destruct (drun_from st1 (map DTake ords)) as [st2 l2].
      rewrite app_assoc. done.
    + rewrite app_nil_r in IH. specialize (IH ltac:(lia)). destruct (drun_from st1 (map DTake ords)) as [st2 l2]. done.
Qed.

(** C51, guarded: nothing buffered when the input is closed. *)
Lemma sink_close_guarded evs st log ords : Forall valid_devent evs -> drun evs = (st, log) -> buffered log = [] ->
  Forall valid_devent (map DTake ords) -> (8 <= length ords)%nat ->
  exists st' log' chunks, drun (evs ++ DClose :: map DTake ords) = (st', log') /\
    received log' = concat chunks /\ Forall2 grouped chunks (flushes log') /\ sent log' = length (accepted log') /\ received log' = received log.
Proof.
  intros Hv E Hb Ho Hlen. unfold drun. rewrite drun_from_app. unfold drun in E. rewrite E. cbn [drun_from].
  destruct (drun_ok evs st log Hv E) as [Hi Hlg]. pose proof (dstep_ok DClose st log I Hi) as Hs.
  destruct (dstep DClose st) as [st1 l1] eqn:E1. destruct Hs as [Hi1 Hl1].
  assert (Hl1' : l1 = [] \/ l1 = [XClose]) by (cbn [dstep] in E1; destruct (k_open st); injection E1 as <- <-; auto).
  pose proof (takes_drain ords st1 (log ++ l1) Ho Hi1) as Ht.
  destruct (drun_from st1 (map DTake ords)) as [st2 l2] eqn:E2. exists st2, (log ++ l1 ++ l2).
  assert (Hbig : (length (accepted (log ++ l1)) - sent (log ++ l1) <= length ords)%nat) by (destruct (v_sent _ _ Hi1); lia).
  specialize (Ht Hbig). destruct Ht as (Ha & Hse & Hr & Hf). rewrite <- !app_assoc in *.
  destruct (conservation evs st log Hv E) as (chunks & Hrec & Hg). exists chunks.
  assert (Hr1 : received (log ++ l1) = received log) by (destruct Hl1' as [-> | ->]; rewrite received_app; by rewrite app_nil_r).
  assert (Hf1 : flushes (log ++ l1) = flushes log) by (destruct Hl1' as [-> | ->]; rewrite flushes_app; by rewrite app_nil_r).
  split; [done|]. rewrite Hr, Hr1, Hf, Hf1, Hse, Ha. rewrite Hb, app_nil_r in Hrec. done.
Qed.
