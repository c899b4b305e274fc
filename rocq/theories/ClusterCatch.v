(** Several proxies with Kafka: channels stay within their capacities, and an owner can catch up with its partition. *)
From Verif Require Import Base SpanModel BinaryModel BinarySpec PipelineModel ConsumeModel ReplaySpec ClusterModel ClusterSpec ClusterProofs ClusterRuns ClusterBlock.

Definition within (cfg : kconfig) (x : proxy) : Prop :=
  (length (x_http x) <= g_http cfg)%nat /\ (length (x_input x) <= g_input cfg)%nat /\ (x_errors x <= g_errors cfg)%nat /\ (length (x_kafka x) <= g_kafka cfg)%nat.

Lemma within_step cfg e st st' l : (forall i x, z_proxies st !! i = Some x -> within cfg x) -> kstep cfg e st = Next (st', l) ->
  forall i x, z_proxies st' !! i = Some x -> within cfg x.
Proof.
  intros H E. destruct st as [xs qs]. cbn [z_proxies] in H.
  destruct e; cbn [kstep] in E; kcases E; try (injection E as <- <-); subst; cbn [z_proxies]; try exact H;
    intros a x Ha; apply insert_lookup_cases in Ha as [(-> & -> & _)|(_ & Ha)]; try (by eapply H);
    first [specialize (H _ _ Hc)|specialize (H _ _ Hc4)|idtac]; unfold within, new_proxy in *; xcbn; rewrite ?app_length; cbn [length] in *; lia.
Qed.

Lemma bounded cfg n parts evs st rec i x : reached cfg n parts evs st rec -> z_proxies st !! i = Some x -> within cfg x.
Proof.
  intros R. revert i x. pattern st, rec. eapply reached_inv; [| |exact R].
  - intros i x H. cbn [kinit z_proxies] in H. apply replicate_elem in H as ->. unfold within. cbn. lia.
  - intros e s r s' l _ H E. by eapply within_step.
Qed.

(* ---------- an owner catches up ---------- *)

(** What is known of the claim of a partition in a reached state. *)
Lemma claim_facts cfg n parts evs st rec p q c : reached cfg n parts evs st rec -> z_parts st !! p = Some q -> q_claim q = Some c ->
  is_Some (z_proxies st !! c_owner c) /\ (handled_to c <= length (q_log q))%nat /\ (forall s, c_phase c = CCalling s -> c_next c < length (q_log q))%nat.
Proof.
  intros R Hq Hc. destruct (reached_all _ _ _ _ _ _ R) as (_ & (_ & _ & HL) & HR & _). destruct (HL _ _ _ Hq Hc) as (_ & H1 & _ & H2).
  split; [done|]. split.
  - destruct (HR _ _ Hq) as [_ HR2]. unfold read_state in HR2. destruct (foldl _ _ _).2 as [[o l]|]; [|destruct HR2 as (E & _); congruence].
    destruct HR2 as (m & Hm & _ & HR3 & _). destruct (HR3 _ Hc) as [-> _]. lia.
  - intros s Hs. destruct (H2 s Hs) as (m & Hm & _). by eapply lookup_lt_Some.
Qed.

Lemma handled_app rec rec' p : handled (rec ++ rec') p = handled rec p ++ handled rec' p.
Proof. unfold handled. apply omap_app. Qed.

Section catch.
  Context (cfg : kconfig) (p i : nat) (Hg : (0 < g_kafka cfg)%nat).
  Let mine (e : kevent) : Prop := e = KNext p \/ e = KCall p \/ e = KMark p \/ e = KRecv i.

  Lemma empty_kafka k : forall xs qs h hold inp b er rec, xs !! i = Some (Proxy h hold inp b er k) ->
    krun cfg (replicate (length k) (KRecv i)) (KState xs qs) rec = Next (KState (<[i := Proxy h hold inp b er []]> xs) qs, rec ++ map (RRecv i) k).
  Proof.
    induction k as [|s k IH]; intros xs qs h hold inp b er rec E.
    - cbn [length replicate krun map]. by rewrite list_insert_id, app_nil_r.
    - cbn [length replicate]. erewrite krun_next; [|cbn [kstep]; rewrite E; reflexivity]. erewrite IH; [|by eapply at_i].
      by rewrite list_insert_insert, <- app_assoc.
  Qed.

  (** One call with an empty channel. *)
  Lemma call_one xs qs h hold inp b er log c o mk s rec : xs !! i = Some (Proxy h hold inp b er []) -> qs !! p = Some (Partition log c (Some (KClaim i o mk (CCalling s)))) ->
    exists mk', krun cfg [KCall p; KMark p; KRecv i] (KState xs qs) rec =
      Next (KState xs (<[p := Partition log c (Some (KClaim i (S o) (Some mk') CWaiting))]> qs), rec ++ [RCall p o i s; RRecv i s]).
  Proof.
    intros Hx Hq. eexists. erewrite krun_next; [|cbn [kstep]; rewrite Hq, Hx; cbn [length]; rewrite decide_True by done; reflexivity].
    assert (Hp : (p < length qs)%nat) by (by eapply lookup_lt_Some). assert (Hi : (i < length xs)%nat) by (by eapply lookup_lt_Some).
    erewrite krun_next; [|cbn [kstep]; rewrite list_lookup_insert by done; reflexivity].
    erewrite krun_next; [|cbn [kstep]; rewrite list_lookup_insert by done; reflexivity].
    cbn [krun]. rewrite !list_insert_insert, (list_insert_id xs i) by done. rewrite app_nil_r, <- app_assoc. reflexivity.
  Qed.

  Lemma read_on k : forall xs qs h hold inp b er log c o mk rec, xs !! i = Some (Proxy h hold inp b er []) ->
    qs !! p = Some (Partition log c (Some (KClaim i o mk CWaiting))) -> (o + k = length log)%nat ->
    exists evs mk' rec', Forall mine evs /\
      krun cfg evs (KState xs qs) rec = Next (KState xs (<[p := Partition log c (Some (KClaim i (length log) mk' CWaiting))]> qs), rec ++ rec') /\
      handled rec' p = seq o k.
  Proof.
    induction k as [|k IH]; intros xs qs h hold inp b er log c o mk rec Hx Hq Hk.
    - exists [], mk, []. split; [constructor|]. cbn [krun]. replace (length log) with o by lia. by rewrite list_insert_id, app_nil_r.
    - destruct (lookup_lt_is_Some_2 log o) as [m Hm]; [lia|]. assert (Hp : (p < length qs)%nat) by (by eapply lookup_lt_Some).
      destruct (binary_decode (km_val m)) as [s r|] eqn:Ed.
      + destruct (call_one xs (<[p := Partition log c (Some (KClaim i o mk (CCalling s)))]> qs) h hold inp b er log c o mk s (rec ++ []) Hx) as (mk1 & E1); [by apply list_lookup_insert|].
        rewrite list_insert_insert in E1.
        destruct (IH xs (<[p := Partition log c (Some (KClaim i (S o) (Some mk1) CWaiting))]> qs) h hold inp b er log c (S o) (Some mk1) ((rec ++ []) ++ [RCall p o i s; RRecv i s]) Hx)
          as (evs & mk' & rec' & F & E2 & Hh); [by apply list_lookup_insert|lia|].
        exists (KNext p :: [KCall p; KMark p; KRecv i] ++ evs), mk', ([RCall p o i s; RRecv i s] ++ rec'). split; [|split].
        * unfold mine. repeat (apply Forall_cons; split; [tauto|]). exact F.
        * erewrite krun_next; [|cbn [kstep]; rewrite Hq, Hm, Ed; reflexivity]. rewrite (krun_app _ _ _ _ _ _ _ E1), E2, list_insert_insert. by rewrite app_nil_r, <- app_assoc.
        * rewrite handled_app, Hh. cbn. by rewrite decide_True.
      + destruct (IH xs (<[p := Partition log c (Some (KClaim i (S o) mk CWaiting))]> qs) h hold inp b er log c (S o) mk (rec ++ [RSkip p o]) Hx)
          as (evs & mk' & rec' & F & E2 & Hh); [by apply list_lookup_insert|lia|].
        exists (KNext p :: evs), mk', (RSkip p o :: rec'). split; [|split].
        * constructor; [left; done|exact F].
        * erewrite krun_next; [|cbn [kstep]; rewrite Hq, Hm, Ed; reflexivity]. by rewrite E2, list_insert_insert, <- app_assoc.
        * change (RSkip p o :: rec') with ([RSkip p o] ++ rec'). rewrite handled_app, Hh. cbn. by rewrite decide_True.
  Qed.
End catch.

Lemma handled_recvs i k p : handled (map (RRecv i) k) p = [].
Proof. unfold handled. by induction k as [|s k IH]. Qed.

Lemma catches_up cfg n parts evs st rec p q c : reached cfg n parts evs st rec -> (0 < g_kafka cfg)%nat -> z_parts st !! p = Some q -> q_claim q = Some c ->
  exists evs' st' rec' q' c' x', Forall (fun e => e = KNext p \/ e = KCall p \/ e = KMark p \/ e = KRecv (c_owner c)) evs' /\
    reached cfg n parts (evs ++ evs') st' (rec ++ rec') /\
    z_parts st' !! p = Some q' /\ q_log q' = q_log q /\ q_claim q' = Some c' /\ c_owner c' = c_owner c /\ handled_to c' = length (q_log q) /\
    z_proxies st' !! c_owner c = Some x' /\ x_kafka x' = [] /\ handled rec' p = seq (handled_to c) (length (q_log q) - handled_to c).
Proof.
  intros R Hg Hq Hc. destruct (claim_facts _ _ _ _ _ _ _ _ _ R Hq Hc) as ([x Hx] & Hle & Hcall).
  destruct R as [Hv Hr]. destruct st as [xs qs], q as [log cm cl], x as [h hold inp b er k], c as [i o mk ph]. xcbn. subst cl.
  set (xs1 := <[i := Proxy h hold inp b er []]> xs).
  pose proof (empty_kafka cfg i k xs qs h hold inp b er rec Hx) as E1. fold xs1 in E1.
  assert (Hx1 : xs1 !! i = Some (Proxy h hold inp b er [])) by (by eapply at_i).
  assert (Hp : (p < length qs)%nat) by (by eapply lookup_lt_Some).
  (* to a waiting claim *)
  assert (Q : exists evs2 mk2 rec2, Forall (fun e => e = KNext p \/ e = KCall p \/ e = KMark p \/ e = KRecv i) evs2 /\
    krun cfg evs2 (KState xs1 qs) (rec ++ map (RRecv i) k) =
      Next (KState xs1 (<[p := Partition log cm (Some (KClaim i (match ph with CWaiting => o | _ => S o end) mk2 CWaiting))]> qs), (rec ++ map (RRecv i) k) ++ rec2) /\
    handled rec2 p = match ph with CCalling _ => [o] | _ => [] end).
  { destruct ph as [|s|].
    - exists [], mk, []. split; [constructor|]. cbn [krun]. by rewrite list_insert_id, app_nil_r.
    - destruct (call_one cfg p i Hg xs1 qs h hold inp b er log cm o mk s (rec ++ map (RRecv i) k) Hx1 Hq) as (mk2 & E2).
      exists [KCall p; KMark p; KRecv i], (Some mk2), [RCall p o i s; RRecv i s]. split; [repeat (apply Forall_cons; split; [tauto|]); constructor|]. split; [exact E2|].
      cbn. by rewrite decide_True.
    - exists [KMark p]. eexists. exists []. split; [repeat (apply Forall_cons; split; [tauto|]); constructor|]. split; [|done].
      cbn [krun kstep]. rewrite Hq. by rewrite !app_nil_r. }
  destruct Q as (evs2 & mk2 & rec2 & F2 & E2 & H2).
  set (o' := match ph with CWaiting => o | _ => S o end) in *.
  assert (Ho : (o' <= length log)%nat).
  { subst o'. unfold handled_to in Hle. xcbn. destruct ph as [|s|]; [done| |done]. specialize (Hcall s eq_refl). lia. }
  destruct (read_on cfg p i Hg (length log - o') xs1 (<[p := Partition log cm (Some (KClaim i o' mk2 CWaiting))]> qs) h hold inp b er log cm o' mk2 ((rec ++ map (RRecv i) k) ++ rec2) Hx1)
    as (evs3 & mk3 & rec3 & F3 & E3 & H3); [by apply list_lookup_insert|lia|].
  rewrite list_insert_insert in E3.
  eexists (replicate (length k) (KRecv i) ++ evs2 ++ evs3), _, (map (RRecv i) k ++ rec2 ++ rec3), _, _, _.
  split; [|split; [split|]].
  - rewrite !Forall_app. split; [|split; [exact F2|exact F3]]. apply Forall_replicate. tauto.
  - rewrite Forall_app. split; [exact Hv|]. rewrite !Forall_app. split; [by apply Forall_replicate|].
    split; (eapply Forall_impl; [first [exact F2|exact F3]|]); intros e He; destruct He as [->|[->|[->| ->]]]; done.
  - rewrite (krun_app _ _ _ _ _ _ _ Hr), (krun_app _ _ _ _ _ _ _ E1), (krun_app _ _ _ _ _ _ _ E2), E3. by rewrite <- !app_assoc.
  - cbn [z_parts z_proxies]. rewrite list_lookup_insert by done. split; [done|]. split; [done|]. split; [done|]. split; [done|]. split; [done|].
    split; [exact Hx1|]. split; [done|]. rewrite !handled_app, handled_recvs, H2, H3. cbn [app]. subst o'. unfold handled_to. xcbn.
    destruct ph as [|s|]; cbn [app]; [done| |done]. specialize (Hcall s eq_refl).
    replace (length log - o)%nat with (S (length log - S o))%nat by lia. done.
Qed.
