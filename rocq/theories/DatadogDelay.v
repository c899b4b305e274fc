(** How long spans wait in the sink. *)
From Verif Require Import Base SpanModel DatadogModel DatadogSpec DatadogProofs DatadogTheorems.

Lemma drun_snoc evs e : (drun (evs ++ [e])).2 = (drun evs).2 ++ (dstep e (drun evs).1).2.
Proof.
  unfold drun. rewrite drun_from_app. destruct (drun_from new_sink evs) as [st log]. cbn. destruct (dstep e st) as [st1 l1]. cbn. by rewrite app_nil_r.
Qed.

(** What one step records. *)
Lemma dstep_tick e st l n r : (dstep e st).2 = l ++ XTick n :: r -> l = [] /\ exists now, e = DTick n now.
Proof.
  destruct e as [t now|since now|ord|]; cbn [dstep].
  - destruct (k_open st); [|by destruct l]. unfold sink_flush. destruct (_ && _); cbn; destruct l as [|? [|? [|]]]; intros [=].
  - destruct (k_open st); [|by destruct l]. unfold sink_flush. destruct (_ && _); cbn; destruct l as [|? [|? [|]]]; intros [=]; subst; eauto.
  - destruct (k_queue st) as [|b q]; [by destruct l|]. destruct (map _ (ord b)); cbn; destruct l as [|? [|]]; intros [=].
  - destruct (k_open st); cbn; destruct l as [|? [|]]; intros [=].
Qed.

(** A tick in the record is the beginning of a step, which may flush. *)
Lemma tick_step evs l n r : (drun evs).2 = l ++ XTick n :: r ->
  exists evs1 now evs2, evs = evs1 ++ DTick n now :: evs2 /\ (drun evs1).2 = l /\ exists r1 r2, r = r1 ++ r2 /\ (drun (evs1 ++ [DTick n now])).2 = l ++ XTick n :: r1.
Proof.
  revert l r. induction evs as [|e evs IH] using rev_ind; intros l r; [by destruct l|]. rewrite drun_snoc. intros E.
  apply app_eq_inv in E as [(k & E1 & E2)|(k & E1 & E2)].
  - destruct k as [|x k].
    + rewrite app_nil_r in E1. cbn in E2. symmetry in E2. destruct (dstep_tick e _ [] n r E2) as (_ & now & ->). exists evs, now, []. split; [done|]. split; [done|].
      exists r, []. split; [by rewrite app_nil_r|]. rewrite drun_snoc, E1, E2. done.
    + injection E2 as <- ->. destruct (IH _ _ E1) as (evs1 & now & evs2 & -> & H1 & r1 & r2 & -> & H2). exists evs1, now, (evs2 ++ [e]).
      split; [by rewrite <- app_assoc|]. split; [done|]. exists r1, (r2 ++ (dstep e (drun (evs1 ++ DTick n now :: evs2)).1).2). split; [by rewrite app_assoc|done].
  - destruct (dstep_tick e _ _ n r E2) as (-> & now & ->). rewrite app_nil_r in E1. exists evs, now, []. split; [done|]. split; [done|].
    exists r, []. split; [by rewrite app_nil_r|]. rewrite drun_snoc, E2, E1. done.
Qed.

Lemma no_flush_buffered l : forall acc s, (forall a b n, XFlush a b n ∉ l) -> s ∈ acc -> s ∈ foldl pend acc l.
Proof.
  induction l as [|e l IH]; intros acc s Hn Hs; [done|]. cbn [foldl]. apply IH; [intros a b n H; apply (Hn a b n); by apply elem_of_list_further|].
  destruct e; cbn [pend]; [apply elem_of_app; by left|done| |done|done]. exfalso. eapply Hn. apply elem_of_list_here.
Qed.
Lemma no_flush_last l : forall acc, (forall a b n, XFlush a b n ∉ l) -> foldl (fun acc e => match e with XFlush _ _ now => Some now | _ => acc end) acc l = acc.
Proof.
  induction l as [|e l IH]; intros acc Hn; [done|]. cbn [foldl]. rewrite IH; [|intros a b n H; apply (Hn a b n); by apply elem_of_list_further].
  destruct e; try done. exfalso. eapply Hn. apply elem_of_list_here.
Qed.

(** The first flush in a record. *)
Lemma first_flush l : (forall a b n, XFlush a b n ∉ l) \/ exists m1 a b n m2, l = m1 ++ XFlush a b n :: m2 /\ forall a b n, XFlush a b n ∉ m1.
Proof.
  induction l as [|e l IH]; [left; intros a b n; apply not_elem_of_nil|].
  assert (H : (exists a b n, e = XFlush a b n) \/ forall a b n, e <> XFlush a b n) by (destruct e; [right|right|left; eauto|right|right]; done).
  destruct H as [(a & b & n & ->)|H].
  - right. exists [], a, b, n, l. split; [done|]. intros ???. apply not_elem_of_nil.
  - destruct IH as [IH|(m1 & a & b & n & m2 & -> & IH)].
    + left. intros a b n. rewrite not_elem_of_cons. split; [intros <-; by eapply H|apply IH].
    + right. exists (e :: m1), a, b, n, m2. split; [done|]. intros a' b' n'. rewrite not_elem_of_cons. split; [intros <-; by eapply H|apply IH].
Qed.

Lemma one_tick evs st log l1 t l2 n2 l4 : Forall valid_devent evs -> drun evs = (st, log) ->
  log = l1 ++ XTrace t :: l2 ++ XTick n2 :: l4 -> t <> [] -> (forall f, last_flush l1 = Some f -> f + 1800000000 <= n2) ->
  exists m1 a b now m2, l2 ++ XTick n2 :: l4 = m1 ++ XFlush a b now :: m2 /\
    (length m1 <= length (l2 ++ [XTick n2]))%nat /\
    forall s, s ∈ t -> exists g d, b !! u64 (s_trace s) = Some g /\ d ∈ g /\ converted s d.
Proof.
  intros Hv E El Ht Hf.
  assert (Hfirst : exists m1 a b now m2, l2 ++ XTick n2 :: l4 = m1 ++ XFlush a b now :: m2 /\
    (length m1 <= length (l2 ++ [XTick n2]))%nat /\ forall a b n, XFlush a b n ∉ m1).
  { destruct (first_flush (l2 ++ [XTick n2])) as [Hno|(m1 & a & b & n & m2 & Em & Hno)].
    - pose proof (tick_step evs (l1 ++ XTrace t :: l2) n2 l4) as T. rewrite E in T. cbn [snd] in T.
      destruct T as (evs1 & now & evs2 & -> & H1 & r1 & r2 & -> & H2). { rewrite El. by rewrite <- app_assoc. }
      assert (Hv1 : Forall valid_devent (evs1 ++ [DTick n2 now])).
      { apply Forall_app in Hv as [? Hv]. apply Forall_app. split; [done|]. apply Forall_cons in Hv as [? _]. apply Forall_singleton. done. }
      destruct (drun (evs1 ++ [DTick n2 now])) as [st1 log1] eqn:E1. cbn [snd] in H2. destruct (buffered_small _ _ _ Hv1 E1) as (_ & Hnd & _).
      pose proof (drun_snoc evs1 (DTick n2 now)) as Hs. rewrite E1, H1 in Hs. cbn [snd] in Hs. rewrite H2 in Hs. apply app_inv_head in Hs.
      cbn [dstep] in Hs. destruct (k_open (drun evs1).1); [|done]. unfold sink_flush in Hs. destruct (_ && _) in Hs; cbn in Hs; injection Hs as ->.
      + eexists (l2 ++ [XTick n2]), _, _, _, r2. split; [by rewrite <- app_assoc|]. split; [done|done].
      + exfalso. apply Hnd. rewrite H2.
        assert (Hl : (l1 ++ XTrace t :: l2) ++ [XTick n2] = l1 ++ [XTrace t] ++ (l2 ++ [XTick n2])).
        { rewrite <- app_assoc. done. }
        split.
        * rewrite Hl. rewrite buffered_app, foldl_app. destruct t as [|s t]; [done|]. intros Hb.
          assert (Hin : s ∈ foldl pend (foldl pend (buffered l1) [XTrace (s :: t)]) (l2 ++ [XTick n2])).
          { apply no_flush_buffered; [done|]. cbn. apply elem_of_app. right. apply elem_of_list_here. }
          rewrite Hb in Hin. by apply elem_of_nil in Hin.
        * rewrite last_snoc. intros f. rewrite Hl, last_flush_app, foldl_app. rewrite no_flush_last by done. cbn. intros Hlf. apply Hf in Hlf. lia.
    - exists m1, a, b, n, (m2 ++ l4). split; [|split; [|done]].
      + transitivity ((l2 ++ [XTick n2]) ++ l4); [by rewrite <- app_assoc|]. rewrite Em. by rewrite <- app_assoc.
      + rewrite Em, app_length. lia. }
  destruct Hfirst as (m1 & a & b & now & m2 & Em & Hlen & Hno). exists m1, a, b, now, m2. split; [done|]. split; [done|]. intros s Hs.
  destruct (flush_spec evs st log (l1 ++ XTrace t :: m1) a b now m2 Hv E) as (_ & Hg & _). { rewrite El, Em, <- app_assoc. done. }
  assert (Hb : s ∈ buffered (l1 ++ XTrace t :: m1)).
  { rewrite cons_middle, buffered_app, foldl_app. apply no_flush_buffered; [done|]. cbn. apply elem_of_app. by right. }
  specialize (Hg (u64 (s_trace s))). assert (Hi : s ∈ filter (fun s' => u64 (s_trace s') = u64 (s_trace s)) (buffered (l1 ++ XTrace t :: m1))) by (by apply elem_of_list_filter).
  destruct (b !! u64 (s_trace s)) as [g|]; [|rewrite Hg in Hi; by apply elem_of_nil in Hi]. destruct Hg as [_ Hg]. exists g.
  apply elem_of_list_lookup in Hi as [i Hi]. destruct (Forall2_lookup_l _ _ _ _ _ Hg Hi) as (d & Hd & Hc). exists d. split; [done|]. split; [by eapply elem_of_list_lookup_2|done].
Qed.

Lemma two_ticks evs st log l1 t l2 n1 l3 n2 l4 : Forall valid_devent evs -> drun evs = (st, log) ->
  log = l1 ++ XTrace t :: l2 ++ XTick n1 :: l3 ++ XTick n2 :: l4 -> t <> [] -> (forall f, last_flush l1 = Some f -> f <= n1) -> n1 + 1800000000 <= n2 ->
  exists m1 a b now m2, l2 ++ XTick n1 :: l3 ++ XTick n2 :: l4 = m1 ++ XFlush a b now :: m2 /\
    (length m1 <= length (l2 ++ XTick n1 :: l3 ++ [XTick n2]))%nat /\
    forall s, s ∈ t -> exists g d, b !! u64 (s_trace s) = Some g /\ d ∈ g /\ converted s d.
Proof.
  intros Hv E El Ht Hf Hn. assert (Ea : forall r, l2 ++ XTick n1 :: l3 ++ r = (l2 ++ XTick n1 :: l3) ++ r) by (intros r; by rewrite <- app_assoc).
  rewrite !Ea. rewrite Ea in El. eapply one_tick; eauto. intros f H. apply Hf in H. lia.
Qed.

(** The [k]-th send in a record. *)
Lemma nth_send l : forall k, (k < sent l)%nat -> exists m1 p m2, l = m1 ++ XSend p :: m2 /\ sent m1 = k.
Proof.
  induction l as [|e l IH] using rev_ind; intros k Hk; [cbn in Hk; lia|]. rewrite sent_app in Hk. destruct (decide (k < sent l)%nat) as [Hl|Hl].
  - destruct (IH k Hl) as (m1 & p & m2 & -> & H). exists m1, p, (m2 ++ [e]). split; [by rewrite <- app_assoc|done].
  - destruct e as [| | |p|]; cbn in Hk; try lia. exists l, p, []. split; [done|lia].
Qed.

Lemma sent_within evs st log l1 b now l2 : Forall valid_devent evs -> drun evs = (st, log) -> log = l1 ++ XFlush true b now :: l2 -> (8 <= sent l2)%nat ->
  exists m1 p m2, l2 = m1 ++ XSend p :: m2 /\ (sent m1 < 8)%nat /\ p ≡ₚ (map_to_list b).*2.
Proof.
  intros Hv E -> Hk.
  assert (Hw : (length (accepted l1) < sent l1 + 8)%nat). { by apply (flush_spec _ _ _ _ _ _ _ _ Hv E eq_refl). }
  assert (Hlo : (sent l1 <= length (accepted l1))%nat).
  { destruct (decide (sent l1 <= length (accepted l1))%nat) as [|Hc]; [done|]. exfalso. apply Nat.nle_gt in Hc.
    destruct (nth_send l1 _ Hc) as (m1 & p & m2 & -> & Hm).
    destruct (send_spec evs st _ m1 p (m2 ++ XFlush true b now :: l2) Hv E) as (_ & b' & Hb' & _); [by rewrite <- app_assoc|].
    apply lookup_lt_Some in Hb'. rewrite accepted_app, app_length in Hm. lia. }
  destruct (nth_send l2 (length (accepted l1) - sent l1)) as (m1 & p & m2 & -> & Hm); [lia|]. exists m1, p, m2. split; [done|]. split; [lia|].
  destruct (send_spec evs st _ (l1 ++ XFlush true b now :: m1) p m2 Hv E) as (_ & b' & Hb' & Hp); [by rewrite <- app_assoc|].
  rewrite sent_app, accepted_app in Hb'. change (sent (XFlush true b now :: m1)) with (sent m1) in Hb'.
  rewrite Hm in Hb'. replace (sent l1 + (length (accepted l1) - sent l1))%nat with (length (accepted l1)) in Hb' by lia.
  change (accepted (XFlush true b now :: m1)) with (b :: accepted m1) in Hb'. rewrite list_lookup_middle in Hb' by done. by injection Hb' as <-.
Qed.
