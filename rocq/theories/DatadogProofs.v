(** Proofs about the sink (C49-C51). *)
From Verif Require Import Base SpanModel IdModel DatadogModel DatadogSpec.

(* ---------- conversion ---------- *)

Lemma unix_nano_id n : int64_ok n -> unix_nano n = n.
Proof.
  intros Hn. unfold unix_nano. assert (Hqr := Z.quot_rem' n 1000000000).
  assert (Hneg := Z.rem_bound_neg_pos n 1000000000). assert (Hpos := Z.rem_bound_pos n 1000000000).
  remember (Z.quot n 1000000000) as q eqn:Eq. remember (Z.rem n 1000000000) as r eqn:Er. clear Eq Er.
  replace (n - q * 1000000000) with r by lia.
  destruct (Z.ltb_spec n 0), (Z.leb_spec 1000000000 n), (Z.ltb_spec r 0); cbn [orb]; try lia; zlia.
Qed.

Lemma dd_convert_ok s : span_ok s -> converted s (dd_convert s).
Proof.
  intros (_ & _ & _ & Hts & _). unfold dd_convert, id_uint64. split; cbn [d_span d_trace d_parent d_start d_dur d_resource d_service d_name d_meta d_sampled d_error]; try zlia; try done.
  - by apply unix_nano_id.
  - unfold microsecond. destruct (Z.ltb_spec (s_dur s) 1000); lia.
  - destruct (s_name s); by split_and!.
  - destruct (s_tags s !! str "error") as [v|].
    + case_bool_decide as H1; [|case_bool_decide as H2]; cbn [negb andb].
      * split; [lia|]. split; [lia|]. intros (v' & Hv & ? & ?). by simplify_eq.
      * split; [lia|]. split; [lia|]. intros (v' & Hv & ? & ?). by simplify_eq.
      * split; [lia|]. split; [eauto|done].
    + split; [lia|]. split; [lia|]. by intros (v' & ? & _).
Qed.

(* ---------- logs ---------- *)

Lemma buffered_app l1 l2 : buffered (l1 ++ l2) = foldl pend (buffered l1) l2.
Proof. unfold buffered. by rewrite foldl_app. Qed.
Lemma accepted_app l1 l2 : accepted (l1 ++ l2) = accepted l1 ++ accepted l2.
Proof. unfold accepted. by rewrite map_app, concat_app. Qed.
Lemma flushes_app l1 l2 : flushes (l1 ++ l2) = flushes l1 ++ flushes l2.
Proof. unfold flushes. by rewrite map_app, concat_app. Qed.
Lemma received_app l1 l2 : received (l1 ++ l2) = received l1 ++ received l2.
Proof. unfold received. by rewrite map_app, concat_app. Qed.
Lemma sent_app l1 l2 : sent (l1 ++ l2) = (sent l1 + sent l2)%nat.
Proof. unfold sent. by rewrite List.filter_app, app_length. Qed.
Lemma last_flush_app l1 l2 : last_flush (l1 ++ l2) = foldl (fun acc e => match e with XFlush _ _ now => Some now | _ => acc end) (last_flush l1) l2.
Proof. unfold last_flush. by rewrite foldl_app. Qed.
Lemma closed_app l1 l2 : closed (l1 ++ l2) <-> closed l1 \/ closed l2.
Proof. apply elem_of_app. Qed.

(** What each entry of a record says, given the record before it. *)
Definition dentry_ok (log : list dentry) (e : dentry) : Prop :=
  match e with
  | XTrace t => ~ closed log /\ ~ flush_due log
  | XTick _ => ~ closed log /\ ~ flush_due log
  | XClose => ~ closed log /\ ~ flush_due log
  | XFlush a b now => flush_due log /\ grouped (buffered log) b /\ (a = true <-> (length (accepted log) < sent log + 8)%nat)
  | XSend p => p <> [] /\ exists b, accepted log !! sent log = Some b /\ p ≡ₚ (map_to_list b).*2
  end.

(* ---------- memory ---------- *)

Definition below (n : nat) (b : gmap Z (list nat)) : Prop := forall t l p, b !! t = Some l -> p ∈ l -> (p < n)%nat.

(** Position [a] of group [t] of batch [i] holds pointer [p]. *)
Definition at_ (bs : list (gmap Z (list nat))) (i : nat) (t : Z) (a p : nat) : Prop :=
  exists b l, bs !! i = Some b /\ b !! t = Some l /\ l !! a = Some p.
Definition unshared (bs : list (gmap Z (list nat))) : Prop :=
  forall i t a i' t' a' p, at_ bs i t a p -> at_ bs i' t' a' p -> i = i' /\ t = t' /\ a = a'.

Lemma deref_ext mem mem' b : (forall t l p, b !! t = Some l -> p ∈ l -> mem !! p = mem' !! p) -> deref mem b = deref mem' b.
Proof.
  intros H. apply map_eq. intros t. unfold deref. rewrite !lookup_fmap. destruct (b !! t) as [l|] eqn:E; [|done]. cbn. f_equal.
  apply map_ext_in. intros p Hp. by erewrite H by (done || by apply elem_of_list_In).
Qed.

(** The state after allocation. *)
Lemma sink_span_eq st s : length (k_mem st) = (k_start st + k_len st)%nat -> (k_len st = 0 -> k_start st = length (k_mem st))%nat ->
  exists mem len, sink_span st s = Sink mem (k_start st + 1) len (k_count st)
     (<[u64 (s_trace s) := default [] (k_by st !! u64 (s_trace s)) ++ [k_start st]]> (k_by st)) (k_last st) (k_queue st) (k_open st) /\
    length mem = (k_start st + 1 + len)%nat /\ mem !! k_start st = Some (dd_convert s) /\
    forall p, (p < k_start st)%nat -> mem !! p = k_mem st !! p.
Proof.
  intros Hlen Hz. unfold sink_span. assert (Hs : (0 < slab_size)%nat) by (unfold slab_size; lia). revert Hs. generalize slab_size as N. intros N HN.
  destruct (k_len st) as [|n] eqn:E.
  - rewrite <- Hz by done. eexists _, _. split; [done|]. split.
    { rewrite insert_length, app_length, replicate_length. lia. }
    split. { apply list_lookup_insert. rewrite app_length, replicate_length. lia. }
    intros p Hp. rewrite list_lookup_insert_ne by lia. apply lookup_app_l. lia.
  - eexists _, _. split; [done|]. split. { rewrite insert_length. lia. }
    split. { apply list_lookup_insert. lia. }
    intros p Hp. by rewrite list_lookup_insert_ne by lia.
Qed.

(** Invariant of memory, for a state with the spans [l] buffered. *)
Record minv (st : sink) (l : list span) (q : list (gmap Z (list ddspan))) : Prop := {
  m_len : length (k_mem st) = (k_start st + k_len st)%nat;
  m_by : grouped l (deref (k_mem st) (k_by st));
  m_below : below (k_start st) (k_by st);
  m_queue : map (deref (k_mem st)) (k_queue st) = q;
  m_qbelow : Forall (below (k_start st)) (k_queue st);
  m_unshared : unshared (k_queue st ++ [k_by st]) }.

Lemma at_snoc bs b i t a p : at_ (bs ++ [b]) i t a p ->
  ((i < length bs)%nat /\ at_ bs i t a p) \/ (i = length bs /\ exists l, b !! t = Some l /\ l !! a = Some p).
Proof.
  intros (b' & l & Hb & Hl & Ha). apply lookup_app_Some in Hb as [Hb|[Hi Hb]].
  - left. split; [by eapply lookup_lt_Some|]. by exists b', l.
  - right. apply list_lookup_singleton_Some in Hb as [Hi' <-]. split; [lia|]. eauto.
Qed.

Lemma at_below n bs i t a p : Forall (below n) bs -> at_ bs i t a p -> (p < n)%nat.
Proof.
  intros Hf (b & l & Hb & Hl & Ha). rewrite Forall_lookup in Hf. eapply (Hf _ _ Hb); [done|]. by eapply elem_of_list_lookup_2.
Qed.

Lemma minv_span st l q s : minv st l q -> span_ok s -> minv (sink_span st s) (l ++ [s]) q.
Proof.
  intros [Hlen Hby Hbelow Hq Hqb Hun] Hs.
  destruct (sink_span_eq st s Hlen ltac:(lia)) as (mem & len & -> & Hl' & Hnew & Hold).
  set (t0 := u64 (s_trace s)) in *. set (p0 := k_start st) in *. set (old := default [] (k_by st !! t0)).
  assert (Hold' : forall p, p ∈ old -> (p < p0)%nat).
  { subst old. intros p Hp. destruct (k_by st !! t0) as [g|] eqn:E; [by eapply Hbelow|]. by apply elem_of_nil in Hp. }
  split; cbn [k_mem k_start k_len k_by k_queue].
  - lia.
  - intros t. specialize (Hby t). unfold deref. rewrite lookup_fmap. rewrite filter_app.
    assert (Heq : forall g, (forall p, p ∈ g -> (p < p0)%nat) -> map (fun p => default zero_dd (mem !! p)) g = map (fun p => default zero_dd (k_mem st !! p)) g).
    { intros g Hg. apply map_ext_in. intros p Hp. by rewrite Hold by (apply Hg; by apply elem_of_list_In). }
    destruct (decide (t = t0)) as [->|Ht].
    + rewrite lookup_insert. cbn [fmap option_fmap option_map]. rewrite map_app. cbn [map]. rewrite Hnew. cbn [default from_option id].
      split; [by destruct (map _ old)|]. rewrite filter_cons_True by done. cbn [filter].
      apply Forall2_app; [|constructor; [by apply dd_convert_ok|constructor]].
      rewrite Heq by done. unfold deref in Hby. rewrite lookup_fmap in Hby. subst old. destruct (k_by st !! t0) as [g|]; cbn in Hby |- *.
      * by apply Hby.
      * rewrite Hby. constructor.
    + rewrite lookup_insert_ne by done. rewrite filter_cons_False by (fold t0; congruence). rewrite filter_nil, app_nil_r.
      unfold deref in Hby. rewrite lookup_fmap in Hby. destruct (k_by st !! t) as [g|] eqn:E; cbn in Hby |- *; [|done].
      by rewrite Heq by (intros p Hp; by eapply Hbelow).
  - intros t g p Hg Hp. destruct (decide (t = t0)) as [->|Ht].
    + rewrite lookup_insert in Hg. injection Hg as <-. apply elem_of_app in Hp as [Hp|Hp]; [apply Hold' in Hp; lia|].
      apply elem_of_list_singleton in Hp. lia.
    + rewrite lookup_insert_ne in Hg by done. specialize (Hbelow _ _ _ Hg Hp). lia.
  - rewrite <- Hq. apply map_ext_in. intros b Hb. apply deref_ext. intros t g p Hg Hp. apply Hold.
    rewrite Forall_forall in Hqb. eapply Hqb; [by apply elem_of_list_In|done|done].
  - eapply Forall_impl; [done|]. intros b Hb t g p Hg Hp. specialize (Hb _ _ _ Hg Hp). lia.
  - set (by' := <[t0 := old ++ [p0]]> (k_by st)).
    assert (Hcases : forall i t a p, at_ (k_queue st ++ [by']) i t a p ->
       ((p < p0)%nat /\ at_ (k_queue st ++ [k_by st]) i t a p) \/ (p = p0 /\ i = length (k_queue st) /\ t = t0 /\ a = length old)).
    { intros i t a p Hat. apply at_snoc in Hat as [[Hi Hat]|(-> & g & Hg & Ha)].
      - left. split; [by eapply at_below|]. destruct Hat as (b & g & Hb & Hg & Ha). exists b, g. split_and!; try done. by rewrite lookup_app_l.
      - subst by'. destruct (decide (t = t0)) as [->|Ht].
        + rewrite lookup_insert in Hg. injection Hg as <-. apply lookup_app_Some in Ha as [Ha|[Hge Ha]].
          * left. split. { apply Hold'. by eapply elem_of_list_lookup_2. }
            exists (k_by st), old. rewrite lookup_app_r, Nat.sub_diag by done. split_and!; try done.
            subst old. destruct (k_by st !! t0); [done|]. by destruct a.
          * right. apply list_lookup_singleton_Some in Ha as [Ha <-]. split_and!; try done. lia.
        + rewrite lookup_insert_ne in Hg by done. left. split. { eapply Hbelow; [done|]. by eapply elem_of_list_lookup_2. }
          exists (k_by st), g. rewrite lookup_app_r, Nat.sub_diag by done. done. }
    intros i t a i' t' a' p H1 H2. apply Hcases in H1 as [[Hlt H1]|(-> & -> & -> & ->)]; apply Hcases in H2 as [[Hlt' H2]|(Hp & -> & -> & ->)]; try lia; try done.
    by eapply Hun.
Qed.

Lemma minv_spans t : forall st l q, minv st l q -> Forall span_ok t -> minv (foldl sink_span st t) (l ++ t) q.
Proof.
  induction t as [|s t IH]; intros st l q H Ht; cbn [foldl]; [by rewrite app_nil_r|]. inversion Ht; subst.
  replace (l ++ s :: t) with ((l ++ [s]) ++ t) by (by rewrite <- app_assoc). apply IH; [|done]. by apply minv_span.
Qed.

Lemma foldl_span_rest t : forall st, length (k_mem st) = (k_start st + k_len st)%nat ->
  let st' := foldl sink_span st t in
  k_count st' = k_count st /\ k_last st' = k_last st /\ k_queue st' = k_queue st /\ k_open st' = k_open st.
Proof.
  induction t as [|s t IH]; intros st Hl; cbn [foldl]; [done|]. cbn.
  destruct (sink_span_eq st s Hl ltac:(lia)) as (mem & len & E & Hl' & _). destruct (IH (sink_span st s)) as (-> & -> & -> & ->).
  { rewrite E. cbn. lia. } by rewrite E.
Qed.

(* ---------- the invariant of a run ---------- *)

Record dinv (st : sink) (log : list dentry) : Prop := {
  v_mem : minv st (buffered log) (drop (sent log) (accepted log));
  v_sent : (sent log <= length (accepted log) <= sent log + 8)%nat;
  v_count : k_count st = Z.of_nat (length (buffered log));
  v_last : k_last st = last_flush log;
  v_open : k_open st = true <-> ~ closed log;
  v_small : k_count st < 1000;
  v_quiet : ~ flush_due log;
  v_nonempty : Forall (fun b => b <> ∅) (accepted log) }.

Definition logged (base new : list dentry) : Prop :=
  forall l1 e l2, new = l1 ++ e :: l2 -> dentry_ok (base ++ l1) e.

Lemma logged_nil base : logged base [].
Proof. intros l1 e l2 H. by destruct l1. Qed.
Lemma logged_cons base e new : dentry_ok base e -> logged (base ++ [e]) new -> logged base (e :: new).
Proof.
  intros He Hn l1 e' l2 H. destruct l1 as [|x l1]; cbn in H; injection H as -> H; [by rewrite app_nil_r|].
  replace (base ++ x :: l1) with ((base ++ [x]) ++ l1) by (by rewrite <- app_assoc). by eapply Hn.
Qed.
Lemma logged_one base e : dentry_ok base e -> logged base [e].
Proof. intros H. apply logged_cons; [done|apply logged_nil]. Qed.

Lemma batch_nonempty l b : grouped l b -> l <> [] -> b <> ∅.
Proof.
  intros Hg Hl ->. destruct l as [|s l]; [done|]. specialize (Hg (u64 (s_trace s))). rewrite lookup_empty in Hg.
  by rewrite filter_cons_True in Hg.
Qed.

Lemma queue_length st l q : minv st l q -> length (k_queue st) = length q.
Proof. intros H. rewrite <- (m_queue _ _ _ H). by rewrite map_length. Qed.

(** A flush decision after a trace or tick. *)
Lemma sink_flush_ok flush now st log :
  minv st (buffered log) (drop (sent log) (accepted log)) -> (sent log <= length (accepted log) <= sent log + 8)%nat ->
  k_count st = Z.of_nat (length (buffered log)) -> k_last st = last_flush log -> (k_open st = true <-> ~ closed log) ->
  Forall (fun b => b <> ∅) (accepted log) ->
  (flush = true /\ buffered log <> [] <-> flush_due log) -> (flush = false -> k_count st < 1000) -> 
  let '(st', new) := sink_flush flush now st in dinv st' (log ++ new) /\ logged log new.
Proof.
  intros Hm Hsent Hc Hl Ho Hne Hdue Hsm. unfold sink_flush.
  destruct (flush && (0 <? k_count st)) eqn:B.
  - apply andb_true_iff in B as [-> B]. assert (Hb : buffered log <> []) by (destruct (buffered log); [cbn in Hc; lia|done]).
    assert (Hd : flush_due log) by (by apply Hdue).
    assert (Hq := queue_length _ _ _ Hm). rewrite drop_length in Hq.
    assert (Hacc : bool_decide (length (k_queue st) < queue_capacity)%nat = true <-> (length (accepted log) < sent log + 8)%nat).
    { rewrite bool_decide_eq_true. unfold queue_capacity. lia. }
    set (acc := bool_decide _) in *. set (b := deref (k_mem st) (k_by st)).
    assert (Hg : grouped (buffered log) b) by apply (m_by _ _ _ Hm).
    split; [|by apply logged_one].
    destruct Hm as [Hlen Hby Hbelow Hqq Hqb Hun].
    split; cbn [k_mem k_start k_len k_count k_by k_last k_queue k_open].
    + rewrite buffered_app, sent_app, accepted_app. cbn [foldl pend]. unfold sent at 2, accepted at 2. cbn [map List.filter length concat]. rewrite Nat.add_0_r, app_nil_r.
      split; cbn [k_mem k_start k_len k_count k_by k_last k_queue k_open]; try done.
      * destruct acc eqn:Ea; [|by rewrite app_nil_r]. rewrite map_app, Hqq. cbn [map]. rewrite drop_app_le by lia. done.
      * destruct acc; [|done]. apply Forall_app. split; [done|]. by apply Forall_singleton.
      * intros i t a i' t' a' p H1 H2.
        assert (Hcases : forall i t a p, at_ ((if acc then k_queue st ++ [k_by st] else k_queue st) ++ [∅]) i t a p -> at_ (k_queue st ++ [k_by st]) i t a p).
        { intros j u c r H. apply at_snoc in H as [[Hj H]|(_ & g & H & _)]; [|by rewrite lookup_empty in H].
          destruct acc; [done|]. destruct H as (b' & g & Hb' & Hg' & Hc'). exists b', g. rewrite lookup_app_l; [done|]. by eapply lookup_lt_Some. }
        eapply Hun; by apply Hcases.
    + rewrite sent_app, accepted_app, app_length. unfold sent at 2, accepted at 2 4. cbn [map List.filter length concat]. rewrite app_nil_r, Nat.add_0_r.
      unfold sent at 3. cbn [List.filter length]. destruct acc; cbn [length]; [|lia]. assert (length (accepted log) < sent log + 8)%nat by (by apply Hacc). lia.
    + rewrite buffered_app. done.
    + rewrite last_flush_app. done.
    + rewrite closed_app. rewrite Ho. unfold closed at 3. rewrite elem_of_list_singleton. naive_solver.
    + done.
    + intros [H _]. rewrite buffered_app in H. done.
    + rewrite accepted_app. apply Forall_app. split; [done|]. unfold accepted. cbn. destruct acc; [|constructor]. cbn.
      apply Forall_singleton. by eapply batch_nonempty.
  - split; [|apply logged_nil]. rewrite app_nil_r.
    assert (Hnd : ~ flush_due log).
    { intros H. assert (H' := H). apply Hdue in H' as [-> Hb]. cbn [andb] in B. destruct (buffered log); [done|]. cbn [length] in Hc. lia. }
    split; try done. destruct flush; [|by apply Hsm]. cbn [andb] in B. lia.
Qed.

Lemma dstep_ok e st log : valid_devent e -> dinv st log ->
  let '(st', new) := dstep e st in dinv st' (log ++ new) /\ logged log new.
Proof.
  intros Hv [Hm Hsent Hc Hl Ho Hsm Hq Hne].
  assert (Hsame : dinv st (log ++ []) /\ logged log []) by (rewrite app_nil_r; split; [by split|apply logged_nil]).
  destruct e as [t now|since now|ord|]; cbn [dstep].
  - destruct (k_open st) eqn:Eo; [|done].
    destruct (foldl_span_rest t st (m_len _ _ _ Hm)) as (E1 & E2 & E3 & E4).
    assert (Hm' := minv_spans t _ _ _ Hm Hv). set (st1 := foldl sink_span st t) in *.
    set (st2 := set_count (k_count st1 + Z.of_nat (length t)) st1).
    assert (Hbuf : buffered (log ++ [XTrace t]) = buffered log ++ t) by (by rewrite buffered_app).
    assert (Hcl : ~ closed log) by (by apply Ho).
    pose proof (sink_flush_ok (flushSpanCount <=? k_count st2) now st2 (log ++ [XTrace t])) as Hf.
    rewrite Hbuf, sent_app, accepted_app, last_flush_app, closed_app in Hf. unfold sent at 2 4 6, accepted at 2 4 6 8 in Hf. cbn [List.filter map concat length foldl] in Hf.
    rewrite !app_nil_r, !Nat.add_0_r in Hf.
    destruct (sink_flush _ now st2) as [st3 new]. destruct Hf as [Hi Hlg]; try done.
    + destruct Hm' as [? ? ? ? ? ?]. by split.
    + subst st2. cbn. rewrite E1, Hc, app_length. lia.
    + subst st2. cbn. congruence.
    + subst st2. cbn. rewrite E4, Eo. split; [|done]. intros _ [?|?]; [done|]. unfold closed in *. by apply elem_of_list_singleton in H.
    + unfold flush_due. rewrite last_snoc, Hbuf. assert (Ek : k_count st2 = Z.of_nat (length (buffered log ++ t))) by (subst st2; cbn; rewrite E1, Hc, app_length; lia).
      rewrite Ek. unfold flushSpanCount. rewrite Z.leb_le. naive_solver.
    + unfold flushSpanCount. lia.
    + rewrite <- app_assoc in Hi. split; [done|]. by apply logged_cons.
  - destruct (k_open st) eqn:Eo; [|done]. assert (Hcl : ~ closed log) by (by apply Ho).
    pose proof (sink_flush_ok (due (k_last st) since) now st (log ++ [XTick since])) as Hf.
    assert (Hbuf : buffered (log ++ [XTick since]) = buffered log) by (by rewrite buffered_app).
    rewrite Hbuf, sent_app, accepted_app, closed_app in Hf. unfold sent at 2 4 6, accepted at 2 4 6 8 in Hf. cbn [List.filter map concat length foldl] in Hf.
    rewrite !app_nil_r, !Nat.add_0_r in Hf.
    assert (Hlf : last_flush (log ++ [XTick since]) = last_flush log) by (by rewrite last_flush_app).
    rewrite Hlf in Hf.
    destruct (sink_flush _ now st) as [st3 new]. destruct Hf as [Hi Hlg]; try done.
    + split; [|done]. intros _ [?|?]; [done|]. unfold closed in *. by apply elem_of_list_singleton in H.
    + unfold flush_due. rewrite last_snoc, Hbuf, Hlf, Hl. unfold due. destruct (last_flush log) as [l|].
      * change (Z.quot (90 * flushInterval) 100) with 1800000000. rewrite Z.leb_le. split; [|naive_solver].
        intros [H1 H2]. split; [done|]. intros l' E. by injection E as <-.
      * split; [|naive_solver]. intros [_ H]. split; [done|]. done.
    + rewrite <- app_assoc in Hi. split; [done|]. by apply logged_cons.
  - destruct (k_queue st) as [|b q] eqn:Eq; [done|].
    destruct Hm as [Hlen Hby Hbelow Hqq Hqb Hun]. rewrite Eq in *. cbn [map] in Hqq.
    destruct (drop (sent log) (accepted log)) as [|b' rest] eqn:Ed; [done|]. injection Hqq as Eb Hqq.
    assert (Hat : accepted log !! sent log = Some b').
    { rewrite <- (Nat.add_0_r (sent log)), <- lookup_drop, Ed. done. }
    assert (Hb' : b' <> ∅) by (rewrite Forall_lookup in Hne; by eapply Hne).
    assert (Hp : map (fun p : Z * list nat => map (fun a => default zero_dd (k_mem st !! a)) p.2) (ord b) ≡ₚ (map_to_list b').*2).
    { rewrite (Permutation_map _ (Hv b)). rewrite <- Eb. unfold deref. rewrite map_to_list_fmap. rewrite <- list_fmap_compose.
      change (map ?f ?l) with (f <$> l). apply Permutation_refl'. apply list_fmap_ext. by intros ? [? ?]. }
    set (tr := map _ (ord b)) in *.
    assert (Htr : tr <> []).
    { intros E. rewrite E in Hp. apply Permutation_nil, fmap_nil_inv in Hp. apply Hb'. by apply map_to_list_empty_iff. }
    destruct tr as [|x tr'] eqn:Etr; [done|]. rewrite <- Etr in *.
    assert (Hsl : (sent log < length (accepted log))%nat) by (by eapply lookup_lt_Some).
    split; [|apply logged_one; split; [done|by exists b']].
    assert (Hbuf : buffered (log ++ [XSend tr]) = buffered log) by (by rewrite buffered_app).
    assert (Hac : accepted (log ++ [XSend tr]) = accepted log) by (rewrite accepted_app; by rewrite app_nil_r).
    assert (Hse : sent (log ++ [XSend tr]) = (sent log + 1)%nat) by (by rewrite sent_app).
    split; cbn [k_mem k_start k_len k_count k_by k_last k_queue k_open]; rewrite ?Hbuf, ?Hac, ?Hse; try done; try lia.
    + split; cbn [k_mem k_start k_len k_count k_by k_last k_queue k_open]; try done.
      * rewrite Hqq. rewrite <- drop_drop, Ed. done.
      * by inversion Hqb.
      * intros i t a i' t' a' p H1 H2.
        assert (Hsh : forall i t a p, at_ (q ++ [k_by st]) i t a p -> at_ ((b :: q) ++ [k_by st]) (S i) t a p) by done.
        apply Hsh in H1, H2. destruct (Hun _ _ _ _ _ _ _ H1 H2) as (? & ? & ?). split_and!; [lia|done|done].
    + by rewrite last_flush_app.
    + rewrite Ho, closed_app. unfold closed at 3. rewrite elem_of_list_singleton. naive_solver.
    + intros [H1 H2]. by rewrite last_snoc in H2.
  - destruct (k_open st) eqn:Eo; [|done]. assert (Hcl : ~ closed log) by (by apply Ho).
    split; [|by apply logged_one].
    assert (Hbuf : buffered (log ++ [XClose]) = buffered log) by (by rewrite buffered_app).
    assert (Hac : accepted (log ++ [XClose]) = accepted log) by (rewrite accepted_app; by rewrite app_nil_r).
    assert (Hse : sent (log ++ [XClose]) = sent log) by (rewrite sent_app; apply Nat.add_0_r).
    split; cbn [k_mem k_start k_len k_count k_by k_last k_queue k_open]; rewrite ?Hbuf, ?Hac, ?Hse; try done.
    + destruct Hm as [? ? ? ? ? ?]. by split.
    + by rewrite last_flush_app.
    + split; [done|]. intros H. exfalso. apply H, closed_app. right. by apply elem_of_list_singleton.
    + intros [H1 H2]. by rewrite last_snoc in H2.
Qed.

Lemma dinv_new : dinv new_sink [].
Proof.
  split.
  - split; try done.
    + constructor.
    + intros i t a i' t' a' p (b & l & Hb & Hl & _). cbn in Hb. destruct i; [|done]. injection Hb as <-. by rewrite lookup_empty in Hl.
  - cbn. lia.
  - done.
  - done.
  - split; [|done]. intros _ H. by apply elem_of_nil in H.
  - done.
  - by intros [H _].
  - constructor.
Qed.

Lemma drun_from_ok evs : forall st log, Forall valid_devent evs -> dinv st log ->
  let '(st', new) := drun_from st evs in dinv st' (log ++ new) /\ logged log new.
Proof.
  induction evs as [|e evs IH]; intros st log Hv Hi; cbn [drun_from].
  - rewrite app_nil_r. split; [done|apply logged_nil].
  - inversion Hv; subst. pose proof (dstep_ok e st log) as Hs. destruct (dstep e st) as [st1 l1]. destruct Hs as [Hi1 Hl1]; try done.
    specialize (IH st1 (log ++ l1)). destruct (drun_from st1 evs) as [st2 l2]. destruct IH as [Hi2 Hl2]; try done.
    rewrite app_assoc. split; [done|]. intros a x b E. 
    destruct (decide (length a < length l1)%nat) as [H|H].
    + assert (Ea : l1 = a ++ x :: drop (length a + 1) l1).
      { assert (E' := E). apply (f_equal (take (length l1))) in E'. rewrite take_app in E'. rewrite E' at 1.
        assert (Hx : l1 !! length a = Some x).
        { rewrite <- (lookup_app_l l1 l2) by done. rewrite E. by rewrite lookup_app_r, Nat.sub_diag. }
        assert (Ht : take (length a) l1 = a).
        { apply (f_equal (take (length a))) in E. rewrite take_app in E. by rewrite take_app_le in E by lia. }
        rewrite <- E'. rewrite <- Ht at 1. rewrite Nat.add_1_r. by rewrite (take_drop_middle l1 (length a) x). }
      by eapply Hl1.
    + assert (Ea : a = l1 ++ drop (length l1) a).
      { apply (f_equal (take (length l1))) in E. rewrite take_app in E. rewrite take_app_le in E by lia. rewrite <- (take_drop (length l1) a) at 1. f_equal. done. }
      rewrite Ea in E |- *. rewrite <- app_assoc in E. apply app_inv_head in E. rewrite app_assoc. by eapply Hl2.
Qed.

Lemma drun_ok evs st log : Forall valid_devent evs -> drun evs = (st, log) -> dinv st log /\ logged [] log.
Proof. intros Hv E. pose proof (drun_from_ok evs new_sink [] Hv dinv_new) as H. unfold drun in E. by rewrite E in H. Qed.
