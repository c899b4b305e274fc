(** Proofs about several proxies with Kafka, third part: the producer's channel of errors (C69). *)
From Verif Require Import Base SpanModel BinaryModel BinarySpec BinaryProofs EncoderProofs PipelineModel ConsumeModel ReplaySpec ClusterModel ClusterSpec ClusterProofs ClusterRuns.

Lemma krun_app cfg a b st rec st' rec' : krun cfg a st rec = Next (st', rec') -> krun cfg (a ++ b) st rec = krun cfg b st' rec'.
Proof.
  revert st rec. induction a as [|e a IH]; intros st rec E; [by injection E as <- <-|]. cbn [app krun] in *.
  destruct (kstep cfg e st) as [[st2 l]| |]; [by apply IH|by apply IH|done].
Qed.
Lemma krun_next cfg e evs st rec st' l : kstep cfg e st = Next (st', l) -> krun cfg (e :: evs) st rec = krun cfg evs st' (rec ++ l).
Proof. intros E. cbn [krun]. by rewrite E. Qed.

(** The schedule that fills everything. *)
Definition fill (cfg : kconfig) (i : nat) (s : span) (ord : gmap gostring gostring -> list (gostring * gostring)) : list kevent :=
  concat (replicate (g_errors cfg) [KPut i s; KTake i ord; KInput i; KDispatch i]) ++
  concat (replicate (g_input cfg) [KPut i s; KTake i ord; KInput i]) ++ [KPut i s; KTake i ord] ++ replicate (g_http cfg) (KPut i s).

Section fill.
  Context (cfg : kconfig) (i : nat) (s : span) (ord : gmap gostring gostring -> list (gostring * gostring)) (m : kmsg) (qs : list partition).
  Context (Hh : (0 < g_http cfg)%nat) (Hi : (0 < g_input cfg)%nat) (Hm : encode_msg (ord (s_tags s)) s = Some m) (Hl : g_limit cfg < msg_size m).

  Lemma put_step xs h hold inp b er k : xs !! i = Some (Proxy h hold inp b er k) -> (length h < g_http cfg)%nat ->
    kstep cfg (KPut i s) (KState xs qs) = Next (KState (<[i := Proxy (h ++ [s]) hold inp b er k]> xs) qs, [RPut i s]).
  Proof. intros E H. cbn [kstep]. rewrite E. by rewrite decide_True. Qed.
  Lemma take_step xs h inp b er k : xs !! i = Some (Proxy (s :: h) None inp b er k) ->
    kstep cfg (KTake i ord) (KState xs qs) = Next (KState (<[i := Proxy h (Some m) inp b er k]> xs) qs, []).
  Proof. intros E. cbn [kstep]. rewrite E. by rewrite Hm. Qed.
  Lemma input_step xs h m' inp b er k : xs !! i = Some (Proxy h (Some m') inp b er k) -> (length inp < g_input cfg)%nat ->
    kstep cfg (KInput i) (KState xs qs) = Next (KState (<[i := Proxy h None (inp ++ [m']) b er k]> xs) qs, []).
  Proof. intros E H. cbn [kstep]. rewrite E. by rewrite decide_True. Qed.
  Lemma dispatch_large xs h hold inp b er k : xs !! i = Some (Proxy h hold (m :: inp) b er k) -> (er < g_errors cfg)%nat ->
    kstep cfg (KDispatch i) (KState xs qs) = Next (KState (<[i := Proxy h hold inp b (S er) k]> xs) qs, [RTooLarge i m]).
  Proof. intros E H. cbn [kstep]. rewrite E. rewrite (proj2 (Z.ltb_lt _ _) Hl). by rewrite decide_True. Qed.

  Lemma at_i (xs : list proxy) x y : xs !! i = Some y -> <[i := x]> xs !! i = Some x.
  Proof. intros E. apply list_lookup_insert. by eapply lookup_lt_Some. Qed.

  Lemma fill1 k : forall xs er rec, xs !! i = Some (Proxy [] None [] [] er []) -> (er + k <= g_errors cfg)%nat ->
    exists rec', krun cfg (concat (replicate k [KPut i s; KTake i ord; KInput i; KDispatch i])) (KState xs qs) rec = Next (KState (<[i := Proxy [] None [] [] (er + k) []]> xs) qs, rec') /\
      puts rec' = puts rec ++ replicate k s.
  Proof.
    induction k as [|k IH]; intros xs er rec E H.
    - exists rec. cbn [replicate concat krun]. rewrite Nat.add_0_r, list_insert_id, app_nil_r by done. done.
    - cbn [replicate concat app]. rewrite (krun_next _ _ _ _ _ _ _ (put_step _ _ _ _ _ _ _ E Hh)). cbn [app].
      erewrite krun_next; [|apply take_step; by eapply at_i]. erewrite krun_next; [|apply input_step; [by eapply at_i, at_i|exact Hi]]. cbn [app].
      erewrite krun_next; [|apply dispatch_large; [by eapply at_i, at_i, at_i|lia]]. rewrite !list_insert_insert, !app_nil_r.
      destruct (IH (<[i := Proxy [] None [] [] (S er) []]> xs) (S er) ((rec ++ [RPut i s]) ++ [RTooLarge i m])) as (rec' & Er & Ep); [by eapply at_i|lia|].
      exists rec'. rewrite Er, list_insert_insert. replace (S er + k)%nat with (er + S k)%nat by lia. split; [done|]. rewrite Ep, !puts_snoc. cbn [put1 replicate]. rewrite app_nil_r, <- app_assoc. done.
  Qed.

  Lemma fill2 k : forall xs j er rec, xs !! i = Some (Proxy [] None (replicate j m) [] er []) -> (j + k <= g_input cfg)%nat ->
    exists rec', krun cfg (concat (replicate k [KPut i s; KTake i ord; KInput i])) (KState xs qs) rec = Next (KState (<[i := Proxy [] None (replicate (j + k) m) [] er []]> xs) qs, rec') /\
      puts rec' = puts rec ++ replicate k s.
  Proof.
    induction k as [|k IH]; intros xs j er rec E H.
    - exists rec. cbn [replicate concat krun]. rewrite Nat.add_0_r, list_insert_id, app_nil_r by done. done.
    - cbn [replicate concat app]. rewrite (krun_next _ _ _ _ _ _ _ (put_step _ _ _ _ _ _ _ E Hh)). cbn [app].
      erewrite krun_next; [|apply take_step; by eapply at_i]. erewrite krun_next; [|apply input_step; [by eapply at_i, at_i|rewrite replicate_length; lia]].
      rewrite !list_insert_insert, !app_nil_r. replace (replicate j m ++ [m]) with (replicate (S j) m) by (by rewrite <- replicate_cons_app).
      destruct (IH (<[i := Proxy [] None (replicate (S j) m) [] er []]> xs) (S j) er (rec ++ [RPut i s])) as (rec' & Er & Ep); [by eapply at_i|lia|].
      exists rec'. rewrite Er, list_insert_insert. replace (S j + k)%nat with (j + S k)%nat by lia. split; [done|]. rewrite Ep, puts_snoc. cbn [put1 replicate]. rewrite <- app_assoc. done.
  Qed.

  Lemma fill4 k : forall xs j hold inp er rec, xs !! i = Some (Proxy (replicate j s) hold inp [] er []) -> (j + k <= g_http cfg)%nat ->
    exists rec', krun cfg (replicate k (KPut i s)) (KState xs qs) rec = Next (KState (<[i := Proxy (replicate (j + k) s) hold inp [] er []]> xs) qs, rec') /\
      puts rec' = puts rec ++ replicate k s.
  Proof.
    induction k as [|k IH]; intros xs j hold inp er rec E H.
    - exists rec. cbn [replicate krun]. rewrite Nat.add_0_r, list_insert_id, app_nil_r by done. done.
    - cbn [replicate]. erewrite krun_next; [|apply put_step; [exact E|rewrite replicate_length; lia]].
      replace (replicate j s ++ [s]) with (replicate (S j) s) by (by rewrite <- replicate_cons_app).
      destruct (IH (<[i := Proxy (replicate (S j) s) hold inp [] er []]> xs) (S j) hold inp er (rec ++ [RPut i s])) as (rec' & Er & Ep); [by eapply at_i|lia|].
      exists rec'. rewrite Er, list_insert_insert. replace (S j + k)%nat with (j + S k)%nat by lia. split; [done|]. rewrite Ep, puts_snoc. cbn [put1 replicate]. rewrite <- app_assoc. done.
  Qed.

  Lemma fill_all xs : xs !! i = Some new_proxy -> exists rec,
    krun cfg (fill cfg i s ord) (KState xs qs) [] =
      Next (KState (<[i := Proxy (replicate (g_http cfg) s) (Some m) (replicate (g_input cfg) m) [] (g_errors cfg) []]> xs) qs, rec) /\
    puts rec = replicate (g_errors cfg + g_input cfg + 1 + g_http cfg) s.
  Proof.
    intros E. unfold fill. destruct (fill1 (g_errors cfg) xs 0 [] E ltac:(lia)) as (r1 & E1 & P1). rewrite (krun_app _ _ _ _ _ _ _ E1).
    destruct (fill2 (g_input cfg) (<[i := Proxy [] None [] [] (0 + g_errors cfg) []]> xs) 0 (0 + g_errors cfg) r1) as (r2 & E2 & P2); [by eapply at_i|lia|].
    rewrite (krun_app _ _ _ _ _ _ _ E2). cbn [app]. rewrite list_insert_insert. erewrite krun_next; [|apply put_step; [by eapply at_i|exact Hh]]. cbn [app].
    erewrite krun_next; [|apply take_step; by eapply at_i, at_i]. rewrite !list_insert_insert, app_nil_r.
    edestruct (fill4 (g_http cfg)) as (r3 & E3 & P3); [by eapply (at_i _ (Proxy (replicate 0 s) _ _ _ _ _))|reflexivity|]. cbn [replicate] in E3. rewrite E3. exists r3. rewrite list_insert_insert. split; [done|].
    rewrite P3, puts_snoc, P2, P1. cbn [put1 puts omap list_omap app]. change [s] with (replicate 1 s). rewrite <- !replicate_add. done.
  Qed.
End fill.

(** From then on nothing moves. *)
Definition stuck (cfg : kconfig) (i : nat) (st : kstate) : Prop :=
  exists h m0 m inp b k, z_proxies st !! i = Some (Proxy h (Some m0) (m :: inp) b (g_errors cfg) k) /\
    length h = g_http cfg /\ S (length inp) = g_input cfg /\ g_limit cfg < msg_size m.

Lemma stuck_step cfg i e st st' l : e <> KCrash i -> stuck cfg i st -> kstep cfg e st = Next (st', l) -> stuck cfg i st'.
Proof.
  intros Hne (h & m0 & m & inp & b & k & Hx & Hh & Hi & Hl) E. destruct st as [xs qs]. cbn [z_proxies] in Hx. unfold stuck.
  assert (O : forall j x', j <> i -> <[j := x']> xs !! i = Some (Proxy h (Some m0) (m :: inp) b (g_errors cfg) k)) by (intros; by rewrite list_lookup_insert_ne).
  assert (Hlb : g_limit cfg <? msg_size m = true) by (by apply Z.ltb_lt).
  destruct e as [j s|j ord|j|j|j a|j a|j a|p j|p|p|p|p|p cm|j|j]; cbn [kstep] in E.
  1-7: destruct (decide (j = i)) as [->|Hj]; [rewrite Hx in E|kcases E; injection E as <- <-; cbn [z_proxies]; subst; exists h, m0, m, inp, b, k; by rewrite O].
  - rewrite decide_False in E by lia. done.
  - by destruct h.
  - rewrite decide_False in E by (cbn [length]; lia). done.
  - rewrite Hlb, decide_False in E by lia. done.
  - kcases E; injection E as <- <-; cbn [z_proxies]; subst. eexists h, m0, m, inp, _, k. split; [by eapply (at_i i)|done].
  - kcases E; injection E as <- <-; cbn [z_proxies]; subst. eexists h, m0, m, inp, _, k. split; [by eapply (at_i i)|done].
  - destruct (b !! a); [|done]. rewrite decide_False in E by lia. done.
  - kcases E; injection E as <- <-; cbn [z_proxies]; subst. exists h, m0, m, inp, b, k. done.
  - kcases E; injection E as <- <-; cbn [z_proxies]; subst; exists h, m0, m, inp, b, k; done.
  - kcases E; injection E as <- <-; cbn [z_proxies]; subst. destruct (decide (c_owner = i)) as [->|Hj]; [|exists h, m0, m, inp, b, k; by rewrite O].
    rewrite Hx in Hc4. injection Hc4 as <- <- <- <- <- <-. eexists h, m0, m, inp, b, _. split; [by eapply (at_i i)|done].
  - kcases E; injection E as <- <-; cbn [z_proxies]; subst. exists h, m0, m, inp, b, k. done.
  - kcases E; injection E as <- <-; cbn [z_proxies]; subst. exists h, m0, m, inp, b, k. done.
  - kcases E; injection E as <- <-; cbn [z_proxies]; subst; exists h, m0, m, inp, b, k; done.
  - destruct (decide (j = i)) as [->|Hj]; [rewrite Hx in E|kcases E; injection E as <- <-; cbn [z_proxies]; subst; exists h, m0, m, inp, b, k; by rewrite O].
    kcases E; injection E as <- <-; cbn [z_proxies]; subst. eexists h, m0, m, inp, b, _. split; [by eapply (at_i i)|done].
  - assert (j <> i) as Hj by congruence. kcases E; injection E as <- <-; cbn [z_proxies]; subst. exists h, m0, m, inp, b, k. by rewrite O.
Qed.

Lemma stuck_run cfg i evs : forall st rec st' rec', KCrash i ∉ evs -> stuck cfg i st -> krun cfg evs st rec = Next (st', rec') -> stuck cfg i st'.
Proof.
  induction evs as [|e evs IH]; intros st rec st' rec' Hn Hs E; [by injection E as <- <-|]. apply not_elem_of_cons in Hn as [Hne Hn]. cbn [krun] in E.
  destruct (kstep cfg e st) as [[st1 l]| |] eqn:Es; [|by eapply IH|done]. eapply IH; [done| |exact E]. eapply stuck_step; [|exact Hs|exact Es]. congruence.
Qed.

Lemma stuck_blocks cfg i st s : stuck cfg i st -> kstep cfg (KPut i s) st = Blocked.
Proof. intros (h & m0 & m & inp & b & k & Hx & Hh & _). destruct st as [xs qs]. cbn [z_proxies] in Hx. cbn [kstep]. rewrite Hx. by rewrite decide_False by lia. Qed.

Lemma blocked_forever cfg n parts i s ord : (i < n)%nat -> (0 < g_http cfg)%nat -> (0 < g_input cfg)%nat -> wire_ok s -> (forall m, iteration_order (ord m) m) ->
  (forall m, encode_msg (ord (s_tags s)) s = Some m -> g_limit cfg < msg_size m) ->
  exists evs st rec, reached cfg n parts evs st rec /\ KCrash i ∉ evs /\ puts rec = replicate (g_errors cfg + g_input cfg + 1 + g_http cfg) s /\
    forall evs' st' rec', KCrash i ∉ evs' -> krun cfg evs' st rec = Next (st', rec') -> forall s', kstep cfg (KPut i s') st' = Blocked.
Proof.
  intros Hin Hh Hi Hw Ho Hl. destruct (encode_msg_some (ord (s_tags s)) s) as [m Hm]. specialize (Hl _ Hm).
  destruct (fill_all cfg i s ord m (replicate parts new_partition) Hh Hi Hm Hl (replicate n new_proxy)) as (rec & E & P); [by apply lookup_replicate_2|].
  exists (fill cfg i s ord). eexists _, rec. split; [split; [|exact E]|split; [|split; [exact P|]]].
  - unfold fill. rewrite !Forall_app. split; [|split; [|split]].
    + apply Forall_concat, Forall_replicate. repeat (apply Forall_cons; split; [done|]). apply Forall_nil_2.
    + apply Forall_concat, Forall_replicate. repeat (apply Forall_cons; split; [done|]). apply Forall_nil_2.
    + repeat (apply Forall_cons; split; [done|]). apply Forall_nil_2.
    + by apply Forall_replicate.
  - unfold fill. rewrite !elem_of_app. intros [H|[H|[H|H]]].
    + apply elem_of_list_In, in_concat in H as (l & Hl' & H). apply elem_of_list_In, elem_of_replicate in Hl' as [-> _]. apply elem_of_list_In in H. repeat (apply elem_of_cons in H as [H|H]; [done|]). by apply elem_of_nil in H.
    + apply elem_of_list_In, in_concat in H as (l & Hl' & H). apply elem_of_list_In, elem_of_replicate in Hl' as [-> _]. apply elem_of_list_In in H. repeat (apply elem_of_cons in H as [H|H]; [done|]). by apply elem_of_nil in H.
    + repeat (apply elem_of_cons in H as [H|H]; [done|]). by apply elem_of_nil in H.
    + apply elem_of_replicate in H as [H _]. done.
  - intros evs' st' rec' Hn Er s'. apply stuck_blocks. eapply stuck_run; [exact Hn| |exact Er]. unfold stuck. cbn [z_proxies].
    destruct (g_input cfg) as [|gi] eqn:Eg; [lia|]. cbn [replicate]. eexists _, _, _, _, _, _. split; [eapply (at_i i); by apply lookup_replicate_2|].
    rewrite !replicate_length. done.
Qed.

(* ---------- lengths of encodings ---------- *)

Lemma oapp_len_l a b bs : a +++ b = Some bs -> exists x, a = Some x /\ (length x <= length bs)%nat.
Proof. destruct a as [x|], b as [y|]; try done. intros [= <-]. exists x. rewrite app_length. split; [done|lia]. Qed.
Lemma oapp_len_r a b bs : a +++ b = Some bs -> exists y, b = Some y /\ (length y <= length bs)%nat.
Proof. destruct a as [x|], b as [y|]; try done. intros [= <-]. exists y. rewrite app_length. split; [done|lia]. Qed.

(* ---------- without such spans the channels empty ---------- *)

Section drain.
  Context (cfg : kconfig) (i : nat) (qs : list partition) (Hg : (0 < g_input cfg)%nat).
  Let ok (m : kmsg) : Prop := msg_size m <= g_limit cfg.

  Lemma drain_input inp : forall xs h hold b er k rec, xs !! i = Some (Proxy h hold inp b er k) -> Forall ok inp ->
    exists b', krun cfg (replicate (length inp) (KDispatch i)) (KState xs qs) rec = Next (KState (<[i := Proxy h hold [] b' er k]> xs) qs, rec).
  Proof.
    induction inp as [|m inp IH]; intros xs h hold b er k rec E H.
    - exists b. cbn [length replicate krun]. by rewrite list_insert_id.
    - apply Forall_cons in H as [Hm H]. cbn [length replicate krun kstep]. rewrite E. rewrite (proj2 (Z.ltb_ge _ _) Hm). rewrite app_nil_r.
      destruct (IH (<[i := Proxy h hold inp (b ++ [m]) er k]> xs) h hold (b ++ [m]) er k rec) as (b' & E'); [by eapply at_i|done|].
      exists b'. by rewrite E', list_insert_insert.
  Qed.

  Lemma drain_hold m : forall xs h b er k rec, xs !! i = Some (Proxy h (Some m) [] b er k) -> ok m ->
    exists b', krun cfg [KInput i; KDispatch i] (KState xs qs) rec = Next (KState (<[i := Proxy h None [] b' er k]> xs) qs, rec).
  Proof.
    intros xs h b er k rec E H. exists (b ++ [m]). erewrite krun_next; [|apply input_step; [exact E|exact Hg]]. cbn [app]. cbn [krun kstep].
    rewrite (at_i i _ _ _ E). rewrite (proj2 (Z.ltb_ge _ _) H). by rewrite list_insert_insert, !app_nil_r.
  Qed.

  Lemma drain_http h : forall xs b er k rec, xs !! i = Some (Proxy h None [] b er k) -> Forall (fits cfg) h ->
    exists b', krun cfg (concat (replicate (length h) [KTake i map_to_list; KInput i; KDispatch i])) (KState xs qs) rec = Next (KState (<[i := Proxy [] None [] b' er k]> xs) qs, rec).
  Proof.
    induction h as [|s h IH]; intros xs b er k rec E H.
    - exists b. cbn [length replicate concat krun]. by rewrite list_insert_id.
    - apply Forall_cons in H as [Hs H]. cbn [length replicate concat].
      destruct (encode_msg_some (map_to_list (s_tags s)) s) as [m Hm].
      change ([KTake i map_to_list; KInput i; KDispatch i] ++ ?l) with (KTake i map_to_list :: ([KInput i; KDispatch i] ++ l)).
      erewrite krun_next; [|eapply take_step; [exact Hm|exact E]]. rewrite app_nil_r.
      destruct (drain_hold m (<[i := Proxy h (Some m) [] b er k]> xs) h b er k rec) as (b1 & E1); [by eapply at_i|eapply Hs; [|exact Hm]; unfold iteration_order; reflexivity|].
      rewrite (krun_app _ _ _ _ _ _ _ E1), list_insert_insert.
      destruct (IH (<[i := Proxy h None [] b1 er k]> xs) b1 er k rec) as (b2 & E2); [by eapply at_i|done|]. exists b2. by rewrite E2, list_insert_insert.
  Qed.
End drain.

Lemma drains cfg i xs qs rec h hold inp b er k : (0 < g_input cfg)%nat -> xs !! i = Some (Proxy h hold inp b er k) ->
  Forall (fits cfg) h -> Forall (fun m => msg_size m <= g_limit cfg) (match hold with Some m => [m] | None => [] end ++ inp) ->
  exists evs b', Forall valid_kevent evs /\ Forall (sends i) evs /\
    krun cfg evs (KState xs qs) rec = Next (KState (<[i := Proxy [] None [] b' er k]> xs) qs, rec).
Proof.
  intros Hg E Hh Hm. apply Forall_app in Hm as [Hho Hi].
  destruct (drain_input cfg i qs inp xs h hold b er k rec E Hi) as (b1 & E1).
  assert (Q : exists evs b2, Forall valid_kevent evs /\ Forall (sends i) evs /\
    krun cfg evs (KState (<[i := Proxy h hold [] b1 er k]> xs) qs) rec = Next (KState (<[i := Proxy h None [] b2 er k]> xs) qs, rec)).
  { destruct hold as [m|].
    - apply Forall_cons in Hho as [Hho _]. destruct (drain_hold cfg i qs Hg m (<[i := Proxy h (Some m) [] b1 er k]> xs) h b1 er k rec) as (b2 & E2); [by eapply at_i|exact Hho|].
      exists [KInput i; KDispatch i], b2. split; [|split; [|rewrite E2, list_insert_insert; done]]; repeat (apply Forall_cons; split; [done|]); apply Forall_nil_2.
    - exists [], b1. split; [apply Forall_nil_2|]. split; [apply Forall_nil_2|done]. }
  destruct Q as (evs2 & b2 & V2 & S2 & E2).
  destruct (drain_http cfg i qs Hg h (<[i := Proxy h None [] b2 er k]> xs) b2 er k rec) as (b3 & E3); [by eapply at_i|done|].
  eexists (replicate (length inp) (KDispatch i) ++ evs2 ++ concat (replicate (length h) [KTake i map_to_list; KInput i; KDispatch i])), b3.
  split; [|split].
  - rewrite !Forall_app. split; [by apply Forall_replicate|]. split; [done|]. apply Forall_concat, Forall_replicate. repeat (apply Forall_cons; split; [first [done|intros m; unfold iteration_order; reflexivity]|]). apply Forall_nil_2.
  - rewrite !Forall_app. split; [by apply Forall_replicate|]. split; [done|]. apply Forall_concat, Forall_replicate. repeat (apply Forall_cons; split; [done|]). apply Forall_nil_2.
  - rewrite (krun_app _ _ _ _ _ _ _ E1), (krun_app _ _ _ _ _ _ _ E2), E3, list_insert_insert. done.
Qed.

(** In terms of reached states: the handlers of the proxy can go on. *)
Lemma goes_on cfg n parts evs st rec i x : reached cfg n parts evs st rec -> (0 < g_input cfg)%nat -> (0 < g_http cfg)%nat -> z_proxies st !! i = Some x ->
  Forall (fits cfg) (x_http x) -> Forall (fun m => msg_size m <= g_limit cfg) (match x_hold x with Some m => [m] | None => [] end ++ x_input x) ->
  exists evs' st', Forall (sends i) evs' /\ reached cfg n parts (evs ++ evs') st' rec /\ z_parts st' = z_parts st /\
    (exists x', z_proxies st' !! i = Some x' /\ x_http x' = [] /\ x_hold x' = None /\ x_input x' = []) /\
    forall s, exists st2, kstep cfg (KPut i s) st' = Next (st2, [RPut i s]).
Proof.
  intros [Hv Hr] Hg Hh Hx Hf Hm. destruct st as [xs qs], x as [h hold inp b er k]. cbn [z_proxies] in Hx. xcbn.
  destruct (drains cfg i xs qs rec h hold inp b er k Hg Hx Hf Hm) as (evs' & b' & V & S & E).
  exists evs'. eexists. split; [done|]. split; [split; [apply Forall_app; split; [exact Hv|exact V]|]|].
  - rewrite (krun_app _ _ _ _ _ _ _ Hr). exact E.
  - cbn [z_parts z_proxies]. split; [done|]. split; [eexists; split; [by eapply at_i|done]|]. intros s. eexists. cbn [kstep]. rewrite (at_i i _ _ _ Hx). by rewrite decide_True.
Qed.

(* ---------- C66: before the first commit ---------- *)

Definition skip_cfg : kconfig := KConfig 4 4 4 4 1000 (fun _ => 0%nat).
Definition skip_span (id : Z) : span := new_span (str "a") 4 id 0.
Definition skip_events : list kevent :=
  let send s := [KPut 0 s; KTake 0 map_to_list; KInput 0; KDispatch 0; KWrite 0 0] in
  [KOpen 0 1] ++ send (skip_span 7) ++ [KNext 0; KCrash 1; KOpen 0 0] ++ send (skip_span 8) ++ [KNext 0; KCall 0; KMark 0; KCommit 0; KRecv 0].

Lemma skipped : exists st rec, reached skip_cfg 2 1 skip_events st rec /\
  outgoing_spans st = [] /\ outgoing_msgs st = [] /\ lost_msgs rec = [] /\ lost_spans rec = [] /\
  RCommit 0 2 ∈ rec /\ ROpen 0 1 0 ∈ rec /\ puts rec = [skip_span 7; skip_span 8] /\ handled rec 0 = [1%nat] /\ forall i, skip_span 7 ∉ received rec i.
Proof.
  destruct (krun skip_cfg skip_events (kinit 2 1) []) as [[st rec]| |] eqn:E; [|vm_compute in E; discriminate|vm_compute in E; discriminate].
  exists st, rec. assert (V : Forall valid_kevent skip_events).
  { assert (wire_ok (skip_span 7) /\ wire_ok (skip_span 8)) as [W7 W8].
    { split; (split; [repeat split; cbn; lia|]; split; [unfold wire_string; cbn; lia|]; split; [unfold wire_string; cbn; lia|]; split; [|by cbn]); intros k v H; cbn in H; by rewrite lookup_empty in H. }
    unfold skip_events. cbn [app]. repeat (apply Forall_cons; split; [first [exact W7|exact W8|exact I|intros m; unfold iteration_order; reflexivity]|]). apply Forall_nil_2. }
  split; [by split|]. vm_compute in E. injection E as <- <-. repeat (split; [first [reflexivity|repeat first [apply elem_of_list_here|apply elem_of_list_further]]|]).
  intros i. cbn. destruct (decide (1 = i)%nat), (decide (0 = i)%nat).
  all: cbn [app]; intros H; first [by apply elem_of_nil in H|apply elem_of_list_singleton in H; discriminate H].
Qed.
