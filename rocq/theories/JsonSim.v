(** The buffered parser computes what the list parser computes, for every way of reading. *)
From Verif Require Import Base JsonModel CodecModel JsonPure JsonSpec JsonProofs.

(** Bytes in the buffer window. *)
Definition window (st : pstate) : bytes := take (available st) (drop (p_tail st) (p_buf st)).
(** Reads left. *)
Definition left (st : pstate) : nat := (length (r_chunks (p_src st)) + length (concat (r_chunks (p_src st))))%nat.

(** The parser with buffer size [cap] has [l] before it. *)
Definition R (cap : nat) (st : pstate) (l : bytes) : Prop :=
  (p_tail st <= p_head st)%nat /\ (p_head st <= cap)%nat /\ length (p_buf st) = cap /\
  l = window st ++ concat (r_chunks (p_src st)) /\
  (p_eof st = true -> r_chunks (p_src st) = []) /\ r_end (p_src st) <> EndErr true.

Lemma window_length cap st l : R cap st l -> length (window st) = available st.
Proof. intros (H1 & H2 & H3 & _). unfold window. rewrite take_length, drop_length. unfold available. lia. Qed.

Lemma window_lookup st i : (i < available st)%nat -> window st !! i = p_buf st !! (p_tail st + i)%nat.
Proof. intros Hi. unfold window. rewrite lookup_take by done. by rewrite lookup_drop. Qed.

(** What the front of [l] looks like. *)
Lemma R_set_tail cap st l k : R cap st l -> (k <= available st)%nat -> R cap (set_tail (p_tail st + k) st) (drop k l).
Proof.
  intros HR Hk. pose proof (window_length _ _ _ HR) as Hw. destruct HR as (H1 & H2 & H3 & H4 & H5 & H6). unfold available in *.
  split; [cbn; lia|]. split; [done|]. split; [done|]. split; [|done].
  rewrite H4. cbn [set_tail p_src]. rewrite drop_app_le by lia. f_equal. unfold window, available. cbn [set_tail p_tail p_head p_buf].
  rewrite skipn_firstn_comm, drop_drop. f_equal. lia.
Qed.

Lemma buffer_more_spec cap st l : R cap st l ->
  match buffer_more st with
  | POk _ st' => R cap st' l /\ (available st <= available st')%nat /\ (left st' <= left st)%nat /\
      ((left st' < left st)%nat \/ (available st = cap /\ concat (r_chunks (p_src st)) <> []))
  | PErr => concat (r_chunks (p_src st)) = []
  | PPanic => False
  | PHang => False
  end.
Proof.
  intros HR. pose proof (window_length _ _ _ HR) as Hw. destruct HR as (H1 & H2 & H3 & H4 & H5 & H6). unfold buffer_more.
  destruct (p_eof st) eqn:Ee. { by rewrite H5. }
  rewrite H3. replace ((0 <? p_tail st)%nat && negb ((p_tail st <=? p_head st)%nat && (p_head st <=? cap)%nat)) with false by lia.
  set (st1 := if (0 <? p_tail st)%nat then _ else st).
  assert (K : p_src st1 = p_src st /\ p_tail st1 = 0%nat /\ p_head st1 = available st /\ length (p_buf st1) = cap /\
              take (available st) (p_buf st1) = window st).
  { unfold st1. destruct (Nat.ltb_spec 0 (p_tail st)) as [Ht|Ht]; cbn [p_src p_tail p_head p_buf].
    - split; [done|]. split; [done|]. split; [done|]. fold (window st). split.
      + rewrite length_splice; [done|]. rewrite Hw. unfold available. lia.
      + rewrite <- Hw at 1. pose proof (take_splice (p_buf st) 0 (window st)) as Hs. cbn [Nat.add] in Hs. rewrite Hs by (rewrite Hw; unfold available; lia).
        by rewrite take_0.
    - unfold window, available. assert (p_tail st = 0%nat) as E by lia. rewrite E, drop_0, Nat.sub_0_r. done. }
  clearbody st1. destruct K as (Ks & Kt & Kh & Kl & Kw). rewrite Ks, Kh, Kl.
  assert (Hav : (available st <= cap)%nat) by (unfold available; lia).
  replace (cap <? available st)%nat with false by lia.
  unfold src_read. destruct (r_chunks (p_src st)) as [|c cs] eqn:Ec.
  { destruct (r_end (p_src st)); cbn; done. }
  set (m := (cap - available st)%nat). set (rest := match drop m c with [] => cs | c' => c' :: cs end).
  assert (Hcat : take m c ++ concat rest = c ++ concat cs).
  { unfold rest. destruct (drop m c) as [|x d] eqn:Ed.
    - assert (Hc : take m c = c) by (rewrite <- (take_drop m c) at 2; by rewrite Ed, app_nil_r). by rewrite Hc.
    - rewrite concat_cons, app_assoc. f_equal. rewrite <- Ed. apply take_drop. }
  assert (Htl : length (take m c) = min m (length c)) by apply take_length.
  assert (Hnew : forall eof', (eof' = true -> rest = []) ->
    let st' := PState (Src rest (r_end (p_src st))) (splice (p_buf st1) (available st) (take m c)) (p_tail st1) (available st + length (take m c)) eof' in
    R cap st' l /\ (available st <= available st')%nat /\ (left st' <= left st)%nat /\
      ((left st' < left st)%nat \/ (available st = cap /\ concat (c :: cs) <> []))).
  { intros eof' He' st'. assert (Hlen : (available st + length (take m c) <= cap)%nat) by (rewrite Htl; unfold m; lia).
    assert (Ha' : available st' = (available st + length (take m c))%nat) by (unfold available at 1, st'; cbn; lia).
    split; [|split; [lia|]].
    - split; [cbn; lia|]. split; [done|]. split; [cbn; rewrite length_splice; lia|]. split; [|done].
      unfold window. rewrite Ha'. unfold st'. cbn [p_tail p_buf p_src r_chunks]. rewrite Kt, drop_0.
      rewrite take_splice by lia. rewrite Kw, <- app_assoc, Hcat. rewrite H4. done.
    - unfold left. rewrite Ec. unfold st'. cbn [p_src r_chunks]. rewrite concat_cons, app_length.
      assert (Hlr : (length (concat rest) + length (take m c) = length c + length (concat cs))%nat).
      { rewrite <- !app_length. rewrite <- Hcat, app_length, app_length. lia. }
      unfold rest in *. destruct (drop m c) as [|x d] eqn:Ed.
      + cbn [length]. lia.
      + cbn [length]. assert (m < length c)%nat. { destruct (Nat.lt_ge_cases m (length c)); [done|]. rewrite drop_ge in Ed by lia. done. }
        split; [lia|]. destruct m as [|m'] eqn:Em; [|left; lia]. right. split; [unfold m in Em; lia|].
        destruct c; [cbn in *; lia|done]. }
  destruct rest as [|r0 rs] eqn:Er.
  - destruct (r_end (p_src st)) as [[]|[]] eqn:Eend; cbn [end_eager end_err].
    + destruct (take m c) as [|x t] eqn:Et.
      * rewrite concat_cons. rewrite <- Hcat. done.
      * apply (Hnew true). done.
    + apply (Hnew false). done.
    + done.
    + apply (Hnew false). done.
  - apply (Hnew false). done.
Qed.

(* ---------- scanning functions ---------- *)

Lemma take_S_drop (buf : bytes) t k b : buf !! t = Some b -> take (S k) (drop t buf) = b :: take k (drop (S t) buf).
Proof. intros H. rewrite (drop_S _ _ _ H). done. Qed.

Lemma scan_space_spec : forall k buf t, (t + k <= length buf)%nat ->
  match scan_space k buf t with
  | None => False
  | Some (t', true) => exists j b, t' = (t + j)%nat /\ (j < k)%nat /\ buf !! t' = Some b /\ is_space b = false /\
      forall r, drop_space (take k (drop t buf) ++ r) = drop j (take k (drop t buf)) ++ r
  | Some (t', false) => t' = (t + k)%nat /\ forall r, drop_space (take k (drop t buf) ++ r) = drop_space r
  end.
Proof.
  induction k as [|k IH]; intros buf t Ht; cbn [scan_space].
  - split; [lia|]. intros r. done.
  - destruct (buf !! t) as [b|] eqn:Eb; [|apply lookup_ge_None in Eb; lia].
    pose proof (take_S_drop _ _ k _ Eb) as Hts. destruct (is_space b) eqn:Es.
    + specialize (IH buf (S t) ltac:(lia)). destruct (scan_space k buf (S t)) as [[t' []]|]; [| |done].
      * destruct IH as (j & b' & -> & Hj & Hb' & Hs & Hr). exists (S j), b'.
        split; [lia|]. split; [lia|]. split; [by replace (t + S j)%nat with (S t + j)%nat by lia|]. split; [done|].
        intros r. rewrite Hts. cbn [app drop_space]. rewrite Es. apply Hr.
      * destruct IH as (-> & Hr). split; [lia|]. intros r. rewrite Hts. cbn [app drop_space]. rewrite Es. apply Hr.
    + exists 0%nat, b. split; [lia|]. split; [lia|]. split; [exact Eb|]. split; [done|].
      intros r. rewrite Hts. cbn [app drop_space]. by rewrite Es.
Qed.

(** Simulation of results: [P] is what holds of the state after success. *)
Definition psim {A} (cap fuel : nat) (P : pstate -> Prop) (m0 : nat) (p : pres A) (q : qres A) : Prop :=
  match p with
  | POk a st' => exists l', q = QOk a l' /\ R cap st' l' /\ (left st' <= m0)%nat /\ P st'
  | PErr => q = QErr
  | PPanic => False
  | PHang => q = QHang \/ q = QFuel \/ (fuel <= m0)%nat
  end.

Definition any (st : pstate) : Prop := True.
Definition ready (st : pstate) : Prop := (0 < available st)%nat.

Lemma psim_bind {A B} cap fuel P Q m0 (p : pres A) (q : qres A) (f : A -> pstate -> pres B) g :
  psim cap fuel P m0 p q ->
  (forall a st l, R cap st l -> (left st <= m0)%nat -> P st -> psim cap fuel Q m0 (f a st) (g a l)) ->
  psim cap fuel Q m0 (pbind p f) (qbind q g).
Proof.
  intros H1 H2. destruct p as [a st| | |]; cbn [pbind psim] in *.
  - destruct H1 as (l & -> & HR & Hm & HP). cbn [qbind]. by apply H2.
  - by subst q.
  - done.
  - destruct H1 as [->|[->|H1]]; cbn [qbind]; auto.
Qed.

Lemma psim_weaken {A} cap fuel P m0 m1 (p : pres A) q : (m0 <= m1)%nat -> psim cap fuel P m0 p q -> psim cap fuel P m1 p q.
Proof.
  intros Hm. destruct p; cbn; try done.
  - intros (l & ? & ? & ? & ?). exists l. split; [done|]. split; [done|]. split; [lia|done].
  - intros [?|[?|?]]; auto. right. right. lia.
Qed.

Lemma skip_whitespace_sim cap : (0 < cap)%nat -> forall fuel st l, R cap st l ->
  psim cap fuel ready (left st) (skip_whitespace fuel st) (q_space l).
Proof.
  intros Hcap. induction fuel as [|fuel IH]; intros st l HR; cbn [skip_whitespace].
  all: pose proof (window_length _ _ _ HR) as Hw; pose proof HR as (H1 & H2 & H3 & H4 & H5 & H6);
    pose proof (scan_space_spec (available st) (p_buf st) (p_tail st) ltac:(unfold available; lia)) as Hs;
    destruct (scan_space (available st) (p_buf st) (p_tail st)) as [[t []]|]; [|  |done].
  1,3: destruct Hs as (j & b & -> & Hj & Hb & Hsp & Hr); cbn [psim];
    assert (HR' := R_set_tail cap st l j HR ltac:(lia)); exists (drop j l);
    assert (Hq : drop_space l = drop j l) by (rewrite H4, Hr, drop_app_le by (fold (window st); lia); done);
    (split; [unfold q_space; rewrite Hq; assert (Hne : (0 < length (drop j l))%nat)
       by (rewrite drop_length, H4, app_length; lia); destruct (drop j l); [cbn in Hne; lia|done]|]);
    (split; [done|]); (split; [unfold left; cbn; lia|]); unfold ready, available; cbn; unfold available in Hj; lia.
  - cbn. right. right. lia.
  - destruct Hs as (-> & Hr).
    assert (HR' := R_set_tail cap st l (available st) HR ltac:(lia)).
    assert (Hq : q_space l = q_space (drop (available st) l)).
    { unfold q_space. rewrite H4, Hr. rewrite drop_app_ge by lia. rewrite Hw, Nat.sub_diag. by rewrite drop_0. }
    rewrite Hq. set (st1 := set_tail (p_tail st + available st) st) in *.
    pose proof (buffer_more_spec _ _ _ HR') as HB.
    assert (Hav : available st1 = 0%nat) by (unfold st1, available; cbn; unfold available; lia).
    destruct (buffer_more st1) as [[] st2| | |]; cbn [pbind]; try done.
    + destruct HB as (HR2 & Ha & Hle & Hlt). specialize (IH st2 _ HR2).
      change (left st1) with (left st) in *. destruct (skip_whitespace fuel st2) as [[] st3| | |]; cbn [psim] in *; try done.
      * destruct IH as (l' & ? & ? & ? & ?). exists l'. split; [done|]. split; [done|]. split; [lia|done].
      * destruct IH as [?|[?|?]]; auto. right. right. destruct Hlt as [Hlt|[? _]]; lia.
    + change (p_src st1) with (p_src st) in HB. unfold q_space. rewrite H4, HB, app_nil_r, drop_ge by lia. done.
Qed.

Lemma space_sim cap fuel st l : (0 < cap)%nat -> R cap st l -> psim cap fuel ready (left st) (skip_whitespace fuel st) (q_space l).
Proof. intros. by apply skip_whitespace_sim. Qed.

Lemma ready_head cap st l : R cap st l -> ready st -> exists b l', l = b :: l' /\ p_buf st !! p_tail st = Some b.
Proof.
  intros HR Hr. pose proof (window_length _ _ _ HR) as Hw. unfold ready in Hr.
  pose proof (window_lookup st 0 Hr) as Hl. rewrite Nat.add_0_r in Hl. destruct HR as (H1 & H2 & H3 & H4 & H5 & H6).
  destruct (window st) as [|b w]; [cbn in Hw; lia|]. exists b, (w ++ concat (r_chunks (p_src st))). split; [done|].
  by rewrite <- Hl.
Qed.

Lemma current_sim cap fuel st l : R cap st l -> ready st -> psim cap fuel ready (left st) (current st) (q_current l).
Proof.
  intros HR Hr. destruct (ready_head _ _ _ HR Hr) as (b & l' & -> & Hb). unfold current. rewrite Hb. cbn.
  eexists. split; [done|]. split; [done|]. split; [lia|done].
Qed.

Lemma next_sim cap fuel st l : (0 < cap)%nat -> R cap st l -> psim cap fuel ready (left st) (next_type fuel st) (q_next l).
Proof.
  intros Hcap HR. unfold next_type, q_next. eapply psim_bind; [by apply space_sim|]. intros _ st1 l1 HR1 Hm1 Hr1.
  eapply psim_bind. { eapply psim_weaken; [exact Hm1|]. by apply current_sim. }
  intros b st2 l2 HR2 Hm2 Hr2. destruct (symbol b); try done; (eexists; split; [done|]; split; [done|]; split; [lia|done]).
Qed.

Lemma consume1_sim cap fuel ty st l : R cap st l -> ready st -> psim cap fuel any (left st) (consume1 ty st) (q_consume1 ty l).
Proof.
  intros HR Hr. destruct (ready_head _ _ _ HR Hr) as (b & l' & -> & Hb). unfold consume1, current. rewrite Hb. cbn [pbind q_consume1].
  destruct (decide (symbol b = ty)); [|done]. cbn [psim]. exists l'. split; [done|].
  pose proof (R_set_tail cap st (b :: l') 1 HR Hr) as H. rewrite Nat.add_1_r in H. cbn [drop] in H. split; [by rewrite drop_0 in H|]. split; [done|done].
Qed.

Lemma consume_sim cap fuel ty st l : (0 < cap)%nat -> R cap st l -> psim cap fuel any (left st) (consume fuel ty st) (q_consume ty l).
Proof.
  intros Hcap HR. unfold consume, q_consume. eapply psim_bind; [by apply space_sim|]. intros _ st1 l1 HR1 Hm1 Hr1.
  eapply psim_weaken; [exact Hm1|]. by apply consume1_sim.
Qed.

(* ---------- strings ---------- *)

Lemma close_bound l : forall n esc has n' has', close l n esc has = Some (n', has') -> (n <= n' < n + length l)%nat.
Proof.
  induction l as [|ch l IH]; intros n esc has n' has'; cbn [close length]; [done|].
  destruct esc; [intros H%IH; lia|]. destruct (ch =? ch_backslash); [intros H%IH; lia|].
  destruct (ch =? ch_quote); [intros [= <- <-]; lia|intros H%IH; lia].
Qed.

Lemma scan_string_spec : forall k buf t n esc has, (t + n + k <= length buf)%nat ->
  match scan_string k buf t n esc has with
  | SFound n' has' => (n <= n' < n + k)%nat /\ forall r, close (take k (drop (t + n) buf) ++ r) n esc has = Some (n', has')
  | SMore esc' has' => forall r, close (take k (drop (t + n) buf) ++ r) n esc has = close r (n + k) esc' has'
  | SPanic => False
  end.
Proof.
  induction k as [|k IH]; intros buf t n esc has Hl; cbn [scan_string].
  - intros r. rewrite take_0, Nat.add_0_r. done.
  - destruct (buf !! (t + n)%nat) as [ch|] eqn:Eb; [|apply lookup_ge_None in Eb; lia].
    pose proof (take_S_drop _ _ k _ Eb) as Hts. replace (S (t + n)) with (t + S n)%nat in Hts by lia.
    assert (Hrec : forall esc1 has1, (forall r, close (take (S k) (drop (t + n) buf) ++ r) n esc has = close (take k (drop (t + S n) buf) ++ r) (S n) esc1 has1) ->
      match scan_string k buf t (S n) esc1 has1 with
      | SFound n' has' => (n <= n' < n + S k)%nat /\ forall r, close (take (S k) (drop (t + n) buf) ++ r) n esc has = Some (n', has')
      | SMore esc' has' => forall r, close (take (S k) (drop (t + n) buf) ++ r) n esc has = close r (n + S k) esc' has'
      | SPanic => False
      end).
    { intros esc1 has1 He. specialize (IH buf t (S n) esc1 has1 ltac:(lia)). destruct (scan_string k buf t (S n) esc1 has1); [|  |done].
      - destruct IH as [IH1 IH2]. split; [lia|]. intros r. by rewrite He, IH2.
      - intros r. rewrite He, IH. f_equal. lia. }
    destruct esc.
    { apply Hrec. intros r. rewrite Hts. done. }
    destruct (ch =? ch_backslash) eqn:E1.
    { apply Hrec. intros r. rewrite Hts. cbn [app close]. by rewrite E1. }
    destruct (ch =? ch_quote) eqn:E2.
    { split; [lia|]. intros r. rewrite Hts. cbn [app close]. by rewrite E1, E2. }
    apply Hrec. intros r. rewrite Hts. cbn [app close]. by rewrite E1, E2.
Qed.

Lemma string_loop_sim cap : (0 < cap)%nat -> forall fuel st l n esc has,
  R cap st l -> (n <= available st)%nat -> close l 0 false false = close (drop n l) n esc has ->
  psim cap fuel any (left st) (read_string_loop fuel st n esc has) (q_string_body cap l).
Proof.
  intros Hcap fuel. induction fuel as [|fuel IH]; intros st l n esc has HR Hn Hc; cbn [read_string_loop].
  all: pose proof (window_length _ _ _ HR) as Hw; pose proof HR as (H1 & H2 & H3 & H4 & H5 & H6);
    pose proof (scan_string_spec (available st - n) (p_buf st) (p_tail st) n esc has ltac:(unfold available in *; lia)) as Hs;
    assert (Hdrop : drop n l = take (available st - n) (drop (p_tail st + n) (p_buf st)) ++ concat (r_chunks (p_src st)))
      by (rewrite H4, drop_app_le by lia; f_equal; unfold window; rewrite skipn_firstn_comm, drop_drop; done);
    destruct (scan_string (available st - n) (p_buf st) (p_tail st) n esc has) as [n' has'|esc' has'|]; [| |done].
  1, 3: destruct Hs as [Hn' Hcl]; rewrite Hdrop, Hcl in Hc;
    assert (Hcap' : (available st <= cap)%nat) by (unfold available; lia);
    replace (length (p_buf st) <? p_tail st + n')%nat with false by (rewrite H3; unfold available in *; lia);
    assert (Hval : take n' (drop (p_tail st) (p_buf st)) = take n' l)
      by (rewrite H4, take_app_le by lia; unfold window; rewrite take_take; f_equal; lia);
    rewrite Hval; unfold q_string_body; rewrite Hc; replace (n' <? cap)%nat with true by lia;
    assert (HR' := R_set_tail cap st l (n' + 1) HR ltac:(lia)); rewrite Nat.add_assoc in HR';
    (destruct has';
     [ assert (Hln : length (take n' l) = n') by (rewrite <- Hval, take_length, drop_length; unfold available in *; lia);
       pose proof (decode_in_place_0 (take n' l)) as HD; rewrite Hln in HD;
       destruct (unescape (take n' l)) as [v|];
       [ destruct HD as (mem' & -> & Hl' & Ht'); cbn [psim]; rewrite Ht'; eexists; (split; [done|]); (split; [|split; [done|done]]);
         destruct HR' as (R1 & R2 & R3 & R4 & R5 & R6); cbn [set_tail p_tail p_head p_buf p_src p_eof] in *;
         assert (Hsp : (p_tail st + length mem' <= length (p_buf st))%nat) by (unfold available in *; lia);
         (split; [cbn; lia|]); (split; [cbn; lia|]); (split; [cbn; rewrite length_splice; lia|]); (split; [|done]);
         cbn [p_src p_tail p_head p_buf]; rewrite R4; f_equal; unfold window, available; cbn [set_tail p_tail p_head p_buf];
         f_equal; rewrite drop_splice by lia; done
       | rewrite HD; done ]
     | cbn [psim]; eexists; (split; [done|]); (split; [done|]); split; done ]).
  - cbn. right. right. lia.
  - assert (Hc' : close l 0 false false = close (drop (available st) l) (available st) esc' has').
    { rewrite Hc, Hdrop, Hs. rewrite H4, drop_app_ge by lia. rewrite Hw, Nat.sub_diag, drop_0. f_equal. lia. }
    replace (n + (available st - n))%nat with (available st) by lia.
    pose proof (buffer_more_spec _ _ _ HR) as HB. destruct (buffer_more st) as [[] st2| | |]; cbn [pbind]; try done.
    + destruct HB as (HR2 & Ha & Hle & Hlt). specialize (IH st2 l (available st) esc' has' HR2 Ha Hc').
      destruct (read_string_loop fuel st2 (available st) esc' has') as [tok st3| | |]; cbn [psim] in *; try done.
      * destruct IH as (l' & ? & ? & ? & ?). exists l'. split; [done|]. split; [done|]. split; [lia|done].
      * destruct IH as [?|[?|?]]; auto. destruct Hlt as [Hlt|[Hfull Hne]]; [right; right; lia|]. left.
        assert (Hlong : (cap < length l)%nat).
        { rewrite H4, app_length. destruct (concat (r_chunks (p_src st))); [done|]. cbn [length]. lia. }
        unfold q_string_body. destruct (close l 0 false false) as [[n' has'']|] eqn:E.
        -- symmetry in Hc'. apply close_bound in Hc'. replace (n' <? cap)%nat with false by lia. done.
        -- by replace (length l <=? cap)%nat with false by lia.
    + cbn [psim]. rewrite HB, app_nil_r in H4. unfold q_string_body. rewrite Hc'. rewrite drop_ge by (rewrite H4; lia). cbn [close].
      replace (length l <=? cap)%nat with true; [done|]. rewrite H4. unfold available in *. lia.
Qed.

Lemma string_sim cap fuel st l : (0 < cap)%nat -> R cap st l -> ready st ->
  psim cap fuel any (left st) (read_string fuel st) (q_string cap l).
Proof.
  intros Hcap HR Hr. destruct (ready_head _ _ _ HR Hr) as (b & l' & -> & Hb). unfold read_string, current. rewrite Hb. cbn [pbind q_string].
  destruct (negb (b =? ch_quote)); [done|].
  pose proof (R_set_tail cap st (b :: l') 1 HR Hr) as H. rewrite Nat.add_1_r in H. cbn [drop] in H. rewrite drop_0 in H.
  apply (string_loop_sim cap Hcap fuel _ l' 0 false false H); [lia|]. by rewrite drop_0.
Qed.

(* ---------- numbers and literals ---------- *)

Lemma number_end_bound l : forall n n', number_end l n = Some n' -> (n <= n' < n + length l)%nat.
Proof.
  induction l as [|ch l IH]; intros n n'; cbn [number_end length]; [done|].
  destruct (is_number_char ch); [intros H%IH; lia|intros [= <-]; lia].
Qed.

Lemma scan_number_spec : forall k buf t n, (t + n + k <= length buf)%nat ->
  match scan_number k buf t n with
  | NFound n' => (n <= n' < n + k)%nat /\ forall r, number_end (take k (drop (t + n) buf) ++ r) n = Some n'
  | NMore => forall r, number_end (take k (drop (t + n) buf) ++ r) n = number_end r (n + k)
  | NPanic => False
  end.
Proof.
  induction k as [|k IH]; intros buf t n Hl; cbn [scan_number].
  - intros r. rewrite take_0, Nat.add_0_r. done.
  - destruct (buf !! (t + n)%nat) as [ch|] eqn:Eb; [|apply lookup_ge_None in Eb; lia].
    pose proof (take_S_drop _ _ k _ Eb) as Hts. replace (S (t + n)) with (t + S n)%nat in Hts by lia.
    destruct (is_number_char ch) eqn:En.
    + specialize (IH buf t (S n) ltac:(lia)). destruct (scan_number k buf t (S n)); [| |done].
      * destruct IH as [IH1 IH2]. split; [lia|]. intros r. rewrite Hts. cbn [app number_end]. by rewrite En.
      * intros r. rewrite Hts. cbn [app number_end]. rewrite En, IH. f_equal. lia.
    + split; [lia|]. intros r. rewrite Hts. cbn [app number_end]. by rewrite En.
Qed.

Definition q_number_body (cap : nat) (l : bytes) : qres token :=
  match number_end (drop 1 l) 1 with
  | Some n => if (n <? cap)%nat then QOk (Token TNumber (take n l)) (drop n l) else QHang
  | None => if (length l <=? cap)%nat then QErr else QHang
  end.

Lemma number_loop_sim cap : (0 < cap)%nat -> forall fuel st l n,
  R cap st l -> (n <= available st)%nat -> number_end (drop 1 l) 1 = number_end (drop n l) n ->
  psim cap fuel any (left st) (read_number_loop fuel st n) (q_number_body cap l).
Proof.
  intros Hcap fuel. induction fuel as [|fuel IH]; intros st l n HR Hn Hc; cbn [read_number_loop].
  all: pose proof (window_length _ _ _ HR) as Hw; pose proof HR as (H1 & H2 & H3 & H4 & H5 & H6);
    pose proof (scan_number_spec (available st - n) (p_buf st) (p_tail st) n ltac:(unfold available in *; lia)) as Hs;
    assert (Hdrop : drop n l = take (available st - n) (drop (p_tail st + n) (p_buf st)) ++ concat (r_chunks (p_src st)))
      by (rewrite H4, drop_app_le by lia; f_equal; unfold window; rewrite skipn_firstn_comm, drop_drop; done);
    destruct (scan_number (available st - n) (p_buf st) (p_tail st) n) as [n'| |]; [| |done].
  1, 3: destruct Hs as [Hn' Hcl]; rewrite Hdrop, Hcl in Hc;
    assert (Hcap' : (available st <= cap)%nat) by (unfold available; lia);
    replace (length (p_buf st) <? p_tail st + n')%nat with false by (rewrite H3; unfold available in *; lia);
    assert (Hval : take n' (drop (p_tail st) (p_buf st)) = take n' l)
      by (rewrite H4, take_app_le by lia; unfold window; rewrite take_take; f_equal; lia);
    rewrite Hval; unfold q_number_body; rewrite Hc; replace (n' <? cap)%nat with true by lia;
    assert (HR' := R_set_tail cap st l n' HR ltac:(lia));
    cbn [psim]; eexists; (split; [done|]); (split; [done|]); split; done.
  - cbn. right. right. lia.
  - assert (Hc' : number_end (drop 1 l) 1 = number_end (drop (available st) l) (available st)).
    { rewrite Hc, Hdrop, Hs. rewrite H4, drop_app_ge by lia. rewrite Hw, Nat.sub_diag, drop_0. f_equal. lia. }
    replace (n + (available st - n))%nat with (available st) by lia.
    pose proof (buffer_more_spec _ _ _ HR) as HB. destruct (buffer_more st) as [[] st2| | |]; cbn [pbind]; try done.
    + destruct HB as (HR2 & Ha & Hle & Hlt). specialize (IH st2 l (available st) HR2 Ha Hc').
      destruct (read_number_loop fuel st2 (available st)) as [tok st3| | |]; cbn [psim] in *; try done.
      * destruct IH as (l' & ? & ? & ? & ?). exists l'. split; [done|]. split; [done|]. split; [lia|done].
      * destruct IH as [?|[?|?]]; auto. destruct Hlt as [Hlt|[Hfull Hne]]; [right; right; lia|]. left.
        assert (Hlong : (cap < length l)%nat).
        { rewrite H4, app_length. destruct (concat (r_chunks (p_src st))); [done|]. cbn [length]. lia. }
        unfold q_number_body. destruct (number_end (drop 1 l) 1) as [n'|] eqn:E.
        -- symmetry in Hc'. apply number_end_bound in Hc'. replace (n' <? cap)%nat with false by lia. done.
        -- by replace (length l <=? cap)%nat with false by lia.
    + cbn [psim]. rewrite HB, app_nil_r in H4. unfold q_number_body. rewrite Hc'.
      rewrite (drop_ge l (available st)) by (rewrite H4; lia). cbn [number_end].
      replace (length l <=? cap)%nat with true; [done|]. rewrite H4. unfold available in *. lia.
Qed.

Lemma number_sim cap fuel st l : (0 < cap)%nat -> R cap st l -> ready st ->
  psim cap fuel any (left st) (read_number fuel st) (q_number cap l).
Proof.
  intros Hcap HR Hr. destruct (ready_head _ _ _ HR Hr) as (b & l' & -> & Hb). unfold read_number, current. rewrite Hb. cbn [pbind q_number].
  destruct (negb (is_digit b)); [done|].
  pose proof (number_loop_sim cap Hcap fuel st (b :: l') 1 HR Hr eq_refl) as H. unfold q_number_body in H. cbn [drop] in H.
  rewrite drop_0 in H. exact H.
Qed.

Lemma require_sim cap n : (n <= cap)%nat -> forall fuel st l, R cap st l ->
  match require fuel st n with
  | POk _ st' => R cap st' l /\ (left st' <= left st)%nat /\ (n <= available st')%nat
  | PErr => (length l < n)%nat
  | PPanic => False
  | PHang => (fuel <= left st)%nat
  end.
Proof.
  intros Hcap fuel. induction fuel as [|fuel IH]; intros st l HR; cbn [require].
  - destruct (Nat.leb_spec n (available st)); [done|lia].
  - destruct (Nat.leb_spec n (available st)); [done|].
    pose proof HR as (H1 & H2 & H3 & H4 & H5 & H6). rewrite H3.
    replace (cap - available st <? n - available st)%nat with false by lia. cbn [andb].
    pose proof (buffer_more_spec _ _ _ HR) as HB. destruct (buffer_more st) as [[] st2| | |]; cbn [pbind]; try done.
    + destruct HB as (HR2 & Ha & Hle & Hlt). specialize (IH st2 l HR2). destruct (require fuel st2 n); try done.
      * destruct IH as (? & ? & ?). split; [done|]. split; [lia|done].
      * destruct Hlt as [?|[? _]]; lia.
    + rewrite HB, app_nil_r in H4. pose proof (window_length _ _ _ HR). rewrite H4. lia.
Qed.

Lemma read_n_sim cap fuel st l ty first n : (0 < n <= cap)%nat -> R cap st l ->
  psim cap fuel any (left st) (read_n fuel st ty first n) (q_read_n l ty first n).
Proof.
  intros Hn HR. unfold read_n, q_read_n. pose proof (require_sim cap n ltac:(lia) fuel st l HR) as H.
  destruct (require fuel st n) as [[] st1| | |]; cbn [pbind psim]; try done.
  - destruct H as (HR1 & Hle & Ha). assert (Hr : ready st1) by (unfold ready; lia).
    pose proof (window_length _ _ _ HR1) as Hw. pose proof HR1 as (H1 & H2 & H3 & H4 & H5 & H6).
    assert (Hlen : (n <= length l)%nat) by (rewrite H4, app_length; lia).
    replace (n <=? length l)%nat with true by lia.
    assert (Hval : take n (drop (p_tail st1) (p_buf st1)) = take n l)
      by (rewrite H4, take_app_le by lia; unfold window; rewrite take_take; f_equal; lia).
    pose proof (R_set_tail cap st1 l n HR1 Ha) as HR2.
    destruct (ready_head _ _ _ HR1 Hr) as (b & l' & E & Hb). unfold current. rewrite Hb. cbn [pbind].
    destruct l as [|b' l2]; [done|]. injection E as -> ->. destruct (negb (b =? first)); [done|].
    replace (length (p_buf st1) <? p_tail st1 + n)%nat with false by (rewrite H3; unfold available in *; lia).
    rewrite Hval. cbn [psim]. eexists. split; [done|]. split; [done|]. split; [done|done].
  - by replace (n <=? length l)%nat with false by lia.
  - auto.
Qed.

Lemma null_sim cap fuel st l : (5 <= cap)%nat -> R cap st l -> psim cap fuel any (left st) (read_null fuel st) (q_null l).
Proof. intros Hcap HR. apply read_n_sim; [lia|done]. Qed.

Lemma boolean_sim cap fuel st l : (5 <= cap)%nat -> R cap st l -> ready st -> psim cap fuel any (left st) (read_boolean fuel st) (q_boolean l).
Proof.
  intros Hcap HR Hr. unfold read_boolean, q_boolean. eapply psim_bind; [by apply current_sim|].
  intros b st1 l1 HR1 Hm1 Hr1. destruct (b =? 116); (eapply psim_weaken; [exact Hm1|]; apply read_n_sim; [lia|done]).
Qed.

Lemma literal_sim cap fuel st l : (5 <= cap)%nat -> R cap st l -> psim cap fuel any (left st) (ReadLiteral fuel st) (q_literal cap l).
Proof.
  intros Hcap HR. unfold ReadLiteral, q_literal. eapply psim_bind; [apply next_sim; [lia|done]|].
  intros ty st1 l1 HR1 Hm1 Hr1. destruct ty; try done; (eapply psim_weaken; [exact Hm1|]).
  - by apply null_sim. - by apply boolean_sim. - apply number_sim; [lia|done|done]. - apply string_sim; [lia|done|done].
Qed.

(* ---------- skipping ---------- *)

Lemma skips_sim cap fuel : (5 <= cap)%nat -> forall depth,
  (forall next st l, R cap st l -> ready st -> psim cap fuel any (left st) (skip depth fuel next st) (q_skip depth cap next l)) /\
  (forall st l, R cap st l -> psim cap fuel any (left st) (skip_elements depth fuel st) (q_skip_elements depth cap l)) /\
  (forall st l, R cap st l -> psim cap fuel any (left st) (skip_members depth fuel st) (q_skip_members depth cap l)).
Proof.
  intros Hcap. induction depth as [|depth (IH1 & IH2 & IH3)].
  { split; [|split]; cbn; auto. }
  assert (Hc0 : (0 < cap)%nat) by lia.
  split; [|split].
  - intros next st l HR Hr. cbn [skip q_skip]. destruct next; try done.
    + eapply psim_bind; [by apply null_sim|]. intros ? st1 l1 HR1 Hm1 _. cbn. eexists. split; [done|]. done.
    + eapply psim_bind; [by apply consume1_sim|]. intros ? st1 l1 HR1 Hm1 _. eapply psim_weaken; [exact Hm1|]. by apply IH3.
    + eapply psim_bind; [by apply consume1_sim|]. intros ? st1 l1 HR1 Hm1 _. eapply psim_weaken; [exact Hm1|]. by apply IH2.
    + eapply psim_bind; [by apply boolean_sim|]. intros ? st1 l1 HR1 Hm1 _. cbn. eexists. split; [done|]. done.
    + eapply psim_bind; [by apply number_sim|]. intros ? st1 l1 HR1 Hm1 _. cbn. eexists. split; [done|]. done.
    + eapply psim_bind; [by apply string_sim|]. intros ? st1 l1 HR1 Hm1 _. cbn. eexists. split; [done|]. done.
  - intros st l HR. cbn [skip_elements q_skip_elements]. eapply psim_bind; [by apply next_sim|].
    intros ty st1 l1 HR1 Hm1 Hr1. destruct (decide (ty = TArrEnd)).
    + eapply psim_weaken; [exact Hm1|]. by apply consume1_sim.
    + eapply psim_bind; [eapply psim_weaken; [exact Hm1|]; by apply IH1|].
      intros ? st2 l2 HR2 Hm2 _. eapply psim_weaken; [exact Hm2|]. by apply IH2.
  - intros st l HR. cbn [skip_members q_skip_members]. eapply psim_bind; [by apply next_sim|].
    intros ty st1 l1 HR1 Hm1 Hr1. destruct (decide (ty = TObjEnd)).
    + eapply psim_weaken; [exact Hm1|]. by apply consume1_sim.
    + eapply psim_bind; [eapply psim_weaken; [exact Hm1|]; by apply string_sim|].
      intros ? st2 l2 HR2 Hm2 _. eapply psim_bind; [eapply psim_weaken; [exact Hm2|]; by apply next_sim|].
      intros ? st3 l3 HR3 Hm3 Hr3. eapply psim_bind; [eapply psim_weaken; [exact Hm3|]; by apply IH1|].
      intros ? st4 l4 HR4 Hm4 _. eapply psim_weaken; [exact Hm4|]. by apply IH3.
Qed.

Lemma op_sim cap fuel o st l : (5 <= cap)%nat -> R cap st l -> psim cap fuel any (left st) (run_op fuel o st) (q_op fuel cap o l).
Proof.
  intros Hcap HR. assert (Hc0 : (0 < cap)%nat) by lia.
  assert (Hu : forall (p : pres unit) q, psim cap fuel any (left st) p q ->
    psim cap fuel any (left st) (pbind p (fun _ st => POk (Token TNull []) st)) (qbind q (fun _ l => QOk (Token TNull []) l))).
  { intros p q H. eapply psim_bind; [exact H|]. intros ? st1 l1 HR1 Hm1 _. cbn. eexists. split; [done|]. done. }
  destruct o; cbn [run_op q_op].
  - eapply psim_bind; [by apply next_sim|]. intros ? st1 l1 HR1 Hm1 _. cbn. eexists. split; [done|]. done.
  - apply Hu. by apply consume_sim.
  - apply Hu. by apply consume_sim.
  - apply Hu. by apply consume_sim.
  - apply Hu. by apply consume_sim.
  - eapply psim_bind; [by apply space_sim|]. intros ? st1 l1 HR1 Hm1 Hr1. eapply psim_weaken; [exact Hm1|]. by apply string_sim.
  - eapply psim_bind; [by apply space_sim|]. intros ? st1 l1 HR1 Hm1 Hr1. eapply psim_weaken; [exact Hm1|]. by apply number_sim.
  - by apply literal_sim.
  - apply Hu. unfold Skip, q_Skip. eapply psim_bind; [by apply next_sim|]. intros ? st1 l1 HR1 Hm1 Hr1.
    eapply psim_weaken; [exact Hm1|]. by apply skips_sim.
Qed.

Lemma exec_sim {A} cap fuel (p : prog A) : (5 <= cap)%nat -> forall st l, R cap st l ->
  match exec fuel p st with
  | XDone a => (exists l', q_exec fuel cap p l = YDone a l') \/ q_exec fuel cap p l = YError a
  | XPanic => False
  | XHang => q_exec fuel cap p l = YHang \/ q_exec fuel cap p l = YFuel \/ (fuel <= left st)%nat
  end.
Proof.
  intros Hcap. induction p as [a|o k IH e|]; intros st l HR; cbn [exec q_exec].
  - left. eauto.
  - pose proof (op_sim cap fuel o st l Hcap HR) as H. destruct (run_op fuel o st) as [t st'| | |]; cbn [psim] in H.
    + destruct H as (l' & -> & HR' & Hm & _). specialize (IH t st' l' HR'). destruct (exec fuel (k t) st'); try done.
      destruct IH as [?|[?|?]]; auto. right. right. lia.
    + rewrite H. by right.
    + done.
    + destruct H as [->|[->|?]]; auto.
  - auto.
Qed.

Lemma R_new cap chunks e buf : length buf = cap -> e <> EndErr true -> R cap (new_parser (Src chunks e) buf) (concat chunks).
Proof.
  intros Hb He. split; [done|]. split; [cbn; lia|]. split; [done|]. split; [done|]. done.
Qed.
