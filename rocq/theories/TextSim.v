(** The buffered parser gives the texts of the list parser, for every way of reading. *)
From Verif Require Import Base IdModel JsonModel LiteralModel CodecModel JsonPure JsonSpec JsonProofs JsonSim TextModel TextErase TextPure.

Section sim.
Context (oth fin : bytes).

(** The way the reader ends. *)
Definition ending (e : rend) : Prop :=
  match e with EndEOF _ => fin = str "EOF" | EndErr false => fin = with_message (str "buffer more data") oth | EndErr true => False end.

(** The parser with buffer size [cap] has [l] before it. *)
Definition T (cap : nat) (st : pstate) (l : bytes) : Prop :=
  (p_tail st <= p_head st)%nat /\ (p_head st <= cap)%nat /\ length (p_buf st) = cap /\
  l = window st ++ concat (r_chunks (p_src st)) /\
  (p_eof st = true -> r_chunks (p_src st) = [] /\ fin = str "EOF") /\ ending (r_end (p_src st)).

Lemma window_length cap st l : T cap st l -> length (window st) = available st.
Proof. intros (H1 & H2 & H3 & _). unfold window. rewrite take_length, drop_length. unfold available. lia. Qed.

(** What the front of [l] looks like. *)
Lemma R_set_tail cap st l k : T cap st l -> (k <= available st)%nat -> T cap (set_tail (p_tail st + k) st) (drop k l).
Proof.
  intros HR Hk. pose proof (window_length _ _ _ HR) as Hw. destruct HR as (H1 & H2 & H3 & H4 & H5 & H6). unfold available in *.
  split; [cbn; lia|]. split; [done|]. split; [done|]. split; [|done].
  rewrite H4. cbn [set_tail p_src]. rewrite drop_app_le by lia. f_equal. unfold window, available. cbn [set_tail p_tail p_head p_buf].
  rewrite skipn_firstn_comm, drop_drop. f_equal. lia.
Qed.

Lemma buffer_more_spec cap st l : T cap st l ->
  match e_more oth st with
  | EOk _ st' => T cap st' l /\ (available st <= available st')%nat /\ (left st' <= left st)%nat /\
      ((left st' < left st)%nat \/ (available st = cap /\ concat (r_chunks (p_src st)) <> []))
  | EErr m => concat (r_chunks (p_src st)) = [] /\ m = fin
  | EPanic => False
  | EHang => False
  end.
Proof.
  intros HR. pose proof (window_length _ _ _ HR) as Hw. destruct HR as (H1 & H2 & H3 & H4 & H5 & H6). unfold e_more.
  destruct (p_eof st) eqn:Ee. { destruct (H5 eq_refl) as [-> ->]. done. }
  rewrite H3. replace ((0 <? p_tail st)%nat && negb ((p_tail st <=? p_head st)%nat && (p_head st <=? cap)%nat)) with false by lia.
  set (st1 := if (0 <? p_tail st)%nat then _ else st).
  assert (K : p_src st1 = p_src st /\ p_tail st1 = 0%nat /\ p_head st1 = available st /\ length (p_buf st1) = cap /\
              take (available st) (p_buf st1) = window st).
  { unfold st1. destruct (Nat.ltb_spec 0 (p_tail st)) as [Ht|Ht]; cbn [p_src p_tail p_head p_buf].
    - split; [done|]. split; [done|]. split; [done|]. fold (window st). split.
      + rewrite length_splice; [done|]. rewrite Hw. unfold available. lia.
      + rewrite <- Hw at 1. pose proof (take_splice (p_buf st) 0 (window st)) as Hs. cbn [Nat.add] in Hs. rewrite Hs by (rewrite Hw; unfold available; lia).
        by rewrite take_0.
    - unfold window, available. assert (p_tail st = 0%nat) as E by lia. rewrite E, drop_0, Nat.sub_0_r. done. }
  clearbody st1. destruct K as (Ks & Kt & Kh & Kl & Kw). rewrite Ks, Kh, Kl.
  assert (Hav : (available st <= cap)%nat) by (unfold available; lia).
  replace (cap <? available st)%nat with false by lia.
  unfold src_read. destruct (r_chunks (p_src st)) as [|c cs] eqn:Ec.
  { unfold ending in H6. destruct (r_end (p_src st)) as [?|[]]; cbn; done. }
  set (m := (cap - available st)%nat). set (rest := match drop m c with [] => cs | c' => c' :: cs end).
  assert (Hcat : take m c ++ concat rest = c ++ concat cs).
  { unfold rest. destruct (drop m c) as [|x d] eqn:Ed.
    - assert (Hc : take m c = c) by (rewrite <- (take_drop m c) at 2; by rewrite Ed, app_nil_r). by rewrite Hc.
    - rewrite concat_cons, app_assoc. f_equal. rewrite <- Ed. apply take_drop. }
  assert (Htl : length (take m c) = min m (length c)) by apply take_length.
  assert (Hnew : forall eof', (eof' = true -> rest = [] /\ fin = str "EOF") ->
    let st' := PState (Src rest (r_end (p_src st))) (splice (p_buf st1) (available st) (take m c)) (p_tail st1) (available st + length (take m c)) eof' in
    T cap st' l /\ (available st <= available st')%nat /\ (left st' <= left st)%nat /\
      ((left st' < left st)%nat \/ (available st = cap /\ concat (c :: cs) <> []))).
  { intros eof' He' st'. assert (Hlen : (available st + length (take m c) <= cap)%nat) by (rewrite Htl; unfold m; lia).
    assert (Ha' : available st' = (available st + length (take m c))%nat) by (unfold available at 1, st'; cbn; lia).
    split; [|split; [lia|]].
    - split; [cbn; lia|]. split; [done|]. split; [cbn; rewrite length_splice; lia|]. split; [|done].
      unfold window. rewrite Ha'. unfold st'. cbn [p_tail p_buf p_src r_chunks]. rewrite Kt, drop_0.
      rewrite take_splice by lia. rewrite Kw, <- app_assoc, Hcat. rewrite H4. done.
    - unfold left. rewrite Ec. unfold st'. cbn [p_src r_chunks]. rewrite concat_cons, app_length.
      assert (Hlr : (length (concat rest) + length (take m c) = length c + length (concat cs))%nat).
      { rewrite <- !app_length. rewrite <- Hcat, app_length, app_length. lia. }
      unfold rest in *. destruct (drop m c) as [|x d] eqn:Ed.
      + cbn [length]. lia.
      + cbn [length]. assert (m < length c)%nat. { destruct (Nat.lt_ge_cases m (length c)); [done|]. rewrite drop_ge in Ed by lia. done. }
        split; [lia|]. destruct m as [|m'] eqn:Em; [|left; lia]. right. split; [unfold m in Em; lia|].
        destruct c; [cbn in *; lia|done]. }
  destruct rest as [|r0 rs] eqn:Er.
  - destruct (r_end (p_src st)) as [[]|[]] eqn:Eend; cbn [end_eager end_err].
    + destruct (take m c) as [|x t] eqn:Et.
      * rewrite concat_cons. rewrite <- Hcat. split; [done|]. symmetry. exact H6.
      * apply (Hnew true). done.
    + apply (Hnew false). done.
    + destruct H6.
    + apply (Hnew false). done.
  - apply (Hnew false). done.
Qed.

(* ---------- scanning functions ---------- *)

Lemma wrong_type {A} ty st b : p_buf st !! p_tail st = Some b -> @e_wrong_type A ty st = EErr (wrong_text ty b).
Proof.
  intros E. unfold e_wrong_type, wrong_type_error, wrong_text, quoted_type, quoted. rewrite E. destruct (type_string_all ty) as [e ->]. cbn [default from_option].
  destruct (symbol b); try (f_equal; rewrite <- !app_assoc; reflexivity).
  all: match goal with |- context [type_value ?t] => destruct (type_string_all t) as [a ->] end; cbn [default from_option]; f_equal; rewrite <- !app_assoc; reflexivity.
Qed.

Lemma decode_error_spec : forall fuel mem idx w, (w <= idx)%nat -> (idx <= length mem)%nat -> (length mem - idx <= fuel)%nat ->
  decode_error fuel mem idx w = unescape_error (drop idx mem).
Proof.
  induction fuel as [|fuel IH]; intros mem idx w Hw Hi Hf; cbn [decode_error].
  - assert (Hd : drop idx mem = []) by (apply drop_ge; lia). rewrite Hd. cbn [unescape_error].
    by replace (length mem <=? idx)%nat with true by lia.
  - destruct (Nat.leb_spec (length mem) idx) as [Hge|Hlt].
    { assert (Hd : drop idx mem = []) by (apply drop_ge; lia). by rewrite Hd. }
    destruct (mem !! idx) as [ch|] eqn:E0; [|apply lookup_ge_None in E0; lia].
    rewrite (drop_S_lookup _ _ _ E0). cbn [unescape_error].
    change ch_backslash with 92. destruct (negb (ch =? 92)) eqn:Eb.
    { specialize (IH (<[w := ch]> mem) (S idx) (S w)). rewrite insert_length in IH.
      specialize (IH ltac:(lia) ltac:(lia) ltac:(lia)). by rewrite drop_insert_gt in IH by lia. }
    destruct (Nat.leb_spec (length mem) (idx + 1)) as [Hge1|Hlt1].
    { assert (Hd : drop (S idx) mem = []) by (apply drop_ge; lia). by rewrite Hd. }
    destruct (mem !! (idx + 1)%nat) as [c1|] eqn:E1; [|apply lookup_ge_None in E1; lia].
    rewrite Nat.add_1_r in E1. rewrite (drop_S_lookup _ _ _ E1).
    destruct (negb (c1 =? 117)) eqn:Eu.
    { specialize (IH (<[w := c1]> mem) (idx + 2)%nat (S w)). rewrite insert_length in IH.
      specialize (IH ltac:(lia) ltac:(lia) ltac:(lia)). rewrite drop_insert_gt in IH by lia.
      by replace (idx + 2)%nat with (S (S idx)) in * by lia. }
    destruct (Nat.leb_spec (length mem) (idx + 1 + 4)) as [Hge5|Hlt5].
    { assert (Hl : (length (drop (S (S idx)) mem) < 4)%nat) by (rewrite drop_length; lia).
      destruct (drop (S (S idx)) mem) as [|? [|? [|? [|? ?]]]]; cbn [length] in Hl; (reflexivity || lia). }
    destruct (mem !! (idx + 2)%nat) as [a|] eqn:Ea; [|apply lookup_ge_None in Ea; lia].
    destruct (mem !! (idx + 3)%nat) as [b|] eqn:Eb2; [|apply lookup_ge_None in Eb2; lia].
    destruct (mem !! (idx + 4)%nat) as [c|] eqn:Ec; [|apply lookup_ge_None in Ec; lia].
    destruct (mem !! (idx + 5)%nat) as [d|] eqn:Ed; [|apply lookup_ge_None in Ed; lia].
    replace (idx + 2)%nat with (S (S idx)) in * by lia. replace (idx + 3)%nat with (S (S (S idx))) in * by lia.
    replace (idx + 4)%nat with (S (S (S (S idx)))) in * by lia. replace (idx + 5)%nat with (S (S (S (S (S idx))))) in * by lia.
    rewrite (drop_S_lookup _ _ _ Ea), (drop_S_lookup _ _ _ Eb2), (drop_S_lookup _ _ _ Ec), (drop_S_lookup _ _ _ Ed).
    destruct (hex_digit a) as [xa|]; [|reflexivity]. destruct (hex_digit b) as [xb|]; [|reflexivity].
    destruct (hex_digit c) as [xc|]; [|reflexivity]. destruct (hex_digit d) as [xd|]; [|reflexivity].
    set (enc := encode_rune _). pose proof (encode_rune_length (((xa * 16 + xb) * 16 + xc) * 16 + xd)) as Hel. fold enc in Hel. cbv zeta.
    specialize (IH (splice mem w enc) (idx + 6)%nat (w + length enc)%nat). rewrite length_splice in IH by lia.
    specialize (IH ltac:(lia) ltac:(lia) ltac:(lia)). rewrite drop_splice in IH by lia.
    by replace (idx + 6)%nat with (S (S (S (S (S (S idx)))))) in * by lia.
Qed.

Lemma decode_error_0 mem : decode_error (length mem) mem 0 0 = unescape_error mem.
Proof. rewrite decode_error_spec by lia. by rewrite drop_0. Qed.

(** Simulation of results: [P] is what holds of the state after success. *)
Definition esim {A} (cap fuel : nat) (P : pstate -> Prop) (m0 : nat) (p : eres A) (q : wres A) : Prop :=
  match p with
  | EOk a st' => exists l', q = WOk a l' /\ T cap st' l' /\ (left st' <= m0)%nat /\ P st'
  | EErr m => q = WErr m \/ q = WEnd m
  | EPanic => False
  | EHang => q = WHang \/ q = WFuel \/ (fuel <= m0)%nat
  end.

Lemma esim_bind {A B} cap fuel P Q m0 (p : eres A) (q : wres A) (f : A -> pstate -> eres B) g :
  esim cap fuel P m0 p q ->
  (forall a st l, T cap st l -> (left st <= m0)%nat -> P st -> esim cap fuel Q m0 (f a st) (g a l)) ->
  esim cap fuel Q m0 (ebind p f) (wbind q g).
Proof.
  intros H1 H2. destruct p as [a st| | |]; cbn [ebind esim] in *.
  - destruct H1 as (l & -> & HR & Hm & HP). cbn [wbind]. by apply H2.
  - destruct H1 as [->| ->]; [by left|by right].
  - done.
  - destruct H1 as [->|[->|H1]]; cbn [wbind]; auto.
Qed.

Lemma esim_weaken {A} cap fuel P m0 m1 (p : eres A) q : (m0 <= m1)%nat -> esim cap fuel P m0 p q -> esim cap fuel P m1 p q.
Proof.
  intros Hm. destruct p; cbn; try done.
  - intros (l & ? & ? & ? & ?). exists l. split; [done|]. split; [done|]. split; [lia|done].
  - intros [?|[?|?]]; auto. right. right. lia.
Qed.

Lemma skip_whitespace_sim cap : (0 < cap)%nat -> forall fuel st l, T cap st l ->
  esim cap fuel ready (left st) (e_space oth fuel st) (w_space fin l).
Proof.
  intros Hcap. induction fuel as [|fuel IH]; intros st l HR; cbn [e_space].
  all: pose proof (window_length _ _ _ HR) as Hw; pose proof HR as (H1 & H2 & H3 & H4 & H5 & H6);
    pose proof (scan_space_spec (available st) (p_buf st) (p_tail st) ltac:(unfold available; lia)) as Hs;
    destruct (scan_space (available st) (p_buf st) (p_tail st)) as [[t []]|]; [|  |done].
  1,3: destruct Hs as (j & b & -> & Hj & Hb & Hsp & Hr); cbn [esim];
    assert (HR' := R_set_tail cap st l j HR ltac:(lia)); exists (drop j l);
    assert (Hq : drop_space l = drop j l) by (rewrite H4, Hr, drop_app_le by (fold (window st); lia); done);
    (split; [unfold w_space; rewrite Hq; assert (Hne : (0 < length (drop j l))%nat)
       by (rewrite drop_length, H4, app_length; lia); destruct (drop j l); [cbn in Hne; lia|done]|]);
    (split; [done|]); (split; [unfold left; cbn; lia|]); unfold ready, available; cbn; unfold available in Hj; lia.
  - cbn. right. right. lia.
  - destruct Hs as (-> & Hr).
    assert (HR' := R_set_tail cap st l (available st) HR ltac:(lia)).
    assert (Hq : w_space fin l = w_space fin (drop (available st) l)).
    { unfold w_space. rewrite H4, Hr. rewrite drop_app_ge by lia. rewrite Hw, Nat.sub_diag. by rewrite drop_0. }
    rewrite Hq. set (st1 := set_tail (p_tail st + available st) st) in *.
    pose proof (buffer_more_spec _ _ _ HR') as HB.
    assert (Hav : available st1 = 0%nat) by (unfold st1, available; cbn; unfold available; lia).
    destruct (e_more oth st1) as [[] st2| | |]; cbn [ebind]; try done.
    + destruct HB as (HR2 & Ha & Hle & Hlt). specialize (IH st2 _ HR2).
      change (left st1) with (left st) in *. destruct (e_space oth fuel st2) as [[] st3| | |]; cbn [esim] in *; try done.
      * destruct IH as (l' & ? & ? & ? & ?). exists l'. split; [done|]. split; [done|]. split; [lia|done].
      * destruct IH as [?|[?|?]]; auto. right. right. destruct Hlt as [Hlt|[? _]]; lia.
    + change (p_src st1) with (p_src st) in HB. destruct HB as [HB ->]. unfold w_space. rewrite H4, HB, app_nil_r, drop_ge by lia. by right.
Qed.

Lemma space_sim cap fuel st l : (0 < cap)%nat -> T cap st l -> esim cap fuel ready (left st) (e_space oth fuel st) (w_space fin l).
Proof. intros. by apply skip_whitespace_sim. Qed.

Lemma ready_head cap st l : T cap st l -> ready st -> exists b l', l = b :: l' /\ p_buf st !! p_tail st = Some b.
Proof.
  intros HR Hr. pose proof (window_length _ _ _ HR) as Hw. unfold ready in Hr.
  pose proof (window_lookup st 0 Hr) as Hl. rewrite Nat.add_0_r in Hl. destruct HR as (H1 & H2 & H3 & H4 & H5 & H6).
  destruct (window st) as [|b w]; [cbn in Hw; lia|]. exists b, (w ++ concat (r_chunks (p_src st))). split; [done|].
  by rewrite <- Hl.
Qed.

Lemma current_sim cap fuel st l : T cap st l -> ready st -> esim cap fuel ready (left st) (e_current st) (w_current l).
Proof.
  intros HR Hr. destruct (ready_head _ _ _ HR Hr) as (b & l' & -> & Hb). unfold e_current. rewrite Hb. cbn.
  eexists. split; [done|]. split; [done|]. split; [lia|done].
Qed.

Lemma next_sim cap fuel st l : (0 < cap)%nat -> T cap st l -> esim cap fuel ready (left st) (e_next oth fuel st) (w_next fin l).
Proof.
  intros Hcap HR. unfold e_next, w_next. eapply esim_bind; [by apply space_sim|]. intros _ st1 l1 HR1 Hm1 Hr1.
  eapply esim_bind. { eapply esim_weaken; [exact Hm1|]. by apply current_sim. }
  intros b st2 l2 HR2 Hm2 Hr2. destruct (symbol b); try (by left); (eexists; split; [done|]; split; [done|]; split; [lia|done]).
Qed.

Lemma consume1_sim cap fuel ty st l : T cap st l -> ready st -> esim cap fuel any (left st) (e_consume1 ty st) (w_consume1 ty l).
Proof.
  intros HR Hr. destruct (ready_head _ _ _ HR Hr) as (b & l' & -> & Hb). unfold e_consume1, e_current. rewrite Hb. cbn [ebind w_consume1].
  destruct (decide (symbol b = ty)); [|rewrite (wrong_type ty st b Hb); by left]. cbn [esim]. exists l'. split; [done|].
  pose proof (R_set_tail cap st (b :: l') 1 HR Hr) as H. rewrite Nat.add_1_r in H. cbn [drop] in H. split; [by rewrite drop_0 in H|]. split; [done|done].
Qed.

Lemma consume_sim cap fuel ty st l : (0 < cap)%nat -> T cap st l -> esim cap fuel any (left st) (e_consume oth fuel ty st) (w_consume fin ty l).
Proof.
  intros Hcap HR. unfold e_consume, w_consume. eapply esim_bind; [by apply space_sim|]. intros _ st1 l1 HR1 Hm1 Hr1.
  eapply esim_weaken; [exact Hm1|]. by apply consume1_sim.
Qed.

(* ---------- strings ---------- *)

Lemma string_loop_sim cap : (0 < cap)%nat -> forall fuel st l n esc has,
  T cap st l -> (n <= available st)%nat -> close l 0 false false = close (drop n l) n esc has ->
  esim cap fuel any (left st) (e_string_loop oth fuel st n esc has) (w_string_body fin cap l).
Proof.
  intros Hcap fuel. induction fuel as [|fuel IH]; intros st l n esc has HR Hn Hc; cbn [e_string_loop].
  all: pose proof (window_length _ _ _ HR) as Hw; pose proof HR as (H1 & H2 & H3 & H4 & H5 & H6);
    pose proof (scan_string_spec (available st - n) (p_buf st) (p_tail st) n esc has ltac:(unfold available in *; lia)) as Hs;
    assert (Hdrop : drop n l = take (available st - n) (drop (p_tail st + n) (p_buf st)) ++ concat (r_chunks (p_src st)))
      by (rewrite H4, drop_app_le by lia; f_equal; unfold window; rewrite skipn_firstn_comm, drop_drop; done);
    destruct (scan_string (available st - n) (p_buf st) (p_tail st) n esc has) as [n' has'|esc' has'|]; [| |done].
  1, 3: destruct Hs as [Hn' Hcl]; rewrite Hdrop, Hcl in Hc;
    assert (Hcap' : (available st <= cap)%nat) by (unfold available; lia);
    replace (length (p_buf st) <? p_tail st + n')%nat with false by (rewrite H3; unfold available in *; lia);
    assert (Hval : take n' (drop (p_tail st) (p_buf st)) = take n' l)
      by (rewrite H4, take_app_le by lia; unfold window; rewrite take_take; f_equal; lia);
    rewrite Hval; unfold w_string_body; rewrite Hc; replace (n' <? cap)%nat with true by lia;
    assert (HR' := R_set_tail cap st l (n' + 1) HR ltac:(lia)); rewrite Nat.add_assoc in HR';
    (destruct has';
     [ assert (Hln : length (take n' l) = n') by (rewrite <- Hval, take_length, drop_length; unfold available in *; lia);
       pose proof (decode_in_place_0 (take n' l)) as HD; rewrite Hln in HD;
       destruct (unescape (take n' l)) as [v|];
       [ destruct HD as (mem' & -> & Hl' & Ht'); cbn [esim]; rewrite Ht'; eexists; (split; [done|]); (split; [|split; [done|done]]);
         destruct HR' as (R1 & R2 & R3 & R4 & R5 & R6); cbn [set_tail p_tail p_head p_buf p_src p_eof] in *;
         assert (Hsp : (p_tail st + length mem' <= length (p_buf st))%nat) by (unfold available in *; lia);
         (split; [cbn; lia|]); (split; [cbn; lia|]); (split; [cbn; rewrite length_splice; lia|]); (split; [|done]);
         cbn [p_src p_tail p_head p_buf]; rewrite R4; f_equal; unfold window, available; cbn [set_tail p_tail p_head p_buf];
         f_equal; rewrite drop_splice by lia; done
       | rewrite HD; left; pose proof (decode_error_0 (take n' l)) as HE; rewrite Hln in HE; by rewrite HE ]
     | cbn [esim]; eexists; (split; [done|]); (split; [done|]); split; done ]).
  - cbn. right. right. lia.
  - assert (Hc' : close l 0 false false = close (drop (available st) l) (available st) esc' has').
    { rewrite Hc, Hdrop, Hs. rewrite H4, drop_app_ge by lia. rewrite Hw, Nat.sub_diag, drop_0. f_equal. lia. }
    replace (n + (available st - n))%nat with (available st) by lia.
    pose proof (buffer_more_spec _ _ _ HR) as HB. destruct (e_more oth st) as [[] st2| | |]; cbn [ebind]; try done.
    + destruct HB as (HR2 & Ha & Hle & Hlt). specialize (IH st2 l (available st) esc' has' HR2 Ha Hc').
      destruct (e_string_loop oth fuel st2 (available st) esc' has') as [tok st3| | |]; cbn [esim] in *; try done.
      * destruct IH as (l' & ? & ? & ? & ?). exists l'. split; [done|]. split; [done|]. split; [lia|done].
      * destruct IH as [?|[?|?]]; auto. destruct Hlt as [Hlt|[Hfull Hne]]; [right; right; lia|]. left.
        assert (Hlong : (cap < length l)%nat).
        { rewrite H4, app_length. destruct (concat (r_chunks (p_src st))); [done|]. cbn [length]. lia. }
        unfold w_string_body. destruct (close l 0 false false) as [[n' has'']|] eqn:E.
        -- symmetry in Hc'. apply close_bound in Hc'. replace (n' <? cap)%nat with false by lia. done.
        -- by replace (length l <=? cap)%nat with false by lia.
    + cbn [esim]. destruct HB as [HB ->]. rewrite HB, app_nil_r in H4. unfold w_string_body. rewrite Hc'. rewrite drop_ge by (rewrite H4; lia). cbn [close].
      replace (length l <=? cap)%nat with true; [by right|]. rewrite H4. unfold available in *. lia.
Qed.

Lemma string_sim cap fuel st l : (0 < cap)%nat -> T cap st l -> ready st ->
  esim cap fuel any (left st) (e_string oth fuel st) (w_string fin cap l).
Proof.
  intros Hcap HR Hr. destruct (ready_head _ _ _ HR Hr) as (b & l' & -> & Hb). unfold e_string, e_current. rewrite Hb. cbn [ebind w_string].
  destruct (negb (b =? ch_quote)); [rewrite (wrong_type TString st b Hb); by left|].
  pose proof (R_set_tail cap st (b :: l') 1 HR Hr) as H. rewrite Nat.add_1_r in H. cbn [drop] in H. rewrite drop_0 in H.
  apply (string_loop_sim cap Hcap fuel _ l' 0 false false H); [lia|]. by rewrite drop_0.
Qed.

(* ---------- numbers and literals ---------- *)

Definition w_number_body (cap : nat) (l : bytes) : wres token :=
  match number_end (drop 1 l) 1 with
  | Some n => if (n <? cap)%nat then WOk (Token TNumber (take n l)) (drop n l) else WHang
  | None => if (length l <=? cap)%nat then WEnd fin else WHang
  end.

Lemma number_loop_sim cap : (0 < cap)%nat -> forall fuel st l n,
  T cap st l -> (n <= available st)%nat -> number_end (drop 1 l) 1 = number_end (drop n l) n ->
  esim cap fuel any (left st) (e_number_loop oth fuel st n) (w_number_body cap l).
Proof.
  intros Hcap fuel. induction fuel as [|fuel IH]; intros st l n HR Hn Hc; cbn [e_number_loop].
  all: pose proof (window_length _ _ _ HR) as Hw; pose proof HR as (H1 & H2 & H3 & H4 & H5 & H6);
    pose proof (scan_number_spec (available st - n) (p_buf st) (p_tail st) n ltac:(unfold available in *; lia)) as Hs;
    assert (Hdrop : drop n l = take (available st - n) (drop (p_tail st + n) (p_buf st)) ++ concat (r_chunks (p_src st)))
      by (rewrite H4, drop_app_le by lia; f_equal; unfold window; rewrite skipn_firstn_comm, drop_drop; done);
    destruct (scan_number (available st - n) (p_buf st) (p_tail st) n) as [n'| |]; [| |done].
  1, 3: destruct Hs as [Hn' Hcl]; rewrite Hdrop, Hcl in Hc;
    assert (Hcap' : (available st <= cap)%nat) by (unfold available; lia);
    replace (length (p_buf st) <? p_tail st + n')%nat with false by (rewrite H3; unfold available in *; lia);
    assert (Hval : take n' (drop (p_tail st) (p_buf st)) = take n' l)
      by (rewrite H4, take_app_le by lia; unfold window; rewrite take_take; f_equal; lia);
    rewrite Hval; unfold w_number_body; rewrite Hc; replace (n' <? cap)%nat with true by lia;
    assert (HR' := R_set_tail cap st l n' HR ltac:(lia));
    cbn [esim]; eexists; (split; [done|]); (split; [done|]); split; done.
  - cbn. right. right. lia.
  - assert (Hc' : number_end (drop 1 l) 1 = number_end (drop (available st) l) (available st)).
    { rewrite Hc, Hdrop, Hs. rewrite H4, drop_app_ge by lia. rewrite Hw, Nat.sub_diag, drop_0. f_equal. lia. }
    replace (n + (available st - n))%nat with (available st) by lia.
    pose proof (buffer_more_spec _ _ _ HR) as HB. destruct (e_more oth st) as [[] st2| | |]; cbn [ebind]; try done.
    + destruct HB as (HR2 & Ha & Hle & Hlt). specialize (IH st2 l (available st) HR2 Ha Hc').
      destruct (e_number_loop oth fuel st2 (available st)) as [tok st3| | |]; cbn [esim] in *; try done.
      * destruct IH as (l' & ? & ? & ? & ?). exists l'. split; [done|]. split; [done|]. split; [lia|done].
      * destruct IH as [?|[?|?]]; auto. destruct Hlt as [Hlt|[Hfull Hne]]; [right; right; lia|]. left.
        assert (Hlong : (cap < length l)%nat).
        { rewrite H4, app_length. destruct (concat (r_chunks (p_src st))); [done|]. cbn [length]. lia. }
        unfold w_number_body. destruct (number_end (drop 1 l) 1) as [n'|] eqn:E.
        -- symmetry in Hc'. apply number_end_bound in Hc'. replace (n' <? cap)%nat with false by lia. done.
        -- by replace (length l <=? cap)%nat with false by lia.
    + cbn [esim]. destruct HB as [HB ->]. rewrite HB, app_nil_r in H4. unfold w_number_body. rewrite Hc'.
      rewrite (drop_ge l (available st)) by (rewrite H4; lia). cbn [number_end].
      replace (length l <=? cap)%nat with true; [by right|]. rewrite H4. unfold available in *. lia.
Qed.

Lemma number_sim cap fuel st l : (0 < cap)%nat -> T cap st l -> ready st ->
  esim cap fuel any (left st) (e_number oth fuel st) (w_number fin cap l).
Proof.
  intros Hcap HR Hr. destruct (ready_head _ _ _ HR Hr) as (b & l' & -> & Hb). unfold e_number, e_current. rewrite Hb. cbn [ebind w_number].
  destruct (negb (is_digit b)); [rewrite (wrong_type TNumber st b Hb); by left|].
  pose proof (number_loop_sim cap Hcap fuel st (b :: l') 1 HR Hr eq_refl) as H. unfold w_number_body in H. cbn [drop] in H.
  rewrite drop_0 in H. exact H.
Qed.

Lemma require_sim cap n : (n <= cap)%nat -> forall fuel st l, T cap st l ->
  match e_require oth fuel st n with
  | EOk _ st' => T cap st' l /\ (left st' <= left st)%nat /\ (n <= available st')%nat
  | EErr m => (length l < n)%nat /\ m = required fin n
  | EPanic => False
  | EHang => (fuel <= left st)%nat
  end.
Proof.
  intros Hcap fuel. induction fuel as [|fuel IH]; intros st l HR; cbn [e_require].
  - destruct (Nat.leb_spec n (available st)); [done|lia].
  - destruct (Nat.leb_spec n (available st)); [done|].
    pose proof HR as (H1 & H2 & H3 & H4 & H5 & H6). rewrite H3.
    replace (cap - available st <? n - available st)%nat with false by lia. cbn [andb].
    pose proof (buffer_more_spec _ _ _ HR) as HB. destruct (e_more oth st) as [[] st2| | |]; cbn [ebind e_required]; try done.
    + destruct HB as (HR2 & Ha & Hle & Hlt). specialize (IH st2 l HR2). destruct (e_require oth fuel st2 n); try done.
      * destruct IH as (? & ? & ?). split; [done|]. split; [lia|done].
      * destruct Hlt as [?|[? _]]; lia.
    + destruct HB as [HB ->]. rewrite HB, app_nil_r in H4. pose proof (window_length _ _ _ HR). split; [rewrite H4; lia|done].
Qed.

Lemma read_n_sim cap fuel st l ty first n : (0 < n <= cap)%nat -> T cap st l ->
  esim cap fuel any (left st) (e_read_n oth fuel st ty first n) (w_read_n fin l ty first n).
Proof.
  intros Hn HR. unfold e_read_n, w_read_n. pose proof (require_sim cap n ltac:(lia) fuel st l HR) as H.
  destruct (e_require oth fuel st n) as [[] st1| | |]; cbn [ebind esim]; try done.
  - destruct H as (HR1 & Hle & Ha). assert (Hr : ready st1) by (unfold ready; lia).
    pose proof (window_length _ _ _ HR1) as Hw. pose proof HR1 as (H1 & H2 & H3 & H4 & H5 & H6).
    assert (Hlen : (n <= length l)%nat) by (rewrite H4, app_length; lia).
    replace (n <=? length l)%nat with true by lia.
    assert (Hval : take n (drop (p_tail st1) (p_buf st1)) = take n l)
      by (rewrite H4, take_app_le by lia; unfold window; rewrite take_take; f_equal; lia).
    pose proof (R_set_tail cap st1 l n HR1 Ha) as HR2.
    destruct (ready_head _ _ _ HR1 Hr) as (b & l' & E & Hb). unfold e_current. rewrite Hb. cbn [ebind].
    destruct l as [|b' l2]; [done|]. injection E as -> ->. destruct (negb (b =? first)); [rewrite (wrong_type ty st1 b Hb); by left|].
    replace (length (p_buf st1) <? p_tail st1 + n)%nat with false by (rewrite H3; unfold available in *; lia).
    rewrite Hval. cbn [esim]. eexists. split; [done|]. split; [done|]. split; [done|done].
  - destruct H as [H ->]. replace (n <=? length l)%nat with false by lia. by right.
  - auto.
Qed.

Lemma null_sim cap fuel st l : (5 <= cap)%nat -> T cap st l -> esim cap fuel any (left st) (e_null oth fuel st) (w_null fin l).
Proof. intros Hcap HR. apply read_n_sim; [lia|done]. Qed.

Lemma boolean_sim cap fuel st l : (5 <= cap)%nat -> T cap st l -> ready st -> esim cap fuel any (left st) (e_boolean oth fuel st) (w_boolean fin l).
Proof.
  intros Hcap HR Hr. unfold e_boolean, w_boolean. eapply esim_bind; [by apply current_sim|].
  intros b st1 l1 HR1 Hm1 Hr1. destruct (b =? 116); (eapply esim_weaken; [exact Hm1|]; apply read_n_sim; [lia|done]).
Qed.

Lemma literal_sim cap fuel st l : (5 <= cap)%nat -> T cap st l -> esim cap fuel any (left st) (e_literal oth fuel st) (w_literal fin cap l).
Proof.
  intros Hcap HR. unfold e_literal, w_literal. eapply esim_bind; [apply next_sim; [lia|done]|].
  intros ty st1 l1 HR1 Hm1 Hr1. destruct ty; try (by left); (eapply esim_weaken; [exact Hm1|]).
  - by apply null_sim. - by apply boolean_sim. - apply number_sim; [lia|done|done]. - apply string_sim; [lia|done|done].
Qed.

(* ---------- skipping ---------- *)

Lemma skips_sim cap fuel : (5 <= cap)%nat -> forall depth,
  (forall next st l, T cap st l -> ready st -> esim cap fuel any (left st) (e_skip oth depth fuel next st) (w_skip fin depth cap next l)) /\
  (forall st l, T cap st l -> esim cap fuel any (left st) (e_skip_elements oth depth fuel st) (w_skip_elements fin depth cap l)) /\
  (forall st l, T cap st l -> esim cap fuel any (left st) (e_skip_members oth depth fuel st) (w_skip_members fin depth cap l)).
Proof.
  intros Hcap. induction depth as [|depth (IH1 & IH2 & IH3)].
  { split; [|split]; cbn; auto. }
  assert (Hc0 : (0 < cap)%nat) by lia.
  split; [|split].
  - intros next st l HR Hr. cbn [e_skip w_skip]. destruct next; try (by left).
    + eapply esim_bind; [by apply null_sim|]. intros ? st1 l1 HR1 Hm1 _. cbn. eexists. split; [done|]. done.
    + eapply esim_bind; [by apply consume1_sim|]. intros ? st1 l1 HR1 Hm1 _. eapply esim_weaken; [exact Hm1|]. by apply IH3.
    + eapply esim_bind; [by apply consume1_sim|]. intros ? st1 l1 HR1 Hm1 _. eapply esim_weaken; [exact Hm1|]. by apply IH2.
    + eapply esim_bind; [by apply boolean_sim|]. intros ? st1 l1 HR1 Hm1 _. cbn. eexists. split; [done|]. done.
    + eapply esim_bind; [by apply number_sim|]. intros ? st1 l1 HR1 Hm1 _. cbn. eexists. split; [done|]. done.
    + eapply esim_bind; [by apply string_sim|]. intros ? st1 l1 HR1 Hm1 _. cbn. eexists. split; [done|]. done.
  - intros st l HR. cbn [e_skip_elements w_skip_elements]. eapply esim_bind; [by apply next_sim|].
    intros ty st1 l1 HR1 Hm1 Hr1. destruct (decide (ty = TArrEnd)).
    + eapply esim_weaken; [exact Hm1|]. by apply consume1_sim.
    + eapply esim_bind; [eapply esim_weaken; [exact Hm1|]; by apply IH1|].
      intros ? st2 l2 HR2 Hm2 _. eapply esim_weaken; [exact Hm2|]. by apply IH2.
  - intros st l HR. cbn [e_skip_members w_skip_members]. eapply esim_bind; [by apply next_sim|].
    intros ty st1 l1 HR1 Hm1 Hr1. destruct (decide (ty = TObjEnd)).
    + eapply esim_weaken; [exact Hm1|]. by apply consume1_sim.
    + eapply esim_bind; [eapply esim_weaken; [exact Hm1|]; by apply string_sim|].
      intros ? st2 l2 HR2 Hm2 _. eapply esim_bind; [eapply esim_weaken; [exact Hm2|]; by apply next_sim|].
      intros ? st3 l3 HR3 Hm3 Hr3. eapply esim_bind; [eapply esim_weaken; [exact Hm3|]; by apply IH1|].
      intros ? st4 l4 HR4 Hm4 _. eapply esim_weaken; [exact Hm4|]. by apply IH3.
Qed.

Lemma op_sim cap fuel o st l : (5 <= cap)%nat -> T cap st l -> esim cap fuel any (left st) (e_op oth fuel o st) (w_op fin fuel cap o l).
Proof.
  intros Hcap HR. assert (Hc0 : (0 < cap)%nat) by lia.
  assert (Hu : forall (p : eres unit) q, esim cap fuel any (left st) p q ->
    esim cap fuel any (left st) (ebind p (fun _ st => EOk (Token TNull []) st)) (wbind q (fun _ l => WOk (Token TNull []) l))).
  { intros p q H. eapply esim_bind; [exact H|]. intros ? st1 l1 HR1 Hm1 _. cbn. eexists. split; [done|]. done. }
  destruct o; cbn [e_op w_op].
  - eapply esim_bind; [by apply next_sim|]. intros ? st1 l1 HR1 Hm1 _. cbn. eexists. split; [done|]. done.
  - apply Hu. by apply consume_sim.
  - apply Hu. by apply consume_sim.
  - apply Hu. by apply consume_sim.
  - apply Hu. by apply consume_sim.
  - eapply esim_bind; [by apply space_sim|]. intros ? st1 l1 HR1 Hm1 Hr1. eapply esim_weaken; [exact Hm1|]. by apply string_sim.
  - eapply esim_bind; [by apply space_sim|]. intros ? st1 l1 HR1 Hm1 Hr1. eapply esim_weaken; [exact Hm1|]. by apply number_sim.
  - by apply literal_sim.
  - apply Hu. unfold e_Skip, w_Skip. eapply esim_bind; [by apply next_sim|]. intros ? st1 l1 HR1 Hm1 Hr1.
    eapply esim_weaken; [exact Hm1|]. by apply skips_sim.
Qed.

Lemma exec_sim {A} cap fuel (p : tprog A) : (5 <= cap)%nat -> forall st l, T cap st l ->
  match texec oth fuel p st with
  | XDone (_, None) => w_exec fin fuel cap p l = VDone
  | XDone (_, Some m) => w_exec fin fuel cap p l = VErr m \/ w_exec fin fuel cap p l = VEnd m
  | XPanic => False
  | XHang => w_exec fin fuel cap p l = VHang \/ (fuel <= left st)%nat
  end.
Proof.
  intros Hcap. induction p as [a|a m|o k IH a w|]; intros st l HR; cbn [texec w_exec]; auto.
  pose proof (op_sim cap fuel o st l Hcap HR) as H. destruct (e_op oth fuel o st) as [t st'|m| |]; cbn [esim] in H.
  - destruct H as (l' & -> & HR' & Hm & _). specialize (IH t st' l' HR'). destruct (texec oth fuel (k t) st'); try done.
    destruct IH as [?|?]; auto. right. lia.
  - destruct H as [->| ->]; auto.
  - done.
  - destruct H as [->|[->|?]]; auto.
Qed.

Lemma T_new cap chunks e buf : length buf = cap -> ending e -> T cap (new_parser (Src chunks e) buf) (concat chunks).
Proof.
  intros Hb He. split; [done|]. split; [cbn; lia|]. split; [done|]. split; [done|]. done.
Qed.
End sim.
