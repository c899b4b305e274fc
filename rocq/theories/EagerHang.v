(** A reader that fails together with its last bytes catches the parser exactly when one that fails afterwards does. *)
From Verif Require Import Base IdModel SpanModel JsonModel CodecModel JsonPure JsonSpec JsonProofs JsonSim JsonFacts JsonFuel JsonSafe DocTheorems ParseSpec EagerProofs.

(* ---------- after the early error what is left fits the buffer ---------- *)

(** Not caught, and what is left fits. *)
Definition fine {A} (cap : nat) (q : qres A) : Prop :=
  match q with QOk _ l' => (length l' <= cap)%nat | QHang => False | _ => True end.

Lemma fine_sound {A} cap l (q : qres A) : (length l <= cap)%nat -> sound l q -> fine cap q.
Proof. intros H. destruct q as [a l'| | |]; cbn; try done. intros [k ->]. rewrite app_length in H. lia. Qed.

Lemma fine_bind {A B} cap (q : qres A) (g : A -> bytes -> qres B) :
  fine cap q -> (forall a l, (length l <= cap)%nat -> fine cap (g a l)) -> fine cap (qbind q g).
Proof. destruct q as [a l| | |]; cbn [fine qbind]; auto. Qed.

Lemma buffer_more_fails cap st l : eager st -> R cap (lazy st) l -> buffer_more st = PErr -> (length l <= cap)%nat.
Proof.
  intros He HR. pose proof (window_length _ _ _ HR) as Hw. destruct HR as (H1 & H2 & H3 & H4 & H5 & H6).
  change (window (lazy st)) with (window st) in *. change (available (lazy st)) with (available st) in *. cbn [lazy with_src p_tail p_head p_buf p_src r_chunks p_eof] in *.
  assert (Hl : length l = (available st + length (concat (r_chunks (p_src st))))%nat) by (rewrite H4, app_length; lia).
  assert (Hav : (available st <= cap)%nat) by (unfold available; lia).
  unfold buffer_more. destruct (p_eof st) eqn:Ee. { intros _. rewrite H5 in Hl by done. cbn in Hl. lia. }
  rewrite H3. replace ((0 <? p_tail st)%nat && negb ((p_tail st <=? p_head st)%nat && (p_head st <=? cap)%nat)) with false by lia.
  set (st1 := if (0 <? p_tail st)%nat then _ else st).
  assert (K : p_src st1 = p_src st /\ p_head st1 = available st /\ length (p_buf st1) = cap).
  { unfold st1. destruct (Nat.ltb_spec 0 (p_tail st)) as [Ht|Ht]; cbn [p_src p_tail p_head p_buf].
    - split; [done|]. split; [done|]. fold (window st). rewrite length_splice; [done|]. rewrite Hw. unfold available. lia.
    - split; [done|]. split; [unfold available; lia|done]. }
  clearbody st1. destruct K as (Ks & Kh & Kl). rewrite Ks, Kh, Kl.
  replace (cap <? available st)%nat with false by lia.
  unfold eager in He. unfold src_read. rewrite He. destruct (r_chunks (p_src st)) as [|c cs] eqn:Ec.
  { intros _. cbn in Hl. lia. }
  destruct (drop (cap - available st) c) as [|x d] eqn:Ed; [|done]. destruct cs as [|c2 cs]; [|done]. intros _.
  cbn [concat] in Hl. rewrite app_nil_r in Hl. assert (length c <= cap - available st)%nat; [|lia].
  pose proof (drop_length c (cap - available st)) as K. rewrite Ed in K. cbn in K. lia.
Qed.

Section fails.
  Context (cap fuel : nat).

  (** [f] simulates [q] for the readers that fail afterwards. *)
  Definition sim {A} (pre P : pstate -> Prop) (f : pstate -> pres A) (q : bytes -> qres A) : Prop :=
    forall st l, R cap st l -> pre st -> psim cap fuel P (left st) (f st) (q l).

  (** If [f] fails for the others, [q] is not caught. *)
  Definition fails {A} (pre : pstate -> Prop) (f : pstate -> pres A) (q : bytes -> qres A) : Prop :=
    forall st l, eager st -> R cap (lazy st) l -> pre (lazy st) -> f st = PErr -> fine cap (q l).

  Lemma fails_local {A} pre P (f : pstate -> pres A) q : sim pre P f q -> (forall st, f st = PErr -> f (lazy st) = PErr) -> fails pre f q.
  Proof. intros Hs Hl st l He HR Hp E. specialize (Hs _ _ HR Hp). rewrite (Hl _ E) in Hs. cbn [psim] in Hs. by rewrite Hs. Qed.

  Lemma fails_bind {A B} pre P (f : pstate -> pres A) qf (g : A -> pstate -> pres B) qg :
    tame f -> sim pre P f qf -> fails pre f qf -> (forall a, fails P (g a) (qg a)) ->
    (forall a l, (length l <= cap)%nat -> fine cap (qg a l)) ->
    fails pre (fun st => pbind (f st) g) (fun l => qbind (qf l) qg).
  Proof.
    intros [_ Ht] Hs Hf Hg Hq st l He HR Hp E. specialize (Ht st He). specialize (Hs _ _ HR Hp). destruct (f st) as [a st1| | |] eqn:Ef; cbn [pbind] in E; try done.
    - destruct Ht as [?|[He1 Ht]]; [done|]. rewrite Ht in Hs. cbn [psim] in Hs. destruct Hs as (l' & -> & HR' & _ & HP). cbn [qbind]. by apply (Hg a st1).
    - apply fine_bind; [|done]. by apply (Hf st).
  Qed.

  Lemma fails_ret {A} pre (a : A) : fails pre (POk a) (QOk a). Proof. done. Qed.
  Lemma fails_err {A} pre : fails pre (fun _ => @PErr A) (fun _ => QErr). Proof. done. Qed.
  Lemma fails_hang {A} pre (q : bytes -> qres A) : fails pre (fun _ => @PHang A) q. Proof. done. Qed.
End fails.

Lemma fails_space cap fuel : (0 < cap)%nat -> fails cap any (skip_whitespace fuel) q_space.
Proof.
  intros Hcap. induction fuel as [|fuel IH]; intros st l He HR _ E; cbn [skip_whitespace] in E.
  { destruct (scan_space _ _ _) as [[t []]|]; done. }
  pose proof (window_length _ _ _ HR) as Hw; pose proof HR as (H1 & H2 & H3 & H4 & H5 & H6).
  change (window (lazy st)) with (window st) in *. change (available (lazy st)) with (available st) in *. cbn [lazy with_src p_tail p_head p_buf p_src r_chunks p_eof] in *.
  pose proof (scan_space_spec (available st) (p_buf st) (p_tail st) ltac:(unfold available; lia)) as Hs.
  destruct (scan_space (available st) (p_buf st) (p_tail st)) as [[t []]|]; [done| |done]. destruct Hs as (-> & Hr).
  assert (HR' := R_set_tail cap (lazy st) l (available st) HR ltac:(done)).
  assert (Hq : q_space l = q_space (drop (available st) l)).
  { unfold q_space. rewrite H4. unfold window at 1. rewrite Hr. rewrite drop_app_ge by lia. rewrite Hw, Nat.sub_diag. by rewrite drop_0. }
  rewrite Hq. set (st1 := set_tail (p_tail st + available st) st) in *. change (set_tail _ (lazy st)) with (lazy st1) in HR'.
  assert (He1 : eager st1) by done. destruct tame_more as [_ Ht]. specialize (Ht st1 He1). pose proof (buffer_more_spec _ _ _ HR') as HB.
  destruct (buffer_more st1) as [[] st2| | |] eqn:Em; cbn [pbind] in E; try done.
  - destruct Ht as [?|[He2 Ht]]; [done|]. rewrite Ht in HB. destruct HB as [HR2 _]. by apply (IH st2).
  - apply (fine_sound cap (drop (available st) l)); [by apply (buffer_more_fails cap st1)|apply sound_space].
Qed.

Lemma fails_current cap : fails cap ready current q_current.
Proof. intros st l He HR Hr E. unfold current in E. by destruct (_ !! _). Qed.

Lemma fails_next cap fuel : (0 < cap)%nat -> fails cap any (next_type fuel) q_next.
Proof.
  intros Hcap. apply (fails_bind cap fuel any ready (skip_whitespace fuel) q_space
    (fun _ st => pbind (current st) (fun b st => match symbol b with TError => PErr | t => POk t st end))
    (fun _ l => qbind (q_current l) (fun b l => match symbol b with TError => QErr | t => QOk t l end))).
  - apply tame_space.
  - intros st l HR _. by apply space_sim.
  - by apply fails_space.
  - intros _. apply (fails_bind cap fuel ready ready current q_current).
    + apply tame_current.
    + intros st l HR Hr. by apply current_sim.
    + apply fails_current.
    + intros b. destruct (symbol b); first [apply fails_err|apply fails_ret].
    + intros b l Hl. destruct (symbol b); done.
  - intros _ l Hl. apply fine_bind; [apply (fine_sound cap l); [done|apply sound_current]|]. intros b l' Hl'. destruct (symbol b); done.
Qed.

Lemma fails_consume1 cap (fuel : nat) ty : fails cap ready (consume1 ty) (q_consume1 ty).
Proof.
  apply (fails_local cap fuel ready any); [intros st l HR Hr; by apply consume1_sim|]. intros st. unfold consume1, current. cbn [lazy with_src p_buf p_tail].
  destruct (p_buf st !! p_tail st); cbn [pbind]; [|done]. by destruct (decide _).
Qed.
Lemma fails_consume cap fuel ty : (0 < cap)%nat -> fails cap any (consume fuel ty) (q_consume ty).
Proof.
  intros Hcap. apply (fails_bind cap fuel any ready (skip_whitespace fuel) q_space (fun _ st => consume1 ty st) (fun _ l => q_consume1 ty l)).
  - apply tame_space.
  - intros st l HR _. by apply space_sim.
  - by apply fails_space.
  - intros _. apply (fails_consume1 cap fuel).
  - intros _ l Hl. apply (fine_sound cap l); [done|apply sound_consume1].
Qed.

Lemma fine_string_body cap l : (length l <= cap)%nat -> fine cap (q_string_body cap l).
Proof.
  intros Hl. unfold q_string_body. destruct (close l 0 false false) as [[n has]|] eqn:E.
  - apply close_bound in E. replace (n <? cap)%nat with true by (symmetry; apply Nat.ltb_lt; lia).
    assert (length (drop (n + 1) l) <= cap)%nat by (rewrite drop_length; lia). destruct has; [destruct (unescape _)|]; done.
  - by replace (length l <=? cap)%nat with true by (symmetry; apply Nat.leb_le; lia).
Qed.

Lemma fails_string_loop cap : (0 < cap)%nat -> forall fuel st l n esc has, eager st -> R cap (lazy st) l -> (n <= available st)%nat ->
  close l 0 false false = close (drop n l) n esc has -> read_string_loop fuel st n esc has = PErr -> fine cap (q_string_body cap l).
Proof.
  intros Hcap. induction fuel as [|fuel IH]; intros st l n esc has He HR Hn Hc E.
  { pose proof (string_loop_sim cap Hcap 0 (lazy st) l n esc has HR Hn Hc) as Hs.
    assert (E' : read_string_loop 0 (lazy st) n esc has = PErr); [|rewrite E' in Hs; cbn [psim] in Hs; by rewrite Hs].
    cbn [read_string_loop] in *. change (available (lazy st)) with (available st). cbn [lazy with_src p_buf p_tail p_head p_src p_eof].
    destruct (scan_string _ _ _ _ _ _) as [n' has'|esc' has'|]; try done. destruct (_ <? _)%nat; [done|]. destruct has'; [|done]. by destruct (decode_in_place _ _ _ _). }
  pose proof (string_loop_sim cap Hcap (S fuel) (lazy st) l n esc has HR Hn Hc) as Hsim.
  pose proof (window_length _ _ _ HR) as Hw; pose proof HR as (H1 & H2 & H3 & H4 & H5 & H6).
  cbn [read_string_loop] in *. change (available (lazy st)) with (available st) in *. change (window (lazy st)) with (window st) in *.
  cbn [lazy with_src p_tail p_head p_buf p_src r_chunks p_eof] in *.
  pose proof (scan_string_spec (available st - n) (p_buf st) (p_tail st) n esc has ltac:(unfold available in *; lia)) as Hs.
  assert (Hdrop : drop n l = take (available st - n) (drop (p_tail st + n) (p_buf st)) ++ concat (r_chunks (p_src st)))
      by (rewrite H4, drop_app_le by lia; f_equal; unfold window; rewrite skipn_firstn_comm, drop_drop; done).
  destruct (scan_string (available st - n) (p_buf st) (p_tail st) n esc has) as [n' has'|esc' has'|]; [| |done].
  - destruct (_ <? _)%nat; [done|]. destruct has'; [|done]. destruct (decode_in_place _ _ _ _); try done. cbn [psim] in Hsim. by rewrite Hsim.
  - clear Hsim. assert (Hc' : close l 0 false false = close (drop (available st) l) (available st) esc' has').
    { rewrite Hc, Hdrop, Hs. rewrite H4, drop_app_ge by lia. rewrite Hw, Nat.sub_diag, drop_0. f_equal. lia. }
    replace (n + (available st - n))%nat with (available st) in E by lia.
    destruct tame_more as [_ Ht]. specialize (Ht st He). pose proof (buffer_more_spec _ _ _ HR) as HB.
    destruct (buffer_more st) as [[] st2| | |] eqn:Em; cbn [pbind] in E; try done.
    + destruct Ht as [?|[He2 Ht]]; [done|]. rewrite Ht in HB. destruct HB as (HR2 & Ha & _). by apply (IH st2 l (available st) esc' has').
    + apply fine_string_body. by apply (buffer_more_fails cap st).
Qed.

Lemma fails_string cap fuel : (0 < cap)%nat -> fails cap ready (read_string fuel) (q_string cap).
Proof.
  intros Hcap st l He HR Hr E. destruct (ready_head _ _ _ HR Hr) as (b & l' & -> & Hb). cbn [lazy with_src p_buf p_tail] in Hb. unfold read_string, current in E. rewrite Hb in E. cbn [pbind q_string] in *.
  destruct (negb (b =? ch_quote)); [done|].
  pose proof (R_set_tail cap _ (b :: l') 1 HR Hr) as H. rewrite Nat.add_1_r in H. cbn [drop] in H. rewrite drop_0 in H.
  apply (fails_string_loop cap Hcap fuel (set_tail (S (p_tail st)) st) l' 0 false false); [done|exact H|lia|by rewrite drop_0|done].
Qed.

Lemma fine_number_body cap l : (length l <= cap)%nat -> fine cap (q_number_body cap l).
Proof.
  intros Hl. unfold q_number_body. destruct (number_end (drop 1 l) 1) as [n|] eqn:E.
  - apply number_end_bound in E. rewrite drop_length in E. replace (n <? cap)%nat with true by (symmetry; apply Nat.ltb_lt; lia). cbn [fine]. rewrite drop_length. lia.
  - by replace (length l <=? cap)%nat with true by (symmetry; apply Nat.leb_le; lia).
Qed.

Lemma fails_number_loop cap : (0 < cap)%nat -> forall fuel st l n, eager st -> R cap (lazy st) l -> (n <= available st)%nat ->
  number_end (drop 1 l) 1 = number_end (drop n l) n -> read_number_loop fuel st n = PErr -> fine cap (q_number_body cap l).
Proof.
  intros Hcap. induction fuel as [|fuel IH]; intros st l n He HR Hn Hc E.
  { cbn [read_number_loop] in E. destruct (scan_number _ _ _ _) as [n'| |]; try done. by destruct (_ <? _)%nat. }
  pose proof (window_length _ _ _ HR) as Hw; pose proof HR as (H1 & H2 & H3 & H4 & H5 & H6).
  cbn [read_number_loop] in *. change (available (lazy st)) with (available st) in *. change (window (lazy st)) with (window st) in *.
  cbn [lazy with_src p_tail p_head p_buf p_src r_chunks p_eof] in *.
  pose proof (scan_number_spec (available st - n) (p_buf st) (p_tail st) n ltac:(unfold available in *; lia)) as Hs.
  assert (Hdrop : drop n l = take (available st - n) (drop (p_tail st + n) (p_buf st)) ++ concat (r_chunks (p_src st)))
      by (rewrite H4, drop_app_le by lia; f_equal; unfold window; rewrite skipn_firstn_comm, drop_drop; done).
  destruct (scan_number (available st - n) (p_buf st) (p_tail st) n) as [n'| |]; [| |done].
  - by destruct (_ <? _)%nat.
  - assert (Hc' : number_end (drop 1 l) 1 = number_end (drop (available st) l) (available st)).
    { rewrite Hc, Hdrop, Hs. rewrite H4, drop_app_ge by lia. rewrite Hw, Nat.sub_diag, drop_0. f_equal. lia. }
    replace (n + (available st - n))%nat with (available st) in E by lia.
    destruct tame_more as [_ Ht]. specialize (Ht st He). pose proof (buffer_more_spec _ _ _ HR) as HB.
    destruct (buffer_more st) as [[] st2| | |] eqn:Em; cbn [pbind] in E; try done.
    + destruct Ht as [?|[He2 Ht]]; [done|]. rewrite Ht in HB. destruct HB as (HR2 & Ha & _). by apply (IH st2 l (available st)).
    + apply fine_number_body. by apply (buffer_more_fails cap st).
Qed.

Lemma fails_number cap fuel : (0 < cap)%nat -> fails cap ready (read_number fuel) (q_number cap).
Proof.
  intros Hcap st l He HR Hr E. destruct (ready_head _ _ _ HR Hr) as (b & l' & -> & Hb). cbn [lazy with_src p_buf p_tail] in Hb. unfold read_number, current in E. rewrite Hb in E. cbn [pbind q_number] in *.
  destruct (negb (is_digit b)); [done|].
  pose proof (fails_number_loop cap Hcap fuel st (b :: l') 1 He HR Hr eq_refl E) as H. unfold q_number_body in H. cbn [drop] in H. rewrite drop_0 in H. exact H.
Qed.

Lemma fails_require cap n : (n <= cap)%nat -> forall fuel st l, eager st -> R cap (lazy st) l -> require fuel st n = PErr -> (length l <= cap)%nat.
Proof.
  intros Hcap fuel. induction fuel as [|fuel IH]; intros st l He HR E; cbn [require] in E.
  { by destruct (n <=? available st)%nat. }
  destruct (Nat.leb_spec n (available st)); [done|].
  pose proof HR as (H1 & H2 & H3 & H4 & H5 & H6). cbn [lazy with_src p_tail p_head p_buf p_src r_chunks p_eof] in *. rewrite H3 in E.
  replace (cap - available st <? n - available st)%nat with false in E by lia. cbn [andb] in E.
  destruct tame_more as [_ Ht]. specialize (Ht st He). pose proof (buffer_more_spec _ _ _ HR) as HB.
  destruct (buffer_more st) as [[] st2| | |] eqn:Em; cbn [pbind] in E; try done.
  - destruct Ht as [?|[He2 Ht]]; [done|]. rewrite Ht in HB. destruct HB as (HR2 & Ha & _). by apply (IH st2 l).
  - by apply (buffer_more_fails cap st).
Qed.

Lemma fails_read_n cap fuel ty first n : (0 < n <= cap)%nat -> fails cap any (fun st => read_n fuel st ty first n) (fun l => q_read_n l ty first n).
Proof.
  intros Hn st l He HR _ E. pose proof (read_n_sim cap fuel (lazy st) l ty first n Hn HR) as Hs. destruct (tame_read_n fuel ty first n) as [_ Ht]. specialize (Ht st He). clear Ht.
  unfold read_n in E, Hs. destruct (tame_require fuel n) as [_ Ht]. specialize (Ht st He). pose proof (fails_require cap n ltac:(lia) fuel st l He HR) as Hf.
  destruct (require fuel st n) as [[] st1| | |]; cbn [pbind] in E; try done.
  - destruct Ht as [?|[He1 Ht]]; [done|]. rewrite Ht in Hs. cbn [pbind] in Hs.
    unfold current in E, Hs. cbn [lazy with_src p_buf p_tail] in Hs. destruct (p_buf st1 !! p_tail st1); cbn [pbind] in E, Hs; [|done].
    destruct (negb _); [cbn [psim] in Hs; by rewrite Hs|]. by destruct (_ <? _)%nat.
  - apply (fine_sound cap l); [by apply Hf|apply sound_read_n].
Qed.

Lemma fails_null cap fuel : (5 <= cap)%nat -> fails cap any (read_null fuel) q_null.
Proof. intros Hcap. apply fails_read_n. lia. Qed.

Lemma fails_pre {A} cap (pre pre' : pstate -> Prop) (f : pstate -> pres A) q : (forall st, pre st -> pre' st) -> fails cap pre' f q -> fails cap pre f q.
Proof. intros H K st l He HR Hp. apply (K st); auto. Qed.

Lemma fails_boolean cap fuel : (5 <= cap)%nat -> fails cap ready (read_boolean fuel) q_boolean.
Proof.
  intros Hcap. apply (fails_bind cap fuel ready ready current q_current
    (fun c st => if c =? 116 then read_n fuel st TBool 116 4 else read_n fuel st TBool 102 5) (fun c l => if c =? 116 then q_read_n l TBool 116 4 else q_read_n l TBool 102 5)).
  - apply tame_current.
  - intros st l HR Hr. by apply current_sim.
  - apply fails_current.
  - intros c. apply (fails_pre cap ready any); [done|]. destruct (c =? 116); apply fails_read_n; lia.
  - intros c l Hl. apply (fine_sound cap l); [done|]. destruct (c =? 116); apply sound_read_n.
Qed.

Lemma fails_literal cap fuel : (5 <= cap)%nat -> fails cap any (ReadLiteral fuel) (q_literal cap).
Proof.
  intros Hcap. apply (fails_bind cap fuel any ready (next_type fuel) q_next).
  - apply tame_next.
  - intros st l HR _. apply next_sim; [lia|done].
  - apply fails_next. lia.
  - intros []; try apply fails_err.
    + apply (fails_pre cap ready any); [done|]. by apply fails_null.
    + by apply fails_boolean.
    + apply fails_number. lia.
    + apply fails_string. lia.
  - intros ty l Hl. apply (fine_sound cap l); [done|]. pose proof (short_tokens_small cap l Hl). destruct ty; try done; [apply sound_read_n|apply sound_boolean|by apply sound_number|by apply sound_string].
Qed.

Lemma fails_unit {A B} cap fuel pre (b : B) (f : pstate -> pres A) q : tame f -> sim cap fuel pre any f q -> fails cap pre f q ->
  fails cap pre (fun st => pbind (f st) (fun _ st => POk b st)) (fun l => qbind (q l) (fun _ l => QOk b l)).
Proof. intros Ht Hs Hf. apply (fails_bind cap fuel pre any); [done|done|done| |done]. intros _. apply fails_ret. Qed.

Lemma fails_skips cap fuel : (5 <= cap)%nat -> forall depth,
  (forall next, fails cap ready (skip depth fuel next) (q_skip depth cap next)) /\
  fails cap any (skip_elements depth fuel) (q_skip_elements depth cap) /\
  fails cap any (skip_members depth fuel) (q_skip_members depth cap).
Proof.
  intros Hcap. assert (Hc0 : (0 < cap)%nat) by lia. induction depth as [|depth (IH1 & IH2 & IH3)]; [repeat split; intros; apply fails_hang|].
  destruct (tame_skip_all depth fuel) as (T1 & T2 & T3). destruct (skips_sim cap fuel Hcap depth) as (S1 & S2 & S3). destruct (sound_skips cap depth) as (D1 & D2 & D3).
  split; [|split].
  - intros []; cbn [skip q_skip]; try apply fails_err.
    + apply (fails_unit cap fuel ready tt (read_null fuel) q_null); [apply tame_null|intros st l HR _; by apply null_sim|]. apply (fails_pre cap ready any); [done|]. by apply fails_null.
    + apply (fails_bind cap fuel ready any (consume1 TObjBegin)); [apply tame_consume1|intros st l HR Hr; by apply consume1_sim|apply (fails_consume1 cap fuel)|intros _; apply IH3|].
      intros _ l Hl. apply (fine_sound cap l); [done|]. by apply D3, short_tokens_small.
    + apply (fails_bind cap fuel ready any (consume1 TArrBegin)); [apply tame_consume1|intros st l HR Hr; by apply consume1_sim|apply (fails_consume1 cap fuel)|intros _; apply IH2|].
      intros _ l Hl. apply (fine_sound cap l); [done|]. by apply D2, short_tokens_small.
    + apply (fails_unit cap fuel ready tt (read_boolean fuel) q_boolean); [apply tame_boolean|intros st l HR Hr; by apply boolean_sim|by apply fails_boolean].
    + apply (fails_unit cap fuel ready tt (read_number fuel) (q_number cap)); [apply tame_read_number|intros st l HR Hr; by apply number_sim|by apply fails_number].
    + apply (fails_unit cap fuel ready tt (read_string fuel) (q_string cap)); [apply tame_read_string|intros st l HR Hr; by apply string_sim|by apply fails_string].
  - cbn [skip_elements q_skip_elements]. apply (fails_bind cap fuel any ready (next_type fuel) q_next); [apply tame_next|intros st l HR _; by apply next_sim|by apply fails_next| |].
    + intros ty. destruct (decide _); [apply (fails_consume1 cap fuel)|].
      apply (fails_bind cap fuel ready any (skip depth fuel ty)); [apply T1|intros st l HR Hr; by apply S1|apply IH1|intros _; apply IH2|].
      intros _ l Hl. apply (fine_sound cap l); [done|]. by apply D2, short_tokens_small.
    + intros ty l Hl. destruct (decide _); [apply (fine_sound cap l); [done|apply sound_consume1]|].
      apply fine_bind; [apply (fine_sound cap l); [done|]; by apply D1, short_tokens_small|].
      intros _ l' Hl'. apply (fine_sound cap l'); [done|]. by apply D2, short_tokens_small.
  - assert (Hm : forall l, (length l <= cap)%nat -> fine cap (q_skip_members depth cap l)).
    { intros l Hl. apply (fine_sound cap l); [done|]. by apply D3, short_tokens_small. }
    assert (Hk : forall ty l, (length l <= cap)%nat -> fine cap (qbind (q_skip depth cap ty l) (fun _ l => q_skip_members depth cap l))).
    { intros ty l Hl. apply fine_bind; [apply (fine_sound cap l); [done|]; by apply D1, short_tokens_small|]. auto. }
    assert (Hn : forall l, (length l <= cap)%nat -> fine cap (qbind (q_next l) (fun ty l => qbind (q_skip depth cap ty l) (fun _ l => q_skip_members depth cap l)))).
    { intros l Hl. apply fine_bind; [apply (fine_sound cap l); [done|apply sound_next]|]. auto. }
    cbn [skip_members q_skip_members]. apply (fails_bind cap fuel any ready (next_type fuel) q_next); [apply tame_next|intros st l HR _; by apply next_sim|by apply fails_next| |].
    + intros ty. destruct (decide _); [apply (fails_consume1 cap fuel)|].
      apply (fails_bind cap fuel ready any (read_string fuel)); [apply tame_read_string|intros st l HR Hr; by apply string_sim|by apply fails_string| |auto].
      intros _. apply (fails_bind cap fuel any ready (next_type fuel) q_next); [apply tame_next|intros st l HR _; by apply next_sim|by apply fails_next| |auto].
      intros ty'. apply (fails_bind cap fuel ready any (skip depth fuel ty')); [apply T1|intros st l HR Hr; by apply S1|apply IH1|intros _; apply IH3|auto].
    + intros ty l Hl. destruct (decide _); [apply (fine_sound cap l); [done|apply sound_consume1]|].
      apply fine_bind; [apply (fine_sound cap l); [done|]; by apply sound_string, short_tokens_small|]. auto.
Qed.

Lemma fails_op cap fuel o : (5 <= cap)%nat -> fails cap any (run_op fuel o) (q_op fuel cap o).
Proof.
  intros Hcap. assert (Hc0 : (0 < cap)%nat) by lia. destruct o; cbn [run_op q_op].
  - apply (fails_bind cap fuel any ready (next_type fuel) q_next); [apply tame_next|intros st l HR _; by apply next_sim|by apply fails_next|intros ty; apply fails_ret|done].
  - apply (fails_unit cap fuel any _ (consume fuel TObjBegin)); [apply tame_consume|intros st l HR _; by apply consume_sim|by apply fails_consume].
  - apply (fails_unit cap fuel any _ (consume fuel TObjEnd)); [apply tame_consume|intros st l HR _; by apply consume_sim|by apply fails_consume].
  - apply (fails_unit cap fuel any _ (consume fuel TArrBegin)); [apply tame_consume|intros st l HR _; by apply consume_sim|by apply fails_consume].
  - apply (fails_unit cap fuel any _ (consume fuel TArrEnd)); [apply tame_consume|intros st l HR _; by apply consume_sim|by apply fails_consume].
  - apply (fails_bind cap fuel any ready (skip_whitespace fuel) q_space); [apply tame_space|intros st l HR _; by apply space_sim|by apply fails_space|intros _; by apply fails_string|].
    intros _ l Hl. apply (fine_sound cap l); [done|]. by apply sound_string, short_tokens_small.
  - apply (fails_bind cap fuel any ready (skip_whitespace fuel) q_space); [apply tame_space|intros st l HR _; by apply space_sim|by apply fails_space|intros _; by apply fails_number|].
    intros _ l Hl. apply (fine_sound cap l); [done|]. by apply sound_number, short_tokens_small.
  - by apply fails_literal.
  - apply (fails_unit cap fuel any _ (Skip fuel) (q_Skip fuel cap)).
    + apply (tame_bind (next_type fuel)); [apply tame_next|]. intros next. apply tame_skip_all.
    + intros st l HR _. unfold Skip, q_Skip. eapply psim_bind; [by apply next_sim|]. intros ? st1 l1 HR1 Hm1 Hr1. eapply psim_weaken; [exact Hm1|]. by apply skips_sim.
    + apply (fails_bind cap fuel any ready (next_type fuel) q_next); [apply tame_next|intros st l HR _; by apply next_sim|by apply fails_next|intros ty; by apply fails_skips|].
      intros ty l Hl. apply (fine_sound cap l); [done|]. by apply sound_skips, short_tokens_small.
Qed.

Lemma exec_fails {A} cap fuel (p : prog A) : (5 <= cap)%nat -> forall st l a, eager st -> R cap (lazy st) l -> exec fuel p st = XDone a -> q_exec fuel cap p l <> YHang.
Proof.
  intros Hcap. induction p as [a|o k IH e|]; intros st l r He HR E; cbn [exec q_exec] in *; [done| |done].
  destruct (tame_op fuel o) as [_ Ht]. specialize (Ht st He). pose proof (op_sim cap fuel o (lazy st) l Hcap HR) as Hs. pose proof (fails_op cap fuel o Hcap st l He HR I) as Hf.
  destruct (run_op fuel o st) as [t st1| | |].
  - destruct Ht as [?|[He1 Ht]]; [done|]. rewrite Ht in Hs. cbn [psim] in Hs. destruct Hs as (l' & -> & HR' & _). by apply (IH t st1 l' r).
  - specialize (Hf eq_refl). destruct (q_op fuel cap o l) as [t l'| | |]; cbn [fine] in Hf; try done. by apply q_exec_short, short_tokens_small.
  - done.
  - done.
Qed.

(* ---------- more steps change nothing ---------- *)

(** More fuel gives the same, unless the fuel ran out. *)
Definition mono {A} (p p' : pres A) : Prop := p <> PHang -> p' = p.

Lemma mono_refl {A} (p : pres A) : mono p p. Proof. done. Qed.
Lemma mono_bind {A B} (p p' : pres A) (f f' : A -> pstate -> pres B) : mono p p' -> (forall a st, mono (f a st) (f' a st)) -> mono (pbind p f) (pbind p' f').
Proof.
  intros Hp Hf Hn. destruct p as [a st| | |]; cbn [pbind] in *; [|by rewrite Hp..|done]. rewrite Hp by done. cbn [pbind]. by apply Hf.
Qed.

Section mono.
  Context (n n' : nat) (Hn : (n <= n')%nat).

  Lemma mono_space : forall st, mono (skip_whitespace n st) (skip_whitespace n' st).
  Proof.
    revert n' Hn. induction n as [|m IH]; intros m' Hm st.
    - destruct m'; cbn [skip_whitespace]; destruct (scan_space _ _ _) as [[t []]|]; try apply mono_refl; intros K; by destruct K.
    - destruct m' as [|m']; [lia|]. cbn [skip_whitespace]. destruct (scan_space _ _ _) as [[t []]|]; try apply mono_refl.
      apply mono_bind; [apply mono_refl|]. intros _ st1. apply IH. lia.
  Qed.
  Lemma mono_next st : mono (next_type n st) (next_type n' st).
  Proof. apply mono_bind; [apply mono_space|]. intros. apply mono_refl. Qed.
  Lemma mono_consume ty st : mono (consume n ty st) (consume n' ty st).
  Proof. apply mono_bind; [apply mono_space|]. intros. apply mono_refl. Qed.
  Lemma mono_string_loop : forall st k esc has, mono (read_string_loop n st k esc has) (read_string_loop n' st k esc has).
  Proof.
    revert n' Hn. induction n as [|m IH]; intros m' Hm st k esc has.
    - destruct m'; cbn [read_string_loop]; destruct (scan_string _ _ _ _ _ _); try apply mono_refl; intros K; by destruct K.
    - destruct m' as [|m']; [lia|]. cbn [read_string_loop]. destruct (scan_string _ _ _ _ _ _); try apply mono_refl.
      apply mono_bind; [apply mono_refl|]. intros _ st1. apply IH. lia.
  Qed.
  Lemma mono_read_string st : mono (read_string n st) (read_string n' st).
  Proof. apply mono_bind; [apply mono_refl|]. intros ch st1. destruct (negb _); [apply mono_refl|apply mono_string_loop]. Qed.
  Lemma mono_number_loop : forall st k, mono (read_number_loop n st k) (read_number_loop n' st k).
  Proof.
    revert n' Hn. induction n as [|m IH]; intros m' Hm st k.
    - destruct m'; cbn [read_number_loop]; destruct (scan_number _ _ _ _); try apply mono_refl; intros K; by destruct K.
    - destruct m' as [|m']; [lia|]. cbn [read_number_loop]. destruct (scan_number _ _ _ _); try apply mono_refl.
      apply mono_bind; [apply mono_refl|]. intros _ st1. apply IH. lia.
  Qed.
  Lemma mono_read_number st : mono (read_number n st) (read_number n' st).
  Proof. apply mono_bind; [apply mono_refl|]. intros ch st1. destruct (negb _); [apply mono_refl|apply mono_number_loop]. Qed.
  Lemma mono_require k : forall st, mono (require n st k) (require n' st k).
  Proof.
    revert n' Hn. induction n as [|m IH]; intros m' Hm st.
    - destruct m'; cbn [require]; destruct (_ <=? _)%nat; try apply mono_refl; intros K; by destruct K.
    - destruct m' as [|m']; [lia|]. cbn [require]. destruct (_ <=? _)%nat; [apply mono_refl|]. destruct (_ && _); [apply mono_refl|].
      apply mono_bind; [apply mono_refl|]. intros _ st1. apply IH. lia.
  Qed.
  Lemma mono_read_n st ty first k : mono (read_n n st ty first k) (read_n n' st ty first k).
  Proof. apply mono_bind; [apply mono_require|]. intros. apply mono_refl. Qed.
  Lemma mono_boolean st : mono (read_boolean n st) (read_boolean n' st).
  Proof. apply mono_bind; [apply mono_refl|]. intros ch st1. destruct (_ =? _); apply mono_read_n. Qed.
  Lemma mono_literal st : mono (ReadLiteral n st) (ReadLiteral n' st).
  Proof. apply mono_bind; [apply mono_next|]. intros [] st1; first [apply mono_refl|apply mono_read_n|apply mono_boolean|apply mono_read_number|apply mono_read_string]. Qed.
  Lemma mono_skips : forall d d', (d <= d')%nat -> (forall next st, mono (skip d n next st) (skip d' n' next st)) /\
    (forall st, mono (skip_elements d n st) (skip_elements d' n' st)) /\ (forall st, mono (skip_members d n st) (skip_members d' n' st)).
  Proof.
    induction d as [|d IH]; intros d' Hd; [split; [|split]; intros; intros K; by destruct K|]. destruct d' as [|d']; [lia|]. destruct (IH d' ltac:(lia)) as (H1 & H2 & H3). split; [|split].
    - intros [] st; cbn [skip]; try apply mono_refl; (apply mono_bind; [first [apply mono_read_n|apply mono_boolean|apply mono_read_number|apply mono_read_string|apply mono_refl]|]); intros; first [apply mono_refl|apply H3|apply H2].
    - intros st. cbn [skip_elements]. apply mono_bind; [apply mono_next|]. intros next st1. destruct (decide _); [apply mono_refl|]. apply mono_bind; [apply H1|]. intros. apply H2.
    - intros st. cbn [skip_members]. apply mono_bind; [apply mono_next|]. intros next st1. destruct (decide _); [apply mono_refl|].
      apply mono_bind; [apply mono_read_string|]. intros. apply mono_bind; [apply mono_next|]. intros. apply mono_bind; [apply H1|]. intros. apply H3.
  Qed.
  Lemma mono_op o st : mono (run_op n o st) (run_op n' o st).
  Proof.
    destruct o; cbn [run_op].
    - apply mono_bind; [apply mono_next|]. intros. apply mono_refl.
    - apply mono_bind; [apply mono_consume|]. intros. apply mono_refl.
    - apply mono_bind; [apply mono_consume|]. intros. apply mono_refl.
    - apply mono_bind; [apply mono_consume|]. intros. apply mono_refl.
    - apply mono_bind; [apply mono_consume|]. intros. apply mono_refl.
    - apply mono_bind; [apply mono_space|]. intros. apply mono_read_string.
    - apply mono_bind; [apply mono_space|]. intros. apply mono_read_number.
    - apply mono_literal.
    - apply mono_bind; [|intros; apply mono_refl]. apply mono_bind; [apply mono_next|]. intros. by apply mono_skips.
  Qed.

  Lemma exec_mono {A} (p p' : prog A) : ple p p' -> forall st, exec n p st <> XHang -> exec n' p' st = exec n p st.
  Proof.
    induction 1 as [p|a|o k k' e Hk IH]; intros st Hx; cbn [exec] in *; [done|done|].
    pose proof (mono_op o st) as Hm. destruct (run_op n o st) as [t st1| | |]; [|by rewrite Hm..|done]. rewrite Hm by done. by apply IH.
  Qed.
End mono.

(* ---------- caught as if the error came afterwards ---------- *)

Section parser.
  Context {A B : Type} (P : nat -> prog A) (out : A -> B).
  Context (Hple : forall n n', (n <= n')%nat -> ple (P n) (P n')) (Henough : forall n cap l, (2 * length l + 2 < n)%nat -> q_exec n cap (P n) l <> YFuel).
  Let run (fuel : nat) (buf : bytes) (src : rsrc) : xres B := xmap out (exec fuel (P fuel) (new_parser src buf)).

  Lemma run_mono fuel fuel' buf src : (fuel <= fuel')%nat -> run fuel buf src <> XHang -> run fuel' buf src = run fuel buf src.
  Proof.
    intros Hf Hx. unfold run in *. rewrite (exec_mono fuel fuel' Hf (P fuel)); [done|by apply Hple|]. intros E. by rewrite E in Hx.
  Qed.

  Lemma run_caught fuel buf chunks : (5 <= length buf)%nat -> (forall n, run n buf (Src chunks (EndErr false)) = XHang) -> run fuel buf (Src chunks (EndErr true)) = XHang.
  Proof.
    intros Hb Hl. destruct (run fuel buf (Src chunks (EndErr true))) as [r| |] eqn:E; [exfalso| |done].
    - set (N := (fuel + 3 + length chunks + 2 * length (concat chunks))%nat).
      assert (EN : run N buf (Src chunks (EndErr true)) = XDone r) by (rewrite (run_mono fuel N); [done|lia|by rewrite E]).
      specialize (Hl N). unfold run in EN, Hl. destruct (exec N (P N) (new_parser (Src chunks (EndErr true)) buf)) as [a| |] eqn:E1; try done.
      assert (HR : R (length buf) (new_parser (Src chunks (EndErr false)) buf) (concat chunks)) by (by apply R_new).
      pose proof (exec_fails (length buf) N (P N) Hb (new_parser (Src chunks (EndErr true)) buf) (concat chunks) a eq_refl HR E1) as Hq.
      pose proof (exec_sim (length buf) N (P N) Hb _ _ HR) as Hs. destruct (exec N (P N) (new_parser (Src chunks (EndErr false)) buf)) as [b| |]; try done.
      destruct Hs as [?|[Hs|Hs]]; [done|by apply (Henough N) in Hs; [..|lia]|]. unfold left in Hs. cbn in Hs. lia.
    - exfalso. unfold run in E. pose proof (exec_safe fuel (P fuel) (new_parser (Src chunks (EndErr true)) buf) (wf_new _ _)). by destruct (exec _ _ _).
  Qed.
End parser.
