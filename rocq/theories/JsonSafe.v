(** The parser never indexes outside its buffer: any reader, any buffer. *)
From Verif Require Import Base IdModel SpanModel JsonModel CodecModel JsonPure JsonProofs.

Definition wf (st : pstate) : Prop := (p_tail st <= p_head st)%nat /\ (p_head st <= length (p_buf st))%nat.
Definition wf1 (st : pstate) : Prop := wf st /\ (0 < available st)%nat.

Definition safe {A} (P : pstate -> Prop) (p : pres A) : Prop :=
  match p with POk _ st => P st | PPanic => False | _ => True end.

Lemma safe_bind {A B} P Q (p : pres A) (f : A -> pstate -> pres B) :
  safe P p -> (forall a st, P st -> safe Q (f a st)) -> safe Q (pbind p f).
Proof. intros H1 H2. destruct p; cbn in *; auto. Qed.

Lemma src_read_length s m : (length (src_read s m).1.1 <= m)%nat.
Proof.
  unfold src_read. destruct (r_chunks s) as [|c cs]; cbn; [lia|]. destruct (drop m c) as [|x d]; [destruct cs|]; cbn; try (destruct (end_eager (r_end s)); cbn); rewrite take_length; lia.
Qed.

Lemma buffer_more_safe st : wf st ->
  safe (fun st' => wf st' /\ (available st <= available st')%nat /\ p_tail st' = 0%nat) (buffer_more st).
Proof.
  intros [H1 H2]. unfold buffer_more. destruct (p_eof st); [done|].
  replace ((0 <? p_tail st)%nat && negb ((p_tail st <=? p_head st)%nat && (p_head st <=? length (p_buf st))%nat)) with false by lia.
  set (st1 := if (0 <? p_tail st)%nat then _ else st).
  assert (K : p_tail st1 = 0%nat /\ p_head st1 = available st /\ length (p_buf st1) = length (p_buf st)).
  { unfold st1. destruct (Nat.ltb_spec 0 (p_tail st)) as [Ht|Ht]; cbn [p_tail p_head p_buf].
    - split; [done|]. split; [done|]. apply length_splice. rewrite take_length, drop_length. unfold available. lia.
    - unfold available. split; [lia|]. split; [lia|done]. }
  clearbody st1. destruct K as (Kt & Kh & Kl). rewrite Kh, Kl. replace (length (p_buf st) <? available st)%nat with false by (unfold available; lia).
  pose proof (src_read_length (p_src st1) (length (p_buf st) - available st)) as Hr.
  destruct (src_read (p_src st1) (length (p_buf st) - available st)) as [[got err] src]. cbn [fst] in Hr.
  assert (Hnew : forall e, let st' := PState src (splice (p_buf st1) (available st) got) (p_tail st1) (available st + length got) e in
    wf st' /\ (available st <= available st')%nat /\ p_tail st' = 0%nat).
  { intros e st'. assert (Ha : available st' = (available st + length got)%nat) by (unfold available at 1, st'; cbn [p_head p_tail]; lia).
    split; [|split; [lia|exact Kt]]. assert (available st <= length (p_buf st))%nat by (unfold available; lia).
    unfold wf, st'; cbn [p_tail p_head p_buf]. rewrite length_splice by lia. lia. }
  destruct err; [apply (Hnew false)| |done]. destruct got; [done|]. apply (Hnew true).
Qed.

Lemma scan_space_safe : forall k buf t, (t + k <= length buf)%nat ->
  match scan_space k buf t with None => False | Some (t', true) => (t <= t' < t + k)%nat | Some (t', false) => t' = (t + k)%nat end.
Proof.
  induction k as [|k IH]; intros buf t Ht; cbn [scan_space]; [lia|].
  destruct (buf !! t) as [b|] eqn:Eb; [|apply lookup_ge_None in Eb; lia]. destruct (is_space b); [|lia].
  specialize (IH buf (S t) ltac:(lia)). destruct (scan_space k buf (S t)) as [[t' []]|]; [lia|lia|done].
Qed.

Lemma space_safe : forall fuel st, wf st -> safe wf1 (skip_whitespace fuel st).
Proof.
  induction fuel as [|fuel IH]; intros st [H1 H2]; cbn [skip_whitespace].
  all: pose proof (scan_space_safe (available st) (p_buf st) (p_tail st) ltac:(unfold available; lia)) as Hs;
    destruct (scan_space (available st) (p_buf st) (p_tail st)) as [[t []]|]; [| |done].
  1,3: split; unfold wf, available in *; cbn; lia.
  - done.
  - eapply safe_bind; [apply buffer_more_safe; split; unfold available in *; cbn; lia|]. intros [] st' (? & _). by apply IH.
Qed.

Lemma current_safe st : wf1 st -> safe wf1 (current st).
Proof.
  intros [[H1 H2] H3]. unfold current. destruct (p_buf st !! p_tail st) eqn:E; [done|]. apply lookup_ge_None in E. unfold available in H3. lia.
Qed.

Lemma next_safe fuel st : wf st -> safe wf1 (next_type fuel st).
Proof.
  intros H. eapply safe_bind; [by apply space_safe|]. intros [] st1 H1. eapply safe_bind; [by apply current_safe|].
  intros b st2 H2. by destruct (symbol b).
Qed.

Lemma consume1_safe ty st : wf1 st -> safe wf (consume1 ty st).
Proof.
  intros H. eapply safe_bind; [by apply current_safe|]. intros b st1 [[? ?] ?]. destruct (decide _); [|done].
  unfold wf, available in *. cbn. lia.
Qed.

Lemma consume_safe fuel ty st : wf st -> safe wf (consume fuel ty st).
Proof. intros H. eapply safe_bind; [by apply space_safe|]. intros. by apply consume1_safe. Qed.

Lemma scan_string_safe : forall k buf t n esc has, (t + n + k <= length buf)%nat ->
  match scan_string k buf t n esc has with SPanic => False | SFound n' _ => (n' < n + k)%nat | SMore _ _ => True end.
Proof.
  induction k as [|k IH]; intros buf t n esc has Hl; cbn [scan_string]; [done|].
  destruct (buf !! (t + n)%nat) as [ch|] eqn:Eb; [|apply lookup_ge_None in Eb; lia].
  assert (Hrec : forall e h, match scan_string k buf t (S n) e h with SPanic => False | SFound n' _ => (n' < n + S k)%nat | SMore _ _ => True end).
  { intros e h. specialize (IH buf t (S n) e h ltac:(lia)). destruct (scan_string k buf t (S n) e h); [lia|done|done]. }
  destruct esc; [apply Hrec|]. destruct (ch =? ch_backslash); [apply Hrec|]. destruct (ch =? ch_quote); [lia|apply Hrec].
Qed.

Lemma string_loop_safe : forall fuel st n esc has, wf st -> (n <= available st)%nat -> safe wf (read_string_loop fuel st n esc has).
Proof.
  induction fuel as [|fuel IH]; intros st n esc has [H1 H2] Hn; cbn [read_string_loop].
  all: pose proof (scan_string_safe (available st - n) (p_buf st) (p_tail st) n esc has ltac:(unfold available in *; lia)) as Hs;
    destruct (scan_string (available st - n) (p_buf st) (p_tail st) n esc has) as [n' has'|esc' has'|]; [| |done].
  1,3: replace (length (p_buf st) <? p_tail st + n')%nat with false by (unfold available in *; lia);
    (destruct has'; [|unfold wf, available in *; cbn; lia]);
    set (value := take n' (drop (p_tail st) (p_buf st)));
    assert (Hlen : length value = n') by (unfold value; rewrite take_length, drop_length; unfold available in *; lia);
    pose proof (decode_in_place_0 value) as HD; rewrite Hlen in HD; destruct (unescape value);
    [destruct HD as (mem' & -> & Hl' & _)|rewrite HD; done]; cbn [safe]; unfold wf; cbn [p_tail p_head p_buf];
    rewrite length_splice by (unfold available in *; lia); unfold available in *; lia.
  - done.
  - eapply safe_bind; [by apply buffer_more_safe|]. intros [] st' (? & ? & ?). apply IH; [done|lia].
Qed.

Lemma string_safe fuel st : wf1 st -> safe wf (read_string fuel st).
Proof.
  intros H. eapply safe_bind; [by apply current_safe|]. intros b st1 [[? ?] ?]. destruct (negb _); [done|].
  apply string_loop_safe; [|lia]. unfold wf, available in *. cbn. lia.
Qed.

Lemma scan_number_safe : forall k buf t n, (t + n + k <= length buf)%nat ->
  match scan_number k buf t n with NPanic => False | NFound n' => (n' < n + k)%nat | NMore => True end.
Proof.
  induction k as [|k IH]; intros buf t n Hl; cbn [scan_number]; [done|].
  destruct (buf !! (t + n)%nat) as [ch|] eqn:Eb; [|apply lookup_ge_None in Eb; lia].
  destruct (is_number_char ch); [|lia]. specialize (IH buf t (S n) ltac:(lia)). destruct (scan_number k buf t (S n)); [lia|done|done].
Qed.

Lemma number_loop_safe : forall fuel st n, wf st -> (n <= available st)%nat -> safe wf (read_number_loop fuel st n).
Proof.
  induction fuel as [|fuel IH]; intros st n [H1 H2] Hn; cbn [read_number_loop].
  all: pose proof (scan_number_safe (available st - n) (p_buf st) (p_tail st) n ltac:(unfold available in *; lia)) as Hs;
    destruct (scan_number (available st - n) (p_buf st) (p_tail st) n) as [n'| |]; [| |done].
  1,3: replace (length (p_buf st) <? p_tail st + n')%nat with false by (unfold available in *; lia); unfold wf, available in *; cbn; lia.
  - done.
  - eapply safe_bind; [by apply buffer_more_safe|]. intros [] st' (? & ? & ?). apply IH; [done|lia].
Qed.

Lemma number_safe fuel st : wf1 st -> safe wf (read_number fuel st).
Proof.
  intros H. eapply safe_bind; [by apply current_safe|]. intros b st1 [? ?]. destruct (negb _); [done|].
  apply number_loop_safe; [done|lia].
Qed.

Lemma require_safe n : forall fuel st, wf st -> safe (fun st' => wf st' /\ (n <= available st')%nat) (require fuel st n).
Proof.
  induction fuel as [|fuel IH]; intros st [H1 H2]; cbn [require].
  - destruct (Nat.leb_spec n (available st)); done.
  - destruct (Nat.leb_spec n (available st)); [done|].
    replace ((length (p_buf st) - available st <? n - available st)%nat && (available st + n <? length (p_buf st))%nat) with false
      by (unfold available in *; lia).
    destruct (Nat.ltb_spec (length (p_buf st) - available st) (n - available st)).
    + eapply safe_bind.
      * apply buffer_more_safe. split; cbn [p_tail p_head p_buf]; [done|]. rewrite length_splice; [|rewrite replicate_length; unfold available in *; lia].
        rewrite replicate_length. unfold available in *. lia.
      * intros [] st' (? & _). by apply IH.
    + eapply safe_bind; [by apply buffer_more_safe|]. intros [] st' (? & _). by apply IH.
Qed.

Lemma read_n_safe fuel st ty first n : (0 < n)%nat -> wf st -> safe wf (read_n fuel st ty first n).
Proof.
  intros Hn H. eapply safe_bind; [by apply require_safe|]. intros [] st1 [H1 H2]. unfold current.
  destruct H1 as [? ?]. destruct (p_buf st1 !! p_tail st1) eqn:E; [|apply lookup_ge_None in E; unfold available in *; lia].
  cbn [pbind]. destruct (negb _); [done|]. replace (length (p_buf st1) <? p_tail st1 + n)%nat with false by (unfold available in *; lia).
  unfold wf, available in *. cbn. lia.
Qed.

Lemma boolean_safe fuel st : wf1 st -> safe wf (read_boolean fuel st).
Proof.
  intros H. eapply safe_bind; [by apply current_safe|]. intros b st1 [? ?]. destruct (b =? 116); (apply read_n_safe; [lia|done]).
Qed.

Lemma literal_safe fuel st : wf st -> safe wf (ReadLiteral fuel st).
Proof.
  intros H. eapply safe_bind; [by apply next_safe|]. intros ty st1 H1. destruct ty; try done.
  - apply read_n_safe; [lia|apply H1]. - by apply boolean_safe. - by apply number_safe. - by apply string_safe.
Qed.

Lemma skips_safe fuel : forall depth,
  (forall next st, wf1 st -> safe wf (skip depth fuel next st)) /\
  (forall st, wf st -> safe wf (skip_elements depth fuel st)) /\
  (forall st, wf st -> safe wf (skip_members depth fuel st)).
Proof.
  induction depth as [|depth (IH1 & IH2 & IH3)]; [done|]. split; [|split].
  - intros next st H. cbn [skip]. destruct next; try done.
    + eapply safe_bind; [apply read_n_safe; [lia|apply H]|]. done.
    + eapply safe_bind; [by apply consume1_safe|]. intros. by apply IH3.
    + eapply safe_bind; [by apply consume1_safe|]. intros. by apply IH2.
    + eapply safe_bind; [by apply boolean_safe|]. done.
    + eapply safe_bind; [by apply number_safe|]. done.
    + eapply safe_bind; [by apply string_safe|]. done.
  - intros st H. cbn [skip_elements]. eapply safe_bind; [by apply next_safe|]. intros ty st1 H1. destruct (decide _); [by apply consume1_safe|].
    eapply safe_bind; [by apply IH1|]. intros. by apply IH2.
  - intros st H. cbn [skip_members]. eapply safe_bind; [by apply next_safe|]. intros ty st1 H1. destruct (decide _); [by apply consume1_safe|].
    eapply safe_bind; [by apply string_safe|]. intros ? st2 H2. eapply safe_bind; [by apply next_safe|]. intros ? st3 H3.
    eapply safe_bind; [by apply IH1|]. intros. by apply IH3.
Qed.

Lemma op_safe fuel o st : wf st -> safe wf (run_op fuel o st).
Proof.
  intros H. destruct o; cbn [run_op].
  - eapply safe_bind; [by apply next_safe|]. intros ? ? [? ?]. done.
  - eapply safe_bind; [by apply consume_safe|]. done.
  - eapply safe_bind; [by apply consume_safe|]. done.
  - eapply safe_bind; [by apply consume_safe|]. done.
  - eapply safe_bind; [by apply consume_safe|]. done.
  - eapply safe_bind; [by apply space_safe|]. intros. by apply string_safe.
  - eapply safe_bind; [by apply space_safe|]. intros. by apply number_safe.
  - by apply literal_safe.
  - eapply safe_bind; [|done]. eapply safe_bind; [by apply next_safe|]. intros. by apply skips_safe.
Qed.

Lemma exec_safe {A} fuel (p : prog A) : forall st, wf st -> exec fuel p st <> XPanic.
Proof.
  induction p as [a|o k IH e|]; intros st H; cbn [exec]; try done.
  pose proof (op_safe fuel o st H) as Ho. destruct (run_op fuel o st); try done. by apply IH.
Qed.

Lemma wf_new r buf : wf (new_parser r buf).
Proof. unfold wf. cbn. lia. Qed.
