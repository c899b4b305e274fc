(** The tokens that the parser returns are no longer than its buffer, which hardly grows. *)
From Verif Require Import Base IdModel SpanModel JsonModel CodecModel JsonPure JsonProofs JsonSafe IdSpec IdProofs.

Section bound.
Context (M : nat) (HM : (9 <= M)%nat).

Definition bnd (st : pstate) : Prop := wf st /\ (length (p_buf st) <= M)%nat.
Definition bnd1 (st : pstate) : Prop := wf1 st /\ (length (p_buf st) <= M)%nat.
Definition short (t : token) : Prop := (length (t_val t) <= M)%nat.

Definition holds {A} (T : A -> Prop) (P : pstate -> Prop) (p : pres A) : Prop :=
  match p with POk a st => T a /\ P st | _ => True end.
Definition any {A} (a : A) : Prop := True.

Lemma holds_bind {A B} T P U Q (p : pres A) (f : A -> pstate -> pres B) :
  holds T P p -> (forall a st, T a -> P st -> holds U Q (f a st)) -> holds U Q (pbind p f).
Proof. intros H1 H2. destruct p; cbn in *; try done. destruct H1. by apply H2. Qed.

(** A safe step that keeps the length of the buffer. *)
Lemma holds_safe {A} (P : pstate -> Prop) (Q : pstate -> Prop) (p : pres A) : safe P p -> (forall a st, p = POk a st -> P st -> Q st) -> holds any Q p.
Proof. destruct p; cbn; try done. intros H1 H2. split; [done|]. by eapply H2. Qed.

Lemma buffer_more_len st a st' : wf st -> buffer_more st = POk a st' -> length (p_buf st') = length (p_buf st).
Proof.
  intros [H1 H2]. unfold buffer_more. destruct (p_eof st); [done|].
  replace ((0 <? p_tail st)%nat && negb ((p_tail st <=? p_head st)%nat && (p_head st <=? length (p_buf st))%nat)) with false by lia.
  set (st1 := if (0 <? p_tail st)%nat then _ else st).
  assert (K : p_head st1 = available st /\ length (p_buf st1) = length (p_buf st)).
  { unfold st1. destruct (Nat.ltb_spec 0 (p_tail st)) as [Ht|Ht]; cbn [p_tail p_head p_buf].
    - split; [done|]. apply length_splice. rewrite take_length, drop_length. unfold available. lia.
    - unfold available. split; [lia|done]. }
  clearbody st1. destruct K as (Kh & Kl). rewrite Kh, Kl. replace (length (p_buf st) <? available st)%nat with false by (unfold available; lia).
  pose proof (src_read_length (p_src st1) (length (p_buf st) - available st)) as Hr.
  destruct (src_read (p_src st1) (length (p_buf st) - available st)) as [[got err] src]. cbn [fst] in Hr.
  assert (Hl : length (splice (p_buf st1) (available st) got) = length (p_buf st)) by (rewrite length_splice; [done|]; unfold available in *; lia).
  destruct err; [intros [= _ <-]; exact Hl| |done]. destruct got; [done|]. intros [= _ <-]. exact Hl.
Qed.

Lemma buffer_more_bnd st : bnd st -> holds any (fun st' => bnd st' /\ (available st <= available st')%nat) (buffer_more st).
Proof.
  intros [H HL]. eapply holds_safe; [by apply buffer_more_safe|]. intros a st' E (Hw & Ha & _). split; [split; [done|]|done].
  by rewrite (buffer_more_len st a st' H E).
Qed.

Lemma space_bnd : forall fuel st, bnd st -> holds any bnd1 (skip_whitespace fuel st).
Proof.
  induction fuel as [|fuel IH]; intros st [[H1 H2] HL]; cbn [skip_whitespace].
  all: pose proof (scan_space_safe (available st) (p_buf st) (p_tail st) ltac:(unfold available; lia)) as Hs;
    destruct (scan_space (available st) (p_buf st) (p_tail st)) as [[t []]|]; [| |done].
  1,3: split; [done|]; split; [|done]; split; unfold wf, available in *; cbn; lia.
  - done.
  - eapply holds_bind; [apply buffer_more_bnd; split; [split; unfold available in *; cbn; lia|done]|]. intros [] st' _ (? & _). by apply IH.
Qed.

Lemma current_bnd st : bnd1 st -> holds any bnd1 (current st).
Proof. intros H. unfold current. destruct (p_buf st !! p_tail st); done. Qed.

Lemma next_bnd fuel st : bnd st -> holds any bnd1 (next_type fuel st).
Proof.
  intros H. eapply holds_bind; [by apply space_bnd|]. intros [] st1 _ H1. eapply holds_bind; [by apply current_bnd|].
  intros b st2 _ H2. by destruct (symbol b).
Qed.

Lemma consume1_bnd ty st : bnd1 st -> holds any bnd (consume1 ty st).
Proof.
  intros H. eapply holds_bind; [by apply current_bnd|]. intros b st1 _ [[[? ?] ?] HL]. destruct (decide _); [|done].
  split; [done|]. split; [|done]. unfold wf, available in *. cbn. lia.
Qed.

Lemma consume_bnd fuel ty st : bnd st -> holds any bnd (consume fuel ty st).
Proof. intros H. eapply holds_bind; [by apply space_bnd|]. intros. by apply consume1_bnd. Qed.

Lemma string_loop_bnd : forall fuel st n esc has, bnd st -> (n <= available st)%nat -> holds short bnd (read_string_loop fuel st n esc has).
Proof.
  induction fuel as [|fuel IH]; intros st n esc has [[H1 H2] HL] Hn; cbn [read_string_loop].
  all: pose proof (scan_string_safe (available st - n) (p_buf st) (p_tail st) n esc has ltac:(unfold available in *; lia)) as Hs;
    destruct (scan_string (available st - n) (p_buf st) (p_tail st) n esc has) as [n' has'|esc' has'|]; [| |done].
  1,3: replace (length (p_buf st) <? p_tail st + n')%nat with false by (unfold available in *; lia);
    set (value := take n' (drop (p_tail st) (p_buf st)));
    assert (Hlen : length value = n') by (unfold value; rewrite take_length, drop_length; unfold available in *; lia);
    (destruct has'; [|split; [unfold short; cbn; unfold available in *; lia|split; [unfold wf, available in *; cbn; lia|done]]]);
    pose proof (decode_in_place_0 value) as HD; rewrite Hlen in HD; destruct (unescape value);
    [destruct HD as (mem' & -> & Hl' & _)|rewrite HD; done]; cbn [holds]; (split; [unfold short; cbn [t_val]; rewrite take_length; unfold available in *; lia|]);
    unfold bnd, wf; cbn [p_tail p_head p_buf];
    rewrite length_splice by (unfold available in *; lia); unfold available in *; lia.
  - done.
  - eapply holds_bind; [by apply buffer_more_bnd|]. intros [] st' _ (? & ?). apply IH; [done|lia].
Qed.

Lemma string_bnd fuel st : bnd1 st -> holds short bnd (read_string fuel st).
Proof.
  intros H. eapply holds_bind; [by apply current_bnd|]. intros b st1 _ [[[? ?] ?] HL]. destruct (negb _); [done|].
  apply string_loop_bnd; [|lia]. split; [|done]. unfold wf, available in *. cbn. lia.
Qed.

Lemma number_loop_bnd : forall fuel st n, bnd st -> (n <= available st)%nat -> holds short bnd (read_number_loop fuel st n).
Proof.
  induction fuel as [|fuel IH]; intros st n [[H1 H2] HL] Hn; cbn [read_number_loop].
  all: pose proof (scan_number_safe (available st - n) (p_buf st) (p_tail st) n ltac:(unfold available in *; lia)) as Hs;
    destruct (scan_number (available st - n) (p_buf st) (p_tail st) n) as [n'| |]; [| |done].
  1,3: replace (length (p_buf st) <? p_tail st + n')%nat with false by (unfold available in *; lia);
    (split; [unfold short; cbn [t_val]; rewrite take_length; unfold available in *; lia|]); split; [|done]; unfold wf, available in *; cbn; lia.
  - done.
  - eapply holds_bind; [by apply buffer_more_bnd|]. intros [] st' _ (? & ?). apply IH; [done|lia].
Qed.

Lemma number_bnd fuel st : bnd1 st -> holds short bnd (read_number fuel st).
Proof.
  intros H. eapply holds_bind; [by apply current_bnd|]. intros b st1 _ [[? ?] ?]. destruct (negb _); [done|].
  apply number_loop_bnd; [done|lia].
Qed.

(** The buffer grows only if it is shorter than a literal. *)
Lemma require_bnd n : (n <= 5)%nat -> forall fuel st, bnd st -> holds any (fun st' => bnd st' /\ (n <= available st')%nat) (require fuel st n).
Proof.
  intros Hn5. induction fuel as [|fuel IH]; intros st [[H1 H2] HL]; cbn [require].
  - destruct (Nat.leb_spec n (available st)); done.
  - destruct (Nat.leb_spec n (available st)); [done|].
    replace ((length (p_buf st) - available st <? n - available st)%nat && (available st + n <? length (p_buf st))%nat) with false
      by (unfold available in *; lia).
    destruct (Nat.ltb_spec (length (p_buf st) - available st) (n - available st)).
    + eapply holds_bind.
      * apply buffer_more_bnd. split; [split; cbn [p_tail p_head p_buf]; [done|]|cbn [p_buf]]; (rewrite length_splice; [|rewrite replicate_length; unfold available in *; lia]);
          rewrite replicate_length; unfold available in *; lia.
      * intros [] st' _ (? & _). by apply IH.
    + eapply holds_bind; [by apply buffer_more_bnd|]. intros [] st' _ (? & _). by apply IH.
Qed.

Lemma read_n_bnd fuel st ty first n : (0 < n)%nat -> (n <= 5)%nat -> bnd st -> holds short bnd (read_n fuel st ty first n).
Proof.
  intros Hn Hn5 H. eapply holds_bind; [by apply require_bnd|]. intros [] st1 _ [H1 H2]. unfold current.
  destruct H1 as [[? ?] HL]. destruct (p_buf st1 !! p_tail st1) eqn:E; [|done].
  cbn [pbind]. destruct (negb _); [done|]. replace (length (p_buf st1) <? p_tail st1 + n)%nat with false by (unfold available in *; lia).
  split; [unfold short; cbn [t_val]; rewrite take_length; lia|]. split; [|done]. unfold wf, available in *. cbn. lia.
Qed.

Lemma boolean_bnd fuel st : bnd1 st -> holds short bnd (read_boolean fuel st).
Proof.
  intros H. eapply holds_bind; [by apply current_bnd|]. intros b st1 _ [[? ?] ?]. destruct (b =? 116); (apply read_n_bnd; [lia|lia|done]).
Qed.

Lemma bnd_of st : bnd1 st -> bnd st.
Proof. intros [[? _] ?]. done. Qed.

Lemma literal_bnd fuel st : bnd st -> holds short bnd (ReadLiteral fuel st).
Proof.
  intros H. eapply holds_bind; [by apply next_bnd|]. intros ty st1 _ H1. destruct ty; try done.
  - apply read_n_bnd; [lia|lia|by apply bnd_of]. - by apply boolean_bnd. - by apply number_bnd. - by apply string_bnd.
Qed.

Lemma skips_bnd fuel : forall depth,
  (forall next st, bnd1 st -> holds any bnd (skip depth fuel next st)) /\
  (forall st, bnd st -> holds any bnd (skip_elements depth fuel st)) /\
  (forall st, bnd st -> holds any bnd (skip_members depth fuel st)).
Proof.
  induction depth as [|depth (IH1 & IH2 & IH3)]; [done|]. split; [|split].
  - intros next st H. cbn [skip]. destruct next; try done.
    + eapply holds_bind; [apply read_n_bnd; [lia|lia|by apply bnd_of]|]. done.
    + eapply holds_bind; [by apply consume1_bnd|]. intros. by apply IH3.
    + eapply holds_bind; [by apply consume1_bnd|]. intros. by apply IH2.
    + eapply holds_bind; [by apply boolean_bnd|]. done.
    + eapply holds_bind; [by apply number_bnd|]. done.
    + eapply holds_bind; [by apply string_bnd|]. done.
  - intros st H. cbn [skip_elements]. eapply holds_bind; [by apply next_bnd|]. intros ty st1 _ H1. destruct (decide _); [by apply consume1_bnd|].
    eapply holds_bind; [by apply IH1|]. intros. by apply IH2.
  - intros st H. cbn [skip_members]. eapply holds_bind; [by apply next_bnd|]. intros ty st1 _ H1. destruct (decide _); [by apply consume1_bnd|].
    eapply holds_bind; [by apply string_bnd|]. intros ? st2 _ H2. eapply holds_bind; [by apply next_bnd|]. intros ? st3 _ H3.
    eapply holds_bind; [by apply IH1|]. intros. by apply IH3.
Qed.

Lemma op_bnd fuel o st : bnd st -> holds short bnd (run_op fuel o st).
Proof.
  intros H. assert (Hu : short (Token TNull [])) by (unfold short; cbn; lia). destruct o; cbn [run_op].
  - eapply holds_bind; [by apply next_bnd|]. intros ? ? _ ?. split; [unfold short; cbn; lia|by apply bnd_of].
  - eapply holds_bind; [by apply consume_bnd|]. done.
  - eapply holds_bind; [by apply consume_bnd|]. done.
  - eapply holds_bind; [by apply consume_bnd|]. done.
  - eapply holds_bind; [by apply consume_bnd|]. done.
  - eapply holds_bind; [by apply space_bnd|]. intros. by apply string_bnd.
  - eapply holds_bind; [by apply space_bnd|]. intros. by apply number_bnd.
  - by apply literal_bnd.
  - eapply holds_bind; [|done]. eapply holds_bind; [by apply next_bnd|]. intros. by apply skips_bnd.
Qed.

(* ---------- programs ---------- *)

(** All results of a program satisfy [P] if all tokens are short. *)
Fixpoint pall {A} (P : A -> Prop) (p : prog A) : Prop :=
  match p with
  | Ret a => P a
  | Call _ k e => P e /\ forall t, short t -> pall P (k t)
  | OutOfFuel => True
  end.

Lemma exec_pall {A} (P : A -> Prop) fuel (p : prog A) : forall st a, bnd st -> pall P p -> exec fuel p st = XDone a -> P a.
Proof.
  induction p as [x|o k IH e|]; intros st a H HP; cbn [exec]; [by intros [= <-]| |done]. destruct HP as [He Hk].
  pose proof (op_bnd fuel o st H) as Ho. destruct (run_op fuel o st) as [t st'| | |]; try done; [|by intros [= <-]]. destruct Ho as [Ht Hs].
  apply (IH t st'); [done|by apply Hk].
Qed.

Lemma pall_impl {A} (P Q : A -> Prop) p : (forall a, P a -> Q a) -> pall P p -> pall Q p.
Proof. intros HPQ. induction p as [x|o k IH e|]; cbn [pall]; [apply HPQ| |done]. intros [He Hk]. split; [by apply HPQ|]. intros t Ht. by apply IH, Hk. Qed.

Lemma pthen_pall {A B} (Q : A * bool -> Prop) (P : B * bool -> Prop) p (f : A -> B) k :
  pall Q p -> (forall a, Q (a, true) -> pall P (k a)) -> (forall a b, Q (a, b) -> P (f a, false)) -> pall P (pthen p f k).
Proof.
  intros HQ Hk Hf. induction p as [[x b]|o c IH [x b]|]; cbn [pthen pall] in *; [|destruct HQ as [He Hc]|done].
  - destruct b; [by apply Hk|by apply (Hf x false)].
  - split; [by apply (Hf x b)|]. intros t Ht. by apply IH, Hc.
Qed.

(** A decoder keeps a property of the memory it decodes into. *)
Definition keeps {T} (Q : T -> Prop) (d : decoder T) : Prop := forall t, Q t -> pall (fun r => Q r.1) (d t).

Lemma at_field_keeps {T A} (Q : T -> Prop) (R : A -> Prop) get put (d : decoder A) :
  keeps R d -> (forall t, Q t -> R (get t)) -> (forall a t, R a -> Q t -> Q (put a t)) -> keeps Q (at_field get put d).
Proof.
  intros Hd Hget Hput t Ht. unfold at_field. eapply pthen_pall; [apply Hd, Hget, Ht|intros a Ha; by apply Hput|intros a b Ha; by apply Hput].
Qed.

Lemma uint64_keeps : keeps any uint64_decoder.
Proof. intros t _. unfold uint64_decoder. cbn [pall]. split; [done|]. intros tok _. by destruct (digits_value 0 (t_val tok)). Qed.

Definition short_str (s : gostring) : Prop := (length s <= M)%nat.
Lemma string_keeps : keeps short_str string_decoder.
Proof. intros t Ht. unfold string_decoder. cbn [pall]. split; [done|]. intros tok Hk. exact Hk. Qed.
Lemma any_keeps : keeps short_str any_decoder.
Proof. intros t Ht. unfold any_decoder. cbn [pall]. split; [done|]. intros tok Hk. exact Hk. Qed.

Lemma parse_id_range bs v : parse_id bs = Some v -> int64_ok v.
Proof. intros H. apply parse_id_spec in H as (_ & n & _ & Hs). unfold signed64 in Hs. zlia. Qed.
Lemma id_keeps : keeps int64_ok id_decoder.
Proof.
  intros t Ht. unfold id_decoder. cbn [pall]. split; [done|]. intros tok _. destruct (decide _); cbn [pall].
  - split; [|intros ? _]; cbn; zlia.
  - split; [done|]. intros tok' _. destruct (parse_id (t_val tok')) as [v|] eqn:E; [|done]. cbn. by eapply parse_id_range.
Qed.

Definition short_map (m : gmap gostring gostring) : Prop := forall k v, m !! k = Some v -> short_str k /\ short_str v.
Lemma short_map_insert k v m : short_str k -> short_str v -> short_map m -> short_map (<[k := v]> m).
Proof. intros Hk Hv Hm k' v' H. apply lookup_insert_Some in H as [[<- <-]|[_ H]]; [done|by apply Hm]. Qed.
Lemma map_loop_keeps fuel : forall target result, short_map target -> short_map result -> pall (fun r => short_map r.1) (map_loop fuel target result).
Proof.
  induction fuel as [|fuel IH]; intros target result Ht Hr; cbn [map_loop pall]; [done|]. split; [done|]. intros next _. destruct (decide _).
  - cbn [pall]. done.
  - eapply pthen_pall; [apply string_keeps; unfold short_str; cbn; lia| |done]. intros key Hk. eapply pthen_pall; [apply string_keeps; unfold short_str; cbn; lia| |done].
    intros value Hv. apply IH; [done|]. by apply short_map_insert.
Qed.
Lemma map_keeps fuel : keeps short_map (map_decoder fuel).
Proof. intros t Ht. unfold map_decoder. cbn [pall]. split; [done|]. intros _ _. apply map_loop_keeps; [done|]. intros k v H. by rewrite lookup_empty in H. Qed.

Lemma unsafe_grow_forall {T} (Q : T -> Prop) zero s n : Q zero -> Forall Q (sl_mem s) -> Forall Q (sl_mem (unsafe_grow zero s n)).
Proof.
  intros Hz Hs. unfold unsafe_grow. destruct (_ <=? _)%nat; cbn [sl_mem]; [done|]. apply Forall_app. split; [by apply Forall_take|]. by apply Forall_replicate.
Qed.
Lemma slice_loop_keeps {T} (Q : T -> Prop) zero d fuel : Q zero -> keeps Q d -> forall s idx, Forall Q (sl_mem s) ->
  pall (fun r => Forall Q (sl_mem r.1)) (slice_loop zero d fuel s idx).
Proof.
  intros Hz Hd. induction fuel as [|fuel IH]; intros s idx Hs; cbn [slice_loop pall]; [done|]. split; [done|]. intros next _. destruct (decide _).
  - cbn [pall]. done.
  - pose proof (unsafe_grow_forall Q zero s (idx + 1) Hz Hs) as Hg. set (s' := unsafe_grow zero s (idx + 1)) in *. clearbody s'.
    eapply pthen_pall; [apply Hd|intros a Ha; apply IH; cbn [sl_mem]; by apply Forall_insert|intros a b Ha; cbn [sl_mem]; by apply Forall_insert].
    destruct (Nat.lt_ge_cases idx (length (sl_mem s'))) as [Hlt|Hge]; [|by rewrite nth_overflow]. rewrite Forall_forall in Hg. apply Hg, elem_of_list_In, nth_In, Hlt.
Qed.
Lemma slice_keeps {T} (Q : T -> Prop) zero d fuel : Q zero -> keeps Q d -> keeps (fun s => Forall Q (sl_mem s)) (slice_decoder zero d fuel).
Proof. intros Hz Hd t Ht. unfold slice_decoder. cbn [pall]. split; [done|]. intros _ _. by apply slice_loop_keeps. Qed.

Lemma array_loop_keeps {T} (Q : T -> Prop) d fuel : keeps Q d -> forall a idx, Forall Q a -> pall (fun r => Forall Q r.1) (array_loop d fuel a idx).
Proof.
  intros Hd. induction fuel as [|fuel IH]; intros a idx Ha; cbn [array_loop pall]; [done|]. split; [done|]. intros next _. destruct (decide _).
  - cbn [pall]. done.
  - destruct (a !! idx) as [el|] eqn:E.
    + eapply pthen_pall; [apply Hd; rewrite Forall_forall in Ha; apply Ha; by eapply elem_of_list_lookup_2|intros x Hx; apply IH; by apply Forall_insert|intros x b Hx; by apply Forall_insert].
    + cbn [pall]. split; [done|]. intros _ _. by apply IH.
Qed.
Lemma array_keeps {T} (Q : T -> Prop) d fuel : keeps Q d -> keeps (Forall Q) (array_decoder d fuel).
Proof. intros Hd t Ht. unfold array_decoder. cbn [pall]. split; [done|]. intros _ _. by apply array_loop_keeps. Qed.

Lemma struct_loop_keeps {T} (Q : T -> Prop) (fields : list (gostring * decoder T)) fuel : Forall (fun f => keeps Q f.2) fields ->
  forall t, Q t -> pall (fun r => Q r.1) (struct_loop fields fuel t).
Proof.
  intros Hf. assert (Hl : forall name d, lookup_field fields name = Some d -> keeps Q d).
  { induction Hf as [|[n d'] fields Hd _ IH]; cbn [lookup_field]; [done|]. intros name d. destruct (decide _); [by intros [= <-]|apply IH]. }
  induction fuel as [|fuel IH]; intros t Ht; cbn [struct_loop pall]; [done|]. split; [done|]. intros next _. destruct (decide _).
  - cbn [pall]. done.
  - cbn [pall]. split; [done|]. intros key _. destruct (lookup_field fields (t_val key)) as [d|] eqn:E.
    + eapply pthen_pall; [by apply (Hl _ _ E)|intros a Ha; by apply IH|done].
    + cbn [pall]. split; [done|]. intros _ _. by apply IH.
Qed.
Lemma struct_keeps {T} (Q : T -> Prop) (fields : list (gostring * decoder T)) fuel : Forall (fun f => keeps Q f.2) fields -> keeps Q (struct_decoder fields fuel).
Proof. intros Hf t Ht. unfold struct_decoder. cbn [pall]. split; [done|]. intros _ _. by apply struct_loop_keeps. Qed.

(* ---------- the decoders of spans ---------- *)

Lemma endpoint_keeps fuel : keeps short_str (endpoint_decoder fuel).
Proof. apply struct_keeps. apply Forall_cons. split; [apply string_keeps|apply Forall_nil_2]. Qed.

Definition v2_good (v : spanV2) : Prop :=
  int64_ok (v2_trace v) /\ int64_ok (v2_id v) /\ int64_ok (v2_parent v) /\ short_str (v2_name v) /\ short_str (v2_endpoint v) /\ short_map (v2_tags v) /\ short_str (v2_kind v).
Lemma short_nil : short_str [].
Proof. unfold short_str. cbn. lia. Qed.
Lemma short_empty : short_map ∅.
Proof. intros k v H. by rewrite lookup_empty in H. Qed.
Lemma zero_v2_good : v2_good zero_v2.
Proof.
  unfold v2_good, zero_v2. cbn [v2_trace v2_id v2_parent v2_name v2_endpoint v2_tags v2_kind]. split; [zlia|]. split; [zlia|]. split; [zlia|].
  split; [apply short_nil|]. split; [apply short_nil|]. split; [apply short_empty|apply short_nil].
Qed.
Lemma v2_keeps fuel : keeps v2_good (span_v2_decoder fuel).
Proof.
  intros t _. apply struct_keeps; [|apply zero_v2_good]. unfold v2_fields.
  repeat (apply Forall_cons; split; [cbn [snd]|]); [..|apply Forall_nil_2].
  all: first [apply (at_field_keeps _ int64_ok _ _ _ id_keeps)|apply (at_field_keeps _ any _ _ _ uint64_keeps)|apply (at_field_keeps _ short_str _ _ _ string_keeps)
             |apply (at_field_keeps _ short_map _ _ _ (map_keeps fuel))|apply (at_field_keeps _ short_str _ _ _ (endpoint_keeps fuel))]; unfold v2_good, any; cbn; tauto.
Qed.

Definition annot_good (a : annotationV1) : Prop := short_str (an_value a) /\ short_str (an_endpoint a).
Definition ba_good (a : binaryAnnotationV1) : Prop := short_str (ba_key a) /\ short_str (ba_value a) /\ short_str (ba_endpoint a).
Definition v1_good (v : spanV1) : Prop :=
  int64_ok (v1_trace v) /\ int64_ok (v1_id v) /\ int64_ok (v1_parent v) /\ Forall annot_good (v1_annots v) /\ Forall ba_good (sl_mem (v1_bas v)) /\ short_str (v1_name v).
Lemma zero_annot_good : annot_good zero_annot.
Proof. split; apply short_nil. Qed.
Lemma zero_ba_good : ba_good zero_ba.
Proof. split; [|split]; apply short_nil. Qed.
Lemma zero_v1_good : v1_good zero_v1.
Proof.
  unfold v1_good, zero_v1. cbn [v1_trace v1_id v1_parent v1_annots v1_bas v1_name sl_mem]. split; [zlia|]. split; [zlia|]. split; [zlia|].
  split; [apply Forall_replicate, zero_annot_good|]. split; [constructor|apply short_nil].
Qed.
Lemma reset_good v : v1_good v -> v1_good (reset_v1 v).
Proof.
  intros (_ & _ & _ & _ & Hb & _). unfold v1_good, reset_v1. cbn [v1_trace v1_id v1_parent v1_annots v1_bas v1_name sl_mem]. split; [zlia|]. split; [zlia|]. split; [zlia|].
  split; [apply Forall_replicate, zero_annot_good|]. split; [|apply short_nil]. apply Forall_app. split; [apply Forall_replicate, zero_ba_good|by apply Forall_drop].
Qed.
Lemma ba_keeps fuel : keeps ba_good (struct_decoder (ba_fields fuel) fuel).
Proof.
  apply struct_keeps. unfold ba_fields. repeat (apply Forall_cons; split; [cbn [snd]|]); [..|apply Forall_nil_2].
  - apply (at_field_keeps _ short_str _ _ _ string_keeps); unfold ba_good; cbn; tauto.
  - apply (at_field_keeps _ short_str _ _ _ any_keeps); unfold ba_good; cbn; tauto.
  - apply (at_field_keeps _ short_str _ _ _ (endpoint_keeps fuel)); unfold ba_good; cbn; tauto.
Qed.
Lemma annot_keeps fuel : keeps annot_good (struct_decoder (annot_fields fuel) fuel).
Proof.
  apply struct_keeps. unfold annot_fields. repeat (apply Forall_cons; split; [cbn [snd]|]); [..|apply Forall_nil_2].
  - apply (at_field_keeps _ any _ _ _ uint64_keeps); unfold annot_good, any; cbn; tauto.
  - apply (at_field_keeps _ short_str _ _ _ string_keeps); unfold annot_good, any; cbn; tauto.
  - apply (at_field_keeps _ short_str _ _ _ (endpoint_keeps fuel)); unfold annot_good, any; cbn; tauto.
Qed.
Lemma v1_keeps fuel : keeps v1_good (span_v1_decoder fuel).
Proof.
  intros t Ht. apply struct_keeps; [|by apply reset_good]. unfold v1_fields.
  repeat (apply Forall_cons; split; [cbn [snd]|]); [..|apply Forall_nil_2].
  1-3: apply (at_field_keeps _ int64_ok _ _ _ id_keeps); unfold v1_good, any; cbn; tauto.
  1-2: apply (at_field_keeps _ any _ _ _ uint64_keeps); unfold v1_good, any; cbn; tauto.
  - apply (at_field_keeps _ short_str _ _ _ string_keeps); unfold v1_good, any; cbn; tauto.
  - apply (at_field_keeps _ _ _ _ _ (slice_keeps ba_good zero_ba _ fuel zero_ba_good (ba_keeps fuel))); unfold v1_good, any; cbn; tauto.
  - apply (at_field_keeps _ _ _ _ _ (array_keeps annot_good _ fuel (annot_keeps fuel))); unfold v1_good, any; cbn; tauto.
Qed.

Lemma new_bnd r buf : (length buf <= M)%nat -> bnd (new_parser r buf).
Proof. intros H. split; [apply wf_new|done]. Qed.

Lemma parse_v2_good fuel buf src spans : (length buf <= M)%nat -> ParseJsonV2 fuel buf src = XDone (Some spans) -> exists l, spans = map v2_to_span l /\ Forall v2_good l.
Proof.
  intros Hb. unfold ParseJsonV2. destruct (exec fuel (parse_v2_prog fuel) (new_parser src buf)) as [[s b]| |] eqn:E; [|done..]. unfold xmap, v2_result. cbn [fst snd].
  destruct b; [|done]. intros [= <-]. exists (sl_list s). split; [done|]. unfold sl_list. apply Forall_take.
  apply (exec_pall (fun r => Forall v2_good (sl_mem r.1)) fuel (parse_v2_prog fuel) (new_parser src buf) (s, true)); [by apply new_bnd| |exact E].
  apply slice_keeps; [apply zero_v2_good|apply v2_keeps|by constructor].
Qed.

Lemma parse_v1_good fuel buf pool src r pool' : (length buf <= M)%nat -> Forall v1_good pool -> ParseJsonV1 fuel buf pool src = XDone (r, pool') ->
  Forall v1_good pool' /\ match r with Some spans => exists l, spans = map v1_to_span l /\ Forall v1_good l | None => True end.
Proof.
  intros Hb Hp. unfold ParseJsonV1. destruct (exec fuel (parse_v1_prog fuel pool) (new_parser src buf)) as [[s b]| |] eqn:E; [|done..]. unfold xmap, v1_result. cbn [fst snd].
  intros [= <- <-].
  assert (Hs : Forall v1_good (sl_mem s)).
  { apply (exec_pall (fun r => Forall v1_good (sl_mem r.1)) fuel (parse_v1_prog fuel pool) (new_parser src buf) (s, b)); [by apply new_bnd| |exact E].
    apply slice_keeps; [apply zero_v1_good|apply v1_keeps|done]. }
  split; [by apply Forall_take|]. destruct b; [|done]. exists (sl_list s). split; [done|]. unfold sl_list. by apply Forall_take.
Qed.

End bound.
