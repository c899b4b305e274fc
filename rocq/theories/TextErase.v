(** Without the texts, TextModel is JsonModel, CodecModel and HandlerModel (C105). *)
From Verif Require Import Base IdModel SpanModel JsonModel LiteralModel CodecModel JaegerModel HandlerModel TextModel.

Definition erase {A} (r : eres A) : pres A :=
  match r with EOk a st => POk a st | EErr _ => PErr | EPanic => PPanic | EHang => PHang end.

Lemma erase_bind {A B} (r : eres A) (f : A -> pstate -> eres B) p g :
  erase r = p -> (forall a st, p = POk a st -> erase (f a st) = g a st) -> erase (ebind r f) = pbind p g.
Proof. intros <- H. destruct r; cbn [ebind erase pbind]; try done. by apply H. Qed.

Lemma type_string_all t : exists s, type_string (type_value t) = Some s.
Proof. destruct t; eexists; vm_compute; reflexivity. Qed.

Lemma wrong_type_text expected st b : p_buf st !! p_tail st = Some b -> exists m, wrong_type_error expected st = Some m.
Proof.
  intros E. unfold wrong_type_error. rewrite E. destruct (type_string_all expected) as [e ->]. destruct (symbol b) eqn:Eb; try (by eexists).
  all: match goal with |- context [type_value ?t] => destruct (type_string_all t) as [a ->] end; by eexists.
Qed.

Lemma erase_wrong_type {A} expected st b : p_buf st !! p_tail st = Some b -> erase (@e_wrong_type A expected st) = PErr.
Proof. intros E. unfold e_wrong_type. by destruct (wrong_type_text expected st b E) as [m ->]. Qed.

Lemma erase_current st : erase (e_current st) = current st.
Proof. unfold e_current, current. by destruct (p_buf st !! p_tail st). Qed.

Lemma current_inv st b st' : current st = POk b st' -> st' = st /\ p_buf st !! p_tail st = Some b.
Proof. unfold current. destruct (p_buf st !! p_tail st); [|done]. by intros [= -> ->]. Qed.

Section erase.
Context (oth : bytes).

Lemma erase_more st : erase (e_more oth st) = buffer_more st.
Proof.
  unfold e_more, buffer_more. destruct (p_eof st); [done|]. destruct (_ && _); [done|]. destruct (_ <? _)%nat; [done|].
  destruct (src_read _ _) as [[got err] src]. destruct err; [done| |done]. by destruct got.
Qed.

Lemma erase_space fuel : forall st, erase (e_space oth fuel st) = skip_whitespace fuel st.
Proof.
  induction fuel as [|fuel IH]; intros st; cbn [e_space skip_whitespace]; destruct (scan_space _ _ _) as [[t []]|]; try done.
  apply erase_bind; [apply erase_more|]. intros [] st' _. apply IH.
Qed.

Lemma erase_next fuel st : erase (e_next oth fuel st) = next_type fuel st.
Proof.
  apply erase_bind; [apply erase_space|]. intros [] st1 _. apply erase_bind; [apply erase_current|]. intros b st2 _. by destruct (symbol b).
Qed.

Lemma erase_consume1 ty st : erase (e_consume1 ty st) = consume1 ty st.
Proof.
  apply erase_bind; [apply erase_current|]. intros b st1 [-> E]%current_inv. destruct (decide _); [done|]. by apply (erase_wrong_type _ _ b).
Qed.

Lemma erase_consume fuel ty st : erase (e_consume oth fuel ty st) = consume fuel ty st.
Proof. apply erase_bind; [apply erase_space|]. intros [] st1 _. apply erase_consume1. Qed.

Lemma erase_string_loop fuel : forall st n esc has, erase (e_string_loop oth fuel st n esc has) = read_string_loop fuel st n esc has.
Proof.
  induction fuel as [|fuel IH]; intros st n esc has; cbn [e_string_loop read_string_loop]; destruct (scan_string _ _ _ _ _ _) as [n' has'|esc' has'|]; try done.
  - destruct (_ <? _)%nat; [done|]. destruct has'; [|done]. by destruct (decode_in_place _ _ _ _).
  - destruct (_ <? _)%nat; [done|]. destruct has'; [|done]. by destruct (decode_in_place _ _ _ _).
  - apply erase_bind; [apply erase_more|]. intros [] st' _. apply IH.
Qed.

Lemma erase_string fuel st : erase (e_string oth fuel st) = read_string fuel st.
Proof.
  apply erase_bind; [apply erase_current|]. intros b st1 [-> E]%current_inv. destruct (negb _); [by apply (erase_wrong_type _ _ b)|apply erase_string_loop].
Qed.

Lemma erase_number_loop fuel : forall st n, erase (e_number_loop oth fuel st n) = read_number_loop fuel st n.
Proof.
  induction fuel as [|fuel IH]; intros st n; cbn [e_number_loop read_number_loop]; destruct (scan_number _ _ _ _) as [n'| |]; try done.
  - by destruct (_ <? _)%nat.
  - by destruct (_ <? _)%nat.
  - apply erase_bind; [apply erase_more|]. intros [] st' _. apply IH.
Qed.

Lemma erase_number fuel st : erase (e_number oth fuel st) = read_number fuel st.
Proof.
  apply erase_bind; [apply erase_current|]. intros b st1 [-> E]%current_inv. destruct (negb _); [by apply (erase_wrong_type _ _ b)|apply erase_number_loop].
Qed.

Lemma erase_required {A} n (r : eres A) : erase (e_required n r) = erase r.
Proof. by destruct r. Qed.

Lemma erase_require fuel : forall st n, erase (e_require oth fuel st n) = require fuel st n.
Proof.
  induction fuel as [|fuel IH]; intros st n; cbn [e_require require]; destruct (n <=? available st)%nat; try done.
  destruct (_ && _); [done|]. apply erase_bind; [by rewrite erase_required, erase_more|]. intros [] st' _. apply IH.
Qed.

Lemma erase_read_n fuel st ty first n : erase (e_read_n oth fuel st ty first n) = read_n fuel st ty first n.
Proof.
  apply erase_bind; [apply erase_require|]. intros [] st1 _. apply erase_bind; [apply erase_current|]. intros b st2 [-> E]%current_inv.
  destruct (negb _); [by apply (erase_wrong_type _ _ b)|]. by destruct (_ <? _)%nat.
Qed.

Lemma erase_null fuel st : erase (e_null oth fuel st) = read_null fuel st.
Proof. apply erase_read_n. Qed.

Lemma erase_boolean fuel st : erase (e_boolean oth fuel st) = read_boolean fuel st.
Proof. apply erase_bind; [apply erase_current|]. intros b st1 _. destruct (b =? 116); apply erase_read_n. Qed.

Lemma erase_literal fuel st : erase (e_literal oth fuel st) = ReadLiteral fuel st.
Proof.
  apply erase_bind; [apply erase_next|]. intros t st1 _. destruct t; try done; [apply erase_null|apply erase_boolean|apply erase_number|apply erase_string].
Qed.

Lemma erase_skips fuel : forall depth,
  (forall next st, erase (e_skip oth depth fuel next st) = skip depth fuel next st) /\
  (forall st, erase (e_skip_elements oth depth fuel st) = skip_elements depth fuel st) /\
  (forall st, erase (e_skip_members oth depth fuel st) = skip_members depth fuel st).
Proof.
  induction depth as [|depth (IH1 & IH2 & IH3)]; [done|]. split; [|split].
  - intros next st. cbn [e_skip skip]. destruct next; try done.
    + apply erase_bind; [apply erase_null|done].
    + apply erase_bind; [apply erase_consume1|]. intros [] st1 _. apply IH3.
    + apply erase_bind; [apply erase_consume1|]. intros [] st1 _. apply IH2.
    + apply erase_bind; [apply erase_boolean|done].
    + apply erase_bind; [apply erase_number|done].
    + apply erase_bind; [apply erase_string|done].
  - intros st. cbn [e_skip_elements skip_elements]. apply erase_bind; [apply erase_next|]. intros next st1 _. destruct (decide _); [apply erase_consume1|].
    apply erase_bind; [apply IH1|]. intros [] st2 _. apply IH2.
  - intros st. cbn [e_skip_members skip_members]. apply erase_bind; [apply erase_next|]. intros next st1 _. destruct (decide _); [apply erase_consume1|].
    apply erase_bind; [apply erase_string|]. intros tok st2 _. apply erase_bind; [apply erase_next|]. intros next2 st3 _.
    apply erase_bind; [apply IH1|]. intros [] st4 _. apply IH3.
Qed.

Lemma erase_op fuel o st : erase (e_op oth fuel o st) = run_op fuel o st.
Proof.
  assert (Hu : forall (r : eres unit) p, erase r = p -> erase (ebind r (fun _ st => EOk (Token TNull []) st)) = pbind p (fun _ st => POk (Token TNull []) st)).
  { intros r p E. by apply erase_bind. }
  destruct o; cbn [e_op run_op]; try apply Hu.
  - apply erase_bind; [apply erase_next|done].
  - apply erase_consume.
  - apply erase_consume.
  - apply erase_consume.
  - apply erase_consume.
  - apply erase_bind; [apply erase_space|]. intros [] st1 _. apply erase_string.
  - apply erase_bind; [apply erase_space|]. intros [] st1 _. apply erase_number.
  - apply erase_literal.
  - apply erase_bind; [apply erase_next|]. intros next st1 _. apply erase_skips.
Qed.

(** Programs. *)
Inductive same {A} : tprog A -> prog (A * bool) -> Prop :=
  | same_ret a : same (TRet a) (Ret (a, true))
  | same_fail a m : same (TFail a m) (Ret (a, false))
  | same_call o k k' a w : (forall t, same (k t) (k' t)) -> same (TCall o k a w) (Call o k' (a, false))
  | same_out : same TOut OutOfFuel.

Lemma same_exec {A} fuel (p : tprog A) q : same p q -> forall st,
  exec fuel q st = xmap (fun r => (r.1, match r.2 with None => true | Some _ => false end)) (texec oth fuel p st).
Proof.
  induction 1 as [| |o k k' a w _ IH|]; intros st; cbn [exec texec]; try done.
  rewrite <- erase_op. destruct (e_op oth fuel o st); cbn [erase]; try done.
Qed.

Lemma same_then {A B} (p : tprog A) q (f : A -> B) k k' w : same p q -> (forall a, same (k a) (k' a)) -> same (tthen p f k w) (pthen q f k').
Proof. intros H Hk. induction H; cbn [tthen pthen]; try by constructor. apply Hk. Qed.

Definition dsame {T} (d : tdecoder T) (d' : decoder T) : Prop := forall t, same (d t) (d' t).

Lemma field_same {T A} (get : T -> A) put d d' : dsame d d' -> dsame (t_field get put d) (at_field get put d').
Proof. intros H t. apply same_then; [apply H|]. intros a. constructor. Qed.

Lemma uint64_same : dsame t_uint64 uint64_decoder.
Proof. intros t. constructor. intros tok. destruct (digits_value _ _); constructor. Qed.
Lemma string_same : dsame t_string string_decoder.
Proof. intros t. constructor. intros tok. constructor. Qed.
Lemma any_same : dsame t_any any_decoder.
Proof. intros t. constructor. intros tok. constructor. Qed.
Lemma id_same : dsame t_id id_decoder.
Proof.
  intros t. constructor. intros next. destruct (decide _); constructor; intros tok; [constructor|]. destruct (parse_id _); constructor.
Qed.

Lemma map_same fuel : dsame (t_map fuel) (map_decoder fuel).
Proof.
  intros t. constructor. intros _. generalize (∅ : gmap gostring gostring) as result. induction fuel as [|fuel IH]; intros result; cbn [t_map_loop map_loop]; constructor.
  intros next. destruct (decide _); [constructor; intros _; constructor|]. apply same_then; [apply string_same|]. intros key.
  apply same_then; [apply string_same|]. intros value. apply IH.
Qed.

Lemma slice_same {T} ty (zero : T) d d' fuel : dsame d d' -> dsame (t_slice ty zero d fuel) (slice_decoder zero d' fuel).
Proof.
  intros H t. constructor. intros _. generalize 0%nat as idx. revert t. induction fuel as [|fuel IH]; intros t idx; cbn [t_slice_loop slice_loop]; constructor.
  intros next. destruct (decide _); [constructor; intros _; constructor|]. cbv zeta. apply same_then; [apply H|]. intros el. apply IH.
Qed.

Lemma array_same {T} pre ty (d : tdecoder T) d' fuel : dsame d d' -> dsame (t_array pre ty d fuel) (array_decoder d' fuel).
Proof.
  intros H t. constructor. intros _. generalize 0%nat as idx. revert t. induction fuel as [|fuel IH]; intros t idx; cbn [t_array_loop array_loop]; constructor.
  intros next. destruct (decide _); [constructor; intros _; constructor|]. destruct (t !! idx) as [el|]; [apply same_then; [apply H|]; intros el'; apply IH|].
  constructor. intros _. apply IH.
Qed.

Lemma struct_same {T} (fields : list (gostring * tdecoder T)) fields' fuel :
  Forall2 (fun f f' => f.1 = f'.1 /\ dsame f.2 f'.2) fields fields' -> dsame (t_struct fields fuel) (struct_decoder fields' fuel).
Proof.
  intros H t. constructor. intros _. revert t. induction fuel as [|fuel IH]; intros t; cbn [t_struct_loop struct_loop]; constructor.
  intros next. destruct (decide _); [constructor; intros _; constructor|]. constructor. intros key.
  assert (Hl : match t_lookup fields (t_val key), lookup_field fields' (t_val key) with Some d, Some d' => dsame d d' | None, None => True | _, _ => False end).
  { clear -H. induction H as [|[n d] [n' d'] fields fields' [E Hd] _ IH]; cbn [t_lookup lookup_field]; [done|]. cbn in E. subst n'. by destruct (decide (n = t_val key)). }
  destruct (t_lookup fields (t_val key)) as [d|], (lookup_field fields' (t_val key)) as [d'|]; try done.
  - apply same_then; [apply Hl|]. intros t'. apply IH.
  - constructor. intros _. apply IH.
Qed.

Lemma endpoint_same fuel : dsame (t_endpoint fuel) (endpoint_decoder fuel).
Proof. apply struct_same. repeat constructor. Qed.

Ltac fields := repeat (constructor; [split; [reflexivity|cbn [snd]; apply field_same;
  first [apply id_same|apply uint64_same|apply string_same|apply any_same|apply map_same|apply endpoint_same|idtac]]|]); try match goal with |- Forall2 _ [] [] => constructor end.

Lemma v2_same fuel : same (t_v2_prog fuel) (parse_v2_prog fuel).
Proof. apply slice_same. intros t. apply struct_same. unfold t_v2_fields, v2_fields. fields. Qed.

Lemma v1_same fuel pool : same (t_v1_prog fuel pool) (parse_v1_prog fuel pool).
Proof.
  apply slice_same. intros t. apply struct_same. unfold t_v1_fields, v1_fields. fields.
  - apply slice_same. apply struct_same. unfold t_ba_fields, ba_fields. fields.
  - apply array_same. apply struct_same. unfold t_annot_fields, annot_fields. fields.
Qed.

Definition left_of {A B} (r : A + B) : option A := match r with inl a => Some a | inr _ => None end.

Lemma v2_texts fuel buf input : xmap left_of (TextJsonV2 oth fuel buf input) = ParseJsonV2 fuel buf input.
Proof.
  unfold TextJsonV2, ParseJsonV2. rewrite (same_exec fuel _ _ (v2_same fuel)). destruct (texec _ _ _ _) as [[s [m|]]| |]; done.
Qed.

Lemma v1_texts fuel buf pool input : xmap (fun r => (left_of r.1, r.2)) (TextJsonV1 oth fuel buf pool input) = ParseJsonV1 fuel buf pool input.
Proof.
  unfold TextJsonV1, ParseJsonV1. rewrite (same_exec fuel _ _ (v1_same fuel pool)). destruct (texec _ _ _ _) as [[s [m|]]| |]; done.
Qed.
End erase.

Definition visible (r : reply) : list action := map Put (y_puts r) ++ [Status (y_status r)].

Lemma xmap_xmap {A B C} (f : A -> B) (g : B -> C) r : xmap g (xmap f r) = xmap (fun a => g (f a)) r.
Proof. by destruct r. Qed.

Lemma handle_texts lib env q : xmap visible (t_handle lib env q) = handle env q.
Proof.
  assert (Hs : forall body, xmap visible (t_handle_spans lib env q body) = handle_spans env q body).
  { intros body. assert (Hp : forall ep, xmap visible (xmap t_answer (t_parser lib env ep body)) = xmap answer (parse_spans env ep body)).
    { intros ep. assert (E : xmap left_of (t_parser lib env ep body) = parser env ep body).
      { destruct ep; cbn [t_parser parser].
        - rewrite <- (v1_texts (x_read lib)). by destruct (TextJsonV1 _ _ _ _ _).
        - apply v2_texts.
        - by destruct (ParseJaeger _). }
      unfold parse_spans. rewrite <- E. by destruct (t_parser lib env ep body) as [[spans|m]| |]. }
    unfold t_handle_spans, handle_spans. destruct (q_endpoint q); try apply Hp. destruct (contains _ _); [apply Hp|done]. }
  unfold t_handle, handle. destruct (decide _); [|apply Hs]. destruct (n_gunzip env (q_body q)); [apply Hs|done].
Qed.
