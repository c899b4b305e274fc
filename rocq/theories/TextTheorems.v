(** Lemmas for C105. *)
From Verif Require Import Base IdModel SpanModel JsonModel LiteralModel CodecModel JaegerModel HandlerModel JsonPure JsonSpec ParseSpec JsonProofs JsonSim HandlerSpec
  TextModel TextErase TextPure TextSim TextSpec TextCauses.
From Coq Require String.

(* ---------- the texts of the two endpoints ---------- *)

Section endpoints.
Context (fin body : bytes).

Definition in_list (l : list bytes) (m : bytes) : Prop := exists c m', c ∈ l /\ m = c ++ m' /\ cause fin body m'.
Ltac find := repeat first [apply elem_of_list_here|apply elem_of_list_further].
Ltac one := let m := fresh "m" in let Hm := fresh "Hm" in intros m Hm; eexists _, m; (split; [|split; [reflexivity|exact Hm]]); vm_compute; find.

Ltac this s := let m := fresh "m" in let Hm := fresh "Hm" in intros m Hm; exists (str s), m; (split; [vm_compute; find|split; [reflexivity|exact Hm]]).

Ltac fields := repeat match goal with |- Forall _ (_ :: _) => constructor; [cbn [snd]; apply field_errs;
  first [apply id_errs; one|apply uint64_errs; one|apply string_errs; one|apply any_errs; one|apply map_errs; one|apply endpoint_errs; one|idtac]|]
  | |- Forall _ [] => constructor end.

Lemma span_v2_errs fuel : derrs fin body (in_list (names v2_places)) (t_span_v2 fuel).
Proof. intros t. apply struct_errs; [|one|one]. unfold t_v2_fields. fields. Qed.

(** Around the places of an element. *)
Lemma around (outer : String.string) l l' : (forall x, x ∈ l -> str (String.append outer x) ∈ l') ->
  forall m, in_list (names l) m -> in_list l' (str outer ++ m).
Proof.
  intros H m (c & m' & Hc & -> & Hm). unfold names in Hc. apply elem_of_list_fmap in Hc as (x & -> & Hx).
  exists (str (String.append outer x)), m'. split; [by apply H|]. split; [|done]. apply app_str.
Qed.

Ltac each := let x := fresh "x" in let Hx := fresh "Hx" in intros x Hx; cbv [v2_places v1_places binary_places annotation_places inside map app String.append] in Hx; rewrite !elem_of_cons in Hx;
  repeat (destruct Hx as [->|Hx]; [vm_compute; find|]); by apply elem_of_nil in Hx.

Lemma v2_errs fuel : errs fin body (in_list (contexts EV2)) None (t_v2_prog fuel).
Proof.
  apply (slice_errs fin body _ (in_list (names v2_places)) (text_of "codec.spanV2")); [apply span_v2_errs| |this (text_of "decoding []codec.spanV2: ")|one].
  apply (around (text_of "decoding element of type codec.spanV2: ")). each.
Qed.

Lemma span_v1_errs fuel : derrs fin body (in_list (names v1_places)) (t_span_v1 fuel).
Proof.
  intros t. apply struct_errs; [|one|one]. unfold t_v1_fields. fields.
  - apply (slice_errs fin body _ (in_list (names binary_places)) (text_of "codec.binaryAnnotationV1")); [| |this (text_of "decoding []codec.binaryAnnotationV1: ")|one].
    + apply struct_errs; [|one|one]. unfold t_ba_fields. fields.
    + apply (around (text_of "decoding element of type codec.binaryAnnotationV1: ")). each.
  - apply (array_errs fin body _ (in_list (names annotation_places)) (text_of "[4]") (text_of "codec.annotationV1"));
      [| |this (text_of "decoding [4]codec.annotationV1: ")|this (text_of "skipping out of range array element of type codec.annotationV1: ")|one].
    + apply struct_errs; [|one|one]. unfold t_annot_fields. fields.
    + apply (around (text_of "decoding array element of type codec.annotationV1: ")). each.
Qed.

Lemma v1_errs fuel pool : errs fin body (in_list (contexts EV1)) None (t_v1_prog fuel pool).
Proof.
  apply (slice_errs fin body _ (in_list (names v1_places)) (text_of "codec.spanV1")); [apply span_v1_errs| |this (text_of "decoding []codec.spanV1: ")|one].
  apply (around (text_of "decoding element of type codec.spanV1: ")). each.
Qed.
End endpoints.

(* ---------- decoders only put something before a text ---------- *)

Ltac bef := first [apply before_bare|apply before_message].
Definition dplain {T} (d : tdecoder T) : Prop := forall t, plain (d t).

Lemma field_plain {T A} (get : T -> A) put d : dplain d -> dplain (t_field get put d).
Proof. intros H t. apply plain_then; [apply H|bef|done]. Qed.
Lemma uint64_plain : dplain t_uint64.
Proof. intros t. split; [bef|]. intros tok. by destruct (digits_value _ _). Qed.
Lemma string_plain : dplain t_string.
Proof. intros t. split; [bef|done]. Qed.
Lemma any_plain : dplain t_any.
Proof. intros t. split; [bef|done]. Qed.
Lemma id_plain : dplain t_id.
Proof. intros t. split; [bef|]. intros next. destruct (decide _); (split; [bef|]); [done|]. intros tok. by destruct (parse_id _). Qed.
Lemma map_plain fuel : dplain (t_map fuel).
Proof.
  intros t. split; [bef|]. intros _. generalize (∅ : gmap gostring gostring) as result. induction fuel as [|fuel IH]; intros result; [done|].
  split; [bef|]. intros next. destruct (decide _). { split; [bef|done]. }
  apply plain_then; [apply string_plain|bef|]. intros key. apply plain_then; [apply string_plain|bef|]. intros value. apply IH.
Qed.
Lemma slice_plain {T} s (zero : T) d fuel : dplain d -> dplain (t_slice s zero d fuel).
Proof.
  intros H t. split; [bef|]. intros _. generalize 0%nat as idx. revert t. induction fuel as [|fuel IH]; intros t idx; [done|].
  split; [bef|]. intros next. destruct (decide _). { split; [bef|done]. } cbv zeta. apply plain_then; [apply H|bef|]. intros el. apply IH.
Qed.
Lemma array_plain {T} pre s (d : tdecoder T) fuel : dplain d -> dplain (t_array pre s d fuel).
Proof.
  intros H t. split; [bef|]. intros _. generalize 0%nat as idx. revert t. induction fuel as [|fuel IH]; intros t idx; [done|].
  cbn [t_array_loop]. split; [bef|]. intros next. destruct (decide _). { split; [bef|done]. }
  destruct (t !! idx); [apply plain_then; [apply H|bef|]; intros el; apply IH|]. split; [bef|]. intros _. apply IH.
Qed.
Lemma struct_plain {T} (fields : list (gostring * tdecoder T)) fuel : Forall (fun f => dplain f.2) fields -> dplain (t_struct fields fuel).
Proof.
  intros Hf t. split; [bef|]. intros _. revert t. induction fuel as [|fuel IH]; intros t; [done|].
  cbn [t_struct_loop]. split; [bef|]. intros next. destruct (decide _). { split; [bef|done]. } split; [bef|]. intros key.
  assert (Hl : forall d, t_lookup fields (t_val key) = Some d -> dplain d).
  { clear -Hf. induction Hf as [|[n d] fields H _ IH]; cbn [t_lookup]; [done|]. destruct (decide _); [intros d' [= <-]; exact H|exact IH]. }
  destruct (t_lookup fields (t_val key)) as [d|]; [apply plain_then; [by apply Hl|bef|]; intros t'; apply IH|]. split; [bef|]. intros _. apply IH.
Qed.
Lemma endpoint_plain fuel : dplain (t_endpoint fuel).
Proof. apply struct_plain. constructor; [apply string_plain|constructor]. Qed.

Ltac fields_plain := repeat match goal with |- Forall _ (_ :: _) => constructor; [cbn [snd]; apply field_plain;
  first [apply id_plain|apply uint64_plain|apply string_plain|apply any_plain|apply map_plain|apply endpoint_plain|idtac]|]
  | |- Forall _ [] => constructor end.

Lemma v2_plain fuel : plain (t_v2_prog fuel).
Proof. apply slice_plain. intros t. apply struct_plain. unfold t_v2_fields. fields_plain. Qed.
Lemma v1_plain fuel pool : plain (t_v1_prog fuel pool).
Proof.
  apply slice_plain. intros t. apply struct_plain. unfold t_v1_fields. fields_plain.
  - apply slice_plain, struct_plain. unfold t_ba_fields. fields_plain.
  - apply array_plain, struct_plain. unfold t_annot_fields. fields_plain.
Qed.

(* ---------- more bytes ---------- *)

Section more.
Context (fin fin' : bytes) (x : bytes).

Definition grows {A} (r r' : wres A) : Prop :=
  match r with WOk a l => r' = WOk a (l ++ x) | WErr m => r' = WErr m | _ => True end.
Lemma grows_bind {A B} (r r' : wres A) (f f' : A -> bytes -> wres B) : grows r r' -> (forall a l, grows (f a l) (f' a (l ++ x))) -> grows (wbind r f) (wbind r' f').
Proof. destruct r; cbn [grows wbind]; try done; intros -> H; cbn [wbind]; [apply H|done]. Qed.

Lemma drop_space_more l : drop_space l <> [] -> drop_space (l ++ x) = drop_space l ++ x.
Proof. induction l as [|c l IH]; cbn [drop_space app]; [done|]. destruct (is_space c); auto. Qed.
Lemma space_grows l : grows (w_space fin l) (w_space fin' (l ++ x)).
Proof. unfold w_space. pose proof (drop_space_more l) as H. destruct (drop_space l) eqn:E; [done|]. by rewrite H. Qed.
Lemma current_grows l : grows (w_current l) (w_current (l ++ x)).
Proof. by destruct l. Qed.
Lemma next_grows l : grows (w_next fin l) (w_next fin' (l ++ x)).
Proof. apply grows_bind; [apply space_grows|]. intros _ l1. apply grows_bind; [apply current_grows|]. intros b l2. by destruct (symbol b). Qed.
Lemma consume1_grows t l : grows (w_consume1 t l) (w_consume1 t (l ++ x)).
Proof. destruct l as [|b l]; [done|]. cbn [w_consume1 app]. by destruct (decide _). Qed.
Lemma consume_grows t l : grows (w_consume fin t l) (w_consume fin' t (l ++ x)).
Proof. apply grows_bind; [apply space_grows|]. intros _ l1. apply consume1_grows. Qed.

Lemma close_more l : forall n esc has r, close l n esc has = Some r -> close (l ++ x) n esc has = Some r.
Proof. induction l as [|c l IH]; intros n esc has r; cbn [close app]; [done|]. destruct esc; [apply IH|]. destruct (_ =? _); [apply IH|]. destruct (_ =? _); [done|apply IH]. Qed.
Lemma number_end_more l : forall n r, number_end l n = Some r -> number_end (l ++ x) n = Some r.
Proof. induction l as [|c l IH]; intros n r; cbn [number_end app]; [done|]. destruct (is_number_char c); [apply IH|done]. Qed.

Lemma string_grows cap l : grows (w_string fin cap l) (w_string fin' cap (l ++ x)).
Proof.
  destruct l as [|c l]; [done|]. cbn [w_string app]. destruct (negb _); [done|]. unfold w_string_body.
  destruct (close l 0 false false) as [[n has]|] eqn:E; [|by destruct (_ <=? _)%nat]. rewrite (close_more _ _ _ _ _ E). pose proof (close_bound _ _ _ _ _ _ E).
  destruct (n <? cap)%nat; [|done]. rewrite take_app_le, drop_app_le by lia. destruct has; [|done]. by destruct (unescape _).
Qed.
Lemma number_grows cap l : grows (w_number fin cap l) (w_number fin' cap (l ++ x)).
Proof.
  destruct l as [|c l]; [done|]. cbn [w_number app]. destruct (negb _); [done|].
  destruct (number_end l 1) as [n|] eqn:E; [|by destruct (_ <=? _)%nat]. rewrite (number_end_more _ _ _ E). pose proof (number_end_bound _ _ _ E).
  destruct (n <? cap)%nat; [|done]. rewrite (app_comm_cons l x c), take_app_le, drop_app_le by (cbn [length]; lia). done.
Qed.
Lemma read_n_grows l ty first n : grows (w_read_n fin l ty first n) (w_read_n fin' (l ++ x) ty first n).
Proof.
  unfold w_read_n. destruct (Nat.leb_spec n (length l)); [|done]. rewrite app_length. replace (n <=? length l + length x)%nat with true by lia.
  destruct l as [|c l]; [done|]. rewrite take_app_le, drop_app_le by (cbn [length] in *; lia). cbn [app]. by destruct (negb _).
Qed.
Lemma boolean_grows l : grows (w_boolean fin l) (w_boolean fin' (l ++ x)).
Proof. apply grows_bind; [apply current_grows|]. intros b l1. destruct (b =? 116); apply read_n_grows. Qed.
Lemma literal_grows cap l : grows (w_literal fin cap l) (w_literal fin' cap (l ++ x)).
Proof.
  apply grows_bind; [apply next_grows|]. intros t l1. destruct t; try done; [apply read_n_grows|apply boolean_grows|apply number_grows|apply string_grows].
Qed.
Lemma skips_grows cap : forall depth,
  (forall t l, grows (w_skip fin depth cap t l) (w_skip fin' depth cap t (l ++ x))) /\
  (forall l, grows (w_skip_elements fin depth cap l) (w_skip_elements fin' depth cap (l ++ x))) /\
  (forall l, grows (w_skip_members fin depth cap l) (w_skip_members fin' depth cap (l ++ x))).
Proof.
  induction depth as [|depth (IH1 & IH2 & IH3)]; [done|]. split; [|split].
  - intros t l. cbn [w_skip]. destruct t; try done.
    + apply grows_bind; [apply read_n_grows|done].
    + apply grows_bind; [apply consume1_grows|]. intros _ l1. apply IH3.
    + apply grows_bind; [apply consume1_grows|]. intros _ l1. apply IH2.
    + apply grows_bind; [apply boolean_grows|done].
    + apply grows_bind; [apply number_grows|done].
    + apply grows_bind; [apply string_grows|done].
  - intros l. cbn [w_skip_elements]. apply grows_bind; [apply next_grows|]. intros t l1. destruct (decide _); [apply consume1_grows|].
    apply grows_bind; [apply IH1|]. intros _ l2. apply IH2.
  - intros l. cbn [w_skip_members]. apply grows_bind; [apply next_grows|]. intros t l1. destruct (decide _); [apply consume1_grows|].
    apply grows_bind; [apply string_grows|]. intros _ l2. apply grows_bind; [apply next_grows|]. intros t2 l3.
    apply grows_bind; [apply IH1|]. intros _ l4. apply IH3.
Qed.
Lemma op_grows depth cap o l : grows (w_op fin depth cap o l) (w_op fin' depth cap o (l ++ x)).
Proof.
  assert (Hu : forall r r' : wres unit, grows r r' -> grows (wbind r (fun _ l => WOk (Token TNull []) l)) (wbind r' (fun _ l => WOk (Token TNull []) l))).
  { intros r r' H. by apply grows_bind. }
  destruct o; cbn [w_op]; try (apply Hu, consume_grows).
  - apply grows_bind; [apply next_grows|done].
  - apply grows_bind; [apply space_grows|]. intros _ l1. apply string_grows.
  - apply grows_bind; [apply space_grows|]. intros _ l1. apply number_grows.
  - apply literal_grows.
  - apply Hu. apply grows_bind; [apply next_grows|]. intros t l1. apply skips_grows.
Qed.
Lemma exec_grows {A} depth cap (p : tprog A) : forall l,
  match w_exec fin depth cap p l with
  | VDone => w_exec fin' depth cap p (l ++ x) = VDone
  | VErr m => w_exec fin' depth cap p (l ++ x) = VErr m
  | _ => True
  end.
Proof.
  induction p as [a|a m|o k IH a w|]; intros l; cbn [w_exec]; try done.
  pose proof (op_grows depth cap o l) as H. destruct (w_op fin depth cap o l); cbn [grows] in H; try done; rewrite H; [apply IH|done].
Qed.
End more.

(* ---------- other memory ---------- *)

(** The programs make the same calls and the same of their errors; [E] relates the results. *)
Inductive alike {A} (E : A -> A -> Prop) : tprog A -> tprog A -> Prop :=
  | alike_ret a b : E a b -> alike E (TRet a) (TRet b)
  | alike_fail a b m : alike E (TFail a m) (TFail b m)
  | alike_call o k k' a b w : (forall t, alike E (k t) (k' t)) -> alike E (TCall o k a w) (TCall o k' b w)
  | alike_out : alike E TOut TOut.

Lemma alike_exec {A} (E : A -> A -> Prop) fin depth cap p q : alike E p q -> forall l, w_exec fin depth cap p l = w_exec fin depth cap q l.
Proof. induction 1 as [| |o k k' a b w _ IH|]; intros l; cbn [w_exec]; try done. destruct (w_op _ _ _ _ _); auto. Qed.

Lemma alike_then {A B} (E : A -> A -> Prop) (E' : B -> B -> Prop) p q f f' k k' w : alike E p q -> (forall a b, E a b -> alike E' (k a) (k' b)) ->
  alike E' (tthen p f k w) (tthen q f' k' w).
Proof. intros H Hk. induction H; cbn [tthen]; try (by constructor). by apply Hk. Qed.

Definition free {A} (a b : A) : Prop := True.
Definition dalike {T} (E : T -> T -> Prop) (d : tdecoder T) : Prop := forall t u, E t u -> alike E (d t) (d u).

Lemma field_alike {T A} (E : T -> T -> Prop) (F : A -> A -> Prop) (get : T -> A) put d : dalike F d -> (forall t u, E t u -> F (get t) (get u)) ->
  (forall t u a b, E t u -> F a b -> E (put a t) (put b u)) -> dalike E (t_field get put d).
Proof. intros H H1 H2 t u Htu. eapply alike_then; [by apply H, H1|]. intros a b Hab. constructor. by apply H2. Qed.
Lemma uint64_alike : dalike free t_uint64.
Proof. intros t u _. constructor. intros tok. by destruct (digits_value _ _); constructor. Qed.
Lemma string_alike : dalike free t_string.
Proof. intros t u _. constructor. intros tok. by constructor. Qed.
Lemma any_alike : dalike free t_any.
Proof. intros t u _. constructor. intros tok. by constructor. Qed.
Lemma id_alike : dalike free t_id.
Proof. intros t u _. constructor. intros next. destruct (decide _); constructor; intros tok; [by constructor|]. by destruct (parse_id _); constructor. Qed.
Lemma slice_alike {T} s (zero : T) d fuel : dalike free d -> dalike free (t_slice s zero d fuel).
Proof.
  intros H t u _. constructor. intros _. generalize 0%nat as idx. revert t u. induction fuel as [|fuel IH]; intros t u idx; cbn [t_slice_loop]; constructor.
  intros next. destruct (decide _); [constructor; intros _; by constructor|]. cbv zeta. eapply alike_then; [by apply H|]. intros a b _. apply IH.
Qed.
Definition same_length {T} (a b : list T) : Prop := length a = length b.
Lemma array_alike {T} pre s (d : tdecoder T) fuel : dalike free d -> dalike same_length (t_array pre s d fuel).
Proof.
  intros H t u Hl. constructor. intros _. generalize 0%nat as idx. revert t u Hl. induction fuel as [|fuel IH]; intros t u Hl idx; cbn [t_array_loop]; constructor.
  intros next. destruct (decide _); [constructor; intros _; by constructor|]. unfold same_length in *. destruct (t !! idx) eqn:Et, (u !! idx) eqn:Eu.
  - eapply alike_then; [by apply H|]. intros a b _. apply IH. by rewrite !insert_length.
  - apply lookup_lt_Some in Et. apply lookup_ge_None in Eu. lia.
  - apply lookup_lt_Some in Eu. apply lookup_ge_None in Et. lia.
  - constructor. intros _. by apply IH.
Qed.
Lemma struct_alike {T} (E : T -> T -> Prop) (fields : list (gostring * tdecoder T)) fuel : Forall (fun f => dalike E f.2) fields -> dalike E (t_struct fields fuel).
Proof.
  intros Hf t u Htu. constructor. intros _. revert t u Htu. induction fuel as [|fuel IH]; intros t u Htu; cbn [t_struct_loop]; constructor.
  intros next. destruct (decide _); [constructor; intros _; by constructor|]. constructor. intros key.
  assert (Hl : forall d, t_lookup fields (t_val key) = Some d -> dalike E d).
  { clear -Hf. induction Hf as [|[n d] fields H _ IH]; cbn [t_lookup]; [done|]. destruct (decide _); [intros d' [= <-]; exact H|exact IH]. }
  destruct (t_lookup fields (t_val key)) as [d|]; [eapply alike_then; [by apply Hl|]; intros a b Hab; by apply IH|]. constructor. intros _. by apply IH.
Qed.
Lemma endpoint_alike fuel : dalike free (t_endpoint fuel).
Proof. apply struct_alike. constructor; [apply string_alike|constructor]. Qed.

Definition same_slots (a b : spanV1) : Prop := length (v1_annots a) = length (v1_annots b).
Ltac fields_alike := repeat match goal with |- Forall _ (_ :: _) => constructor; [cbn [snd]; eapply field_alike;
  [first [apply id_alike|apply uint64_alike|apply string_alike|apply any_alike|apply endpoint_alike|idtac]|done|done]|]
  | |- Forall _ [] => constructor end.

Lemma v1_alike fuel pool pool' : alike free (t_v1_prog fuel pool) (t_v1_prog fuel pool').
Proof.
  assert (Hs : forall t u, alike free (t_slice (str "codec.spanV1") zero_v1 (t_span_v1 fuel) fuel t) (t_slice (str "codec.spanV1") zero_v1 (t_span_v1 fuel) fuel u)); [|apply Hs].
  intros t u. apply slice_alike; [|done]. clear t u. intros t u _. unfold t_span_v1.
  assert (Hst : alike same_slots (t_struct (t_v1_fields fuel) fuel (reset_v1 t)) (t_struct (t_v1_fields fuel) fuel (reset_v1 u))).
  { apply struct_alike; [|done]. unfold t_v1_fields. repeat match goal with |- Forall _ (_ :: _) => constructor | |- Forall _ [] => constructor end; cbn [snd].
    - eapply field_alike; [apply id_alike|done|done].
    - eapply field_alike; [apply id_alike|done|done].
    - eapply field_alike; [apply id_alike|done|done].
    - eapply field_alike; [apply uint64_alike|done|done].
    - eapply field_alike; [apply uint64_alike|done|done].
    - eapply field_alike; [apply string_alike|done|done].
    - eapply field_alike; [apply slice_alike, struct_alike; unfold t_ba_fields; fields_alike|done|done].
    - eapply field_alike; [apply array_alike, struct_alike; unfold t_annot_fields; fields_alike|done|]. intros a b c d _ H. exact H. }
  clear -Hst. induction Hst; by constructor.
Qed.
