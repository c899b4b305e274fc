(** Without the counts, the counting functions are those of the model. *)
From Verif Require Import Base SpanModel JsonModel CodecModel CostModel.

Lemma cbind_erase {A B} (r : pres A * nat) (p : pres A) (f : A -> pstate -> pres B * nat) g :
  r.1 = p -> (forall a st, (f a st).1 = g a st) -> (cbind r f).1 = pbind p g.
Proof. intros <- H. unfold cbind. destruct r.1; cbn; auto. Qed.
Lemma work_erase {A} n (r : pres A * nat) : (work n r).1 = r.1.
Proof. done. Qed.

Lemma buffer_more_erase st : (c_buffer_more st).1 = buffer_more st.
Proof.
  unfold c_buffer_more, buffer_more. destruct (p_eof st); [done|]. destruct (_ && _); [done|]. destruct (0 <? p_tail st)%nat.
  all: destruct (_ <? _)%nat; [done|]; destruct (src_read _ _) as [[got []] src]; try done; by destruct got.
Qed.
Lemma scan_space_erase : forall k buf t, (c_scan_space k buf t).1 = scan_space k buf t.
Proof. induction k as [|k IH]; intros buf t; cbn [c_scan_space scan_space]; [done|]. destruct (buf !! t); [|done]. destruct (is_space _); [apply IH|done]. Qed.
Lemma skip_whitespace_erase : forall fuel st, (c_skip_whitespace fuel st).1 = skip_whitespace fuel st.
Proof.
  induction fuel as [|fuel IH]; intros st; cbn [c_skip_whitespace skip_whitespace]; rewrite work_erase, scan_space_erase;
    destruct (scan_space _ _ _) as [[t []]|]; try done.
  apply cbind_erase; [apply buffer_more_erase|]. intros. apply IH.
Qed.
Lemma next_type_erase fuel st : (c_next_type fuel st).1 = next_type fuel st.
Proof. apply cbind_erase; [apply skip_whitespace_erase|]. intros. by apply cbind_erase. Qed.
Lemma consume1_erase ty st : (c_consume1 ty st).1 = consume1 ty st.
Proof. by apply cbind_erase. Qed.
Lemma consume_erase fuel ty st : (c_consume fuel ty st).1 = consume fuel ty st.
Proof. apply cbind_erase; [apply skip_whitespace_erase|]. intros. apply consume1_erase. Qed.

Lemma decode_erase : forall fuel mem idx w, (c_decode_in_place fuel mem idx w).1 = decode_in_place fuel mem idx w.
Proof.
  induction fuel as [|fuel IH]; intros mem idx w; cbn [c_decode_in_place decode_in_place]; destruct (_ <=? _)%nat; try done.
  destruct (mem !! idx) as [ch|]; [|done]. destruct (negb _); [destruct (_ <? _)%nat; [apply IH|done]|].
  destruct (_ <=? _)%nat; [done|]. destruct (mem !! (idx + 1)%nat) as [ch'|]; [|done].
  destruct (negb _); [destruct (_ <? _)%nat; [apply IH|done]|].
  destruct (_ <=? _)%nat; [done|].
  destruct (mem !! (idx + 2)%nat), (mem !! (idx + 3)%nat), (mem !! (idx + 4)%nat), (mem !! (idx + 5)%nat); try done.
  destruct (hex_digit _); [|done]. destruct (hex_digit _); [|done]. destruct (hex_digit _); [|done]. destruct (hex_digit _); [|done].
  destruct (_ <? _)%nat; [done|]. apply IH.
Qed.
Lemma scan_string_erase : forall k buf t n esc has, (c_scan_string k buf t n esc has).1 = scan_string k buf t n esc has.
Proof.
  induction k as [|k IH]; intros buf t n esc has; cbn [c_scan_string scan_string]; [done|]. destruct (buf !! _); [|done].
  destruct esc; [apply IH|]. destruct (_ =? _); [apply IH|]. destruct (_ =? _); [done|apply IH].
Qed.
Lemma string_loop_erase : forall fuel st n esc has, (c_read_string_loop fuel st n esc has).1 = read_string_loop fuel st n esc has.
Proof.
  induction fuel as [|fuel IH]; intros st n esc has; cbn [c_read_string_loop read_string_loop]; rewrite work_erase, scan_string_erase;
    destruct (scan_string _ _ _ _ _ _) as [n' []|esc' has'|]; try done.
  1,3: destruct (_ <? _)%nat; [done|]; cbn [fst]; rewrite decode_erase; done.
  1,2: by destruct (_ <? _)%nat.
  apply cbind_erase; [apply buffer_more_erase|]. intros. apply IH.
Qed.
Lemma read_string_erase fuel st : (c_read_string fuel st).1 = read_string fuel st.
Proof. apply cbind_erase; [done|]. intros. destruct (negb _); [done|apply string_loop_erase]. Qed.
Lemma ReadString_erase fuel st : (c_ReadString fuel st).1 = ReadString fuel st.
Proof. apply cbind_erase; [apply skip_whitespace_erase|]. intros. apply read_string_erase. Qed.

Lemma scan_number_erase : forall k buf t n, (c_scan_number k buf t n).1 = scan_number k buf t n.
Proof. induction k as [|k IH]; intros buf t n; cbn [c_scan_number scan_number]; [done|]. destruct (buf !! _); [|done]. destruct (is_number_char _); [apply IH|done]. Qed.
Lemma number_loop_erase : forall fuel st n, (c_read_number_loop fuel st n).1 = read_number_loop fuel st n.
Proof.
  induction fuel as [|fuel IH]; intros st n; cbn [c_read_number_loop read_number_loop]; rewrite work_erase, scan_number_erase;
    destruct (scan_number _ _ _ _) as [n'| |]; try done.
  1,2: by destruct (_ <? _)%nat.
  apply cbind_erase; [apply buffer_more_erase|]. intros. apply IH.
Qed.
Lemma read_number_erase fuel st : (c_read_number fuel st).1 = read_number fuel st.
Proof. apply cbind_erase; [done|]. intros. destruct (negb _); [done|apply number_loop_erase]. Qed.
Lemma ReadNumber_erase fuel st : (c_ReadNumber fuel st).1 = ReadNumber fuel st.
Proof. apply cbind_erase; [apply skip_whitespace_erase|]. intros. apply read_number_erase. Qed.

Lemma require_erase n : forall fuel st, (c_require fuel st n).1 = require fuel st n.
Proof.
  induction fuel as [|fuel IH]; intros st; cbn [c_require require]; destruct (_ <=? _)%nat; try done.
  destruct (_ && _); [done|]. destruct (_ <? _)%nat; rewrite work_erase; (apply cbind_erase; [apply buffer_more_erase|]; intros; apply IH).
Qed.
Lemma read_n_erase fuel st ty first n : (c_read_n fuel st ty first n).1 = read_n fuel st ty first n.
Proof. apply cbind_erase; [apply require_erase|]. intros. by apply cbind_erase. Qed.
Lemma boolean_erase fuel st : (c_read_boolean fuel st).1 = read_boolean fuel st.
Proof. apply cbind_erase; [done|]. intros. destruct (_ =? _); apply read_n_erase. Qed.
Lemma literal_erase fuel st : (c_ReadLiteral fuel st).1 = ReadLiteral fuel st.
Proof.
  apply cbind_erase; [apply next_type_erase|]. intros ty st'. destruct ty; try done.
  - apply read_n_erase. - apply boolean_erase. - apply read_number_erase. - apply read_string_erase.
Qed.

Lemma skips_erase fuel : forall depth,
  (forall next st, (c_skip depth fuel next st).1 = skip depth fuel next st) /\
  (forall st, (c_skip_elements depth fuel st).1 = skip_elements depth fuel st) /\
  (forall st, (c_skip_members depth fuel st).1 = skip_members depth fuel st).
Proof.
  induction depth as [|depth (IH1 & IH2 & IH3)]; [done|]. split; [|split].
  - intros next st. cbn [c_skip skip]. destruct next; try done.
    all: apply cbind_erase; auto using read_n_erase, boolean_erase, read_number_erase, read_string_erase, consume1_erase.
    apply read_n_erase.
  - intros st. cbn [c_skip_elements skip_elements]. apply cbind_erase; [apply next_type_erase|]. intros ty st'.
    destruct (decide _); [apply consume1_erase|]. apply cbind_erase; auto.
  - intros st. cbn [c_skip_members skip_members]. apply cbind_erase; [apply next_type_erase|]. intros ty st'.
    destruct (decide _); [apply consume1_erase|]. apply cbind_erase; [apply read_string_erase|]. intros.
    apply cbind_erase; [apply next_type_erase|]. intros. apply cbind_erase; auto.
Qed.
Lemma pbind_ret {A} (p : pres A) : pbind p (fun a st => POk a st) = p.
Proof. by destruct p. Qed.
Lemma op_erase fuel o st : (c_run_op fuel o st).1 = run_op fuel o st.
Proof.
  destruct o; cbn [c_run_op run_op].
  1: by apply cbind_erase; [apply next_type_erase|].
  1-4: by apply cbind_erase; [apply consume_erase|].
  - rewrite <- (pbind_ret (ReadString fuel st)). by apply cbind_erase; [apply ReadString_erase|].
  - rewrite <- (pbind_ret (ReadNumber fuel st)). by apply cbind_erase; [apply ReadNumber_erase|].
  - rewrite <- (pbind_ret (ReadLiteral fuel st)). by apply cbind_erase; [apply literal_erase|].
  - apply cbind_erase; [|done]. apply cbind_erase; [apply next_type_erase|]. intros. apply skips_erase.
Qed.
Lemma exec_erase {A} fuel (p : prog A) : forall st, (c_exec fuel p st).1 = exec fuel p st.
Proof.
  induction p as [a|o k IH e|]; intros st; cbn [c_exec exec]; try done.
  rewrite op_erase. destruct (run_op fuel o st); try done. cbn [fst]. apply IH.
Qed.
Lemma v2_erase fuel buf input : (c_ParseJsonV2 fuel buf input).1 = ParseJsonV2 fuel buf input.
Proof. unfold c_ParseJsonV2, ParseJsonV2. cbn [fst]. by rewrite exec_erase. Qed.
Lemma v1_erase fuel buf pool input : (c_ParseJsonV1 fuel buf pool input).1 = ParseJsonV1 fuel buf pool input.
Proof. unfold c_ParseJsonV1, ParseJsonV1. cbn [fst]. by rewrite exec_erase. Qed.
