(** What the list parser accepts is a loose text of a JSON value. *)
From Verif Require Import Base IdModel IdSpec SpanModel JsonModel CodecModel JsonPure JsonSpec JsonProofs JsonSim JsonFacts JsonText DocSpec DocSem.

(* ---------- tokens ---------- *)

Lemma space_ws b : is_space b = true -> ws [b].
Proof.
  unfold is_space. intros H%bool_decide_eq_true. apply Forall_singleton. unfold symbol in H. repeat (case_match; try discriminate H; try lia).
Qed.

Lemma drop_space_inv l : exists w, l = w ++ drop_space l /\ ws w /\ forall b r, drop_space l = b :: r -> symbol b <> TSpace.
Proof.
  induction l as [|b l (w & E & Hw & Hb)]; cbn [drop_space]; [exists []; split; [done|]; split; [constructor|done]|].
  destruct (is_space b) eqn:Es.
  - exists (b :: w). split; [cbn; by rewrite <- E|]. split; [|done]. by apply (Forall_app_2 _ [b] w (space_ws b Es)).
  - exists []. split; [done|]. split; [constructor|]. intros b' r [= <- <-]. unfold is_space in Es. by apply bool_decide_eq_false in Es.
Qed.

Lemma q_space_inv l l' : q_space l = QOk tt l' -> exists w b r, l = w ++ l' /\ ws w /\ l' = b :: r /\ symbol b <> TSpace.
Proof.
  unfold q_space. destruct (drop_space_inv l) as (w & E & Hw & Hb). destruct (drop_space l) as [|b r] eqn:Ed; [done|]. intros [= <-].
  exists w, b, r. split; [done|]. split; [done|]. split; [done|]. by apply (Hb b r).
Qed.

Lemma q_next_inv l t l' : q_next l = QOk t l' -> exists w b r, l = w ++ l' /\ ws w /\ l' = b :: r /\ symbol b = t /\ t <> TSpace /\ t <> TError.
Proof.
  unfold q_next. destruct (q_space l) as [[] l1| | |] eqn:E; cbn [qbind]; try done. apply q_space_inv in E as (w & b & r & -> & Hw & -> & Hb).
  cbn [q_current qbind]. destruct (symbol b) eqn:Es; try done; intros [= <- <-]; exists w, b, r; done.
Qed.

Lemma q_consume1_inv ty l u l' : q_consume1 ty l = QOk u l' -> exists b, l = b :: l' /\ symbol b = ty.
Proof. destruct l as [|b l]; cbn [q_consume1]; [done|]. destruct (decide (symbol b = ty)); [|done]. intros [= <- <-]. eauto. Qed.

Lemma q_consume_inv ty l u l' : q_consume ty l = QOk u l' -> exists w b, l = w ++ b :: l' /\ ws w /\ symbol b = ty.
Proof.
  unfold q_consume. destruct (q_space l) as [[] l1| | |] eqn:E; cbn [qbind]; try done. apply q_space_inv in E as (w & b & r & -> & Hw & -> & Hb).
  intros (b' & [= -> ->] & Hs)%q_consume1_inv. eauto.
Qed.

(** The bytes of the brackets. *)
Lemma symbol_char b : match symbol b with
  | TObjBegin => b = 123 | TObjEnd => b = 125 | TArrBegin => b = 91 | TArrEnd => b = 93 | TString => b = 34
  | TNull => b = 110 | TBool => b = 116 \/ b = 102 | TNumber => 48 <= b <= 57 \/ b = 45 | _ => True end.
Proof. unfold symbol. repeat (case_match; try lia; try done). Qed.

(** Texts in which every quote follows a backslash. *)
Inductive scanned : bytes -> Prop :=
  | sc_nil : scanned []
  | sc_plain c l : c <> 34 -> c <> 92 -> scanned l -> scanned (c :: l)
  | sc_esc c l : scanned l -> scanned (92 :: c :: l).

Lemma close_inv k : forall l n has m has', (length l <= k)%nat -> close l n false has = Some (m, has') -> exists raw rest,
  l = raw ++ 34 :: rest /\ m = (n + length raw)%nat /\ scanned raw /\ (has' = false -> 92 ∉ raw).
Proof.
  induction k as [|k IH]; intros l n has m has' Hl; (destruct l as [|c l]; [done|]; cbn [length] in Hl); [lia|].
  cbn [close]. unfold ch_backslash, ch_quote. destruct (Z.eqb_spec c 92) as [->|H92].
  - destruct l as [|c l]; [done|]. cbn [length] in Hl. cbn [close]. intros E.
    assert (Hh : has' = true). { clear -E. revert E. generalize (S (S n)). generalize false. induction l as [|x l IHl]; intros esc q; cbn [close]; [done|].
      repeat case_match; try apply IHl; by intros [= <- <-]. }
    apply IH in E as (raw & rest & -> & -> & Hs & _); [|lia]. exists (92 :: c :: raw), rest. split; [done|]. split; [cbn; lia|]. split; [by constructor|]. by rewrite Hh.
  - destruct (Z.eqb_spec c 34) as [->|H34].
    + intros [= <- <-]. exists [], l. split; [done|]. split; [cbn; lia|]. split; [constructor|]. intros _. apply not_elem_of_nil.
    + intros E. apply IH in E as (raw & rest & -> & -> & Hs & Hn); [|lia]. exists (c :: raw), rest. split; [done|]. split; [cbn; lia|]. split; [by constructor|].
      intros Hh. apply not_elem_of_cons. split; [congruence|by apply Hn].
Qed.

Lemma scanned_plain raw : scanned raw -> 92 ∉ raw -> loose_string raw raw.
Proof.
  induction 1 as [|c l H1 H2 _ IH|c l _ IH]; intros H; [constructor| |].
  - apply not_elem_of_cons in H as [_ H]. constructor; auto.
  - exfalso. apply H. apply elem_of_list_here.
Qed.

Lemma scanned_hex c d l : hex_is c d -> scanned (c :: l) -> scanned l.
Proof. intros Hc Hs. inversion Hs as [|? ? H1 H2 H3|? ? H1]; subst; [done|]. unfold hex_is in Hc. lia. Qed.

Lemma scanned_unescaped raw v : unescaped raw v -> scanned raw -> loose_string raw v.
Proof.
  induction 1 as [|c l v Hc _ IH|c l v Hc _ IH|a b c d cp l v Hh _ IH]; intros Hs.
  - constructor.
  - inversion Hs; subst; [|done]. constructor; auto.
  - inversion Hs; subst; [done|]. constructor; auto.
  - inversion Hs as [| |? ? H1]; subst; [done|]. constructor; [done|]. apply IH. destruct Hh as (x & y & z & w & Hx & Hy & Hz & Hw & _).
    by apply (scanned_hex d w), (scanned_hex c z), (scanned_hex b y), (scanned_hex a x).
Qed.

Lemma q_string_inv cap l t rest : q_string cap l = QOk t rest -> exists raw s,
  l = 34 :: raw ++ 34 :: rest /\ loose_string raw s /\ (length raw < cap)%nat /\ t = Token TString s.
Proof.
  destruct l as [|ch l]; cbn [q_string]; [done|]. unfold ch_quote. destruct (Z.eqb_spec ch 34) as [->|]; cbn [negb]; [|done]. unfold q_string_body.
  destruct (close l 0 false false) as [[n has]|] eqn:E; [|by destruct (_ <=? _)%nat].
  destruct (Nat.ltb_spec n cap); [|done]. apply (close_inv (length l)) in E as (raw & r & -> & -> & Hs & Hn); [|done]. cbn [Nat.add] in *.
  rewrite take_app. replace (drop (length raw + 1) (raw ++ 34 :: r)) with r.
  2: { rewrite drop_app_ge by lia. replace (length raw + 1 - length raw)%nat with 1%nat by lia. cbn [drop]. by rewrite drop_0. }
  destruct has.
  - destruct (unescape raw) as [v|] eqn:Eu; [|done]. intros [= <- <-]. exists raw, v. split; [done|]. split; [|done]. by apply scanned_unescaped; [apply unescape_sound|].
  - intros [= <- <-]. exists raw, raw. split; [done|]. split; [|done]. apply scanned_plain; auto.
Qed.

Lemma number_char_byte b : is_number_char b = true -> number_byte b.
Proof.
  unfold is_number_char, is_digit, number_byte. pose proof (symbol_char b) as H. intros E.
  apply orb_true_iff in E as [E|E]; [|lia]. apply orb_true_iff in E as [E|E]; [|lia]. apply bool_decide_eq_true in E. rewrite E in H. lia.
Qed.
Lemma not_number_char_byte b : is_number_char b = false -> ~ number_byte b.
Proof. intros H Hb. apply number_byte_is_char in Hb. congruence. Qed.

Lemma number_end_inv l : forall n k, number_end l n = Some k -> exists d b r, l = d ++ b :: r /\ k = (n + length d)%nat /\ Forall number_byte d /\ ~ number_byte b.
Proof.
  induction l as [|c l IH]; intros n k; cbn [number_end]; [done|]. destruct (is_number_char c) eqn:E.
  - intros (d & b & r & -> & -> & Hd & Hb)%IH. exists (c :: d), b, r. split; [done|]. split; [cbn; lia|]. split; [|done]. constructor; [by apply number_char_byte|done].
  - intros [= <-]. exists [], c, l. split; [done|]. split; [cbn; lia|]. split; [constructor|]. by apply not_number_char_byte.
Qed.

Lemma q_number_inv cap l t rest : q_number cap l = QOk t rest -> exists raw,
  l = raw ++ rest /\ loose_number raw /\ (length raw < cap)%nat /\ delimited (JNum raw) rest /\ t = Token TNumber raw.
Proof.
  destruct l as [|ch l]; cbn [q_number]; [done|]. destruct (is_digit ch) eqn:Ed; cbn [negb]; [|done].
  destruct (number_end l 1) as [n|] eqn:E; [|by destruct (_ <=? _)%nat]. apply number_end_inv in E as (d & b & r & -> & -> & Hd & Hb).
  destruct (Nat.ltb_spec (1 + length d) cap); [|done]. intros [= <- <-]. exists (ch :: d).
  change (ch :: d ++ b :: r) with ((ch :: d) ++ b :: r). change (1 + length d)%nat with (length (ch :: d)). rewrite take_app, drop_app.
  split; [done|]. split; [|split; [done|split; [|done]]].
  - exists ch, d. split; [done|]. split; [|done]. unfold is_digit in Ed. apply bool_decide_eq_true in Ed. pose proof (symbol_char ch) as K. by rewrite Ed in K.
  - by exists b, r.
Qed.

Lemma q_read_n_inv l ty first n t rest : q_read_n l ty first n = QOk t rest -> exists raw, l = raw ++ rest /\ length raw = n /\ head l = Some first /\ t = Token ty raw.
Proof.
  unfold q_read_n. destruct (Nat.leb_spec n (length l)); [|done]. destruct l as [|ch l]; [done|]. destruct (Z.eqb_spec ch first) as [->|]; cbn [negb]; [|done].
  intros [= <- <-]. exists (take n (first :: l)). split; [by rewrite take_drop|]. split; [by rewrite take_length_le|done].
Qed.

Lemma word_of raw rest n c : length raw = n -> head (raw ++ rest) = Some c -> (n = 4%nat /\ (c = 110 \/ c = 116) \/ n = 5%nat /\ c = 102) -> word raw.
Proof.
  intros Hl Hh H. destruct raw as [|c' raw]; [cbn in Hl; lia|]. injection Hh as ->. cbn in Hl. destruct H as [[-> Hc]|[-> ->]]; [left; exists c, raw|right; exists raw]; repeat split; auto; lia.
Qed.

Lemma q_null_inv l t rest : q_null l = QOk t rest -> exists raw, l = raw ++ rest /\ word raw /\ t = Token TNull raw.
Proof. intros (raw & -> & Hl & Hh & ->)%q_read_n_inv. exists raw. split; [done|]. split; [|done]. eapply word_of; eauto. Qed.
Lemma q_boolean_inv l t rest : q_boolean l = QOk t rest -> exists raw, l = raw ++ rest /\ word raw /\ t = Token TBool raw.
Proof.
  unfold q_boolean. destruct l as [|c l]; cbn [q_current qbind]; [done|].
  destruct (c =? 116); intros (raw & E & Hl & Hh & ->)%q_read_n_inv; rewrite E in Hh; exists raw; (split; [done|]); (split; [|done]); eapply word_of; eauto; right; auto.
Qed.

(* ---------- values ---------- *)

Lemma delimited_bare v rest : (forall t, v <> JNum t) -> delimited v rest.
Proof. destruct v; try done. intros H. by destruct (H text). Qed.

(** A single value without surrounding separators. *)
Definition value_at (cap : nat) (v : json) (l rest : bytes) : Prop := exists txt, l = txt ++ rest /\ loose cap v txt /\ delimited v rest.

Lemma string_at cap l t rest : q_string cap l = QOk t rest -> value_at cap (JStr (t_val t)) l rest.
Proof. intros (raw & s & -> & Hs & Hl & ->)%q_string_inv. exists (34 :: raw ++ [34]). split; [cbn; by rewrite <- app_assoc|]. split; [by constructor|done]. Qed.
Lemma number_at cap l t rest : q_number cap l = QOk t rest -> value_at cap (JNum (t_val t)) l rest.
Proof. intros (raw & -> & Hn & Hl & Hd & ->)%q_number_inv. exists raw. split; [done|]. split; [by constructor|done]. Qed.
Lemma null_at cap l t rest : q_null l = QOk t rest -> value_at cap (JWord (t_val t)) l rest.
Proof. intros (raw & -> & Hn & ->)%q_null_inv. exists raw. split; [done|]. split; [by constructor|done]. Qed.
Lemma boolean_at cap l t rest : q_boolean l = QOk t rest -> value_at cap (JWord (t_val t)) l rest.
Proof. intros (raw & -> & Hn & ->)%q_boolean_inv. exists raw. split; [done|]. split; [by constructor|done]. Qed.

Lemma skip_inv cap : forall depth,
  (forall next l rest, q_skip depth cap next l = QOk tt rest -> exists v, value_at cap v l rest /\ kind v = next) /\
  (forall l rest, q_skip_elements depth cap l = QOk tt rest -> exists vs txt, l = txt ++ 93 :: rest /\ loose_elements cap vs txt) /\
  (forall l rest, q_skip_members depth cap l = QOk tt rest -> exists ms txt, l = txt ++ 125 :: rest /\ loose_members cap ms txt).
Proof.
  induction depth as [|depth (IHv & IHe & IHm)]; [done|]. split; [|split].
  - intros next l rest. cbn [q_skip]. destruct next; try done.
    + destruct (q_null l) as [t r| | |] eqn:E; cbn [qbind]; try done. intros [= <-]. exists (JWord (t_val t)). split; [by apply null_at|].
      apply q_read_n_inv in E as (raw & -> & Hl & Hh & ->). destruct raw; [done|]. injection Hh as ->. done.
    + destruct (q_consume1 TObjBegin l) as [u r| | |] eqn:E; cbn [qbind]; try done. apply q_consume1_inv in E as (b & -> & Hb).
      pose proof (symbol_char b) as K. rewrite Hb in K. subst b. intros (ms & txt & -> & Hms)%IHm. exists (JObj ms). split; [|done].
      exists (123 :: txt ++ [125]). split; [cbn; by rewrite <- app_assoc|]. split; [by constructor|done].
    + destruct (q_consume1 TArrBegin l) as [u r| | |] eqn:E; cbn [qbind]; try done. apply q_consume1_inv in E as (b & -> & Hb).
      pose proof (symbol_char b) as K. rewrite Hb in K. subst b. intros (vs & txt & -> & Hms)%IHe. exists (JArr vs). split; [|done].
      exists (91 :: txt ++ [93]). split; [cbn; by rewrite <- app_assoc|]. split; [by constructor|done].
    + destruct (q_boolean l) as [t r| | |] eqn:E; cbn [qbind]; try done. intros [= <-]. exists (JWord (t_val t)). split; [by apply boolean_at|].
      unfold q_boolean in E. destruct l as [|c l]; [done|]. cbn [q_current qbind] in E.
      destruct (Z.eqb_spec c 116) as [->|]; apply q_read_n_inv in E as (raw & El & Hl & Hh & ->); (destruct raw; [done|]); injection El as <- ->; [done|]. injection Hh as ->. done.
    + destruct (q_number cap l) as [t r| | |] eqn:E; cbn [qbind]; try done. intros [= <-]. exists (JNum (t_val t)). split; [by apply number_at|done].
    + destruct (q_string cap l) as [t r| | |] eqn:E; cbn [qbind]; try done. intros [= <-]. exists (JStr (t_val t)). split; [by apply string_at|done].
  - intros l rest. cbn [q_skip_elements]. destruct (q_next l) as [t l1| | |] eqn:E; cbn [qbind]; try done.
    apply q_next_inv in E as (w & b & r & -> & Hw & -> & Hb & _). destruct (decide (t = TArrEnd)) as [->|Ht].
    + intros (b' & [= -> ->] & _)%q_consume1_inv. pose proof (symbol_char b') as K. rewrite Hb in K. subst b'. exists [], w. split; [done|]. by constructor.
    + destruct (q_skip depth cap t (b :: r)) as [[] l2| | |] eqn:E2; cbn [qbind]; try done. apply IHv in E2 as (v & (txt & -> & Hv & Hd) & _).
      intros (vs & txt' & -> & Hvs)%IHe. exists (v :: vs), (w ++ txt ++ txt'). split; [by rewrite <- !app_assoc|]. constructor; try done. by eapply delimited_prefix.
  - intros l rest. cbn [q_skip_members]. destruct (q_next l) as [t l1| | |] eqn:E; cbn [qbind]; try done.
    apply q_next_inv in E as (w & b & r & -> & Hw & -> & Hb & _). destruct (decide (t = TObjEnd)) as [->|Ht].
    + intros (b' & [= -> ->] & _)%q_consume1_inv. pose proof (symbol_char b') as K. rewrite Hb in K. subst b'. exists [], w. split; [done|]. by constructor.
    + destruct (q_string cap (b :: r)) as [k l2| | |] eqn:E2; cbn [qbind]; try done. apply q_string_inv in E2 as (raw & s & -> & Hs & Hl & ->).
      destruct (q_next l2) as [t' l3| | |] eqn:E3; cbn [qbind]; try done. apply q_next_inv in E3 as (w' & b' & r' & -> & Hw' & -> & Hb' & _).
      destruct (q_skip depth cap t' (b' :: r')) as [[] l4| | |] eqn:E4; cbn [qbind]; try done. apply IHv in E4 as (v & (txt & -> & Hv & Hd) & _).
      intros (ms & txt' & -> & Hms)%IHm. exists ((s, v) :: ms), (w ++ 34 :: raw ++ 34 :: w' ++ txt ++ txt').
      split; [rewrite <- app_assoc; cbn; rewrite <- app_assoc; cbn; by rewrite <- !app_assoc|]. constructor; try done. by eapply delimited_prefix.
Qed.

(* ---------- decoders ---------- *)

Section accepted.
  Context (fuel cap : nat).

  (** Success of the decoder comes from a value that means the result. *)
  Definition yields {T} (d : decoder T) (sem : T -> json -> option T) : Prop :=
    forall t l t' rest, q_exec fuel cap (d t) l = YDone (t', true) rest ->
    exists w v l', l = w ++ l' /\ ws w /\ value_at cap v l' rest /\ sem t v = Some t'.

  Lemma yields_string : yields string_decoder (fun _ => as_str).
  Proof.
    intros t l t' rest. unfold string_decoder. cbn [q_exec q_op]. destruct (q_space l) as [[] l1| | |] eqn:E; cbn [qbind]; try done.
    apply q_space_inv in E as (w & b & r & -> & Hw & -> & _). destruct (q_string cap (b :: r)) as [tok l2| | |] eqn:E2; try done. cbn [q_exec]. intros [= <- <-].
    exists w, (JStr (t_val tok)), (b :: r). split; [done|]. split; [done|]. split; [by apply string_at|done].
  Qed.

  Lemma yields_uint64 : yields uint64_decoder (fun _ => as_uint).
  Proof.
    intros t l t' rest. unfold uint64_decoder. cbn [q_exec q_op]. destruct (q_space l) as [[] l1| | |] eqn:E; cbn [qbind]; try done.
    apply q_space_inv in E as (w & b & r & -> & Hw & -> & _). destruct (q_number cap (b :: r)) as [tok l2| | |] eqn:E2; try done.
    rewrite digits_value_spec by done. destruct (forallb _ (t_val tok)) eqn:Ef; cbn [q_exec]; [|done]. intros [= <- <-].
    exists w, (JNum (t_val tok)), (b :: r). split; [done|]. split; [done|]. split; [by apply number_at|]. cbn [as_uint]. by rewrite Ef.
  Qed.

  Lemma yields_any : yields any_decoder (fun _ => as_text).
  Proof.
    intros t l t' rest. unfold any_decoder. cbn [q_exec q_op]. unfold q_literal. destruct (q_next l) as [ty l1| | |] eqn:E; cbn [qbind]; try done.
    apply q_next_inv in E as (w & b & r & -> & Hw & -> & _). destruct ty; try done.
    - destruct (q_null (b :: r)) as [tok l2| | |] eqn:E2; try done. cbn [q_exec]. intros [= <- <-].
      exists w, (JWord (t_val tok)), (b :: r). split; [done|]. split; [done|]. split; [by apply null_at|done].
    - destruct (q_boolean (b :: r)) as [tok l2| | |] eqn:E2; try done. cbn [q_exec]. intros [= <- <-].
      exists w, (JWord (t_val tok)), (b :: r). split; [done|]. split; [done|]. split; [by apply boolean_at|done].
    - destruct (q_number cap (b :: r)) as [tok l2| | |] eqn:E2; try done. cbn [q_exec]. intros [= <- <-].
      exists w, (JNum (t_val tok)), (b :: r). split; [done|]. split; [done|]. split; [by apply number_at|done].
    - destruct (q_string cap (b :: r)) as [tok l2| | |] eqn:E2; try done. cbn [q_exec]. intros [= <- <-].
      exists w, (JStr (t_val tok)), (b :: r). split; [done|]. split; [done|]. split; [by apply string_at|done].
  Qed.

  (** Skipping. *)
  Lemma op_skip_inv l t rest : q_op fuel cap OSkip l = QOk t rest -> exists w v l', l = w ++ l' /\ ws w /\ value_at cap v l' rest.
  Proof.
    cbn [q_op]. unfold q_Skip. destruct (q_next l) as [ty l1| | |] eqn:E; cbn [qbind]; try done. apply q_next_inv in E as (w & b & r & -> & Hw & -> & _).
    destruct (q_skip fuel cap ty (b :: r)) as [[] l2| | |] eqn:E2; cbn [qbind]; try done. intros [= <- <-].
    apply skip_inv in E2 as (v & Hv & _). exists w, v, (b :: r). done.
  Qed.

  Lemma q_skip_null b r l2 : q_skip fuel cap TNull (b :: r) = QOk tt l2 -> exists v, value_at cap v (b :: r) l2 /\ as_id v = Some 0.
  Proof. intros (v & Hv & Hk)%skip_inv. exists v. split; [done|]. by apply as_id_null. Qed.

  Lemma yields_id : yields id_decoder (fun _ => as_id).
  Proof.
    intros t l t' rest. unfold id_decoder. cbn [q_exec q_op]. destruct (q_next l) as [ty l1| | |] eqn:E; cbn [qbind]; try done.
    apply q_next_inv in E as (w & b & r & -> & Hw & -> & Hb & _ & _). cbn [t_type]. destruct (decide (ty = TNull)) as [->|Ht]; cbn [q_exec q_op].
    - unfold q_Skip. destruct (q_next (b :: r)) as [ty l1| | |] eqn:E; cbn [qbind]; try done.
      assert (ty = TNull /\ l1 = b :: r) as [-> ->].
      { unfold q_next in E. rewrite q_space_char0 in E by (by rewrite Hb). cbn [qbind q_current] in E. rewrite Hb in E. by injection E as <- <-. }
      destruct (q_skip fuel cap TNull (b :: r)) as [[] l2| | |] eqn:E2; cbn [qbind]; try done. cbn [q_exec]. intros [= <- <-].
      apply q_skip_null in E2 as (v & Hv & Hi). exists w, v, (b :: r). done.
    - destruct (q_space (b :: r)) as [[] l1| | |] eqn:E; cbn [qbind]; try done. apply q_space_inv in E as (w2 & b2 & r2 & -> & Hw2 & -> & _).
      destruct (q_string cap (b2 :: r2)) as [tok l2| | |] eqn:E2; try done. rewrite parse_id_text. destruct (id_text (t_val tok)) as [i|] eqn:Ei; cbn [q_exec]; [|done].
      intros [= <- <-]. exists (w ++ w2), (JStr (t_val tok)), (b2 :: r2). split; [by rewrite app_assoc|]. split; [by apply Forall_app_2|]. split; [by apply string_at|done].
  Qed.

  Lemma ythen_inv {A B} (y : yres (A * bool)) (f : A -> B) k b rest : ythen y f k = YDone (b, true) rest -> exists a l, y = YDone (a, true) l /\ k a l = YDone (b, true) rest.
  Proof. destruct y as [[a []] l|[a b']| |]; cbn [ythen]; try done. intros H. by exists a, l. Qed.

  Lemma yields_at_field {T A} (get : T -> A) put d sem : yields d sem -> yields (at_field get put d) (at_sem get put sem).
  Proof.
    intros Hd t l t' rest. unfold at_field. rewrite q_exec_pthen. intros (a & l1 & E & E1)%ythen_inv. cbn [q_exec] in E1. injection E1 as <- <-.
    apply Hd in E as (w & v & l' & -> & Hw & Hv & Hs). exists w, v, l'. split; [done|]. split; [done|]. split; [done|]. unfold at_sem. by rewrite Hs.
  Qed.

  Lemma members_cons w raw k w' v l2 ms txt rest : ws w -> loose_string raw k -> (length raw < cap)%nat -> ws w' ->
    value_at cap v l2 (txt ++ 125 :: rest) -> loose_members cap ms txt ->
    exists txt', w ++ 34 :: raw ++ 34 :: w' ++ l2 = txt' ++ 125 :: rest /\ loose_members cap ((k, v) :: ms) txt'.
  Proof.
    intros Hw Hr Hl Hw' (t & -> & Hv & Hd) Hms. exists (w ++ 34 :: raw ++ 34 :: w' ++ t ++ txt).
    split; [rewrite <- app_assoc; cbn; rewrite <- app_assoc; cbn; by rewrite <- !app_assoc|]. constructor; try done. by eapply delimited_prefix.
  Qed.
  Lemma elements_cons w v l2 vs txt rest : ws w -> value_at cap v l2 (txt ++ 93 :: rest) -> loose_elements cap vs txt ->
    exists txt', w ++ l2 = txt' ++ 93 :: rest /\ loose_elements cap (v :: vs) txt'.
  Proof.
    intros Hw (t & -> & Hv & Hd) Hms. exists (w ++ t ++ txt). split; [by rewrite <- !app_assoc|]. constructor; try done. by eapply delimited_prefix.
  Qed.

  (** What the loops see first: the end, or something else. *)
  Lemma op_next_inv l tok l1 : q_op fuel cap ONext l = QOk tok l1 -> exists w b r, l = w ++ l1 /\ ws w /\ l1 = b :: r /\ symbol b = t_type tok /\ symbol b <> TSpace.
  Proof.
    cbn [q_op]. destruct (q_next l) as [ty l2| | |] eqn:E; cbn [qbind]; try done. intros [= <- <-]. apply q_next_inv in E as (w & b & r & H1 & H2 & H3 & H4 & H5 & _).
    exists w, b, r. cbn [t_type]. rewrite H4. done.
  Qed.
  Lemma op_end_inv o ty b r tok l2 : (o = OObjEnd /\ ty = TObjEnd \/ o = OArrEnd /\ ty = TArrEnd) -> symbol b = ty -> q_op fuel cap o (b :: r) = QOk tok l2 -> l2 = r.
  Proof.
    intros Ho Hb. assert (E : q_op fuel cap o (b :: r) = qbind (q_consume ty (b :: r)) (fun (_ : unit) l => QOk (Token TNull []) l)) by (destruct Ho as [[-> ->]|[-> ->]]; done).
    rewrite E. rewrite (q_consume_char0 ty b r Hb) by (destruct Ho as [[_ ->]|[_ ->]]; done). cbn [qbind]. by intros [= _ <-].
  Qed.

  Lemma string_key_inv t l k l1 : q_exec fuel cap (string_decoder t) l = YDone (k, true) l1 ->
    exists w raw, l = w ++ 34 :: raw ++ 34 :: l1 /\ ws w /\ loose_string raw k /\ (length raw < cap)%nat.
  Proof.
    unfold string_decoder. cbn [q_exec q_op]. destruct (q_space l) as [[] l2| | |] eqn:E; cbn [qbind]; try done.
    apply q_space_inv in E as (w & b & r & -> & Hw & -> & _). destruct (q_string cap (b :: r)) as [tok l3| | |] eqn:E2; try done. cbn [q_exec]. intros [= <- <-].
    apply q_string_inv in E2 as (raw & s & -> & Hs & Hl & ->). exists w, raw. done.
  Qed.

  Lemma map_loop_inv target : forall n r l r' rest, q_exec fuel cap (map_loop n target r) l = YDone (r', true) rest ->
    exists ms txt, l = txt ++ 125 :: rest /\ loose_members cap ms txt /\ map_fold r ms = Some r'.
  Proof.
    induction n as [|n IH]; intros r l r' rest; cbn [map_loop q_exec]; [done|].
    destruct (q_op fuel cap ONext l) as [tok l1| | |] eqn:E; try done. apply op_next_inv in E as (w & b & r1 & -> & Hw & -> & Hb & _).
    destruct (decide (t_type tok = TObjEnd)) as [Ht|Ht]; cbn [q_exec].
    - destruct (q_op fuel cap OObjEnd (b :: r1)) as [tok2 l2| | |] eqn:E2; try done. cbn [q_exec]. intros [= <- <-].
      rewrite (op_end_inv OObjEnd TObjEnd b r1 tok2 l2) by (auto; congruence). pose proof (symbol_char b) as K. rewrite Hb, Ht in K. subst b.
      exists [], w. split; [done|]. split; [by constructor|done].
    - rewrite q_exec_pthen. intros (k & l2 & E2 & E3)%ythen_inv. apply string_key_inv in E2 as (w2 & raw & E2 & Hw2 & Hr & Hl). rewrite E2.
      rewrite q_exec_pthen in E3. apply ythen_inv in E3 as (v & l3 & E3 & E4). apply yields_string in E3 as (w3 & vj & l4 & -> & Hw3 & Hv & Hs).
      apply IH in E4 as (ms & txt & -> & Hms & Hf). rewrite app_assoc.
      destruct (members_cons (w ++ w2) raw k w3 vj l4 ms txt rest) as (txt' & Et & Hm); try done; [by apply Forall_app_2|].
      exists ((k, vj) :: ms), txt'. split; [done|]. split; [done|]. cbn [map_fold]. by rewrite Hs.
  Qed.

  Lemma yields_map : yields (map_decoder fuel) (fun _ => as_map).
  Proof.
    intros t l t' rest. unfold map_decoder. cbn [q_exec q_op]. destruct (q_consume TObjBegin l) as [u l1| | |] eqn:E; cbn [qbind]; try done.
    apply q_consume_inv in E as (w & b & -> & Hw & Hb). pose proof (symbol_char b) as K. rewrite Hb in K. subst b. intros (ms & txt & -> & Hms & Hf)%map_loop_inv.
    exists w, (JObj ms), (123 :: txt ++ 125 :: rest). split; [done|]. split; [done|]. split; [|cbn [as_map]; by rewrite <- map_fold_spec].
    exists (123 :: txt ++ [125]). split; [cbn; by rewrite <- app_assoc|]. split; [by constructor|done].
  Qed.

  Notation sems T := (list (gostring * (T -> json -> option T))).
  Definition fields_yield {T} (fs : list (gostring * decoder T)) (ss : sems T) : Prop :=
    Forall2 (fun f s => f.1 = s.1 /\ yields f.2 s.2) fs ss.
  Lemma fields_yield_lookup {T} (fs : list (gostring * decoder T)) ss k : fields_yield fs ss ->
    match lookup_field fs k, lookup_sem ss k with Some d, Some s => yields d s | None, None => True | _, _ => False end.
  Proof.
    induction 1 as [|[n d] [n' s] fs ss [E Hd] H IH]; cbn [lookup_field lookup_sem]; [done|]. cbn in E, Hd. subst n'. by destruct (decide (n = k)).
  Qed.

  Lemma struct_loop_inv {T} (fs : list (gostring * decoder T)) ss : fields_yield fs ss ->
    forall n t l t' rest, q_exec fuel cap (struct_loop fs n t) l = YDone (t', true) rest ->
    exists ms txt, l = txt ++ 125 :: rest /\ loose_members cap ms txt /\ struct_fold ss t ms = Some t'.
  Proof.
    intros Hfs. induction n as [|n IH]; intros t l t' rest; cbn [struct_loop q_exec]; [done|].
    destruct (q_op fuel cap ONext l) as [tok l1| | |] eqn:E; try done. apply op_next_inv in E as (w & b & r1 & -> & Hw & -> & Hb & Hsp).
    destruct (decide (t_type tok = TObjEnd)) as [Ht|Ht]; cbn [q_exec].
    - destruct (q_op fuel cap OObjEnd (b :: r1)) as [tok2 l2| | |] eqn:E2; try done. cbn [q_exec]. intros [= <- <-].
      rewrite (op_end_inv OObjEnd TObjEnd b r1 tok2 l2) by (auto; congruence). pose proof (symbol_char b) as K. rewrite Hb, Ht in K. subst b.
      exists [], w. split; [done|]. split; [by constructor|done].
    - cbn [q_op]. rewrite q_space_char0 by done. cbn [qbind]. destruct (q_string cap (b :: r1)) as [key l2| | |] eqn:E2; try done.
      apply q_string_inv in E2 as (raw & k & -> & Hr & Hl & ->). cbn [t_val].
      pose proof (fields_yield_lookup fs ss k Hfs) as HL. destruct (lookup_field fs k) as [d|], (lookup_sem ss k) as [s|] eqn:Es; try done.
      + rewrite q_exec_pthen. intros (a & l3 & E3 & E4)%ythen_inv. apply HL in E3 as (w3 & vj & l4 & -> & Hw3 & Hv & Hs).
        apply IH in E4 as (ms & txt & -> & Hms & Hf). destruct (members_cons w raw k w3 vj l4 ms txt rest) as (txt' & Et & Hm); try done.
        exists ((k, vj) :: ms), txt'. split; [done|]. split; [done|]. cbn [struct_fold]. by rewrite Es, Hs.
      + cbn [q_exec]. destruct (q_op fuel cap OSkip l2) as [tok3 l3| | |] eqn:E3; try done. apply op_skip_inv in E3 as (w3 & vj & l4 & -> & Hw3 & Hv).
        intros (ms & txt & -> & Hms & Hf)%IH. destruct (members_cons w raw k w3 vj l4 ms txt rest) as (txt' & Et & Hm); try done.
        exists ((k, vj) :: ms), txt'. split; [done|]. split; [done|]. cbn [struct_fold]. by rewrite Es.
  Qed.

  Lemma yields_struct {T} (fs : list (gostring * decoder T)) ss : fields_yield fs ss -> yields (struct_decoder fs fuel) (struct_sem ss).
  Proof.
    intros Hfs t l t' rest. unfold struct_decoder. cbn [q_exec q_op]. destruct (q_consume TObjBegin l) as [u l1| | |] eqn:E; cbn [qbind]; try done.
    apply q_consume_inv in E as (w & b & -> & Hw & Hb). pose proof (symbol_char b) as K. rewrite Hb in K. subst b.
    intros (ms & txt & -> & Hms & Hf)%(struct_loop_inv fs ss Hfs). exists w, (JObj ms), (123 :: txt ++ 125 :: rest). split; [done|]. split; [done|]. split; [|done].
    exists (123 :: txt ++ [125]). split; [cbn; by rewrite <- app_assoc|]. split; [by constructor|done].
  Qed.

  Lemma slice_loop_inv {T} (zero : T) d sem : yields d sem ->
    forall n s idx l s' rest, q_exec fuel cap (slice_loop zero d n s idx) l = YDone (s', true) rest ->
    exists vs txt, l = txt ++ 93 :: rest /\ loose_elements cap vs txt /\ slice_fold zero sem s idx vs = Some s'.
  Proof.
    intros Hd. induction n as [|n IH]; intros s idx l s' rest; cbn [slice_loop q_exec]; [done|].
    destruct (q_op fuel cap ONext l) as [tok l1| | |] eqn:E; try done. apply op_next_inv in E as (w & b & r1 & -> & Hw & -> & Hb & _).
    destruct (decide (t_type tok = TArrEnd)) as [Ht|Ht]; cbn [q_exec].
    - destruct (q_op fuel cap OArrEnd (b :: r1)) as [tok2 l2| | |] eqn:E2; try done. cbn [q_exec]. intros [= <- <-].
      rewrite (op_end_inv OArrEnd TArrEnd b r1 tok2 l2) by (auto; congruence). pose proof (symbol_char b) as K. rewrite Hb, Ht in K. subst b.
      exists [], w. split; [done|]. split; [by constructor|done].
    - set (s1 := unsafe_grow zero s (idx + 1)). rewrite q_exec_pthen. intros (a & l2 & E2 & E3)%ythen_inv. apply Hd in E2 as (w2 & vj & l4 & E2 & Hw2 & Hv & Hs).
      rewrite E2. apply IH in E3 as (vs & txt & -> & Hvs & Hf). rewrite app_assoc.
      destruct (elements_cons (w ++ w2) vj l4 vs txt rest) as (txt' & Et & Hm); try done; [by apply Forall_app_2|].
      exists (vj :: vs), txt'. split; [done|]. split; [done|]. cbn [slice_fold]. cbv zeta. fold s1. by rewrite Hs.
  Qed.

  Lemma yields_slice {T} (zero : T) d sem : yields d sem -> yields (slice_decoder zero d fuel) (slice_sem zero sem).
  Proof.
    intros Hd t l t' rest. unfold slice_decoder. cbn [q_exec q_op]. destruct (q_consume TArrBegin l) as [u l1| | |] eqn:E; cbn [qbind]; try done.
    apply q_consume_inv in E as (w & b & -> & Hw & Hb). pose proof (symbol_char b) as K. rewrite Hb in K. subst b.
    intros (vs & txt & -> & Hvs & Hf)%(slice_loop_inv zero d sem Hd). exists w, (JArr vs), (91 :: txt ++ 93 :: rest). split; [done|]. split; [done|]. split; [|done].
    exists (91 :: txt ++ [93]). split; [cbn; by rewrite <- app_assoc|]. split; [by constructor|done].
  Qed.

  Lemma array_loop_inv {T} (d : decoder T) sem : yields d sem ->
    forall n a idx l a' rest, q_exec fuel cap (array_loop d n a idx) l = YDone (a', true) rest ->
    exists vs txt, l = txt ++ 93 :: rest /\ loose_elements cap vs txt /\ array_fold sem a idx vs = Some a'.
  Proof.
    intros Hd. induction n as [|n IH]; intros a idx l a' rest; cbn [array_loop q_exec]; [done|].
    destruct (q_op fuel cap ONext l) as [tok l1| | |] eqn:E; try done. apply op_next_inv in E as (w & b & r1 & -> & Hw & -> & Hb & _).
    destruct (decide (t_type tok = TArrEnd)) as [Ht|Ht]; cbn [q_exec].
    - destruct (q_op fuel cap OArrEnd (b :: r1)) as [tok2 l2| | |] eqn:E2; try done. cbn [q_exec]. intros [= <- <-].
      rewrite (op_end_inv OArrEnd TArrEnd b r1 tok2 l2) by (auto; congruence). pose proof (symbol_char b) as K. rewrite Hb, Ht in K. subst b.
      exists [], w. split; [done|]. split; [by constructor|done].
    - destruct (a !! idx) as [el|] eqn:Ea.
      + rewrite q_exec_pthen. intros (el' & l2 & E2 & E3)%ythen_inv. apply Hd in E2 as (w2 & vj & l4 & E2 & Hw2 & Hv & Hs).
        rewrite E2. apply IH in E3 as (vs & txt & -> & Hvs & Hf). rewrite app_assoc.
        destruct (elements_cons (w ++ w2) vj l4 vs txt rest) as (txt' & Et & Hm); try done; [by apply Forall_app_2|].
        exists (vj :: vs), txt'. split; [done|]. split; [done|]. cbn [array_fold]. by rewrite Ea, Hs.
      + cbn [q_exec]. destruct (q_op fuel cap OSkip (b :: r1)) as [tok3 l3| | |] eqn:E3; try done. apply op_skip_inv in E3 as (w2 & vj & l4 & E2 & Hw2 & Hv).
        intros (vs & txt & -> & Hvs & Hf)%IH. rewrite E2, app_assoc.
        destruct (elements_cons (w ++ w2) vj l4 vs txt rest) as (txt' & Et & Hm); try done; [by apply Forall_app_2|].
        exists (vj :: vs), txt'. split; [done|]. split; [done|]. cbn [array_fold]. by rewrite Ea.
  Qed.

  Lemma yields_array {T} (d : decoder T) sem : yields d sem -> yields (array_decoder d fuel) (array_sem sem).
  Proof.
    intros Hd t l t' rest. unfold array_decoder. cbn [q_exec q_op]. destruct (q_consume TArrBegin l) as [u l1| | |] eqn:E; cbn [qbind]; try done.
    apply q_consume_inv in E as (w & b & -> & Hw & Hb). pose proof (symbol_char b) as K. rewrite Hb in K. subst b.
    intros (vs & txt & -> & Hvs & Hf)%(array_loop_inv d sem Hd). exists w, (JArr vs), (91 :: txt ++ 93 :: rest). split; [done|]. split; [done|]. split; [|done].
    exists (91 :: txt ++ [93]). split; [cbn; by rewrite <- app_assoc|]. split; [by constructor|done].
  Qed.

  (* ---------- the two formats ---------- *)

  Lemma yields_endpoint : yields (endpoint_decoder fuel) endpoint_sem.
  Proof. apply yields_struct. repeat apply Forall2_cons_2; [|constructor]. split; [done|apply yields_string]. Qed.

  Ltac each := repeat apply Forall2_cons_2; [..|constructor]; (split; [done|apply yields_at_field]).

  Lemma yields_v2 : yields (slice_decoder zero_v2 (span_v2_decoder fuel) fuel) (slice_sem zero_v2 (fun _ => struct_sem v2_sems zero_v2)).
  Proof.
    apply yields_slice. intros t. assert (K : yields (struct_decoder (v2_fields fuel) fuel) (struct_sem v2_sems)).
    { apply yields_struct. unfold fields_yield, v2_fields, v2_sems. each; auto using yields_id, yields_uint64, yields_string, yields_map, yields_endpoint. }
    intros l t' rest. apply (K zero_v2).
  Qed.

  Lemma yields_v1 : yields (slice_decoder zero_v1 (span_v1_decoder fuel) fuel) (slice_sem zero_v1 (fun t => struct_sem v1_sems (reset_v1 t))).
  Proof.
    apply yields_slice. intros t. assert (K : yields (struct_decoder (v1_fields fuel) fuel) (struct_sem v1_sems)).
    { apply yields_struct. unfold fields_yield, v1_fields, v1_sems. each; auto using yields_id, yields_uint64, yields_string, yields_endpoint.
      - apply yields_slice, yields_struct. unfold fields_yield, ba_fields, ba_sems. each; auto using yields_string, yields_any, yields_endpoint.
      - apply yields_array, yields_struct. unfold fields_yield, annot_fields, annot_sems. each; auto using yields_string, yields_uint64, yields_endpoint. }
    intros l t' rest. apply (K (reset_v1 t)).
  Qed.
End accepted.
