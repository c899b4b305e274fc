(** The list parser on texts of JSON values. *)
From Verif Require Import Base IdModel SpanModel JsonModel CodecModel JsonPure JsonSpec JsonProofs JsonSim JsonFacts.

(** Separators the parser skips. *)
Definition sep (w : bytes) : Prop := Forall (fun b => is_space b = true) w.

Lemma ws_sep w : ws w -> sep w.
Proof. intros H. eapply Forall_impl; [exact H|]. intros c Hc. repeat destruct Hc as [->|Hc]; try done. by subst. Qed.
Lemma sep_nil : sep []. Proof. constructor. Qed.
Lemma sep_app w w' : sep w -> sep w' -> sep (w ++ w').
Proof. apply Forall_app_2. Qed.
Lemma sep_comma w : sep w -> sep (44 :: w). Proof. by constructor. Qed.
Lemma sep_colon w : sep w -> sep (58 :: w). Proof. by constructor. Qed.

Lemma drop_space_sep w l : sep w -> drop_space (w ++ l) = drop_space l.
Proof. induction 1 as [|b w Hb _ IH]; cbn [app drop_space]; [done|]. by rewrite Hb. Qed.

(** The type of the first byte. *)
Definition kind (v : json) : jtype :=
  match v with
  | JNull => TNull | JTrue | JFalse => TBool | JWord (110 :: _) => TNull | JWord _ => TBool | JNum _ => TNumber | JStr _ => TString | JArr _ => TArrBegin | JObj _ => TObjBegin
  end.

Lemma digit_symbol c : 48 <= c <= 57 -> symbol c = TNumber.
Proof. intros H. assert (K : Forall (fun c => symbol c = TNumber) (seqZ 48 10)) by (vm_compute; repeat constructor).
  rewrite Forall_forall in K. apply K. rewrite elem_of_seqZ. lia. Qed.

Lemma number_byte_is_char c : number_byte c -> is_number_char c = true.
Proof. intros [H|[->|[->| ->]]]; try done. unfold is_number_char, is_digit. by rewrite digit_symbol. Qed.

Lemma number_chars l : loose_number l -> Forall (fun c => is_number_char c = true) l /\ exists c l', l = c :: l' /\ symbol c = TNumber.
Proof.
  intros (c & l' & -> & Hc & Hl). split.
  - constructor; [apply number_byte_is_char; unfold number_byte; lia|]. eapply Forall_impl; [exact Hl|]. apply number_byte_is_char.
  - eexists _, _. split; [done|]. destruct Hc as [Hc| ->]; [by apply digit_symbol|done].
Qed.

Lemma text_number l : number_text l -> loose_number l.
Proof.
  intros (m & i & f & e & -> & Hm & [Hi Hi0] & Hf & He).
  assert (Hd : forall d, Forall (fun c => 48 <= c <= 57) d -> Forall number_byte d).
  { intros d H. eapply Forall_impl; [exact H|]. intros c Hc. by left. }
  assert (Hmm : forall x, opt_minus x -> Forall number_byte x).
  { intros x [->| ->]; [constructor|]. apply Forall_cons_2; [unfold number_byte; lia|constructor]. }
  assert (Ha : Forall number_byte (m ++ i ++ f ++ e)).
  { rewrite !Forall_app. split; [by apply Hmm|]. split; [by apply Hd|]. split.
    + destruct Hf as [->|(d & -> & [Hd' _])]; [constructor|]. constructor; [unfold number_byte; lia|]. by apply Hd.
    + destruct He as [->|(m' & d & -> & Hm' & [Hd' _])]; [constructor|]. constructor; [unfold number_byte; lia|]. apply Forall_app. split; [by apply Hmm|by apply Hd]. }
  destruct Hm as [->| ->].
  - destruct i as [|c i]; [done|]. cbn [app] in *. eexists _, _. split; [done|]. inversion Ha; subst. inversion Hi; subst. split; [by left|done].
  - cbn [app] in *. eexists _, _. split; [done|]. inversion Ha; subst. split; [by right|done].
Qed.

Lemma word_head l : word l -> exists b l', l = b :: l' /\ symbol b = kind (JWord l).
Proof. intros [(c & l' & -> & [->| ->] & _)|(l' & -> & _)]; eexists _, _; (split; [reflexivity|reflexivity]). Qed.

Lemma text_head m v l : loose m v l -> exists b l', l = b :: l' /\ symbol b = kind v.
Proof.
  intros H. destruct H as [| | |l Hw|l Hn Hl|raw s Hs Hl|vs l He|ms l Hm]; try (eexists _, _; split; [reflexivity|reflexivity]).
  - by apply word_head.
  - by apply number_chars in Hn as [_ ?].
Qed.

Lemma q_space_at l b l' : drop_space l = b :: l' -> q_space l = QOk tt (b :: l').
Proof. unfold q_space. by intros ->. Qed.

Lemma drop_space_at b l : symbol b <> TSpace -> drop_space (b :: l) = b :: l.
Proof. intros H. cbn [drop_space]. unfold is_space. by rewrite bool_decide_false. Qed.

Lemma kind_not_space v : kind v <> TSpace. Proof. destruct v as [| | |[|c l]| | | |]; try done; cbn [kind]; by repeat case_match. Qed.
Lemma kind_not_error v : kind v <> TError. Proof. destruct v as [| | |[|c l]| | | |]; try done; cbn [kind]; by repeat case_match. Qed.
Lemma kind_not_end v : kind v <> TArrEnd /\ kind v <> TObjEnd. Proof. destruct v as [| | |[|c l]| | | |]; try done; cbn [kind]; by repeat case_match. Qed.

Lemma q_space_text m v l w r : loose m v l -> sep w -> q_space (w ++ l ++ r) = QOk tt (l ++ r).
Proof.
  intros H Hw. destruct (text_head _ _ _ H) as (b & l' & -> & Hb). unfold q_space. rewrite drop_space_sep by done.
  cbn [app]. rewrite drop_space_at by (rewrite Hb; apply kind_not_space). done.
Qed.

Lemma q_next_text m v l w r : loose m v l -> sep w -> q_next (w ++ l ++ r) = QOk (kind v) (l ++ r).
Proof.
  intros H Hw. unfold q_next. erewrite q_space_text by done. cbn [qbind]. destruct (text_head _ _ _ H) as (b & l' & -> & Hb).
  cbn [app q_current qbind]. rewrite Hb. pose proof (kind_not_error v). by destruct (kind v).
Qed.

Lemma q_next_char w b r : sep w -> symbol b <> TSpace -> symbol b <> TError -> q_next (w ++ b :: r) = QOk (symbol b) (b :: r).
Proof.
  intros Hw H1 H2. unfold q_next, q_space. rewrite drop_space_sep by done. rewrite drop_space_at by done. cbn. by destruct (symbol b).
Qed.

Lemma q_space_char w b r : sep w -> symbol b <> TSpace -> q_space (w ++ b :: r) = QOk tt (b :: r).
Proof. intros Hw H1. unfold q_space. rewrite drop_space_sep by done. by rewrite drop_space_at by done. Qed.

Lemma q_next_sep w l : sep w -> q_next (w ++ l) = q_next l.
Proof. intros H. unfold q_next, q_space. by rewrite drop_space_sep. Qed.

(* ---------- tokens ---------- *)

(** Scanning the raw text of a string reaches its closing quote. *)
Lemma close_loose raw s : loose_string raw s -> forall n has rest,
  exists has', close (raw ++ 34 :: rest) n false has = Some ((n + length raw)%nat, has') /\
    (has' = false -> has = false /\ raw = s).
Proof.
  induction 1 as [|c l v H1 H2 _ IH|c l v H1 _ IH|a b c d cp l v Hx _ IH]; intros n has rest.
  - exists has. cbn. rewrite Nat.add_0_r. done.
  - destruct (IH (S n) has rest) as (h & E & Hh). exists h. cbn [app close]. unfold ch_backslash, ch_quote.
    replace (c =? 92) with false by lia. replace (c =? 34) with false by lia. rewrite E. split; [f_equal; f_equal; cbn; lia|].
    intros ->. destruct (Hh eq_refl) as [? ->]. done.
  - destruct (IH (S (S n)) true rest) as (h & E & Hh). exists h. cbn [app close]. cbn. rewrite E. split; [f_equal; f_equal; cbn; lia|].
    intros ->. by destruct (Hh eq_refl).
  - destruct Hx as (x & y & z & w & Hx & Hy & Hz & Hw & _).
    assert (K : forall c v, hex_is c v -> (c =? 92) = false /\ (c =? 34) = false) by (unfold hex_is; intros; lia).
    destruct (IH (6 + n)%nat true rest) as (h & E & Hh). exists h. cbn [app close].
    unfold ch_backslash, ch_quote. apply K in Hx as [Ex1 Ex2], Hy as [Ey1 Ey2], Hz as [Ez1 Ez2], Hw as [Ew1 Ew2].
    rewrite Ex1, Ex2, Ey1, Ey2, Ez1, Ez2, Ew1, Ew2. cbn in E |- *. rewrite E. split; [f_equal; f_equal; cbn; lia|].
    intros ->. by destruct (Hh eq_refl).
Qed.

Lemma loose_unescape raw s : loose_string raw s -> unescape raw = Some s.
Proof. intros H. apply unescape_complete. induction H; by constructor. Qed.

Lemma simple_loose raw s : simple_string raw s -> loose_string raw s.
Proof.
  induction 1 as [|c l v H1 H2 _ IH|l v _ IH|l v _ IH|l v _ IH|a b c d cp l v Hh Hs _ IH]; try (by constructor).
  rewrite <- (decide_False (P := surrogate cp) (utf8 65533) (utf8 cp)) by done. by constructor.
Qed.

Lemma q_string_text cap raw s rest : loose_string raw s -> (length raw < cap)%nat ->
  q_string cap (34 :: raw ++ 34 :: rest) = QOk (Token TString s) rest.
Proof.
  intros Hs Hl. cbn [q_string]. replace (negb (34 =? ch_quote)) with false by done. unfold q_string_body.
  destruct (close_loose raw s Hs 0 false rest) as (has & -> & Hh). cbn [Nat.add]. replace (length raw <? cap)%nat with true by lia.
  rewrite take_app_le, take_ge by lia.
  replace (drop (length raw + 1) (raw ++ 34 :: rest)) with rest.
  2: { rewrite drop_app_ge by lia. replace (length raw + 1 - length raw)%nat with 1%nat by lia. cbn [drop]. by rewrite drop_0. }
  destruct has.
  - by rewrite (loose_unescape _ _ Hs).
  - destruct (Hh eq_refl) as [_ ->]. done.
Qed.

Lemma number_end_app l b rest n : Forall (fun c => is_number_char c = true) l -> is_number_char b = false ->
  number_end (l ++ b :: rest) n = Some (n + length l)%nat.
Proof.
  intros H Hb. revert n. induction H as [|c l Hc _ IH]; intros n; cbn [app number_end length].
  - rewrite Hb. f_equal; lia. - rewrite Hc, IH. f_equal; lia.
Qed.

Lemma number_byte_char b : ~ number_byte b -> is_number_char b = false.
Proof.
  unfold number_byte. intros H. unfold is_number_char, is_digit. apply orb_false_iff. split; [apply orb_false_iff; split|]; [|lia|lia].
  apply bool_decide_false. unfold symbol. repeat (case_match; try lia; try done).
Qed.

Lemma q_number_text cap l rest : loose_number l -> (length l < cap)%nat -> delimited (JNum l) rest ->
  q_number cap (l ++ rest) = QOk (Token TNumber l) rest.
Proof.
  intros Hn Hl (b & r & -> & Hb). apply number_byte_char in Hb. apply number_chars in Hn as (Hc & c & l' & -> & Hs).
  cbn [app q_number]. unfold is_digit. rewrite Hs. cbn [bool_decide negb].
  replace (bool_decide (TNumber = TNumber)) with true by done. cbn [negb].
  inversion Hc as [|? ? _ Hc']; subst. rewrite number_end_app by done. cbn [length] in Hl.
  replace (1 + length l' <? cap)%nat with true by lia. cbn [Nat.add].
  change (c :: l' ++ b :: r) with ((c :: l') ++ b :: r). change (S (length l')) with (length (c :: l')).
  by rewrite take_app, drop_app.
Qed.

Lemma q_word_text l rest : word l ->
  match l with 110 :: _ => q_null (l ++ rest) = QOk (Token TNull l) rest | _ => q_boolean (l ++ rest) = QOk (Token TBool l) rest end.
Proof.
  intros [(c & l' & -> & [->| ->] & Hl)|(l' & -> & Hl)]; repeat (destruct l' as [|? l']; [discriminate Hl|]); (destruct l'; [|discriminate Hl]); done.
Qed.

Lemma q_literal_text cap m v l w rest : loose m v l -> (m <= cap)%nat -> sep w -> delimited v rest ->
  match v with
  | JStr s => q_literal cap (w ++ l ++ rest) = QOk (Token TString s) rest
  | JNum t => q_literal cap (w ++ l ++ rest) = QOk (Token TNumber t) rest
  | JTrue => q_literal cap (w ++ l ++ rest) = QOk (Token TBool (str "true")) rest
  | JFalse => q_literal cap (w ++ l ++ rest) = QOk (Token TBool (str "false")) rest
  | JNull => q_literal cap (w ++ l ++ rest) = QOk (Token TNull (str "null")) rest
  | JWord t => exists ty, q_literal cap (w ++ l ++ rest) = QOk (Token ty t) rest
  | _ => q_literal cap (w ++ l ++ rest) = QErr
  end.
Proof.
  intros H Hm Hw Hd. unfold q_literal. erewrite q_next_text by done. cbn [qbind].
  destruct H as [| | |l Hwd|l Hn Hl|raw s Hs Hl|vs l He|ms l Hms]; cbn [kind]; try done.
  - pose proof (q_word_text l rest Hwd) as E. destruct Hwd as [(c & l' & -> & [->| ->] & Hl)|(l' & -> & Hl)]; eexists; exact E.
  - apply q_number_text; [done|lia|done].
  - cbn [app]. rewrite <- app_assoc. cbn [app]. apply q_string_text; [done|lia].
Qed.

(** The wrong first byte. *)
Lemma q_string_wrong cap m v l rest : loose m v l -> (forall s, v <> JStr s) -> q_string cap (l ++ rest) = QErr.
Proof.
  intros H Hv. destruct (text_head _ _ _ H) as (b & l' & -> & Hb). cbn [app q_string].
  destruct (Z.eqb_spec b ch_quote) as [->|]; [|done]. change (symbol ch_quote) with TString in Hb. destruct v; try done; [|by destruct (Hv s)]. cbn [kind] in Hb. by repeat case_match.
Qed.
Lemma q_number_wrong cap m v l rest : loose m v l -> (forall s, v <> JNum s) -> q_number cap (l ++ rest) = QErr.
Proof.
  intros H Hv. destruct (text_head _ _ _ H) as (b & l' & -> & Hb). cbn [app q_number]. unfold is_digit. rewrite Hb.
  destruct v; try done; [|by destruct (Hv _ eq_refl)]. cbn [kind]. by repeat case_match.
Qed.
Lemma q_consume1_wrong m v l rest ty : loose m v l -> kind v <> ty -> q_consume1 ty (l ++ rest) = QErr.
Proof.
  intros H Hv. destruct (text_head _ _ _ H) as (b & l' & -> & Hb). cbn [app q_consume1]. rewrite decide_False by (by rewrite Hb). done.
Qed.

(* ---------- skipping ---------- *)

Lemma q_skip_elements_sep depth cap w l : sep w -> q_skip_elements depth cap (w ++ l) = q_skip_elements depth cap l.
Proof. intros H. destruct depth; [done|]. cbn [q_skip_elements]. by rewrite q_next_sep. Qed.
Lemma q_skip_members_sep depth cap w l : sep w -> q_skip_members depth cap (w ++ l) = q_skip_members depth cap l.
Proof. intros H. destruct depth; [done|]. cbn [q_skip_members]. by rewrite q_next_sep. Qed.

Lemma q_skip_elements_comma depth cap l : q_skip_elements depth cap (44 :: l) = q_skip_elements depth cap l.
Proof. apply (q_skip_elements_sep depth cap [44]). apply sep_comma, sep_nil. Qed.
Lemma q_skip_members_comma depth cap l : q_skip_members depth cap (44 :: l) = q_skip_members depth cap l.
Proof. apply (q_skip_members_sep depth cap [44]). apply sep_comma, sep_nil. Qed.

Lemma q_skip_elements_end depth cap w rest : sep w -> (0 < depth)%nat -> q_skip_elements depth cap (w ++ 93 :: rest) = QOk tt rest.
Proof. intros Hw Hd. destruct depth; [lia|]. cbn [q_skip_elements]. rewrite q_next_char by done. done. Qed.
Lemma q_skip_members_end depth cap w rest : sep w -> (0 < depth)%nat -> q_skip_members depth cap (w ++ 125 :: rest) = QOk tt rest.
Proof. intros Hw Hd. destruct depth; [lia|]. cbn [q_skip_members]. rewrite q_next_char by done. done. Qed.

Lemma delimited_ws v w b rest : ws w -> ~ number_byte b -> delimited v (w ++ b :: rest).
Proof.
  intros Hw Hb. destruct v; try done. destruct Hw as [|c w Hc]; cbn [app]; [by eexists _, _|].
  eexists _, _. split; [done|]. unfold number_byte. lia.
Qed.

Ltac lens := repeat progress (cbn [length] in *; rewrite ?app_length in *).

Lemma delimited_prefix v l b rest : delimited v (l ++ [b]) <-> delimited v (l ++ b :: rest).
Proof.
  destruct v; try done. destruct l as [|c l]; cbn [app delimited]; split; intros (x & r & [= <- <-] & H); by eexists _, _.
Qed.

Lemma skip_text cap m : (m <= cap)%nat ->
  (forall v l, loose m v l -> forall depth rest, (2 * length l < depth)%nat -> delimited v rest ->
     q_skip depth cap (kind v) (l ++ rest) = QOk tt rest) /\
  (forall vs l, loose_elements m vs l -> forall depth rest, (2 * length l + 1 < depth)%nat ->
     q_skip_elements depth cap (l ++ 93 :: rest) = QOk tt rest) /\
  (forall ms l, loose_members m ms l -> forall depth rest, (2 * length l + 1 < depth)%nat ->
     q_skip_members depth cap (l ++ 125 :: rest) = QOk tt rest).
Proof.
  intros Hm. apply loose_mutind; intros.
  - destruct depth; [lia|]. done.
  - destruct depth; [lia|]. done.
  - destruct depth; [lia|]. done.
  - destruct depth; [lia|]. pose proof (q_word_text l rest w) as E. destruct w as [(c & l' & -> & [->| ->] & Hl)|(l' & -> & Hl)]; cbn [q_skip kind]; by rewrite E.
  - destruct depth; [lia|]. cbn [q_skip kind]. rewrite q_number_text by (done || lia). done.
  - destruct depth; [lia|]. cbn [q_skip kind app]. rewrite <- app_assoc. cbn [app]. rewrite (q_string_text cap raw s) by (done || lia). done.
  - destruct depth as [|depth]; [lia|]. cbn [length] in *. rewrite app_length in *. cbn [q_skip kind app q_consume1 qbind]. rewrite decide_True by done.
    cbn [qbind]. rewrite <- app_assoc. cbn [app]. apply H. cbn in *; lia.
  - destruct depth as [|depth]; [lia|]. cbn [length] in *. rewrite app_length in *. cbn [q_skip kind app q_consume1 qbind]. rewrite decide_True by done.
    cbn [qbind]. rewrite <- app_assoc. cbn [app]. apply H. cbn in *; lia.
  - apply q_skip_elements_end; [by apply ws_sep|lia].
  - destruct depth as [|depth]; [lia|]. rewrite !app_length in *. rewrite <- !app_assoc. cbn [q_skip_elements].
    erewrite q_next_text; [|eassumption|by apply ws_sep]. cbn [qbind]. destruct (kind_not_end v). rewrite decide_False by done.
    destruct (text_head _ _ _ l0) as (? & ? & -> & _). cbn [length] in *.
    rewrite H; [|lia|by apply delimited_prefix]. cbn [qbind]. apply H0. lia.
  - apply q_skip_members_end; [by apply ws_sep|lia].
  - destruct depth as [|depth]; [lia|]. lens. cbn [q_skip_members]. rewrite <- app_assoc. cbn [app]. rewrite q_next_char by (try done; by apply ws_sep).
    cbn [qbind]. rewrite decide_False by done. rewrite <- app_assoc. cbn [app]. rewrite (q_string_text cap raw k) by (done || lia). cbn [qbind].
    rewrite <- !app_assoc. erewrite q_next_text; [|eassumption|by apply ws_sep]. cbn [qbind].
    rewrite H; [|lia|by apply delimited_prefix]. cbn [qbind]. apply H0. lia.
Qed.

(** Texts of JSON values are among the accepted ones. *)
Lemma ws_loose_elements m vs l w : loose_elements m vs l -> ws w -> loose_elements m vs (w ++ l).
Proof.
  intros [w' Hw'|w' v t vs' l' H1 H2 H3 H4] Hw.
  - constructor. by apply Forall_app_2.
  - rewrite app_assoc. constructor; try done. by apply Forall_app_2.
Qed.
Lemma ws_loose_members m ms l w : loose_members m ms l -> ws w -> loose_members m ms (w ++ l).
Proof.
  intros [w' Hw'|w' raw k w2 v t ms' l' H1 H2 H3 H4 H5 H6 H7] Hw.
  - constructor. by apply Forall_app_2.
  - rewrite app_assoc. constructor; try done. by apply Forall_app_2.
Qed.

Lemma text_loose m : (forall v l, text m v l -> loose m v l) /\ (forall vs l, elements m vs l -> loose_elements m vs l) /\
  (forall ms l, members m ms l -> loose_members m ms l).
Proof.
  assert (Hc : ws [44]) by (apply Forall_cons_2; [lia|constructor]). assert (Hk : ws [58]) by (apply Forall_cons_2; [lia|constructor]).
  apply text_mutind; intros; try (by constructor).
  - constructor; [by apply text_number|done].
  - constructor; [by apply simple_loose|done].
  - constructor. by constructor.
  - constructor. by constructor.
  - constructor; try done; [|by constructor]. apply delimited_ws; [done|unfold number_byte; lia].
  - constructor; try done; [rewrite <- app_assoc; apply delimited_ws; [done|unfold number_byte; lia]|].
    apply ws_loose_elements; [|done]. by apply (ws_loose_elements m vs l' [44]).
  - replace (w2 ++ 58 :: w3 ++ l ++ w4) with ((w2 ++ 58 :: w3) ++ l ++ w4) by (rewrite <- app_assoc; done).
    constructor; try done; [by apply simple_loose| |apply delimited_ws; [done|unfold number_byte; lia]|by constructor].
    apply Forall_app_2; [done|]. by apply (Forall_app_2 _ [58]).
  - replace (w2 ++ 58 :: w3 ++ l ++ w4 ++ 44 :: l') with ((w2 ++ 58 :: w3) ++ l ++ (w4 ++ 44 :: l')) by (rewrite <- !app_assoc; done).
    constructor; try done; [by apply simple_loose| |rewrite <- app_assoc; apply delimited_ws; [done|unfold number_byte; lia]|].
    { apply Forall_app_2; [done|]. by apply (Forall_app_2 _ [58]). }
    apply ws_loose_members; [|done]. by apply (ws_loose_members m ms l' [44]).
Qed.

Lemma q_Skip_text cap m v l w depth rest : (m <= cap)%nat -> loose m v l -> sep w -> (2 * length l < depth)%nat -> delimited v rest ->
  q_Skip depth cap (w ++ l ++ rest) = QOk tt rest.
Proof.
  intros Hm H Hw Hd Hv. unfold q_Skip. erewrite q_next_text by done. cbn [qbind]. by apply (proj1 (skip_text cap m Hm) v l H).
Qed.
