(** Reading single literals. *)
From Verif Require Import Base IdModel SpanModel JsonModel CodecModel JsonPure JsonSpec JsonProofs JsonSim JsonFacts JsonText DocSpec DocSem LooseProofs
  ParseSpec LooseSpec LooseTheorems DocTheorems ReadModel ReadSpec ReadProofs SpanJsonModel SpanJsonSpec LiteralModel LiteralSpec.

Section literal.
  Context (fuel cap : nat) (Hcap : (5 <= cap)%nat).
  Let Hc0 : (0 < cap)%nat. Proof. lia. Qed.

  (** A method that computes [q], where [q] gives the tokens of the values in [P] and nothing else. *)
  Definition exact_for (q : bytes -> qres token) (P : json -> Prop) : Prop :=
    (forall v l w rest, loose cap v l -> ws w -> delimited v rest -> P v -> exists t, token_of v = Some t /\ q (w ++ l ++ rest) = QOk t rest) /\
    (forall body t rest, q body = QOk t rest -> exists v, document cap body v rest /\ P v /\ token_of v = Some t).

  Lemma exact_reads read q P : (forall st l, before cap st l -> psim cap fuel any (left st) (read st) (q l)) -> exact_for q P ->
    reads fuel cap (noting read) P noted /\ reads_only cap (noting read) P noted.
  Proof.
    intros Hs [H1 H2]. split.
    - intros s st w v l rest Hb Hw Hl Hd HP Hf1 Hf2. destruct (H1 v l w rest Hl Hw Hd HP) as (t & Et & Eq).
      pose proof (Hs _ _ Hb) as H. rewrite Eq in H. apply sim_ok in H as (st1 & E & Hb1 & Hl1 & _); [|done].
      unfold noting, noted. rewrite E, Et. cbn [pbind]. by exists st1.
    - intros s st body s' st' Hb. pose proof (Hs _ _ Hb) as H. unfold noting. destruct (read st) as [tok st1| | |]; cbn [pbind] in *; try done.
      intros [= <- <-]. eapply sim_inv in H as (l & Eq & Hb2 & _); [|done]. apply H2 in Eq as (v & Hd & HP & Et). exists v, l.
      split; [done|]. split; [done|]. split; [|done]. unfold noted. by rewrite Et.
  Qed.

  Lemma word_token_null raw rest : length raw = 4%nat -> head (raw ++ rest) = Some 110 -> token_of (JWord raw) = Some (Token TNull raw) /\ word raw.
  Proof. intros Hl Hh. destruct raw as [|c raw]; [done|]. injection Hh as ->. split; [done|]. left. exists 110, raw. cbn in Hl. split; [done|]. split; [auto|lia]. Qed.
  Lemma word_token_bool (raw rest : bytes) (c : Z) : length raw = (if c =? 116 then 4%nat else 5%nat) -> c = 116 \/ c = 102 -> head (raw ++ rest) = Some c ->
    token_of (JWord raw) = Some (Token TBool raw) /\ word raw.
  Proof.
    intros Hl Hc Hh. destruct raw as [|c' raw]; [by destruct (c =? 116)|]. injection Hh as ->.
    destruct Hc as [->| ->]; cbn in Hl; (split; [done|]).
    - left. exists 116, raw. split; [done|]. split; [auto|lia].
    - right. exists raw. split; [done|lia].
  Qed.
  Lemma doc_of w v raw rest : ws w -> loose cap v raw -> delimited v rest -> document cap (w ++ raw ++ rest) v rest.
  Proof. intros Hw Hl Hd. by exists w, raw. Qed.

  Definition q_of (ty : jtype) (l : bytes) : qres token :=
    qbind (q_space l) (fun _ l => match ty with TNull => q_null l | TBool => q_boolean l | TNumber => q_number cap l | _ => q_string cap l end).

  Lemma q_null_token l t rest w : ws w -> q_null l = QOk t rest -> exists v, document cap (w ++ l) v rest /\ a_literal_of TNull v /\ token_of v = Some t.
  Proof.
    intros Hw (raw & -> & Hl & Hh & ->)%q_read_n_inv. destruct (word_token_null raw rest Hl Hh) as [Et Hwd].
    exists (JWord raw). split; [apply doc_of; [done|by constructor|done]|]. split; [|done]. by eexists.
  Qed.
  Lemma q_boolean_token l t rest w : ws w -> q_boolean l = QOk t rest -> exists v, document cap (w ++ l) v rest /\ a_literal_of TBool v /\ token_of v = Some t.
  Proof.
    intros Hw. unfold q_boolean. destruct l as [|c l]; cbn [q_current qbind]; [done|].
    destruct (Z.eqb_spec c 116) as [->|Hc]; intros (raw & E & Hl & Hh & ->)%q_read_n_inv; rewrite E in Hh; rewrite E.
    - destruct (word_token_bool raw rest 116 Hl ltac:(auto) Hh) as [Et Hwd].
      exists (JWord raw). split; [apply doc_of; [done|by constructor|done]|]. split; [|done]. by eexists.
    - destruct (word_token_bool raw rest 102 Hl ltac:(auto) Hh) as [Et Hwd].
      exists (JWord raw). split; [apply doc_of; [done|by constructor|done]|]. split; [|done]. by eexists.
  Qed.
  Lemma q_number_token l t rest w : ws w -> q_number cap l = QOk t rest -> exists v, document cap (w ++ l) v rest /\ a_literal_of TNumber v /\ token_of v = Some t.
  Proof.
    intros Hw (raw & -> & Hn & Hl & Hd & ->)%q_number_inv. exists (JNum raw). split; [apply doc_of; [done|by constructor|done]|]. split; [|done]. by eexists.
  Qed.
  Lemma q_string_token l t rest w : ws w -> q_string cap l = QOk t rest -> exists v, document cap (w ++ l) v rest /\ a_literal_of TString v /\ token_of v = Some t.
  Proof.
    intros Hw (raw & s & -> & Hs & Hl & ->)%q_string_inv. exists (JStr s). split; [|split; [by eexists|done]].
    exists w, (34 :: raw ++ [34]). split; [cbn; by rewrite <- app_assoc|]. split; [done|]. split; [by constructor|done].
  Qed.

  Lemma token_text v l rest t : loose cap v l -> delimited v rest -> token_of v = Some t ->
    match t_type t with
    | TNull => q_null (l ++ rest) | TBool => q_boolean (l ++ rest) | TNumber => q_number cap (l ++ rest) | _ => q_string cap (l ++ rest)
    end = QOk t rest.
  Proof.
    intros H Hd. destruct H as [| | |l Hwd|l Hn Hl|raw s Hs Hl|vs l He|ms l Hms]; cbn [token_of]; intros Et; try discriminate Et.
    - injection Et as <-. done.
    - injection Et as <-. done.
    - injection Et as <-. done.
    - pose proof (q_word_text l rest Hwd) as E. destruct Hwd as [(c & l' & -> & [->| ->] & Hl)|(l' & -> & Hl)]; injection Et as <-; exact E.
    - injection Et as <-. cbn [t_type]. apply q_number_text; [done|lia|done].
    - injection Et as <-. cbn [t_type app]. rewrite <- app_assoc. cbn [app]. apply q_string_text; [done|lia].
  Qed.
  Lemma literal_kind v l t : loose cap v l -> token_of v = Some t -> kind v = t_type t /\ (t_type t = TNull \/ t_type t = TBool \/ t_type t = TNumber \/ t_type t = TString).
  Proof.
    intros H. destruct H as [| | |l Hwd|l Hn Hl|raw s Hs Hl|vs l He|ms l Hms]; cbn [token_of kind]; intros Et; try discriminate Et; try (injection Et as <-; cbn; tauto).
    destruct Hwd as [(c & l' & -> & [->| ->] & Hl)|(l' & -> & Hl)]; injection Et as <-; cbn; tauto.
  Qed.

  Lemma exact_of ty : ty = TNull \/ ty = TBool \/ ty = TNumber \/ ty = TString -> exact_for (q_of ty) (a_literal_of ty).
  Proof.
    intros Hty. split.
    - intros v l w rest Hl Hw Hd (t & Et & <-). exists t. split; [done|]. unfold q_of. erewrite q_space_text; [|exact Hl|by apply ws_sep]. cbn [qbind].
      by apply token_text with (v := v).
    - intros body t rest. unfold q_of. destruct (q_space body) as [[] l1| | |] eqn:E; cbn [qbind]; try done.
      apply q_space_inv in E as (w & b & r & -> & Hw & -> & _). intros Eq.
      destruct Hty as [->|[->|[->| ->]]]; [by apply q_null_token|by apply q_boolean_token|by apply q_number_token|by apply q_string_token].
  Qed.

  Lemma exact_literal : exact_for (q_literal cap) a_literal.
  Proof.
    split.
    - intros v l w rest Hl Hw Hd (t & Et). exists t. split; [done|]. unfold q_literal. erewrite q_next_text; [|exact Hl|by apply ws_sep]. cbn [qbind].
      destruct (literal_kind _ _ _ Hl Et) as [-> Hk]. pose proof (token_text _ _ rest _ Hl Hd Et) as E.
      destruct Hk as [K|[K|[K|K]]]; rewrite K in *; exact E.
    - intros body t rest. unfold q_literal. destruct (q_next body) as [ty l1| | |] eqn:E; cbn [qbind]; try done.
      apply q_next_inv in E as (w & b & r & -> & Hw & -> & _). intros Eq.
      assert (exists ty', exists v, document cap (w ++ b :: r) v rest /\ a_literal_of ty' v /\ token_of v = Some t) as (ty' & v & Hd & HP & Et).
      { destruct ty; try done; eexists; [by apply q_null_token|by apply q_boolean_token|by apply q_number_token|by apply q_string_token]. }
      exists v. split; [done|]. split; [by eexists|done].
  Qed.

  Definition reader (ty : jtype) : pstate -> pres token :=
    match ty with TNull => ReadNull fuel | TBool => ReadBoolean fuel | TNumber => ReadNumber fuel | _ => ReadString fuel end.
  Lemma reader_sim ty st l : before cap st l -> psim cap fuel any (left st) (reader ty st) (q_of ty l).
  Proof.
    intros Hb. assert (psim cap fuel any (left st) (pbind (skip_whitespace fuel st) (fun _ st => match ty with TNull => read_null fuel st | TBool => read_boolean fuel st | TNumber => read_number fuel st | _ => read_string fuel st end)) (q_of ty l)) as H; [|by destruct ty].
    unfold q_of. eapply psim_bind; [apply space_sim; [lia|done]|]. intros [] st1 l1 HR1 Hm1 Hr1. eapply psim_weaken; [exact Hm1|].
    destruct ty; first [by apply null_sim|by apply boolean_sim|apply number_sim; [lia|done|done]|apply string_sim; [lia|done|done]].
  Qed.

  Lemma reader_exact ty : ty = TNull \/ ty = TBool \/ ty = TNumber \/ ty = TString ->
    reads fuel cap (noting (reader ty)) (a_literal_of ty) noted /\ reads_only cap (noting (reader ty)) (a_literal_of ty) noted.
  Proof. intros Hty. eapply exact_reads; [apply reader_sim|by apply exact_of]. Qed.
  Lemma literal_exact : reads fuel cap (noting (ReadLiteral fuel)) a_literal noted /\ reads_only cap (noting (ReadLiteral fuel)) a_literal noted.
  Proof. eapply exact_reads; [|apply exact_literal]. intros st l Hb. by apply literal_sim. Qed.
End literal.

(* ---------- names ---------- *)

Lemma type_string_name ty : type_string (type_value ty) = Some (type_name ty).
Proof. destruct ty; vm_compute; reflexivity. Qed.

Lemma complains expected st b : p_buf st !! p_tail st = Some b -> 0 <= b < 256 -> wrong_type_error expected st = Some (complaint expected b).
Proof.
  intros E Hb. unfold wrong_type_error, complaint. rewrite E, type_string_name.
  assert (encode_rune b = utf8 b) as Eu.
  { assert (forallb (fun n => bool_decide (encode_rune (Z.of_nat n) = utf8 (Z.of_nat n))) (seq 0 256) = true) as K by (vm_compute; reflexivity).
    rewrite forallb_forall in K. specialize (K (Z.to_nat b)). rewrite Z2Nat.id in K by lia.
    eapply bool_decide_eq_true_1, K, in_seq. lia. }
  rewrite Eu. destruct (symbol b) eqn:Es; rewrite ?type_string_name; try (rewrite decide_False by done); try (rewrite decide_True by done); by rewrite <- ?app_assoc.
Qed.

Lemma names_distinct i j : 0 <= i < 256 -> 0 <= j < 256 -> is_Some (type_string i) /\ (type_string i = type_string j -> i = j).
Proof.
  intros Hi Hj.
  assert (forallb (fun n => bool_decide (is_Some (type_string (Z.of_nat n)))) (seq 0 256) = true) as K1 by (vm_compute; reflexivity).
  assert (NoDup (map (fun n => type_string (Z.of_nat n)) (seq 0 256))) as K2 by (apply (bool_decide_eq_true_1 _); vm_compute; reflexivity).
  rewrite forallb_forall in K1. split.
  - specialize (K1 (Z.to_nat i)). rewrite Z2Nat.id in K1 by lia. eapply bool_decide_eq_true_1, K1, in_seq. lia.
  - intros E. assert (Z.to_nat i = Z.to_nat j) as H; [|lia]. eapply (NoDup_lookup _ _ _ (type_string i) K2).
    + change (map ?f ?l) with (f <$> l). rewrite list_lookup_fmap, lookup_seq_lt by lia. cbn. f_equal. f_equal. lia.
    + change (map ?f ?l) with (f <$> l). rewrite list_lookup_fmap, lookup_seq_lt by lia. cbn. rewrite E. f_equal. f_equal. lia.
Qed.

Lemma readers fuel cap : (5 <= cap)%nat ->
  (reads fuel cap (noting (ReadNull fuel)) (a_literal_of TNull) noted /\ reads_only cap (noting (ReadNull fuel)) (a_literal_of TNull) noted) /\
  (reads fuel cap (noting (ReadBoolean fuel)) (a_literal_of TBool) noted /\ reads_only cap (noting (ReadBoolean fuel)) (a_literal_of TBool) noted) /\
  (reads fuel cap (noting (ReadNumber fuel)) (a_literal_of TNumber) noted /\ reads_only cap (noting (ReadNumber fuel)) (a_literal_of TNumber) noted) /\
  (reads fuel cap (noting (ReadString fuel)) (a_literal_of TString) noted /\ reads_only cap (noting (ReadString fuel)) (a_literal_of TString) noted).
Proof.
  intros Hc. split; [apply (reader_exact fuel cap Hc TNull); tauto|]. split; [apply (reader_exact fuel cap Hc TBool); tauto|].
  split; [apply (reader_exact fuel cap Hc TNumber); tauto|]. apply (reader_exact fuel cap Hc TString); tauto.
Qed.

Lemma words_loose : exists fuel chunks buf t st, ReadNull fuel (new_parser (Src chunks (EndEOF false)) buf) = POk t st /\ t_val t <> str "null" /\
  exists chunks' t' st', ReadBoolean fuel (new_parser (Src chunks' (EndEOF false)) buf) = POk t' st' /\ t_val t' <> str "true" /\ t_val t' <> str "false".
Proof.
  exists 20%nat, [str "nope"], (replicate 8 0). eexists _, _. split; [vm_compute; reflexivity|]. split; [done|].
  exists [str "f{""a""}"]. eexists _, _. split; [vm_compute; reflexivity|]. done.
Qed.
