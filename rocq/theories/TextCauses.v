(** The causes of the list parser, and what is around them (C105). *)
From Verif Require Import Base IdModel SpanModel JsonModel LiteralModel CodecModel HandlerModel JsonPure JsonSpec JsonProofs JsonSim TextModel TextErase TextPure TextSpec.

Definition text_of (s : String.string) : String.string := s.
Arguments text_of _%string_scope.
Lemma app_str (s t : String.string) (m : bytes) : str s ++ str t ++ m = str (String.append s t) ++ m.
Proof. induction s as [|c s IH]; [done|]. change (String.append (String.String c s) t) with (String.String c (String.append s t)). cbn [str app]. by rewrite IH. Qed.

(* ---------- the parser ---------- *)

Section parser.
Context (fin body : bytes).

(** The names of the types. *)
Definition name_of (t : jtype) : bytes := default [] (type_string (type_value t)).
Lemma quoted_name t : quoted_type t = quote (name_of t).
Proof. done. Qed.
Lemma name_of_eq t : name_of t = match t with
  | TError => str "TypeError" | TNull => str "TypeNull" | TObjBegin => str "TypeObjectBegin" | TObjEnd => str "TypeObjectEnd"
  | TArrBegin => str "TypeArrayBegin" | TArrEnd => str "TypeArrayEnd" | TBool => str "TypeBoolean" | TNumber => str "TypeNumber"
  | TString => str "TypeString" | TSpace => str "typeWhitespace" end.
Proof. destruct t; vm_compute; reflexivity. Qed.
Lemma name_inj t u : name_of t = name_of u -> t = u.
Proof. rewrite !name_of_eq. destruct t, u; (discriminate || reflexivity). Qed.
Lemma token_name t : t <> TError -> t <> TSpace -> name_of t ∈ opening ++ closing ++ scalars.
Proof. rewrite name_of_eq. intros H1 H2. destruct t; try done; unfold opening, closing, scalars, names; cbn [map app]; rewrite !elem_of_cons; tauto. Qed.

Lemma no_token_symbol c : symbol c = TError -> no_token c.
Proof.
  intros H Hin. unfold no_token in *. assert (Hb : forallb (fun c => negb (bool_decide (symbol c = TError))) ([9; 10; 11; 12; 13; 32; 34; 44; 58; 133; 160] ++ str "-0123456789ntf{}[]") = true) by (vm_compute; reflexivity).
  rewrite forallb_forall in Hb. specialize (Hb c (proj1 (elem_of_list_In _ _) Hin)). rewrite H in Hb. discriminate.
Qed.

Lemma has_symbol b : b ∈ body -> symbol b <> TError -> symbol b <> TSpace -> has_token body (name_of (symbol b)).
Proof.
  intros Hb H1 H2. assert (H : exists s, (name_of (symbol b), s) ∈ first_bytes /\ b ∈ s); [|destruct H as (s & ? & ?); by exists s, b].
  rewrite name_of_eq. unfold symbol in *. unfold first_bytes. repeat case_match; try done;
    (eexists; split; [repeat first [apply elem_of_list_here|apply elem_of_list_further]|]);
    match goal with |- b ∈ ?s => let s' := eval vm_compute in s in change (b ∈ s') end; rewrite !elem_of_cons; lia.
Qed.
Lemma wrong_cause ty b : b ∈ body -> name_of ty ∈ wanted -> symbol b <> ty -> symbol b <> TSpace -> cause fin body (wrong_text ty b).
Proof.
  intros Hb Hw Hne Hs. pose proof (has_symbol b Hb) as Ht. unfold wrong_text. destruct (symbol b) eqn:E.
  { rewrite quoted_name. apply other_character; [done|done|]. by apply no_token_symbol. }
  all: rewrite !quoted_name; apply other_token; [done|by apply token_name|by apply Ht|intros Hn%name_inj; by subst ty].
Qed.

Lemma hex_error_cause l : l ⊆ body -> Exists (fun c => hex_digit c = None) l -> cause fin body (hex_error l).
Proof.
  intros Hl. induction 1 as [c l H|c l _ IH]; cbn [hex_error].
  - rewrite H. apply bad_escape; [apply Hl, elem_of_list_here|]. intros v Hv%hex_digit_is. congruence.
  - destruct (hex_digit c) eqn:E; [apply IH; intros x Hx; by apply Hl, elem_of_list_further|]. apply bad_escape; [apply Hl, elem_of_list_here|]. intros v Hv%hex_digit_is. congruence.
Qed.

Lemma hex_ordinary c v : hex_digit c = Some v -> (c =? ch_backslash) = false /\ (c =? ch_quote) = false.
Proof. intros H%hex_digit_is. unfold hex_is in H. unfold ch_backslash, ch_quote. lia. Qed.

Ltac four H := let x := fresh in let Hx := fresh in intros x Hx; apply H; rewrite ?elem_of_cons in *; rewrite ?elem_of_nil in Hx; intuition auto.
(** The text of the token of a string does not end within an escape of two characters. *)
Lemma unescape_cause : forall k l n has n' has' r, (length l <= k)%nat -> close (l ++ 34 :: r) n false has = Some (n', has') -> n' = (n + length l)%nat ->
  l ⊆ body -> unescape l = None -> cause fin body (unescape_error l).
Proof.
  induction k as [|k IH]; intros l n has n' has' r Hk Hc Hn Hsub Hu; (destruct l as [|c l]; [done|]); cbn [length] in *; [lia|].
  cbn [unescape unescape_error close app] in *. change ch_backslash with 92 in *. change ch_quote with 34 in *. destruct (c =? 92); cbn [negb] in *.
  - destruct l as [|c1 l].
    { exfalso. cbn [app close length] in *. apply close_bound in Hc. lia. }
    cbn [app close length] in *. destruct (c1 =? 117) eqn:E1; cbn [negb] in *.
    + destruct l as [|a [|b [|c' [|d l]]]]; try apply short_escape.
      destruct (hex_digit a) as [va|] eqn:Ea; [|apply hex_error_cause; [four Hsub|by repeat constructor]].
      destruct (hex_digit b) as [vb|] eqn:Eb; [|apply hex_error_cause; [four Hsub|by repeat constructor]].
      destruct (hex_digit c') as [vc|] eqn:Ec; [|apply hex_error_cause; [four Hsub|by repeat constructor]].
      destruct (hex_digit d) as [vd|] eqn:Ed; [|apply hex_error_cause; [four Hsub|by repeat constructor]].
      destruct (hex_ordinary _ _ Ea) as [Pa Qa], (hex_ordinary _ _ Eb) as [Pb Qb], (hex_ordinary _ _ Ec) as [Pc Qc], (hex_ordinary _ _ Ed) as [Pd Qd].
      cbn [app close length] in *. rewrite Pa, Qa, Pb, Qb, Pc, Qc, Pd, Qd in Hc.
      apply (IH l _ _ _ _ _ ltac:(lia) Hc); [lia|intros x Hx; apply Hsub; by repeat apply elem_of_list_further|]. by destruct (unescape l).
    + apply (IH l _ _ _ _ _ ltac:(lia) Hc); [lia|intros x Hx; apply Hsub; by repeat apply elem_of_list_further|]. by destruct (unescape l).
  - destruct (c =? 34) eqn:Eq; [injection Hc as <- <-; lia|].
    apply (IH l _ _ _ _ _ ltac:(lia) Hc); [lia|intros x Hx; apply Hsub; by repeat apply elem_of_list_further|]. by destruct (unescape l).
Qed.

Lemma close_quote : forall l n esc has n' has', close l n esc has = Some (n', has') -> exists r, l = take (n' - n) l ++ 34 :: r.
Proof.
  induction l as [|c l IH]; intros n esc has n' has' H; cbn [close] in H; [done|].
  assert (Hrec : forall esc' has1, close l (S n) esc' has1 = Some (n', has') -> exists r, c :: l = take (n' - n) (c :: l) ++ 34 :: r).
  { intros esc' has1 Hc. pose proof (close_bound _ _ _ _ _ _ Hc). destruct (IH _ _ _ _ _ Hc) as [r Hr]. exists r.
    replace (n' - n)%nat with (S (n' - S n)) by lia. cbn [take app]. by f_equal. }
  destruct esc; [by eapply Hrec|]. destruct (c =? ch_backslash); [by eapply Hrec|]. destruct (c =? ch_quote) eqn:E; [|by eapply Hrec].
  injection H as <- <-. exists l. rewrite Nat.sub_diag, take_0. cbn [app]. f_equal. unfold ch_quote in E. lia.
Qed.

(** What a result is if it is not an error. *)
Definition fine {A} (Q : A -> bytes -> Prop) (r : wres A) : Prop :=
  match r with WOk a l => l ⊆ body /\ Q a l | WErr m => cause fin body m | WEnd m => cause fin body m /\ (exists p, m = p ++ fin) | _ => True end.
Lemma ended_here : cause fin body fin /\ (exists p, fin = p ++ fin).
Proof. split; [apply at_end|by exists []]. Qed.
Lemma ended_in_word : cause fin body (required fin 4) /\ (exists p, required fin 4 = p ++ fin).
Proof. split; [apply in_short_word|by exists (str "require(4): ")]. Qed.
Lemma ended_in_false : cause fin body (required fin 5) /\ (exists p, required fin 5 = p ++ fin).
Proof. split; [apply in_false|by exists (str "require(5): ")]. Qed.
Lemma fine_bind {A B} Q P (r : wres A) (f : A -> bytes -> wres B) : fine Q r -> (forall a l, l ⊆ body -> Q a l -> fine P (f a l)) -> fine P (wbind r f).
Proof. destruct r; cbn [fine wbind]; auto. intros [? ?]. auto. Qed.
Lemma tail_sub (b : Z) (r : bytes) : b :: r ⊆ body -> r ⊆ body.
Proof. intros H x Hx. by apply H, elem_of_list_further. Qed.
Lemma head_sub (b : Z) (r : bytes) : b :: r ⊆ body -> b ∈ body.
Proof. intros H. by apply H, elem_of_list_here. Qed.
Lemma drop_sub n (l : bytes) : l ⊆ body -> drop n l ⊆ body.
Proof. intros H x Hx. apply H. rewrite <- (take_drop n l). apply elem_of_app. by right. Qed.
Lemma take_sub n (l : bytes) : l ⊆ body -> take n l ⊆ body.
Proof. intros H x Hx. apply H. rewrite <- (take_drop n l). apply elem_of_app. by left. Qed.

Definition some_byte (t : jtype) (l : bytes) : Prop := exists b l', l = b :: l' /\ symbol b = t.
Definition anything {A} (_ : A) (_ : bytes) : Prop := True.

Lemma drop_space_head l b l' : drop_space l = b :: l' -> is_space b = false.
Proof. induction l as [|c l IH]; cbn [drop_space]; [done|]. destruct (is_space c) eqn:E; [done|]. by intros [= -> ->]. Qed.
Lemma not_space b : is_space b = false -> symbol b <> TSpace.
Proof. unfold is_space. by intros H%bool_decide_eq_false. Qed.

Lemma drop_space_sub l : l ⊆ body -> drop_space l ⊆ body.
Proof. induction l as [|c l IH]; cbn [drop_space]; [done|]. destruct (is_space c); [|done]. intros H. apply IH. by eapply tail_sub. Qed.
Lemma space_fine l : l ⊆ body -> fine (fun _ l' => exists b r, l' = b :: r /\ symbol b <> TSpace) (w_space fin l).
Proof.
  intros Hl. apply drop_space_sub in Hl. unfold w_space. destruct (drop_space l) as [|b r] eqn:E; [apply ended_here|]. split; [done|]. exists b, r. split; [done|]. by apply not_space, (drop_space_head l _ r).
Qed.

Lemma next_fine l : l ⊆ body -> fine (fun t l' => some_byte t l' /\ t <> TError /\ t <> TSpace) (w_next fin l).
Proof.
  intros Hl. eapply fine_bind; [by apply space_fine|]. intros _ l1 Hl1 (b & r & -> & Hs). cbn [w_current wbind].
  destruct (symbol b) eqn:E; try done; try (by split; [done|split; [exists b, r|]]). apply at_character; [by apply (head_sub b r)|]. by apply no_token_symbol.
Qed.

Lemma consume1_fine t l : l ⊆ body -> some_byte t l -> fine anything (w_consume1 t l).
Proof. intros Hl (b & r & -> & E). cbn [w_consume1]. rewrite decide_True by done. split; [by eapply tail_sub|done]. Qed.

Lemma consume_fine t l : l ⊆ body -> name_of t ∈ wanted -> fine anything (w_consume fin t l).
Proof.
  intros Hl Hw. eapply fine_bind; [by apply space_fine|]. intros _ l1 Hl1 (b & r & -> & Hs). cbn [w_consume1].
  destruct (decide _); [split; [by eapply tail_sub|done]|]. apply wrong_cause; try done. by eapply head_sub.
Qed.

Lemma string_name : name_of TString ∈ wanted.
Proof. rewrite name_of_eq. unfold wanted, opening, names. cbn [map app]. rewrite !elem_of_cons. tauto. Qed.
Lemma number_name : name_of TNumber ∈ wanted.
Proof. rewrite name_of_eq. unfold wanted, opening, names. cbn [map app]. rewrite !elem_of_cons. tauto. Qed.

Lemma quote_symbol c : symbol c = TString -> c = ch_quote.
Proof. unfold symbol, ch_quote. repeat case_match; try done. lia. Qed.

Lemma string_fine cap b r : b :: r ⊆ body -> symbol b <> TSpace -> fine anything (w_string fin cap (b :: r)).
Proof.
  intros Hl Hs. cbn [w_string]. destruct (negb (b =? ch_quote)) eqn:Eq.
  { apply wrong_cause; [by eapply head_sub|apply string_name| |done]. intros E%quote_symbol. lia. }
  apply tail_sub in Hl. unfold w_string_body. destruct (close r 0 false false) as [[n has]|] eqn:Ec.
  - destruct (n <? cap)%nat; [|done]. destruct has; [|split; [by apply drop_sub|done]]. destruct (unescape (take n r)) eqn:Eu; [split; [by apply drop_sub|done]|].
    destruct (close_quote _ _ _ _ _ _ Ec) as [r' Hr]. rewrite Nat.sub_0_r in Hr. pose proof (close_bound _ _ _ _ _ _ Ec) as Hb.
    rewrite Hr in Ec. apply (unescape_cause (length (take n r)) (take n r) 0 false _ _ r' ltac:(lia) Ec); [|by apply take_sub|done]. rewrite take_length. lia.
  - destruct (_ <=? _)%nat; [apply ended_here|done].
Qed.

Lemma number_end_chars : forall l n n', number_end l n = Some n' -> Forall (fun c => is_number_char c = true) (take (n' - n) l).
Proof.
  induction l as [|c l IH]; intros n n' H; cbn [number_end] in H; [done|]. destruct (is_number_char c) eqn:E.
  - pose proof (number_end_bound _ _ _ H). replace (n' - n)%nat with (S (n' - S n)) by lia. cbn [take]. constructor; [done|]. by apply IH.
  - injection H as <-. rewrite Nat.sub_diag. constructor.
Qed.

Definition number_token (t : token) (_ : bytes) : Prop := Forall (fun c => is_number_char c = true) (t_val t) /\ t_val t ⊆ body.
Lemma number_fine cap b r : b :: r ⊆ body -> symbol b <> TSpace -> fine number_token (w_number fin cap (b :: r)).
Proof.
  intros Hl Hs. cbn [w_number]. destruct (is_digit b) eqn:Ed; cbn [negb].
  - destruct (number_end r 1) as [n|] eqn:En.
    + destruct (n <? cap)%nat; [|done]. cbn [fine]. split; [by apply drop_sub|]. unfold number_token. cbn [t_val]. split; [|by apply take_sub]. pose proof (number_end_bound _ _ _ En).
      destruct n as [|n]; [lia|]. cbn [take]. constructor; [unfold is_number_char; by rewrite Ed|].
      apply number_end_chars in En. by replace (S n - 1)%nat with n in En by lia.
    + destruct (_ <=? _)%nat; [apply ended_here|done].
  - apply wrong_cause; [by eapply head_sub|apply number_name| |done]. unfold is_digit in Ed. by apply bool_decide_eq_false in Ed.
Qed.

Lemma null_fine l : l ⊆ body -> some_byte TNull l -> fine anything (w_null fin l).
Proof.
  intros Hl (b & r & -> & E). unfold w_null, w_read_n. destruct (_ <=? _)%nat; [|apply ended_in_word].
  assert (b = 110) as -> by (unfold symbol in E; repeat case_match; try done; lia). split; [by apply drop_sub|done].
Qed.
Lemma boolean_fine l : l ⊆ body -> some_byte TBool l -> fine anything (w_boolean fin l).
Proof.
  intros Hl (b & r & -> & E). unfold w_boolean. cbn [w_current wbind].
  assert (b = 116 \/ b = 102) as [-> | ->] by (unfold symbol in E; repeat case_match; try done; lia); cbn [Z.eqb Pos.eqb]; unfold w_read_n.
  - destruct (_ <=? _)%nat; [split; [by apply drop_sub|done]|apply ended_in_word].
  - destruct (_ <=? _)%nat; [split; [by apply drop_sub|done]|apply ended_in_false].
Qed.

Lemma some_token t l : l ⊆ body -> some_byte t l -> t <> TError -> t <> TSpace -> has_token body (name_of t).
Proof. intros Hl (b & r & -> & <-) H1 H2. apply has_symbol; [by eapply head_sub|done|done]. Qed.
Lemma literal_fine cap l : l ⊆ body -> fine anything (w_literal fin cap l).
Proof.
  intros Hl. eapply fine_bind; [by apply next_fine|]. intros t l1 Hl1 (Hb & H1 & H2). pose proof (some_token t l1 Hl1 Hb H1 H2) as Htok.
  assert (Hbr : t ∈ [TObjBegin; TObjEnd; TArrBegin; TArrEnd] -> cause fin body (str "expected literal, got " ++ quoted_type t)).
  { intros Ht. rewrite quoted_name. apply no_literal; [|exact Htok]. rewrite name_of_eq. rewrite !elem_of_cons in Ht. unfold opening, closing, names. cbn [map app].
    destruct Ht as [->|[->|[->|[->|Ht]]]]; [| | | |by apply elem_of_nil in Ht]; rewrite !elem_of_cons; tauto. }
  destruct t; try done; try (apply Hbr; rewrite !elem_of_cons; tauto).
  - by apply null_fine.
  - by apply boolean_fine.
  - destruct Hb as (b & r & -> & E). pose proof (number_fine cap b r Hl1 ltac:(by rewrite E)) as H. destruct (w_number fin cap (b :: r)); try done. by destruct H.
  - destruct Hb as (b & r & -> & E). apply string_fine; [done|by rewrite E].
Qed.

Lemma closing_name t : has_token body (name_of t) -> t = TObjEnd \/ t = TArrEnd -> cause fin body (str "can not skip unexpected symbol of type " ++ quoted_type t).
Proof.
  intros Hb Ht. rewrite quoted_name. apply no_value; [|exact Hb]. rewrite name_of_eq. unfold closing, names. cbn [map]. rewrite !elem_of_cons.
  destruct Ht as [-> | ->]; tauto.
Qed.

Lemma skips_fine cap : forall depth,
  (forall t l, l ⊆ body -> some_byte t l -> t <> TError -> t <> TSpace -> fine anything (w_skip fin depth cap t l)) /\
  (forall l, l ⊆ body -> fine anything (w_skip_elements fin depth cap l)) /\
  (forall l, l ⊆ body -> fine anything (w_skip_members fin depth cap l)).
Proof.
  induction depth as [|depth (IH1 & IH2 & IH3)]; [done|].
  split; [|split].
  - intros t l Hl Hb H1 H2. pose proof (some_token t l Hl Hb H1 H2) as Htok. cbn [w_skip]. destruct t; try done.
    + eapply fine_bind; [by apply null_fine|done].
    + eapply fine_bind; [by apply consume1_fine|]. intros; by apply IH3.
    + by apply closing_name; auto.
    + eapply fine_bind; [by apply consume1_fine|]. intros; by apply IH2.
    + by apply closing_name; auto.
    + eapply fine_bind; [by apply boolean_fine|done].
    + destruct Hb as (b & r & -> & E). eapply fine_bind; [apply number_fine; [done|by rewrite E]|done].
    + destruct Hb as (b & r & -> & E). eapply fine_bind; [apply string_fine; [done|by rewrite E]|done].
  - intros l Hl. cbn [w_skip_elements]. eapply fine_bind; [by apply next_fine|]. intros t l1 Hl1 (Hb & H1 & H2). destruct (decide (t = TArrEnd)) as [->|].
    + by apply consume1_fine.
    + eapply fine_bind; [by apply IH1|]. intros; by apply IH2.
  - intros l Hl. cbn [w_skip_members]. eapply fine_bind; [by apply next_fine|]. intros t l1 Hl1 (Hb & H1 & H2). destruct (decide (t = TObjEnd)) as [->|].
    + by apply consume1_fine.
    + destruct Hb as (b & r & -> & E). eapply fine_bind; [apply string_fine; [done|by rewrite E]|]. intros _ l2 Hl2 _. eapply fine_bind; [by apply next_fine|].
      intros t2 l3 Hl3 (Hb2 & H3 & H4). eapply fine_bind; [by apply IH1|]. intros; by apply IH3.
Qed.

(** What is known after a call, and what must be known before it. *)
Definition after (o : op) (t : token) (l : bytes) : Prop :=
  match o with ONext => some_byte (t_type t) l | ONumber => number_token t l | _ => True end.
Definition allowed (o : op) (known : option jtype) : Prop :=
  match o with OObjEnd => known = Some TObjEnd | OArrEnd => known = Some TArrEnd | _ => True end.

Lemma op_fine depth cap o l known : l ⊆ body -> allowed o known -> (forall t, known = Some t -> some_byte t l) -> fine (after o) (w_op fin depth cap o l).
Proof.
  intros Hl Ha Hk. assert (Hu : forall (r : wres unit), fine anything r -> fine (fun _ _ => True) (wbind r (fun _ l => WOk (Token TNull []) l))).
  { intros r Hr. eapply fine_bind; [exact Hr|done]. }
  assert (Hend : forall t, some_byte t l -> t <> TSpace -> fine anything (w_consume fin t l)).
  { intros t (b & r & -> & E) Ht. unfold w_consume, w_space. cbn [drop_space]. assert (is_space b = false) as -> by (unfold is_space; apply bool_decide_eq_false; congruence).
    cbn [wbind]. apply consume1_fine; [done|]. by exists b, r. }
  destruct o; cbn [w_op allowed] in *.
  - eapply fine_bind; [by apply next_fine|]. intros t l1 Hl1 (Hb & _). done.
  - apply Hu, consume_fine; [done|]. rewrite name_of_eq. unfold wanted, opening, names. cbn [map app]. rewrite !elem_of_cons. tauto.
  - apply Hu, Hend; [by apply Hk|done].
  - apply Hu, consume_fine; [done|]. rewrite name_of_eq. unfold wanted, opening, names. cbn [map app]. rewrite !elem_of_cons. tauto.
  - apply Hu, Hend; [by apply Hk|done].
  - eapply fine_bind; [by apply space_fine|]. intros _ l1 Hl1 (b & r & -> & Hs). pose proof (string_fine cap b r Hl1 Hs) as H. destruct (w_string fin cap (b :: r)); try done; try by destruct H.
  - eapply fine_bind; [by apply space_fine|]. intros _ l1 Hl1 (b & r & -> & Hs). by apply number_fine.
  - pose proof (literal_fine cap l Hl) as H. destruct (w_literal fin cap l); try done; try by destruct H.
  - apply Hu. unfold w_Skip. eapply fine_bind; [by apply next_fine|]. intros t l1 Hl1 (Hb & H1 & H2). by apply skips_fine.
Qed.

Definition closes (o : op) : Prop := o = OObjEnd \/ o = OArrEnd.
Lemma op_closes depth cap o l known : closes o -> allowed o known -> (forall t, known = Some t -> some_byte t l) -> exists t l', w_op fin depth cap o l = WOk t l'.
Proof.
  intros Hc Ha Hk. assert (Hend : forall t, some_byte t l -> t <> TSpace -> exists l', w_consume fin t l = WOk tt l').
  { intros t (b & r & -> & E) Ht. unfold w_consume, w_space. cbn [drop_space]. assert (is_space b = false) as -> by (unfold is_space; apply bool_decide_eq_false; congruence).
    cbn [wbind w_consume1]. rewrite decide_True by done. by exists r. }
  destruct Hc as [-> | ->]; cbn [w_op allowed] in *.
  - destruct (Hend TObjEnd) as [l' ->]; [by apply Hk|done|]. eexists _, _. reflexivity.
  - destruct (Hend TArrEnd) as [l' ->]; [by apply Hk|done|]. eexists _, _. reflexivity.
Qed.

(* ---------- programs ---------- *)

Definition learned (o : op) (t : token) : option jtype := match o with ONext => Some (t_type t) | _ => None end.
Definition token_ok (o : op) (t : token) : Prop := match o with ONumber => number_token t [] | _ => True end.

(** Every error of the program is one of [P]. *)
Fixpoint errs {A} (P : bytes -> Prop) (known : option jtype) (p : tprog A) : Prop :=
  match p with
  | TRet _ => True
  | TFail _ m => P m
  | TOut => True
  | TCall o k _ w => allowed o known /\ (closes o \/ forall m, cause fin body m -> P (w m)) /\ forall t, token_ok o t -> errs P (learned o t) (k t)
  end.

Lemma errs_exec {A} P depth cap (p : tprog A) : forall known l, l ⊆ body -> errs P known p -> (forall t, known = Some t -> some_byte t l) ->
  match w_exec fin depth cap p l with VErr m => P m | VEnd m => P m | _ => True end.
Proof.
  induction p as [a|a m|o k IH a w|]; intros known l Hl H Hk; cbn [w_exec errs] in *; try done.
  destruct H as (Ha & Hw & Hc). pose proof (op_fine depth cap o l known Hl Ha Hk) as Hf.
  assert (Hno : closes o -> exists t l', w_op fin depth cap o l = WOk t l') by (intros; by eapply op_closes).
  destruct (w_op fin depth cap o l) as [t l'|m|m| |]; cbn [fine] in Hf; try done.
  2, 3: destruct Hw as [Hw|Hw]; [destruct (Hno Hw) as (? & ? & ?); done|].
  2: auto.
  2: destruct Hf; auto.
  destruct Hf as [Hl' Hf]. apply (IH t (learned o t) l' Hl').
  - apply Hc. destruct o; done.
  - intros t' Ht'. destruct o; try done. by injection Ht' as <-.
Qed.

(** Decoders only put something before the text of an error. *)
Definition before (w : bytes -> bytes) : Prop := exists c, forall m, w m = c ++ m.
Fixpoint plain {A} (p : tprog A) : Prop :=
  match p with TRet _ => True | TFail _ _ => True | TOut => True | TCall o k _ w => before w /\ forall t, plain (k t) end.

Lemma plain_exec {A} P depth cap (p : tprog A) : forall known l m, l ⊆ body -> errs P known p -> plain p -> (forall t, known = Some t -> some_byte t l) ->
  w_exec fin depth cap p l = VEnd m -> exists q, m = q ++ fin.
Proof.
  induction p as [a|a m'|o k IH a w|]; intros known l m Hl H Hp Hk He; cbn [w_exec errs plain] in *; try done.
  destruct H as (Ha & Hw & Hc). destruct Hp as ((c & Hb) & Hp). pose proof (op_fine depth cap o l known Hl Ha Hk) as Hf.
  destruct (w_op fin depth cap o l) as [t l'|m'|m'| |]; cbn [fine] in Hf; try done.
  - destruct Hf as [Hl' Hf]. apply (IH t (learned o t) l' m); [done|apply Hc; destruct o; done|apply Hp| |exact He].
    intros t' Ht'. destruct o; try done. by injection Ht' as <-.
  - injection He as <-. destruct Hf as (_ & q & ->). exists (c ++ q). rewrite Hb. by rewrite app_assoc.
Qed.

Lemma before_bare : before bare.
Proof. by exists []. Qed.
Lemma before_message s : before (with_message s).
Proof. exists (s ++ str ": "). intros m. unfold with_message. by rewrite app_assoc. Qed.
Lemma plain_then {A B} (p : tprog A) (f : A -> B) k w : plain p -> before w -> (forall a, plain (k a)) -> plain (tthen p f k w).
Proof.
  intros H Hw Hk. induction p as [a|a m|o c IH a w'|]; cbn [tthen plain] in *; try done.
  destruct H as ((c' & Hc) & Ht). split; [|auto]. destruct Hw as (c2 & Hw). exists (c2 ++ c'). intros m. by rewrite Hw, Hc, app_assoc.
Qed.

Lemma errs_then {A B} (P Q : bytes -> Prop) known (p : tprog A) (f : A -> B) k w : errs P known p -> (forall m, P m -> Q (w m)) -> (forall a known', errs Q known' (k a)) ->
  errs Q known (tthen p f k w).
Proof.
  intros H Hw Hk. revert known H. induction p as [a|a m|o c IH a w'|]; intros known H; cbn [tthen errs] in *; try done; [auto|].
  destruct H as (Ha & Hc & Ht). split; [done|]. split; [destruct Hc; auto|]. intros t Hok. by apply IH, Ht.
Qed.

Definition derrs {T} (P : bytes -> Prop) (d : tdecoder T) : Prop := forall t known, errs P known (d t).
Definition causes (P : bytes -> Prop) (s : String.string) : Prop := forall m, cause fin body m -> P (str s ++ m).
Arguments causes _ _%string_scope.

(** What [with_message] puts between the two texts. *)
Definition colon : String.string := text_of ": ".
Lemma causes_message (P : bytes -> Prop) s : causes P (String.append s colon) -> forall m, cause fin body m -> P (with_message (str s) m).
Proof. intros H m Hm. unfold with_message. change (str ": ") with (str colon). rewrite app_str. by apply H. Qed.
Arguments causes_message _ _%string_scope.
Lemma causes_bare (P : bytes -> Prop) : causes P "" -> forall m, cause fin body m -> P m.
Proof. intros H m Hm. exact (H m Hm). Qed.

Lemma field_errs {T A} P (get : T -> A) put d : derrs P d -> derrs P (t_field get put d).
Proof. intros H t known. eapply errs_then; [apply H|done|done]. Qed.

Lemma digits_cause bs : Forall (fun c => is_number_char c = true) bs -> bs ⊆ body -> forall n, digits_value n bs = None -> cause fin body (digits_error bs).
Proof.
  induction 1 as [|c bs Hc _ IH]; intros Hs n H; cbn [digits_value digits_error] in *; [done|].
  destruct ((c <? 48) || (57 <? c)) eqn:E; [|by apply (IH (tail_sub _ _ Hs) _ H)].
  apply bad_number; [|by eapply head_sub]. unfold is_number_char, is_digit in Hc. assert (c = 45 \/ c = 46 \/ c = 101) as Hd.
  { destruct (bool_decide (symbol c = TNumber)) eqn:Es; [|cbn [orb] in Hc; lia]. apply bool_decide_eq_true in Es. unfold symbol in Es. repeat case_match; try done; lia. }
  cbn [str]. rewrite !elem_of_cons. destruct Hd as [->|[->| ->]]; tauto.
Qed.

Lemma uint64_errs P : causes P "decode uint64 value: " -> causes P "" -> derrs P t_uint64.
Proof.
  intros H1 H2 t known. split; [done|]. split; [right; by apply (causes_message P "decode uint64 value")|]. intros tok Hok.
  destruct (digits_value 0 (t_val tok)) eqn:E; [done|]. cbn [errs]. apply causes_bare; [done|]. by apply (digits_cause _ (proj1 Hok) (proj2 Hok) 0).
Qed.
Lemma string_errs P : causes P "decode value: " -> derrs P t_string.
Proof. intros H t known. split; [done|]. split; [right; by apply (causes_message P "decode value")|done]. Qed.
Lemma any_errs P : causes P "decode value: " -> derrs P t_any.
Proof. intros H t known. split; [done|]. split; [right; by apply (causes_message P "decode value")|done]. Qed.

Lemma id_step_none r c : parse_id_step r c = None -> parse_id_step 0 c = None /\ no_hex c.
Proof. unfold parse_id_step, no_hex, hex_is. repeat case_match; try done. intros _. split; [done|]. intros v. lia. Qed.
Lemma id_cause bs : parse_id bs = None -> cause fin body (id_error bs).
Proof.
  unfold parse_id, id_error. destruct (_ <? _)%nat; [intros _; apply long_id|]. generalize 0 at 1 as r. induction bs as [|c bs IH]; intros r H; cbn [parse_id_loop id_char_error] in *; [done|].
  destruct (parse_id_step r c) as [r'|] eqn:E.
  - destruct (parse_id_step 0 c) eqn:E0; [by apply (IH r')|]. exfalso. apply id_step_none in E0 as [_ E0]. unfold parse_id_step in E. unfold no_hex, hex_is in E0.
    repeat case_match; try done; [specialize (E0 (c - 48))|specialize (E0 (c - 87))|specialize (E0 (c - 55))]; lia.
  - destruct (id_step_none _ _ E) as [-> Hh]. by apply bad_id.
Qed.

Lemma id_errs P : causes P "" -> causes P "decode id value: " -> derrs P t_id.
Proof.
  intros H1 H2 t known. split; [done|]. split; [right; by apply causes_bare|]. intros next _. destruct (decide _).
  - split; [done|]. split; [right; by apply causes_bare|done].
  - split; [done|]. split; [right; by apply (causes_message P "decode id value")|]. intros tok _. destruct (parse_id (t_val tok)) eqn:E; [done|].
    cbn [errs]. apply causes_bare; [done|]. by apply id_cause.
Qed.

Lemma map_errs P fuel : causes P "begin object: " -> causes P "" -> causes P "decode value: " -> derrs P (t_map fuel).
Proof.
  intros H1 H2 H3 t known. split; [done|]. split; [right; by apply (causes_message P "begin object")|]. intros tok _. cbn [learned]. clear known.
  generalize (None : option jtype) as known, (∅ : gmap gostring gostring) as result.
  induction fuel as [|fuel IH]; intros known result; [done|]. cbn [t_map_loop]. split; [done|]. split; [right; by apply causes_bare|].
  intros next _. destruct (decide _) as [E|]. { split; [cbn [learned]; by rewrite E|]. split; [left; by left|done]. }
  eapply errs_then; [by apply string_errs|done|]. intros key known1. eapply errs_then; [by apply string_errs|done|]. intros value known2. apply IH.
Qed.

Lemma slice_errs {T} (P Q : bytes -> Prop) s (zero : T) d fuel : derrs Q d -> (forall m, Q m -> P (with_message (str "decoding element of type " ++ str s) m)) ->
  (forall m, cause fin body m -> P (with_message (str "decoding []" ++ str s) m)) -> causes P "" -> derrs P (t_slice (str s) zero d fuel).
Proof.
  intros Hd H1 H2 H3 t known. split; [done|]. split; [by right|]. intros tok _. cbn [learned]. clear known.
  generalize (None : option jtype) as known, 0%nat as idx. revert t. induction fuel as [|fuel IH]; intros t known idx; [done|]. cbn [t_slice_loop].
  split; [done|]. split; [right; by apply causes_bare|]. intros next _. destruct (decide _) as [E|].
  { split; [cbn [learned]; by rewrite E|]. split; [left; by right|done]. }
  cbv zeta. eapply errs_then; [apply Hd|done|]. intros el known1. apply IH.
Qed.

Lemma array_errs {T} (P Q : bytes -> Prop) pre s (d : tdecoder T) fuel : derrs Q d -> (forall m, Q m -> P (with_message (str "decoding array element of type " ++ str s) m)) ->
  (forall m, cause fin body m -> P (with_message (str "decoding " ++ str pre ++ str s) m)) ->
  (forall m, cause fin body m -> P (with_message (str "skipping out of range array element of type " ++ str s) m)) -> causes P "" -> derrs P (t_array (str pre) (str s) d fuel).
Proof.
  intros Hd H1 H2 H3 H4 t known. split; [done|]. split; [by right|]. intros tok _. cbn [learned]. clear known.
  generalize (None : option jtype) as known, 0%nat as idx. revert t. induction fuel as [|fuel IH]; intros t known idx; [done|]. cbn [t_array_loop].
  split; [done|]. split; [right; by apply causes_bare|]. intros next _. destruct (decide _) as [E|].
  { split; [cbn [learned]; by rewrite E|]. split; [left; by right|done]. }
  destruct (t !! idx) as [el|].
  - eapply errs_then; [apply Hd|done|]. intros el' known1. apply IH.
  - split; [done|]. split; [by right|]. intros. apply IH.
Qed.

Lemma struct_errs {T} P (fields : list (gostring * tdecoder T)) fuel : Forall (fun f => derrs P f.2) fields -> causes P "begin object: " -> causes P "" ->
  derrs P (t_struct fields fuel).
Proof.
  intros Hf H1 H2 t known. split; [done|]. split; [right; by apply (causes_message P "begin object")|]. intros tok _. cbn [learned]. clear known.
  generalize (None : option jtype) as known. revert t. induction fuel as [|fuel IH]; intros t known; [done|]. cbn [t_struct_loop].
  split; [done|]. split; [right; by apply causes_bare|]. intros next _. destruct (decide _) as [E|].
  { split; [cbn [learned]; by rewrite E|]. split; [left; by left|done]. }
  split; [done|]. split; [right; by apply causes_bare|]. intros key _.
  assert (Hl : forall d, t_lookup fields (t_val key) = Some d -> derrs P d).
  { clear -Hf. induction Hf as [|[n d] fields H _ IH]; cbn [t_lookup]; [done|]. destruct (decide _); [intros d' [= <-]; exact H|exact IH]. }
  destruct (t_lookup fields (t_val key)) as [d|].
  - eapply errs_then; [by apply Hl|done|]. intros t' known1. apply IH.
  - split; [done|]. split; [right; by apply causes_bare|]. intros. apply IH.
Qed.

Lemma endpoint_errs P fuel : causes P "begin object: " -> causes P "" -> causes P "decode value: " -> derrs P (t_endpoint fuel).
Proof. intros. apply struct_errs; [|done|done]. constructor; [|constructor]. by apply string_errs. Qed.

Definition says (ep : endpoint) (m : bytes) : Prop := exists c m', c ∈ contexts ep /\ m = c ++ m' /\ cause fin body m'.

Ltac fields := repeat first [constructor; [cbn [snd]; apply field_errs;
  first [apply id_errs|apply uint64_errs|apply string_errs|apply any_errs|apply map_errs|apply endpoint_errs|idtac]|] | constructor].
Ltac said := let m := fresh in let Hm := fresh in intros m Hm; eexists _, m; (split; [|split; [|exact Hm]]);
  [|unfold with_message; reflexivity]; unfold contexts, names, inside; cbn [map app]; rewrite !elem_of_cons; tauto.
End parser.
