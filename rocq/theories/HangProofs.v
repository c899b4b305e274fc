(** C89: a token that is in order and overlong catches the parser. *)
From Verif Require Import Base IdModel SpanModel JsonModel CodecModel JsonPure JsonSpec JsonProofs JsonSim JsonFacts JsonFuel JsonSafe JsonText DocSpec DocSem DocProofs DocProofs1
  ParseSpec PoolProofs DocTheorems LooseSpec LooseProofs ExactSpec ExactProofs HangSpec.

(* ---------- bytes ---------- *)

Lemma number_start_symbol c : number_start c <-> symbol c = TNumber.
Proof.
  split; [intros [H| ->]; [by apply digit_symbol|done]|]. intros H. pose proof (symbol_char c) as K. rewrite H in K. exact K.
Qed.
Lemma number_start_byte c : number_start c -> number_byte c. Proof. unfold number_start, number_byte. lia. Qed.
Lemma same_kind_symbol c c' : same_kind c c' -> symbol c = symbol c'.
Proof. intros [->|[H1 H2]]; [done|]. apply number_start_symbol in H1, H2. congruence. Qed.
Lemma same_kind_number c c' : same_kind c c' -> number_byte c <-> number_byte c'.
Proof. intros [->|[H1%number_start_byte H2%number_start_byte]]; tauto. Qed.
Lemma overlong_kind cap c l : overlong cap c l -> symbol c = TString /\ c = 34 \/ symbol c = TNumber.
Proof. intros [(-> & _)|(H & _)]; [by left|right]. by apply number_start_symbol. Qed.

Lemma loose_raw raw s : loose_string raw s -> raw_string raw.
Proof.
  induction 1 as [|c l v H1 H2 _ IH|c l v H1 _ IH|a b c d cp l v Hx _ IH]; try (by constructor).
  destruct Hx as (x & y & z & w & Hx & Hy & Hz & Hw & _).
  assert (K : forall c v, hex_is c v -> c <> 92 /\ c <> 34) by (unfold hex_is; intros; lia).
  apply K in Hx as [? ?], Hy as [? ?], Hz as [? ?], Hw as [? ?]. apply raw_esc. by repeat (apply raw_char; [done|done|]).
Qed.

Lemma raw_unique s s' r r' : raw_string s -> raw_string s' -> s ++ 34 :: r = s' ++ 34 :: r' -> s = s' /\ r = r'.
Proof.
  intros H H' E. destruct (close_raw s H r 0 false) as [h K]. destruct (close_raw s' H' r' 0 false) as [h' K'].
  rewrite E, K' in K. injection K as Hl _. apply app_inj_1 in E as [-> [= ->]]; [done|]. by rewrite Hl.
Qed.

Lemma number_unique n n' r r' : Forall number_byte n -> Forall number_byte n' -> delimited (JNum n) r -> delimited (JNum n') r' ->
  n ++ r = n' ++ r' -> n = n' /\ r = r'.
Proof.
  intros H. revert n'. induction H as [|c n Hc _ IH]; intros n' H' (b & x & -> & Hb) (b' & x' & -> & Hb'); destruct H' as [|c' n' Hc' H']; cbn [app].
  - done.
  - intros [= -> _]. done.
  - intros [= -> _]. done.
  - intros [= -> E]. destruct (IH n' H') as [-> ->]; [by exists b, x|by exists b', x'|done|done].
Qed.
Lemma loose_number_bytes n : loose_number n -> Forall number_byte n.
Proof. intros (c & l & -> & Hc & Hl). constructor; [by apply number_start_byte|done]. Qed.

(* ---------- tokens ---------- *)

Lemma tokens_app a b rest : tokens a (b ++ rest) -> tokens b rest -> tokens (a ++ b) rest.
Proof.
  intros H Hb. remember (b ++ rest) as br eqn:Ebr. revert Ebr.
  induction H as [|c p br Hc H IH|c p br Hc H IH|raw p br Hr H IH|w p br Hw H IH|n p br Hn Hd H IH]; intros ->.
  - done.
  - apply tk_sep; auto.
  - apply tk_bracket; auto.
  - cbn [app]. rewrite <- app_assoc. cbn [app]. apply tk_string; auto.
  - rewrite <- app_assoc. apply tk_word; auto.
  - rewrite <- app_assoc. apply tk_number; [done| |auto]. by rewrite <- app_assoc.
Qed.

Lemma tokens_ws w rest : ws w -> tokens w rest.
Proof. induction w as [|c w IH]; intros H; [constructor|]. apply Forall_cons in H as [Hc Hw]. apply tk_sep; [by apply (Forall_cons_2 _ c [])|auto]. Qed.

Lemma tokens_loose m :
  (forall v l, loose m v l -> forall rest, delimited v rest -> tokens l rest) /\
  (forall vs l, loose_elements m vs l -> forall rest, tokens l (93 :: rest)) /\
  (forall ms l, loose_members m ms l -> forall rest, tokens l (125 :: rest)).
Proof.
  assert (K : forall c l rest, c = 91 \/ c = 93 \/ c = 123 \/ c = 125 -> tokens l (c :: rest) -> tokens (l ++ [c]) rest).
  { intros c l rest Hc H. apply tokens_app; [done|]. apply tk_bracket; [done|constructor]. }
  assert (W : forall w rest, word w -> tokens w rest).
  { intros w rest H. rewrite <- (app_nil_r w). apply tk_word; [done|constructor]. }
  apply loose_mutind; intros.
  - apply W. left. exists 110, (str "ull"). auto.
  - apply W. left. exists 116, (str "rue"). auto.
  - apply W. right. exists (str "alse"). auto.
  - by apply W.
  - rewrite <- (app_nil_r l). apply tk_number; [done|done|constructor].
  - apply (tk_string raw []); [by eapply loose_raw|constructor].
  - apply tk_bracket; [auto|]. apply K; auto.
  - apply tk_bracket; [auto|]. apply K; auto.
  - by apply tokens_ws.
  - apply tokens_app; [by apply tokens_ws|]. apply tokens_app; [|done]. apply H. by apply delimited_prefix.
  - by apply tokens_ws.
  - apply tokens_app; [by apply tokens_ws|].  apply tk_string; [by eapply loose_raw|]. apply tokens_app; [by apply tokens_ws|].
    apply tokens_app; [|done]. apply H. by apply delimited_prefix.
Qed.

(** The first token. *)
Lemma word_symbol w p b r : word w -> w ++ p = b :: r -> symbol b = TNull \/ symbol b = TBool.
Proof. intros [(c & l & -> & Hc & _)|(l & -> & _)]; cbn [app]; intros E; injection E as <- _; [destruct Hc as [->| ->]|]; [by left|by right|by right]. Qed.

Lemma tokens_inv b r rest : tokens (b :: r) rest ->
  match symbol b with
  | TError => False
  | TString => exists raw p, r = raw ++ 34 :: p /\ raw_string raw /\ tokens p rest
  | TNull | TBool => exists w p, b :: r = w ++ p /\ word w /\ tokens p rest
  | TNumber => exists n p, b :: r = n ++ p /\ loose_number n /\ delimited (JNum n) (p ++ rest) /\ tokens p rest
  | _ => tokens r rest
  end.
Proof.
  intros H. inversion H as [|c p x Hc H1|c p x Hc H1|raw p x Hr H1|w p x Hw H1 E|n p x Hn Hd H1 E]; subst.
  - apply Forall_inv in Hc. cbv beta in Hc. assert (Hs : symbol b = TSpace) by (by destruct_or! Hc; subst b). by rewrite Hs.
  - by destruct_or! Hc; subst b.
  - cbn. eauto.
  - pose proof (word_symbol _ _ _ _ Hw E) as [K|K]; rewrite K; exists w, p; auto.
  - destruct Hn as (c & l & -> & Hc & Hl). injection E as -> <-. pose proof (proj1 (number_start_symbol b) Hc) as K. rewrite K.
    exists (b :: l), p. split; [done|]. split; [|done]. by exists b, l.
Qed.

Lemma tokens_space p rest : tokens p rest -> exists w p', p = w ++ p' /\ ws w /\ tokens p' rest /\ forall b r, p' = b :: r -> symbol b <> TSpace.
Proof.
  induction p as [|b p IH]; intros H; [exists [], []; repeat split; try done; constructor|].
  destruct (decide (symbol b = TSpace)) as [Hb|Hb].
  - pose proof (tokens_inv _ _ _ H) as K. rewrite Hb in K. apply IH in K as (w & p' & -> & Hw & H' & Hn). exists (b :: w), p'.
    split; [done|]. split; [|done]. apply (Forall_app_2 _ [b]); [|done]. apply (space_ws b). unfold is_space. by rewrite bool_decide_true.
  - exists [], (b :: p). split; [done|]. split; [constructor|]. split; [done|]. by intros ? ? [= <- <-].
Qed.

(* ---------- an overlong token is reached ---------- *)

Lemma q_string_overlong cap c l : overlong cap c l -> c = 34 -> q_string cap (c :: l) = QHang.
Proof.
  intros [(_ & Hl & H)|([H|H] & _)]; [|lia..]. intros ->. cbn [q_string]. replace (negb (34 =? ch_quote)) with false by done. unfold q_string_body.
  destruct (close l 0 false false) as [[n has]|] eqn:E.
  - apply (close_inv (length l)) in E as (raw & r & -> & -> & Hs & _); [|done]. replace (0 + length raw <? cap)%nat with false; [done|].
    assert (raw_string raw) as Hr by (clear -Hs; induction Hs; by constructor). specialize (H raw r eq_refl Hr). symmetry. apply Nat.ltb_ge. lia.
  - by replace (length l <=? cap)%nat with false by lia.
Qed.

Lemma number_end_long l : forall k n, Forall number_byte (take k l) -> match number_end l n with Some m => (n + k <= m)%nat \/ (n + length l <= m)%nat | None => True end.
Proof.
  induction l as [|c l IH]; intros k n H; cbn [number_end length]; [done|]. destruct k as [|k].
  - destruct (number_end (c :: l) n) eqn:E; cbn [number_end] in E; rewrite E; [|done]. apply (number_end_bound (c :: l)) in E. lia.
  - cbn [take] in H. apply Forall_cons in H as [Hc H]. rewrite number_byte_is_char by done. specialize (IH k (S n) H). destruct (number_end l (S n)); [|done]. lia.
Qed.

Lemma q_number_overlong cap c l : (0 < cap)%nat -> overlong cap c l -> number_start c -> q_number cap (c :: l) = QHang.
Proof.
  intros H0 [(-> & _)|(Hc & Hl & H)] Hs; [unfold number_start in Hs; lia|]. cbn [q_number]. unfold is_digit.
  rewrite bool_decide_true by (by apply number_start_symbol). cbn [negb]. pose proof (number_end_long l (cap - 1) 1 H) as K.
  destruct (number_end l 1) as [m|].
  - replace (m <? cap)%nat with false; [done|]. symmetry. apply Nat.ltb_ge. lia.
  - cbn [length]. by replace (S (length l) <=? cap)%nat with false by lia.
Qed.

Section reached.
  Context (cap big : nat) (c c' : Z) (l rest : bytes).
  Context (Hcap : (0 < cap)%nat) (Hbig : (cap <= big)%nat) (Hlong : overlong cap c l) (Hkind : same_kind c c').

  (** On what begins with [p], both before [c] and before [c'], the parser does the same, or it is caught. *)
  Definition tracks {A} (f : nat -> bytes -> qres A) : Prop := forall p t l1, tokens p (c :: l) -> f big (p ++ c' :: rest) = QOk t l1 ->
    f cap (p ++ c :: l) = QHang \/
    exists p1, l1 = p1 ++ c' :: rest /\ tokens p1 (c :: l) /\ f cap (p ++ c :: l) = QOk t (p1 ++ c :: l) /\ f big (p ++ [c']) = QOk t (p1 ++ [c']).

  Lemma tracks_bind {A B} (f : nat -> bytes -> qres A) (g : nat -> A -> bytes -> qres B) :
    tracks f -> (forall a, tracks (fun n => g n a)) -> tracks (fun n x => qbind (f n x) (g n)).
  Proof.
    intros Hf Hg p t l1 Hp. destruct (f big (p ++ c' :: rest)) as [a l2| | |] eqn:E; cbn [qbind]; try done. intros E2.
    destruct (Hf p a l2 Hp E) as [->|(p1 & -> & Hp1 & -> & ->)]; [by left|]. cbn [qbind]. exact (Hg a p1 t l1 Hp1 E2).
  Qed.
  Lemma tracks_ret {A} (a : A) : tracks (fun _ x => QOk a x).
  Proof. intros p t l1 Hp [= <- <-]. right. by exists p. Qed.
  Lemma tracks_err {A} : tracks (fun _ _ => QErr (A := A)). Proof. done. Qed.

  Lemma kinds : symbol c = symbol c' /\ (symbol c = TString /\ c = 34 /\ c' = 34 \/ symbol c = TNumber /\ number_start c /\ number_start c').
  Proof.
    split; [by apply same_kind_symbol|]. destruct (overlong_kind _ _ _ Hlong) as [[H E]|H]; [left|right].
    - split; [done|]. split; [done|]. pose proof Hkind as K. unfold same_kind, number_start in K. lia.
    - split; [done|]. pose proof H as H'. rewrite (same_kind_symbol _ _ Hkind) in H'. by rewrite !number_start_symbol.
  Qed.

  Lemma tracks_space : tracks (fun _ => q_space).
  Proof.
    intros p t l1 Hp. apply tokens_space in Hp as (w & p' & -> & Hw & Hp & Hn). unfold q_space.
    assert (D : forall x, drop_space ((w ++ p') ++ x) = drop_space (p' ++ x)) by (intros; rewrite <- app_assoc; apply drop_space_sep; by apply ws_sep). rewrite !D.
    assert (K : forall b x, symbol b = symbol c \/ symbol b = symbol c' -> drop_space (b :: x) = b :: x).
    { intros b x H. apply drop_space_at. destruct kinds as [E [[K _]|[K _]]]; rewrite <- E, K in H; by destruct H as [-> | ->]. }
    destruct p' as [|b p']; cbn [app].
    - rewrite K by auto. intros [= <- <-]. right. exists []. split; [done|]. split; [constructor|]. cbn [app]. by rewrite !K by auto.
    - rewrite drop_space_at by (by eapply Hn). intros [= <- <-]. right. exists (b :: p'). split; [done|]. split; [done|]. cbn [app]. by rewrite !drop_space_at by (by eapply Hn).
  Qed.
  Lemma tracks_current : tracks (fun _ x => qbind (q_current x) (fun b y => match symbol b with TError => QErr | ty => QOk ty y end)).
  Proof.
    intros p t l1 Hp. destruct p as [|b p]; cbn [app q_current qbind].
    - destruct kinds as [E [[K _]|[K _]]]; rewrite <- E, K; intros [= <- <-]; right; exists []; (split; [done|]); (split; [constructor|done]).
    - intros H. right. exists (b :: p). destruct (symbol b) eqn:Eb; try done; by injection H as <- <-.
  Qed.
  Lemma tracks_next : tracks (fun _ => q_next).
  Proof. apply (tracks_bind (fun _ => q_space) (fun _ _ x => qbind (q_current x) _)); [apply tracks_space|]. intros _. apply tracks_current. Qed.

  Lemma tracks_consume1 ty : ty = TObjBegin \/ ty = TObjEnd \/ ty = TArrBegin \/ ty = TArrEnd -> tracks (fun _ => q_consume1 ty).
  Proof.
    intros Hty p t l1 Hp H. destruct p as [|b p]; cbn [app q_consume1] in *.
    - case_decide as Hd; [|done]. exfalso. destruct kinds as [E [[K _]|[K _]]]; rewrite <- E, K in Hd; subst ty; naive_solver.
    - case_decide as Hd; [|done]. injection H as <- <-. right. exists p. split; [done|]. split; [|done].
      apply tokens_inv in Hp. rewrite Hd in Hp. by destruct Hty as [->|[->|[->| ->]]].
  Qed.
  Lemma tracks_consume ty : ty = TObjBegin \/ ty = TObjEnd \/ ty = TArrBegin \/ ty = TArrEnd -> tracks (fun _ => q_consume ty).
  Proof. intros Hty. apply (tracks_bind (fun _ => q_space) (fun _ _ => q_consume1 ty)); [apply tracks_space|]. intros _. by apply tracks_consume1. Qed.

  Lemma tracks_string : tracks q_string.
  Proof.
    intros p t l1 Hp H. destruct p as [|b p]; cbn [app] in *.
    - left. apply q_string_overlong; [done|]. apply q_string_inv in H as (raw & s & E & _). injection E as E _. destruct kinds as [_ [(_ & K & _)|(_ & _ & K)]]; [done|]. unfold number_start in K. lia.
    - pose proof H as K. apply q_string_inv in K as (raw & s & [= -> E] & Hs & Hl & ->). apply tokens_inv in Hp as (raw' & p1 & -> & Hr & Hp). rewrite <- app_assoc in E. cbn [app] in E.
      apply raw_unique in E as [-> <-]; [|done|by eapply loose_raw]. rewrite <- !app_assoc. cbn [app]. destruct (decide (length raw < cap)%nat) as [Hc|Hc].
      + right. exists p1. split; [done|]. split; [done|]. by rewrite !(q_string_text _ raw s).
      + left. cbn [q_string]. replace (negb (34 =? ch_quote)) with false by done. unfold q_string_body.
        destruct (close_loose raw s Hs 0 false (p1 ++ c :: l)) as (has & -> & _). by replace (0 + length raw <? cap)%nat with false by (symmetry; apply Nat.ltb_ge; lia).
  Qed.

  Lemma tracks_number : tracks q_number.
  Proof.
    intros p t l1 Hp H. destruct p as [|b p]; cbn [app] in *.
    - left. apply q_number_overlong; [done|done|]. destruct kinds as [_ [(_ & _ & E)|(_ & ? & _)]]; [|done]. by rewrite E in H.
    - pose proof H as K. apply q_number_inv in K as (raw & E & Hn & Hl & Hd & ->).
      assert (Hb : symbol b = TNumber). { destruct Hn as (x & y & -> & Hx & _). injection E as -> _. by apply number_start_symbol. }
      apply tokens_inv in Hp. rewrite Hb in Hp. destruct Hp as (n & p1 & En & Hn' & Hd' & Hp).
      assert (Hd2 : delimited (JNum n) (p1 ++ c' :: rest) /\ delimited (JNum n) (p1 ++ [c'])).
      { destruct Hd' as (x & y & Ex & Hx). destruct p1 as [|z p1]; cbn [app] in *; injection Ex as Ex _; subst x.
        - rewrite (same_kind_number _ _ Hkind) in Hx. split; by eexists _, _. - split; by eexists _, _. }
      destruct Hd2 as [Hd2 Hd3]. rewrite app_comm_cons in E. rewrite En, <- app_assoc in E.
      apply number_unique in E as [-> <-]; [|by apply loose_number_bytes|by apply loose_number_bytes|done|done].
      rewrite !app_comm_cons, En, <- !app_assoc. destruct (decide (length raw < cap)%nat) as [Hc|Hc].
      + right. exists p1. split; [done|]. split; [done|]. by rewrite !(q_number_text _ raw).
      + left. destruct Hd' as (x & y & Ex & Hx). rewrite Ex. destruct Hn as (z & d & -> & Hz & Hdd). cbn [app q_number]. unfold is_digit.
        rewrite bool_decide_true by (by apply number_start_symbol). cbn [negb].
        rewrite number_end_app; [|eapply Forall_impl; [exact Hdd|apply number_byte_is_char]|by apply number_byte_char]. cbn [length] in Hc.
        by replace (1 + length d <? cap)%nat with false by (symmetry; apply Nat.ltb_ge; lia).
  Qed.

  Lemma tracks_null : tracks (fun _ => q_null).
  Proof.
    intros p t l1 Hp H. destruct p as [|b p]; cbn [app] in *.
    - exfalso. apply q_read_n_inv in H as (raw & _ & _ & E & _). injection E as E. destruct kinds as [_ [(_ & _ & ?)|(_ & _ & K)]]; [lia|]. unfold number_start in K. lia.
    - pose proof H as K. apply q_read_n_inv in K as (raw & E & Hl & [= ->] & ->). apply tokens_inv in Hp as (w & p1 & Ew & Hw & Hp).
      pose proof (fun x => q_word_text w x Hw) as Q. assert (exists w', w = 110 :: w') as [w' ->].
      { destruct Hw as [(x & y & -> & _)|(y & -> & _)]; injection Ew as <- _; by eexists. }
      rewrite !app_comm_cons, Ew, <- !app_assoc in *. rewrite !Q. rewrite Q in H. injection H as <- <-. right. by exists p1.
  Qed.
  Lemma tracks_boolean : tracks (fun _ => q_boolean).
  Proof.
    intros p t l1 Hp H. destruct p as [|b p]; cbn [app] in *.
    - exfalso. unfold q_boolean in H. cbn [q_current qbind] in H.
      assert (K : c' = 116 \/ c' = 102). { destruct (Z.eqb_spec c' 116) as [E|]; [by left|]. apply q_read_n_inv in H as (raw & _ & _ & E & _). injection E as E. by right. }
      destruct kinds as [_ [(_ & _ & ?)|(_ & _ & [?|?])]]; lia.
    - assert (K : b = 116 \/ b = 102).
      { unfold q_boolean in H. cbn [q_current qbind] in H. destruct (Z.eqb_spec b 116) as [->|]; [by left|]. apply q_read_n_inv in H as (raw & _ & _ & [= ->] & _). by right. }
      assert (exists w p1, b :: p = w ++ p1 /\ word w /\ tokens p1 (c :: l)) as (w & p1 & Ew & Hw & Hp1) by (apply tokens_inv in Hp; by destruct K as [-> | ->]).
      assert (Q : forall x, q_boolean (w ++ x) = QOk (Token TBool w) x).
      { intros x. pose proof (q_word_text w x Hw) as Q. destruct w as [|y w]; [by destruct Hw as [(? & ? & [=] & _)|(? & [=] & _)]|].
        injection Ew as <- _. by destruct K as [-> | ->]. }
      rewrite !app_comm_cons, Ew, <- !app_assoc in *. rewrite !Q. rewrite Q in H. injection H as <- <-. right. by exists p1.
  Qed.

  Lemma tracks_kind {A} ty (f : nat -> bytes -> qres A) : tracks f -> tracks (fun n x => match ty with TString => f n x | _ => QErr end).
  Proof. intros H. destruct ty; try done. Qed.

  Lemma tracks_literal : tracks q_literal.
  Proof.
    apply (tracks_bind (fun _ => q_next) (fun n next x => match next with TString => q_string n x | TNumber => q_number n x | TBool => q_boolean x | TNull => q_null x | _ => QErr end)).
    - apply tracks_next.
    - intros []; try apply tracks_err; [apply tracks_null|apply tracks_boolean|apply tracks_number|apply tracks_string].
  Qed.

  Lemma tracks_unit {A B} (b : B) (f : nat -> bytes -> qres A) : tracks f -> tracks (fun n x => qbind (f n x) (fun _ y => QOk b y)).
  Proof. intros H. apply (tracks_bind f (fun _ _ y => QOk b y)); [done|]. intros _. apply tracks_ret. Qed.

  Lemma tracks_skips : forall depth,
    (forall next, tracks (fun n => q_skip depth n next)) /\ tracks (q_skip_elements depth) /\ tracks (q_skip_members depth).
  Proof.
    induction depth as [|depth (IH1 & IH2 & IH3)]; [done|]. split; [|split].
    - intros next. cbn [q_skip]. destruct next; try apply tracks_err.
      + apply (tracks_unit tt (fun _ => q_null)), tracks_null.
      + apply (tracks_bind (fun _ => q_consume1 TObjBegin) (fun n _ => q_skip_members depth n)); [apply tracks_consume1; auto|done].
      + apply (tracks_bind (fun _ => q_consume1 TArrBegin) (fun n _ => q_skip_elements depth n)); [apply tracks_consume1; auto|done].
      + apply (tracks_unit tt (fun _ => q_boolean)), tracks_boolean.
      + apply (tracks_unit tt q_number), tracks_number.
      + apply (tracks_unit tt q_string), tracks_string.
    - cbn [q_skip_elements]. apply (tracks_bind (fun _ => q_next) (fun n next x => if decide (next = TArrEnd) then q_consume1 TArrEnd x else
        qbind (q_skip depth n next x) (fun _ x => q_skip_elements depth n x))); [apply tracks_next|]. intros next. case_decide; [apply tracks_consume1; auto|].
      apply (tracks_bind (fun n => q_skip depth n next) (fun n _ => q_skip_elements depth n)); done.
    - cbn [q_skip_members]. apply (tracks_bind (fun _ => q_next) (fun n next x => if decide (next = TObjEnd) then q_consume1 TObjEnd x else
        qbind (q_string n x) (fun _ x => qbind (q_next x) (fun next x => qbind (q_skip depth n next x) (fun _ x => q_skip_members depth n x))))); [apply tracks_next|].
      intros next. case_decide; [apply tracks_consume1; auto|].
      apply (tracks_bind q_string (fun n _ x => qbind (q_next x) (fun next x => qbind (q_skip depth n next x) (fun _ x => q_skip_members depth n x)))); [apply tracks_string|]. intros _.
      apply (tracks_bind (fun _ => q_next) (fun n next x => qbind (q_skip depth n next x) (fun _ x => q_skip_members depth n x))); [apply tracks_next|]. intros next'.
      apply (tracks_bind (fun n => q_skip depth n next') (fun n _ => q_skip_members depth n)); done.
  Qed.

  Lemma tracks_op depth o : tracks (fun n => q_op depth n o).
  Proof.
    destruct o; cbn [q_op].
    - apply (tracks_bind (fun _ => q_next) (fun _ t y => QOk (Token t []) y)); [apply tracks_next|]. intros t. apply tracks_ret.
    - apply (tracks_unit _ (fun _ => q_consume TObjBegin)), tracks_consume; auto.
    - apply (tracks_unit _ (fun _ => q_consume TObjEnd)), tracks_consume; auto.
    - apply (tracks_unit _ (fun _ => q_consume TArrBegin)), tracks_consume; auto.
    - apply (tracks_unit _ (fun _ => q_consume TArrEnd)), tracks_consume; auto.
    - apply (tracks_bind (fun _ => q_space) (fun n _ => q_string n)); [apply tracks_space|]. intros _. apply tracks_string.
    - apply (tracks_bind (fun _ => q_space) (fun n _ => q_number n)); [apply tracks_space|]. intros _. apply tracks_number.
    - apply tracks_literal.
    - apply (tracks_unit _ (q_Skip depth)). apply (tracks_bind (fun _ => q_next) (fun n next => q_skip depth n next)); [apply tracks_next|]. intros next. apply tracks_skips.
  Qed.

  Lemma exec_tracks {A} depth (pr : prog A) : forall p a le, tokens p (c :: l) -> q_exec depth big pr (p ++ c' :: rest) = YDone a le ->
    q_exec depth cap pr (p ++ c :: l) = YHang \/ exists le', q_exec depth big pr (p ++ [c']) = YDone a le'.
  Proof.
    induction pr as [b|o k IH e|]; intros p a le Hp; cbn [q_exec].
    - intros [= -> _]. right. by eexists.
    - destruct (q_op depth big o (p ++ c' :: rest)) as [t l1| | |] eqn:E; try done.
      destruct (tracks_op depth o p t l1 Hp E) as [->|(p1 & -> & Hp1 & -> & ->)]; [by left|]. by apply IH.
    - done.
  Qed.
End reached.
