(** C89: what catches the parser is an overlong token that is in order where it stands. *)
From Verif Require Import Base IdModel SpanModel JsonModel CodecModel JsonPure JsonSpec JsonProofs JsonSim JsonFacts JsonFuel JsonSafe JsonText DocSpec DocSem DocProofs DocProofs1
  ParseSpec PoolProofs DocTheorems LooseSpec LooseProofs ExactSpec ExactProofs HangSpec HangProofs.

(* ---------- overlong tokens ---------- *)

Lemma q_string_hang cap l : q_string cap l = QHang -> exists r, l = 34 :: r /\ overlong cap 34 r.
Proof.
  destruct l as [|ch l]; cbn [q_string]; [done|]. unfold ch_quote. destruct (Z.eqb_spec ch 34) as [->|]; cbn [negb]; [|done]. unfold q_string_body.
  intros H. exists l. split; [done|]. left. split; [done|]. destruct (close l 0 false false) as [[n has]|] eqn:E.
  - destruct (Nat.ltb_spec n cap); [by repeat case_match|]. pose proof E as E'. apply (close_inv (length l)) in E' as (raw & r & -> & -> & _); [|done].
    split; [rewrite app_length; cbn [length]; lia|]. intros s r' Es Hs. destruct (close_raw s Hs r' 0 false) as [h K]. rewrite <- Es, E in K. injection K as K _. lia.
  - destruct (Nat.leb_spec (length l) cap); [done|]. split; [lia|]. intros s r' Es Hs. destruct (close_raw s Hs r' 0 false) as [h K]. by rewrite <- Es, E in K.
Qed.
Lemma number_end_none l : forall n, number_end l n = None -> Forall number_byte l.
Proof.
  induction l as [|c l IH]; intros n; cbn [number_end]; [constructor|]. destruct (is_number_char c) eqn:E; [|done]. intros H%IH. constructor; [by apply number_char_byte|done].
Qed.
Lemma q_number_hang cap l : q_number cap l = QHang -> exists c r, l = c :: r /\ number_start c /\ overlong cap c r.
Proof.
  destruct l as [|c l]; cbn [q_number]; [done|]. destruct (is_digit c) eqn:Ed; cbn [negb]; [|done]. unfold is_digit in Ed. apply bool_decide_eq_true, number_start_symbol in Ed.
  intros H. exists c, l. split; [done|]. split; [done|]. right. split; [done|]. destruct (number_end l 1) as [n|] eqn:E.
  - apply number_end_inv in E as (d & b & r & -> & -> & Hd & Hb). destruct (Nat.ltb_spec (1 + length d) cap); [done|]. rewrite app_length. cbn [length]. split; [lia|].
    rewrite take_app_le by lia. by apply Forall_take.
  - destruct (Nat.leb_spec (length (c :: l)) cap) as [|K]; [done|]. cbn [length] in K. split; [lia|]. apply Forall_take. by eapply number_end_none.
Qed.

(* ---------- what was read is read again before something else ---------- *)

Definition compat (l x : bytes) : Prop := exists b r b' r', l = b :: r /\ x = b' :: r' /\ same_kind b b'.
Lemma compat_refl b r r' : compat (b :: r) (b :: r'). Proof. exists b, r, b, r'. split; [done|]. split; [done|by left]. Qed.
Lemma compat_app p l x : compat l x -> compat (p ++ l) (p ++ x).
Proof. intros H. destruct p as [|b p]; [done|]. apply compat_refl. Qed.

Definition stab {A} (f : bytes -> qres A) : Prop := forall l a l', f l = QOk a l' -> l' <> [] ->
  exists pre, l = pre ++ l' /\ tokens pre l' /\ forall x, compat l' x -> f (pre ++ x) = QOk a x.

Lemma stab_bind {A B} (f : bytes -> qres A) (g : A -> bytes -> qres B) : stab f -> (forall a, stab (g a)) -> stab (fun x => qbind (f x) g).
Proof.
  intros Hf Hg l b l2 E Hn. destruct (f l) as [a l1| | |] eqn:E1; cbn [qbind] in E; try done.
  destruct (Hg a l1 b l2 E Hn) as (q & Eq & Hq & Kq). destruct (Hf l a l1 E1) as (p & -> & Hp & Kp); [rewrite Eq; by destruct q, l2|].
  exists (p ++ q). rewrite Eq in *. split; [by rewrite app_assoc|]. split; [by apply tokens_app|]. intros x Hx. rewrite <- app_assoc, Kp; [|by apply compat_app].
  cbn [qbind]. by apply Kq.
Qed.
Lemma stab_ret {A} (a : A) : stab (fun x => QOk a x).
Proof. intros l b l' [= <- <-] _. exists []. split; [done|]. split; [constructor|done]. Qed.
Lemma stab_err {A} : stab (fun _ => QErr (A := A)). Proof. done. Qed.
Lemma stab_fuel {A} : stab (fun _ => QFuel (A := A)). Proof. done. Qed.

Lemma stab_space : stab q_space.
Proof.
  intros l a l' E Hn. unfold q_space in E. destruct (drop_space_inv l) as (w & El & Hw & Hb). destruct (drop_space l) as [|b r] eqn:Ed; [done|]. injection E as <- <-.
  exists w. split; [done|]. split; [by apply tokens_ws|]. intros x (b0 & r0 & b' & r' & [= <- <-] & -> & Hk). unfold q_space. rewrite drop_space_sep by (by apply ws_sep).
  rewrite drop_space_at; [done|]. rewrite <- (same_kind_symbol _ _ Hk). by eapply Hb.
Qed.
Lemma stab_current : stab (fun x => qbind (q_current x) (fun b y => match symbol b with TError => QErr | ty => QOk ty y end)).
Proof.
  intros l a l' E Hn. destruct l as [|b r]; cbn [q_current qbind] in E; [done|]. assert (l' = b :: r) as -> by (by destruct (symbol b); try done; injection E).
  exists []. split; [done|]. split; [constructor|]. intros x (b0 & r0 & b' & r' & [= <- <-] & -> & Hk). cbn [app q_current qbind]. rewrite <- (same_kind_symbol _ _ Hk).
  by destruct (symbol b); try done; injection E as ->.
Qed.
Lemma stab_next : stab q_next.
Proof. apply (stab_bind q_space (fun _ x => qbind (q_current x) _)); [apply stab_space|]. intros _. apply stab_current. Qed.
Definition bracket (ty : jtype) : Prop := ty = TObjBegin \/ ty = TObjEnd \/ ty = TArrBegin \/ ty = TArrEnd.
Lemma stab_consume1 ty : bracket ty -> stab (q_consume1 ty).
Proof.
  intros Hty l a l' E Hn. destruct l as [|b r]; cbn [q_consume1] in E; [done|]. case_decide as Hd; [|done]. injection E as <- <-. exists [b]. split; [done|]. split.
  - apply tk_bracket; [|constructor]. pose proof (symbol_char b) as K. rewrite Hd in K. destruct Hty as [->|[->|[->| ->]]]; auto.
  - intros x _. cbn [app q_consume1]. by rewrite decide_True.
Qed.
Lemma stab_consume ty : bracket ty -> stab (q_consume ty).
Proof. intros Hty. apply (stab_bind q_space (fun _ => q_consume1 ty)); [apply stab_space|]. intros _. by apply stab_consume1. Qed.
Lemma stab_string cap : stab (q_string cap).
Proof.
  intros l a l' (raw & s & -> & Hs & Hl & ->)%q_string_inv _. exists (34 :: raw ++ [34]). split; [cbn [app]; by rewrite <- app_assoc|]. split.
  - apply tk_string; [by eapply loose_raw|constructor].
  - intros x _. cbn [app]. rewrite <- app_assoc. cbn [app]. by apply q_string_text.
Qed.
Lemma stab_number cap : stab (q_number cap).
Proof.
  intros l a l' (raw & -> & Hr & Hl & Hd & ->)%q_number_inv _. exists raw. split; [done|]. split.
  - rewrite <- (app_nil_r raw). apply tk_number; [done|done|constructor].
  - intros x (b & r & b' & r' & -> & -> & Hk). apply q_number_text; [done|done|]. destruct Hd as (b0 & r0 & [= <- <-] & Hb). exists b', r'. split; [done|].
    by rewrite <- (same_kind_number _ _ Hk).
Qed.
Lemma q_read_n_again raw x ty first : head (raw ++ x) = Some first -> q_read_n (raw ++ x) ty first (length raw) = QOk (Token ty raw) x.
Proof.
  intros H. unfold q_read_n. rewrite app_length. replace (length raw <=? length raw + length x)%nat with true by lia. destruct (raw ++ x) as [|ch l] eqn:E; [done|].
  injection H as ->. rewrite Z.eqb_refl. cbn [negb]. by rewrite <- E, take_app, drop_app.
Qed.
Lemma head_app {A} (raw x x' : list A) : raw <> [] -> head (raw ++ x) = head (raw ++ x'). Proof. by destruct raw. Qed.
Lemma stab_null : stab q_null.
Proof.
  intros l a l' H _. apply q_read_n_inv in H as (raw & -> & Hl & Hh & ->). assert (Hr : raw <> []) by (by intros ->). exists raw. split; [done|]. split.
  - rewrite <- (app_nil_r raw). apply tk_word; [|constructor]. destruct raw as [|c raw]; [done|]. injection Hh as ->. left. exists 110, raw. split; [done|]. split; [by left|]. by injection Hl.
  - intros x _. unfold q_null. rewrite <- Hl. apply q_read_n_again. by rewrite <- Hh; apply head_app.
Qed.
Lemma stab_boolean : stab q_boolean.
Proof.
  intros l a l' H _. unfold q_boolean in H. destruct l as [|c l]; [done|]. cbn [q_current qbind] in H.
  assert (K : exists raw, c :: l = raw ++ l' /\ word raw /\ a = Token TBool raw /\ forall x, q_boolean (raw ++ x) = QOk (Token TBool raw) x).
  { destruct (Z.eqb_spec c 116) as [->|Hc].
    - apply q_read_n_inv in H as (raw & E & Hl & Hh & ->). destruct raw as [|c raw]; [done|]. injection E as <- ->. exists (116 :: raw). split; [done|].
      split; [left; exists 116, raw; split; [done|]; split; [by right|]; by injection Hl|]. split; [done|]. intros x. unfold q_boolean. cbn [app q_current qbind]. cbn [Z.eqb].
      rewrite app_comm_cons, <- Hl. by apply q_read_n_again.
    - apply q_read_n_inv in H as (raw & E & Hl & Hh & ->). destruct raw as [|c0 raw]; [done|]. injection E as <- ->. injection Hh as ->. exists (102 :: raw). split; [done|].
      split; [right; exists raw; split; [done|]; by injection Hl|]. split; [done|]. intros x. unfold q_boolean. cbn [app q_current qbind].
      rewrite app_comm_cons, <- Hl. by apply q_read_n_again. }
  destruct K as (raw & -> & Hw & -> & Hx). exists raw. split; [done|]. split; [|by intros].
  rewrite <- (app_nil_r raw). apply tk_word; [done|constructor].
Qed.
Lemma stab_literal cap : stab (q_literal cap).
Proof.
  apply stab_bind; [apply stab_next|]. intros []; try apply stab_err; [apply stab_null|apply stab_boolean|apply stab_number|apply stab_string].
Qed.
Lemma stab_unit {A B} (b : B) (f : bytes -> qres A) : stab f -> stab (fun x => qbind (f x) (fun _ y => QOk b y)).
Proof. intros H. apply stab_bind; [done|]. intros _. apply stab_ret. Qed.
Lemma stab_skips cap : forall depth, (forall next, stab (q_skip depth cap next)) /\ stab (q_skip_elements depth cap) /\ stab (q_skip_members depth cap).
Proof.
  induction depth as [|depth (IH1 & IH2 & IH3)]; [done|]. split; [|split].
  - intros next. cbn [q_skip]. destruct next; try apply stab_err.
    + apply stab_unit, stab_null.
    + apply stab_bind; [apply stab_consume1; unfold bracket; auto|done].
    + apply stab_bind; [apply stab_consume1; unfold bracket; auto|done].
    + apply stab_unit, stab_boolean.
    + apply stab_unit, stab_number.
    + apply stab_unit, stab_string.
  - cbn [q_skip_elements]. apply stab_bind; [apply stab_next|]. intros next. case_decide; [apply stab_consume1; unfold bracket; auto|]. by apply stab_bind.
  - cbn [q_skip_members]. apply stab_bind; [apply stab_next|]. intros next. case_decide; [apply stab_consume1; unfold bracket; auto|].
    apply stab_bind; [apply stab_string|]. intros _. apply stab_bind; [apply stab_next|]. intros next'. by apply stab_bind.
Qed.
Lemma stab_op depth cap o : stab (q_op depth cap o).
Proof.
  destruct o; cbn [q_op].
  - apply stab_bind; [apply stab_next|]. intros t. apply stab_ret.
  - apply stab_unit, stab_consume. unfold bracket; auto.
  - apply stab_unit, stab_consume. unfold bracket; auto.
  - apply stab_unit, stab_consume. unfold bracket; auto.
  - apply stab_unit, stab_consume. unfold bracket; auto.
  - apply stab_bind; [apply stab_space|]. intros _. apply stab_string.
  - apply stab_bind; [apply stab_space|]. intros _. apply stab_number.
  - apply stab_literal.
  - apply stab_unit, stab_bind; [apply stab_next|]. intros next. apply stab_skips.
Qed.

(* ---------- where the parser is caught ---------- *)

Definition okhead (x : bytes) : Prop := exists b r, x = b :: r /\ ~ number_byte b.
Definition closing (r : bytes) : Prop := r = [] \/ okhead r.
Lemma closing_app r x : closing r -> okhead x -> okhead (r ++ x).
Proof. intros [->|(b & s & -> & Hb)] H; [done|]. by exists b, (s ++ x). Qed.
Lemma closing_closing r s : closing r -> closing s -> closing (r ++ s).
Proof. intros H [->|H']; [by rewrite app_nil_r|]. right. by apply closing_app. Qed.
Lemma okhead_at b r : ~ number_byte b -> okhead (b :: r). Proof. by exists b, r. Qed.

Section caught.
  Context (depth cap : nat).

  (** [f] gets caught in [l]; with another token of the same kind in place of the overlong one and a suitable rest, it ends with [v]. *)
  Definition caught {A} (f : nat -> nat -> bytes -> qres A) (v : A) (l : bytes) : Prop := exists p c l1 c' r N,
    l = p ++ c :: l1 /\ tokens p (c :: l1) /\ overlong cap c l1 /\ same_kind c c' /\
    (forall D big x, (N <= D)%nat -> (N <= big)%nat -> okhead x -> f D big (p ++ c' :: r ++ x) = QOk v x) /\
    (forall D big, (N <= D)%nat -> (N <= big)%nat -> f D big (p ++ [c']) = QErr).

  (** [f] ends with [v] on a suitable text. *)
  Definition ends {A} (f : nat -> nat -> bytes -> qres A) (v : A) : Prop := exists r N, closing r /\
    forall D big x, (N <= D)%nat -> (N <= big)%nat -> okhead x -> f D big (r ++ x) = QOk v x.

  Lemma caught_succ {A} (f f' : nat -> nat -> bytes -> qres A) v l : (forall D big x, f' (S D) big x = f D big x) -> caught f v l -> caught f' v l.
  Proof.
    intros Hf (p & c & l1 & c' & r & N & E & Hp & Ho & Hk & H1 & H2). exists p, c, l1, c', r, (S N). do 4 (split; [done|]). split.
    - intros [|D] big x HD Hb Hx; [lia|]. rewrite Hf. apply H1; [lia|lia|done].
    - intros [|D] big HD Hb; [lia|]. rewrite Hf. apply H2; lia.
  Qed.
  Lemma ends_succ {A} (f f' : nat -> nat -> bytes -> qres A) v : (forall D big x, f' (S D) big x = f D big x) -> ends f v -> ends f' v.
  Proof. intros Hf (r & N & Hr & H). exists r, (S N). split; [done|]. intros [|D] big x HD Hb Hx; [lia|]. rewrite Hf. apply H; [lia|lia|done]. Qed.

  Lemma caught_first {A B} (f : nat -> nat -> bytes -> qres A) (g : nat -> nat -> A -> bytes -> qres B) a b l :
    caught f a l -> ends (fun D big => g D big a) b -> caught (fun D big x => qbind (f D big x) (g D big)) b l.
  Proof.
    intros (p & c & l1 & c' & r & N & E & Hp & Ho & Hk & H1 & H2) (r2 & N2 & Hr & H). exists p, c, l1, c', (r ++ r2), (N + N2)%nat. do 4 (split; [done|]). split.
    - intros D big x HD Hb Hx. rewrite <- app_assoc, H1; [|lia|lia|by apply closing_app]. cbn [qbind]. apply H; [lia|lia|done].
    - intros D big HD Hb. by rewrite H2 by lia.
  Qed.

  (** What reads at [depth] and [cap] without being caught reads the same with more. *)
  Definition grows {A} (f : nat -> nat -> bytes -> qres A) : Prop :=
    forall D big l a l', (depth <= D)%nat -> (cap <= big)%nat -> f depth cap l = QOk a l' -> f D big l = QOk a l'.

  Lemma caught_later {A B} (f : nat -> nat -> bytes -> qres A) (g : nat -> nat -> A -> bytes -> qres B) a b l l' :
    stab (f depth cap) -> grows f -> f depth cap l = QOk a l' -> caught (fun D big => g D big a) b l' ->
    caught (fun D big x => qbind (f D big x) (g D big)) b l.
  Proof.
    intros Hs Hg E (p & c & l1 & c' & r & N & -> & Hp & Ho & Hk & H1 & H2). assert (Hn : p ++ c :: l1 <> []) by (by destruct p). destruct (Hs _ _ _ E Hn) as (pre & -> & Hpre & Hx).
    assert (Hc : forall x, compat (p ++ c :: l1) (p ++ c' :: x)). { intros x. apply compat_app. by exists c, l1, c', x. }
    exists (pre ++ p), c, l1, c', r, (N + depth + cap)%nat. split; [by rewrite <- app_assoc|]. split; [by apply tokens_app|]. do 2 (split; [done|]). split.
    - intros D big x HD Hb Hok. rewrite <- app_assoc, (Hg D big _ a (p ++ c' :: r ++ x)); [|lia|lia|by apply Hx]. cbn [qbind]. apply H1; [lia|lia|done].
    - intros D big HD Hb. rewrite <- app_assoc, (Hg D big _ a (p ++ [c'])); [|lia|lia|by apply Hx]. cbn [qbind]. apply H2; lia.
  Qed.
End caught.

Lemma caught_string cap l s : loose_string s s -> q_string cap l = QHang -> caught cap (fun _ big => q_string big) (Token TString s) l.
Proof.
  intros Hs (r & -> & Ho)%q_string_hang. exists [], 34, r, 34, (s ++ [34]), (S (length s)). split; [done|]. split; [constructor|]. split; [done|]. split; [by left|]. split.
  - intros D big x HD Hb Hx. cbn [app]. rewrite <- app_assoc. cbn [app]. apply q_string_text; [done|lia].
  - intros D big HD Hb. done.
Qed.
Lemma zero_loose : loose_number [48].
Proof. exists 48, []. split; [done|]. split; [lia|constructor]. Qed.
Lemma caught_number cap l : q_number cap l = QHang -> caught cap (fun _ big => q_number big) (Token TNumber [48]) l.
Proof.
  intros (c & r & -> & Hc & Ho)%q_number_hang. exists [], c, r, 48, [], 2%nat. split; [done|]. split; [constructor|]. split; [done|]. split; [right; split; [done|]; left; lia|]. split.
  - intros D big x HD Hb Hx. apply (q_number_text big [48] x); [apply zero_loose|cbn; lia|done].
  - intros D big HD Hb. cbn [app q_number]. replace (negb (is_digit 48)) with false by done. cbn [number_end length]. by replace (1 <=? big)%nat with true by lia.
Qed.

Lemma grows_const {A} depth cap (f : bytes -> qres A) : grows depth cap (fun _ _ => f). Proof. by intros D big l a l' _ _. Qed.
Lemma grows_string depth cap : grows depth cap (fun _ big => q_string big).
Proof. intros D big l a l' _ Hb E. rewrite (q_string_cap cap big); [done|done|by rewrite E]. Qed.
Lemma grows_skip depth cap next : grows depth cap (fun D big => q_skip D big next).
Proof.
  intros D big l a l' HD Hb E. rewrite (proj1 (q_skips_mono big depth D HD)).
  - rewrite (proj1 (q_skips_cap cap big Hb depth)); [done|by rewrite E].
  - rewrite (proj1 (q_skips_cap cap big Hb depth)); by rewrite E.
Qed.

Lemma ends_ret {A} (v : A) : ends (fun _ _ x => QOk v x) v.
Proof. exists [], 0%nat. split; [by left|done]. Qed.
Lemma ends_elements : ends q_skip_elements tt.
Proof.
  exists [93], 1%nat. split; [right; apply okhead_at; unfold number_byte; lia|]. intros [|D] big x HD Hb Hx; [lia|]. done.
Qed.
Lemma ends_members : ends q_skip_members tt.
Proof.
  exists [125], 1%nat. split; [right; apply okhead_at; unfold number_byte; lia|]. intros [|D] big x HD Hb Hx; [lia|]. done.
Qed.
Lemma empty_loose : loose_string [] []. Proof. constructor. Qed.

Lemma skips_caught cap : forall depth,
  (forall next l, q_skip depth cap next l = QHang -> caught cap (fun D big => q_skip D big next) tt l) /\
  (forall l, q_skip_elements depth cap l = QHang -> caught cap q_skip_elements tt l) /\
  (forall l, q_skip_members depth cap l = QHang -> caught cap q_skip_members tt l).
Proof.
  induction depth as [|depth (IH1 & IH2 & IH3)]; [done|]. split; [|split].
  - intros next l. cbn [q_skip]. destruct next; try done; intros H.
    + unfold q_null in H. destruct (q_read_n l TNull 110 4) eqn:E; try done. by apply q_read_n_no_fuel in E.
    + destruct (q_consume1 TObjBegin l) as [u l1| | |] eqn:E; cbn [qbind] in H; try done; [|by apply q_consume1_no_fuel in E].
      apply (caught_succ cap (fun D big x => qbind (q_consume1 TObjBegin x) (fun _ x => q_skip_members D big x))); [done|].
      apply (caught_later depth cap (fun _ _ => q_consume1 TObjBegin) (fun D big _ => q_skip_members D big) u tt l l1); auto using grows_const.
      apply stab_consume1. unfold bracket; auto.
    + destruct (q_consume1 TArrBegin l) as [u l1| | |] eqn:E; cbn [qbind] in H; try done; [|by apply q_consume1_no_fuel in E].
      apply (caught_succ cap (fun D big x => qbind (q_consume1 TArrBegin x) (fun _ x => q_skip_elements D big x))); [done|].
      apply (caught_later depth cap (fun _ _ => q_consume1 TArrBegin) (fun D big _ => q_skip_elements D big) u tt l l1); auto using grows_const.
      apply stab_consume1. unfold bracket; auto.
    + destruct (q_boolean l) eqn:E; try done. by apply q_boolean_no_fuel in E.
    + destruct (q_number cap l) eqn:E; try done. apply caught_number in E.
      apply (caught_succ cap (fun D big x => qbind (q_number big x) (fun _ x => QOk tt x))); [done|].
      exact (caught_first cap (fun _ big => q_number big) (fun _ _ _ x => QOk tt x) _ tt l E (ends_ret tt)).
    + destruct (q_string cap l) eqn:E; try done. apply (caught_string cap l [] empty_loose) in E.
      apply (caught_succ cap (fun D big x => qbind (q_string big x) (fun _ x => QOk tt x))); [done|].
      exact (caught_first cap (fun _ big => q_string big) (fun _ _ _ x => QOk tt x) _ tt l E (ends_ret tt)).
  - intros l. cbn [q_skip_elements]. intros H. destruct (q_next l) as [next l1| | |] eqn:E; cbn [qbind] in H; try done; [|by apply q_next_no_fuel in E].
    apply (caught_succ cap (fun D big x => qbind (q_next x) (fun next x => if decide (next = TArrEnd) then q_consume1 TArrEnd x
      else qbind (q_skip D big next x) (fun _ x => q_skip_elements D big x)))); [done|].
    apply (caught_later depth cap (fun _ _ => q_next) (fun D big next x => if decide (next = TArrEnd) then q_consume1 TArrEnd x
      else qbind (q_skip D big next x) (fun _ x => q_skip_elements D big x)) next tt l l1); auto using grows_const, stab_next.
    case_decide; [by apply q_consume1_no_fuel in H|]. destruct (q_skip depth cap next l1) as [u l2| | |] eqn:E2; cbn [qbind] in H; try done.
    + apply (caught_later depth cap (fun D big => q_skip D big next) (fun D big _ => q_skip_elements D big) u tt l1 l2); auto using grows_skip. apply stab_skips.
    + apply IH1 in E2. exact (caught_first cap (fun D big => q_skip D big next) (fun D big _ => q_skip_elements D big) tt tt l1 E2 ends_elements).
  - intros l. cbn [q_skip_members]. intros H. destruct (q_next l) as [next l1| | |] eqn:E; cbn [qbind] in H; try done; [|by apply q_next_no_fuel in E].
    set (value := fun D big (_ : token) x => qbind (q_next x) (fun next x => qbind (q_skip D big next x) (fun _ x => q_skip_members D big x))).
    apply (caught_succ cap (fun D big x => qbind (q_next x) (fun next x => if decide (next = TObjEnd) then q_consume1 TObjEnd x
      else qbind (q_string big x) (value D big)))); [done|].
    apply (caught_later depth cap (fun _ _ => q_next) (fun D big next x => if decide (next = TObjEnd) then q_consume1 TObjEnd x
      else qbind (q_string big x) (value D big)) next tt l l1); auto using grows_const, stab_next.
    case_decide; [by apply q_consume1_no_fuel in H|]. destruct (q_string cap l1) as [key l2| | |] eqn:E2; cbn [qbind] in H; try done.
    + apply (caught_later depth cap (fun _ big => q_string big) value key tt l1 l2); auto using grows_string, stab_string. unfold value.
      destruct (q_next l2) as [next' l3| | |] eqn:E3; cbn [qbind] in H; try done; [|by apply q_next_no_fuel in E3].
      apply (caught_later depth cap (fun _ _ => q_next) (fun D big next x => qbind (q_skip D big next x) (fun _ x => q_skip_members D big x)) next' tt l2 l3); auto using grows_const, stab_next.
      destruct (q_skip depth cap next' l3) as [u l4| | |] eqn:E4; cbn [qbind] in H; try done.
      * apply (caught_later depth cap (fun D big => q_skip D big next') (fun D big _ => q_skip_members D big) u tt l3 l4); auto using grows_skip. apply stab_skips.
      * apply IH1 in E4. exact (caught_first cap (fun D big => q_skip D big next') (fun D big _ => q_skip_members D big) tt tt l3 E4 ends_members).
    + apply (caught_string cap l1 [] empty_loose) in E2. apply (caught_first cap (fun _ big => q_string big) value _ tt l1 E2).
      exists ([34; 34; 125]), 2%nat. split; [right; apply okhead_at; unfold number_byte; lia|]. intros D big x HD Hb Hx. unfold value.
      destruct D as [|D]; [lia|]. destruct big as [|big]; [lia|]. destruct D as [|D]; [lia|]. done.
Qed.

(* ---------- programs ---------- *)

(** The program succeeds on a suitable text. *)
Definition accepts {A} (pr : prog (A * bool)) : Prop := exists r a N, closing r /\
  forall D big x, (N <= D)%nat -> (N <= big)%nat -> okhead x -> q_exec D big pr (r ++ x) = YDone (a, true) x.

Definition fillable {A} (o : op) (k : token -> prog (A * bool)) : Prop :=
  match o with
  | OString => exists s, loose_string s s /\ accepts (k (Token TString s))
  | ONumber => accepts (k (Token TNumber [48]))
  | OLiteral => accepts (k (Token TString [])) /\ accepts (k (Token TNumber [48]))
  | OSkip => accepts (k (Token TNull []))
  | _ => True
  end.

(** [p'] does what [p] does, with loops that go on longer; it can always be brought to an end. *)
Fixpoint good {A} (p p' : prog (A * bool)) : Prop :=
  match p with
  | OutOfFuel => True
  | Ret a => p' = Ret a
  | Call o k e => match p' with
                  | Call o' k' e' => o = o' /\ e.2 = false /\ e'.2 = false /\ (forall t, good (k t) (k' t)) /\ fillable o k'
                  | _ => False
                  end
  end.

Lemma op_caught depth cap {A} o (k : token -> prog (A * bool)) l : fillable o k -> q_op depth cap o l = QHang ->
  exists t, caught cap (fun D big => q_op D big o) t l /\ accepts (k t).
Proof.
  intros Hf H. assert (Hsp : forall l, q_space l <> QHang) by (intros; unfold q_space; by case_match). destruct o; cbn [q_op fillable] in *.
  - destruct (q_next l) eqn:E; try done. by apply q_next_no_fuel in E.
  - unfold q_consume in H. destruct (q_space l) as [? l1| | |] eqn:E; cbn [qbind] in H; try done; [|by apply Hsp in E]. destruct (q_consume1 TObjBegin l1) eqn:E1; try done. by apply q_consume1_no_fuel in E1.
  - unfold q_consume in H. destruct (q_space l) as [? l1| | |] eqn:E; cbn [qbind] in H; try done; [|by apply Hsp in E]. destruct (q_consume1 TObjEnd l1) eqn:E1; try done. by apply q_consume1_no_fuel in E1.
  - unfold q_consume in H. destruct (q_space l) as [? l1| | |] eqn:E; cbn [qbind] in H; try done; [|by apply Hsp in E]. destruct (q_consume1 TArrBegin l1) eqn:E1; try done. by apply q_consume1_no_fuel in E1.
  - unfold q_consume in H. destruct (q_space l) as [? l1| | |] eqn:E; cbn [qbind] in H; try done; [|by apply Hsp in E]. destruct (q_consume1 TArrEnd l1) eqn:E1; try done. by apply q_consume1_no_fuel in E1.
  - destruct Hf as (s & Hs & Hf). exists (Token TString s). split; [|done]. destruct (q_space l) as [u l1| | |] eqn:E; cbn [qbind] in H; try done; [|by apply Hsp in E].
    apply (caught_later depth cap (fun _ _ => q_space) (fun _ big _ => q_string big) u _ l l1); auto using grows_const, stab_space. by apply caught_string.
  - exists (Token TNumber [48]). split; [|done]. destruct (q_space l) as [u l1| | |] eqn:E; cbn [qbind] in H; try done; [|by apply Hsp in E].
    apply (caught_later depth cap (fun _ _ => q_space) (fun _ big _ => q_number big) u _ l l1); auto using grows_const, stab_space. by apply caught_number.
  - destruct Hf as [H1 H2]. unfold q_literal in H. destruct (q_next l) as [next l1| | |] eqn:E; cbn [qbind] in H; try done; [|by apply q_next_no_fuel in E].
    assert (K : forall t, caught cap (fun _ big x => match next with TString => q_string big x | TNumber => q_number big x | TBool => q_boolean x | TNull => q_null x | _ => QErr end) t l1 ->
      caught cap (fun _ big => q_literal big) t l).
    { intros t Ht. by apply (caught_later depth cap (fun _ _ => q_next) (fun _ big next x => match next with TString => q_string big x | TNumber => q_number big x | TBool => q_boolean x | TNull => q_null x | _ => QErr end)
        next t l l1); auto using grows_const, stab_next. }
    destruct next; try done.
    + by apply q_read_n_no_fuel in H. + by apply q_boolean_no_fuel in H.
    + exists (Token TNumber [48]). split; [|done]. apply K. by apply caught_number.
    + exists (Token TString []). split; [|done]. apply K. by apply caught_string, H; apply empty_loose.
  - exists (Token TNull []). split; [|done]. unfold q_Skip in H. destruct (q_next l) as [next l1| | |] eqn:E; cbn [qbind] in H; try done; [|by apply q_next_no_fuel in E].
    apply (caught_first cap q_Skip (fun _ _ _ x => QOk (Token TNull []) x) tt _ l); [|apply ends_ret].
    apply (caught_later depth cap (fun _ _ => q_next) (fun D big next => q_skip D big next) next tt l l1); auto using grows_const, stab_next.
    destruct (q_skip depth cap next l1) eqn:E1; try done. by eapply skips_caught.
Qed.

(** The whole program is caught by a token that is in order where it stands. *)
Definition caught_in {A} (cap : nat) (pr : prog (A * bool)) (l : bytes) : Prop := exists p c l1 c' r N,
  l = p ++ c :: l1 /\ tokens p (c :: l1) /\ overlong cap c l1 /\ same_kind c c' /\
  (exists a, forall D big x, (N <= D)%nat -> (N <= big)%nat -> okhead x -> q_exec D big pr (p ++ c' :: r ++ x) = YDone (a, true) x) /\
  (exists e, forall D big, (N <= D)%nat -> (N <= big)%nat -> q_exec D big pr (p ++ [c']) = YError (e, false)).

Lemma exec_caught depth cap {A} (pr : prog (A * bool)) : forall pr' l, good pr pr' -> q_exec depth cap pr l = YHang -> caught_in cap pr' l.
Proof.
  induction pr as [b|o k IH e|]; intros pr' l Hg H; cbn [q_exec] in H; try done. destruct pr' as [|o' k' e'|]; try done. destruct Hg as (<- & He & He' & Hk & Hf).
  destruct (q_op depth cap o l) as [t l1| | |] eqn:E; try done.
  - destruct (IH t (k' t) l1 (Hk t) H) as (p & c & l2 & c' & r & N & -> & Hp & Ho & Hkd & (a & H1) & (x0 & H2)).
    assert (Hn : p ++ c :: l2 <> []) by (by destruct p). destruct (stab_op depth cap o _ _ _ E Hn) as (pre & -> & Hpre & Hx).
    assert (Hc : forall x, compat (p ++ c :: l2) (p ++ c' :: x)). { intros x. apply compat_app. by exists c, l2, c', x. }
    assert (Q : forall D big x, (depth <= D)%nat -> (cap <= big)%nat -> q_op D big o (pre ++ p ++ c' :: x) = QOk t (p ++ c' :: x)).
    { intros D big x HD Hb. specialize (Hx _ (Hc x)). pose proof (q_op_cap depth cap big o _ Hb ltac:(by rewrite Hx)) as K. rewrite Hx in K.
      rewrite (q_op_mono depth D); [done|done|by rewrite K]. }
    exists (pre ++ p), c, l2, c', r, (N + depth + cap)%nat. split; [by rewrite <- app_assoc|]. split; [by apply tokens_app|]. do 2 (split; [done|]). split.
    + exists a. intros D big x HD Hb Hok. rewrite <- app_assoc. cbn [q_exec]. rewrite Q by lia. apply H1; [lia|lia|done].
    + exists x0. intros D big HD Hb. rewrite <- app_assoc. cbn [q_exec]. rewrite Q by lia. apply H2; lia.
  - destruct (op_caught depth cap o k' l Hf E) as (t & (p & c & l2 & c' & r & N & -> & Hp & Ho & Hkd & H1 & H2) & (r2 & a & N2 & Hr & Ha)).
    exists p, c, l2, c', (r ++ r2), (N + N2)%nat. do 4 (split; [done|]). split.
    + exists a. intros D big x HD Hb Hok. cbn [q_exec]. rewrite <- app_assoc, H1; [|lia|lia|by apply closing_app]. apply Ha; [lia|lia|done].
    + destruct e' as [e0 b0]. cbn in He'. subst b0. exists e0. intros D big HD Hb. cbn [q_exec]. by rewrite H2 by lia.
Qed.

Lemma good_error depth cap {A} (pr : prog (A * bool)) : forall pr' l e, good pr pr' -> q_exec depth cap pr l = YError e -> e.2 = false.
Proof.
  induction pr as [b|o k IH e|]; intros pr' l e0 Hg H; cbn [q_exec] in H; try done. destruct pr' as [|o' k' e'|]; try done. destruct Hg as (<- & He & He' & Hk & Hf).
  destruct (q_op depth cap o l) as [t l1| | |] eqn:E; try done; [|by injection H as <-]. exact (IH t (k' t) l1 e0 (Hk t) H).
Qed.

(* ---------- every program of the decoders is one of these ---------- *)

Lemma accepts_ret {A} (a : A) : accepts (Ret (a, true)).
Proof. exists [], a, 0%nat. split; [by left|done]. Qed.
Lemma accepts_pthen {A B} (p : prog (A * bool)) (f : A -> B) k : accepts p -> (forall a, accepts (k a)) -> accepts (pthen p f k).
Proof.
  intros (r & a & N & Hr & H) Hk. destruct (Hk a) as (r2 & b & N2 & Hr2 & H2). exists (r ++ r2), b, (N + N2)%nat. split; [by apply closing_closing|].
  intros D big x HD Hb Hx. rewrite q_exec_pthen, <- app_assoc, H; [|lia|lia|by apply closing_app]. cbn [ythen]. apply H2; [lia|lia|done].
Qed.
Lemma okq r : okhead (34 :: r). Proof. apply okhead_at. unfold number_byte. lia. Qed.
Lemma okb r : okhead (125 :: r). Proof. apply okhead_at. unfold number_byte. lia. Qed.
Lemma oka r : okhead (93 :: r). Proof. apply okhead_at. unfold number_byte. lia. Qed.
Lemma accepts_string t : accepts (string_decoder t).
Proof. exists [34; 34], [], 1%nat. split; [right; apply okq|]. intros D [|big] x HD Hb Hx; [lia|]. done. Qed.
Lemma accepts_skip {A} (pr : prog (A * bool)) e : accepts pr -> accepts (Call OSkip (fun _ => pr) e).
Proof.
  intros (r & a & N & Hr & H). exists (34 :: 34 :: r), a, (S N). split; [right; apply okq|]. intros [|D] [|big] x HD Hb Hx; [lia..|]. apply H; [lia|lia|done].
Qed.

Lemma good_ret {A} (a : A * bool) : good (Ret a) (Ret a). Proof. done. Qed.
Lemma good_string t : good (string_decoder t) (string_decoder t).
Proof. split; [done|]. split; [done|]. split; [done|]. split; [done|]. exists []. split; [constructor|apply accepts_ret]. Qed.
Lemma good_any t : good (any_decoder t) (any_decoder t).
Proof. split; [done|]. split; [done|]. split; [done|]. split; [done|]. split; apply accepts_ret. Qed.
Lemma good_uint64 t : good (uint64_decoder t) (uint64_decoder t).
Proof. split; [done|]. split; [done|]. split; [done|]. split; [intros tok; by destruct (digits_value 0 (t_val tok))|]. apply accepts_ret. Qed.
Lemma good_id t : good (id_decoder t) (id_decoder t).
Proof.
  split; [done|]. split; [done|]. split; [done|]. split; [|done]. intros next. case_decide.
  - split; [done|]. split; [done|]. split; [done|]. split; [done|]. apply accepts_ret.
  - split; [done|]. split; [done|]. split; [done|]. split; [intros tok; by destruct (parse_id (t_val tok))|]. exists [49]. split; [by repeat constructor|]. apply accepts_ret.
Qed.
Lemma good_pthen {A B} (p p' : prog (A * bool)) (f : A -> B) k k' :
  good p p' -> (forall a, good (k a) (k' a)) -> (forall a, accepts (k' a)) -> good (pthen p f k) (pthen p' f k').
Proof.
  intros Hp Hk Ha. revert p' Hp. induction p as [[a b]|o c IH [a b]|]; intros p' Hp; [|destruct p' as [|o' c' [a' b']|]; try done|done].
  - cbn [good] in Hp. subst p'. destruct b; [apply Hk|done].
  - destruct Hp as (<- & He & He' & Hc & Hf). cbn [pthen good]. split; [done|]. split; [done|]. split; [done|]. split; [intros t; by apply IH|].
    destruct o; cbn [fillable] in *; try done.
    + destruct Hf as (s & Hs & Hf). exists s. split; [done|]. by apply accepts_pthen.
    + by apply accepts_pthen.
    + destruct Hf. split; by apply accepts_pthen.
    + by apply accepts_pthen.
Qed.
Lemma good_at_field {T A} (get : T -> A) put (d d' : decoder A) t : (forall a, good (d a) (d' a)) -> good (at_field get put d t) (at_field get put d' t).
Proof. intros H. apply good_pthen; [done|done|]. intros a. apply accepts_ret. Qed.

Lemma good_peek {A} (k k' : token -> prog (A * bool)) e e' : e.2 = false -> e'.2 = false -> (forall t, good (k t) (k' t)) -> good (Call ONext k e) (Call ONext k' e').
Proof. by intros. Qed.
Lemma good_end {A} (o : op) (a a' : A) e : o = OObjEnd \/ o = OArrEnd -> e.2 = false -> good (Call o (fun _ => Ret (a, true)) e) (Call o (fun _ => Ret (a, true)) e).
Proof. intros [-> | ->] He; done. Qed.

Lemma accepts_map n target r : accepts (map_loop (S n) target r).
Proof. exists [125], r, 1%nat. split; [right; apply okb|]. intros D big x HD Hb Hx. done. Qed.
Lemma accepts_slice {T} (zero : T) d n s idx : accepts (slice_loop zero d (S n) s idx).
Proof. exists [93], s, 1%nat. split; [right; apply oka|]. intros D big x HD Hb Hx. done. Qed.
Lemma accepts_array {T} (d : decoder T) n a idx : accepts (array_loop d (S n) a idx).
Proof. exists [93], a, 1%nat. split; [right; apply oka|]. intros D big x HD Hb Hx. done. Qed.
Lemma accepts_struct {T} (fs : list (gostring * decoder T)) n t : accepts (struct_loop fs (S n) t).
Proof. exists [125], t, 1%nat. split; [right; apply okb|]. intros D big x HD Hb Hx. done. Qed.

Lemma good_map target : forall n r, good (map_loop n target r) (map_loop (S n) target r).
Proof.
  induction n as [|n IH]; intros r; [done|]. cbn [map_loop]. apply good_peek; [done|done|]. intros next. case_decide; [by apply good_end; auto|].
  apply good_pthen; [apply good_string| |].
  - intros key. apply good_pthen; [apply good_string|intros v; apply IH|intros v; apply accepts_map].
  - intros key. apply accepts_pthen; [apply accepts_string|]. intros v. apply accepts_map.
Qed.
Lemma good_slice {T} (zero : T) (d d' : decoder T) : (forall t, good (d t) (d' t)) -> forall n s idx, good (slice_loop zero d n s idx) (slice_loop zero d' (S n) s idx).
Proof.
  intros Hd. induction n as [|n IH]; intros s idx; [done|]. cbn [slice_loop]. apply good_peek; [done|done|]. intros next. case_decide; [by apply good_end; auto|].
  apply good_pthen; [done|intros el; apply IH|intros el; apply accepts_slice].
Qed.
Lemma good_array {T} (d d' : decoder T) : (forall t, good (d t) (d' t)) -> forall n a idx, good (array_loop d n a idx) (array_loop d' (S n) a idx).
Proof.
  intros Hd. induction n as [|n IH]; intros a idx; [done|]. cbn [array_loop]. apply good_peek; [done|done|]. intros next. case_decide; [by apply good_end; auto|].
  destruct (a !! idx) as [el|].
  - apply good_pthen; [done|intros el'; apply IH|intros el'; apply accepts_array].
  - split; [done|]. split; [done|]. split; [done|]. split; [intros; apply IH|]. apply accepts_array.
Qed.
Definition good_fields {T} (fs fs' : list (gostring * decoder T)) : Prop := Forall2 (fun a b => a.1 = b.1 /\ forall t, good (a.2 t) (b.2 t)) fs fs'.
Lemma good_lookup {T} (fs fs' : list (gostring * decoder T)) name : good_fields fs fs' ->
  match lookup_field fs name, lookup_field fs' name with
  | Some d, Some d' => forall t, good (d t) (d' t)
  | None, None => True
  | _, _ => False
  end.
Proof.
  induction 1 as [|[n d] [n' d'] fs fs' [E Hd] H IH]; cbn [lookup_field]; [done|]. cbn in E, Hd. subst n'. by destruct (decide (n = name)).
Qed.
Lemma good_struct {T} (fs fs' : list (gostring * decoder T)) : good_fields fs fs' -> lookup_field fs' [] = None ->
  forall n t, good (struct_loop fs n t) (struct_loop fs' (S n) t).
Proof.
  intros Hf He. induction n as [|n IH]; intros t; [done|]. cbn [struct_loop]. apply good_peek; [done|done|]. intros next. case_decide; [by apply good_end; auto|].
  split; [done|]. split; [done|]. split; [done|]. split.
  - intros key. pose proof (good_lookup fs fs' (t_val key) Hf) as K. destruct (lookup_field fs (t_val key)), (lookup_field fs' (t_val key)); try done.
    + apply good_pthen; [done|intros a; apply IH|intros a; apply accepts_struct].
    + split; [done|]. split; [done|]. split; [done|]. split; [intros; apply IH|]. apply accepts_struct.
  - exists []. split; [constructor|]. cbn [t_val]. rewrite He. apply accepts_skip, accepts_struct.
Qed.
Lemma good_begin {A} (o : op) (p p' : prog (A * bool)) e e' : o = OObjBegin \/ o = OArrBegin -> e.2 = false -> e'.2 = false -> good p p' -> good (Call o (fun _ => p) e) (Call o (fun _ => p') e').
Proof. intros [-> | ->]; by intros. Qed.
Lemma good_struct_decoder {T} (fs fs' : list (gostring * decoder T)) n t : good_fields fs fs' -> lookup_field fs' [] = None -> good (struct_decoder fs n t) (struct_decoder fs' (S n) t).
Proof. intros. apply good_begin; [auto|done|done|]. by apply good_struct. Qed.
Lemma good_endpoint n t : good (endpoint_decoder n t) (endpoint_decoder (S n) t).
Proof. apply good_struct_decoder; [|done]. apply Forall2_cons_2; [split; [done|apply good_string]|apply Forall2_nil_2]. Qed.

Lemma good_v2 n : good (parse_v2_prog n) (parse_v2_prog (S n)).
Proof.
  apply good_begin; [auto|done|done|]. apply good_slice. intros t. apply good_struct_decoder; [|done]. unfold v2_fields.
  repeat first [apply Forall2_nil_2 | each]; apply good_at_field; try first [apply good_id | apply good_uint64 | apply good_string | apply good_endpoint].
  intros a. apply good_begin; [auto|done|done|]. apply good_map.
Qed.
Lemma good_v1 n pool : good (parse_v1_prog n pool) (parse_v1_prog (S n) pool).
Proof.
  apply good_begin; [auto|done|done|]. apply good_slice. intros t. apply good_struct_decoder; [|done]. unfold v1_fields.
  repeat first [apply Forall2_nil_2 | each]; apply good_at_field; try first [apply good_id | apply good_uint64 | apply good_string].
  - intros a. apply good_begin; [auto|done|done|]. apply good_slice. intros b. apply good_struct_decoder; [|done]. unfold ba_fields.
    repeat first [apply Forall2_nil_2 | each]; apply good_at_field; first [apply good_string | apply good_any | apply good_endpoint].
  - intros a. apply good_begin; [auto|done|done|]. apply good_array. intros b. apply good_struct_decoder; [|done]. unfold annot_fields.
    repeat first [apply Forall2_nil_2 | each]; apply good_at_field; first [apply good_string | apply good_uint64 | apply good_endpoint].
Qed.

(* ---------- the exact criterion ---------- *)

Lemma y_result_inv {A} (y : yres A) a : y_result y = Some a -> y <> YFuel /\ y <> YHang. Proof. by destruct y. Qed.

Section exact.
  Context {A : Type} (P : nat -> prog (A * bool)) (g : A * bool -> option (list span)) (parse : nat -> bytes -> rsrc -> xres (option (list span))).
  Context (Hmono : forall n n', (n <= n')%nat -> ple (P n) (P n')) (Hgood : forall n, good (P n) (P (S n))).
  Context (Henough : forall fuel cap l, (2 * length l + 2 < fuel)%nat -> q_exec fuel cap (P fuel) l <> YFuel).
  Context (Hg : forall a b, (exists s, g (a, b) = Some s) <-> b = true).
  Context (Hparse : forall fuel buf src, parse fuel buf src = xmap g (exec fuel (P fuel) (new_parser src buf))).

  Lemma larger fuel fuel' cap cap' l : (fuel <= fuel')%nat -> (cap <= cap')%nat -> q_exec fuel cap (P fuel) l <> YFuel -> q_exec fuel cap (P fuel) l <> YHang ->
    q_exec fuel' cap' (P fuel') l = q_exec fuel cap (P fuel) l.
  Proof. intros Hf Hc H1 H2. pose proof (q_exec_mono fuel fuel' cap (P fuel) (P fuel') Hf (Hmono _ _ Hf) l H1) as E. rewrite <- E in H2. by rewrite (q_exec_cap fuel' cap cap') by done. Qed.

  Lemma accepted_q body : accepted parse body -> exists F big, forall fuel cap, (F <= fuel)%nat -> (big <= cap)%nat -> exists a l', q_exec fuel cap (P fuel) body = YDone (a, true) l'.
  Proof.
    intros (F & buf & spans & Hb & E). rewrite Hparse in E. destruct (exec F (P F) (new_parser (Src [body] (EndEOF false)) buf)) as [[a b]| |] eqn:Ex; cbn [xmap] in E; try done.
    injection E as E. assert (Hb' : b = true) by (apply (Hg a); by eexists). subst b. apply q_of_exec in Ex; [|done|done]. cbn [concat] in Ex. rewrite app_nil_r in Ex.
    exists F, (length buf). intros fuel cap Hf Hc. pose proof (y_result_inv _ _ Ex) as [H1 H2]. rewrite (larger F fuel (length buf) cap) by done.
    destruct (q_exec F (length buf) (P F) body) as [x l'|x| |] eqn:Eq; cbn [y_result] in Ex; try done; injection Ex as ->; [by exists a, l'|].
    by apply (good_error _ _ _ (P (S F))) in Eq; [|apply Hgood].
  Qed.
  Lemma q_accepted body fuel cap a l' : (1 + length body < fuel)%nat -> (5 <= cap)%nat -> q_exec fuel cap (P fuel) body = YDone (a, true) l' -> accepted parse body.
  Proof.
    intros Hf Hc E. assert (exists s, g (a, true) = Some s) as [s Hs] by (by apply Hg). exists fuel, (replicate cap 0), s. rewrite replicate_length. split; [done|]. rewrite Hparse.
    rewrite (exec_of_q fuel _ [body] (EndEOF false) (replicate cap 0) (a, true)); cbn [xmap]; rewrite ?replicate_length; try done.
    - by rewrite Hs. - cbn. rewrite app_nil_r. lia. - cbn [concat]. by rewrite app_nil_r, E.
  Qed.

  Lemma hangs_q buf chunks e : (5 <= length buf)%nat -> no_eager_error e ->
    (forall fuel, parse fuel buf (Src chunks e) = XHang) <-> (exists fuel, q_exec fuel (length buf) (P fuel) (concat chunks) = YHang).
  Proof.
    intros Hb He. split.
    - intros H. destruct (enough_some chunks) as [n [Hn1 Hn2]]. exists n. pose proof (Henough n (length buf) (concat chunks) Hn2) as Hf.
      destruct (q_exec n (length buf) (P n) (concat chunks)) as [a l'|a| |] eqn:E; try done; specialize (H n); rewrite Hparse in H;
        by rewrite (exec_of_q n _ chunks e buf a) in H by (try done; by rewrite E).
    - intros [fuel E] fuel'. rewrite Hparse. destruct (exec fuel' (P fuel') (new_parser (Src chunks e) buf)) as [a| |] eqn:Ex; [|by apply exec_safe in Ex; [|apply wf_new]|done].
      exfalso. apply q_of_exec in Ex; [|done|done]. pose proof (y_result_inv _ _ Ex) as [H1 H2].
      pose proof (larger fuel' (fuel + fuel') (length buf) (length buf) (concat chunks) ltac:(lia) ltac:(lia) H1 H2) as E1.
      rewrite (q_exec_mono fuel (fuel + fuel') (length buf) (P fuel) (P (fuel + fuel')%nat) ltac:(lia) (Hmono fuel (fuel + fuel')%nat ltac:(lia))) in E1 by (by rewrite E). congruence.
  Qed.

  Lemma hang_exact buf chunks e : (5 <= length buf)%nat -> no_eager_error e ->
    (forall fuel, parse fuel buf (Src chunks e) = XHang) <-> stuck parse (length buf) (concat chunks).
  Proof.
    intros Hb He. rewrite (hangs_q buf chunks e Hb He). set (cap := length buf) in *. generalize (concat chunks) as body. clear chunks. intros body. split.
    - intros [fuel E]. destruct (exec_caught fuel cap _ _ body (Hgood fuel) E) as (p & c & l1 & c' & r & N & -> & Hp & Ho & Hk & (a & H1) & (x & H2)).
      exists p, c, l1. split; [done|]. split; [done|]. split; [done|]. exists c', (r ++ [32]). split; [done|]. split.
      + set (F := (N + S fuel + 2 + length (p ++ c' :: r ++ [32%Z]))%nat). eapply (q_accepted _ F (N + 5)); [unfold F; lia|lia|].
        rewrite (q_exec_mono F F (N + 5) (P (S fuel)) (P F) ltac:(lia) (Hmono (S fuel) F ltac:(unfold F; lia))).
        * apply H1; [unfold F; lia|lia|]. apply okhead_at. unfold number_byte. lia.
        * rewrite H1; [done|unfold F; lia|lia|]. apply okhead_at. unfold number_byte. lia.
      + intros (F & big & K)%accepted_q. set (F2 := (F + N + S fuel)%nat). destruct (K F2 (big + N)%nat ltac:(unfold F2; lia) ltac:(lia)) as (a' & l' & K').
        rewrite (q_exec_mono F2 F2 (big + N) (P (S fuel)) (P F2) ltac:(lia) (Hmono (S fuel) F2 ltac:(unfold F2; lia))) in K'.
        * rewrite H2 in K' by (unfold F2; lia). done.
        * rewrite H2 by (unfold F2; lia). done.
    - intros (p & c & l & -> & Hp & Ho & (c' & rest & Hk & Ha & Hn)). apply accepted_q in Ha as (F & big & K).
      set (F2 := (F + 4 + 2 * length (p ++ [c']) + 2 * length (p ++ c :: l))%nat). set (big2 := (big + cap)%nat).
      destruct (K F2 big2 ltac:(unfold F2; lia) ltac:(unfold big2; lia)) as (a & l' & E). exists F2.
      destruct (exec_tracks cap big2 c c' l rest ltac:(lia) ltac:(unfold big2; lia) Ho Hk F2 (P F2) p (a, true) l' Hp E) as [H|(le & H)]; [done|].
      exfalso. apply Hn. eapply (q_accepted _ F2 big2); [unfold F2; lia|unfold big2; lia|exact H].
  Qed.
End exact.

Lemma v2_hang_exact buf chunks e : (5 <= length buf)%nat -> no_eager_error e ->
  (forall fuel, ParseJsonV2 fuel buf (Src chunks e) = XHang) <-> stuck ParseJsonV2 (length buf) (concat chunks).
Proof.
  apply (hang_exact parse_v2_prog v2_result).
  - intros. by apply ple_v2.
  - apply good_v2.
  - intros fuel cap l Hl E. pose proof (enough_v2 fuel cap (length l) ltac:(lia) l ltac:(lia) Hl) as H. by rewrite E in H.
  - intros a []; cbn; split; try done; [by eexists|by intros []].
  - done.
Qed.
Lemma v1_hang_exact pool buf chunks e : (5 <= length buf)%nat -> no_eager_error e ->
  (forall fuel, ParseJsonV1 fuel buf pool (Src chunks e) = XHang) <-> stuck (v1_parser pool) (length buf) (concat chunks).
Proof.
  intros Hb He. rewrite <- (hang_exact (fun n => parse_v1_prog n pool) (fun r => (v1_result (length pool) r).1) (v1_parser pool)) with (buf := buf) (chunks := chunks) (e := e); try done.
  - unfold v1_parser. split; intros H fuel; specialize (H fuel); [by rewrite H|]. by destruct (ParseJsonV1 fuel buf pool (Src chunks e)).
  - intros. by apply ple_v1.
  - intros. apply good_v1.
  - intros fuel cap l Hl E. pose proof (enough_v1 fuel cap (length l) pool ltac:(lia) l ltac:(lia) Hl) as H. by rewrite E in H.
  - intros a []; cbn; split; try done; [by eexists|by intros []].
  - intros fuel b src. unfold v1_parser, ParseJsonV1. by destruct (exec fuel (parse_v1_prog fuel pool) (new_parser src b)).
Qed.
