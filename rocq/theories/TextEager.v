(** Texts when the reader fails together with its last bytes (C105): as EagerProofs. *)
From Verif Require Import Base IdModel SpanModel JsonModel LiteralModel CodecModel JsonSpec ParseSpec HandlerModel HandlerSpec HandlerProofs EagerProofs
  TextModel TextErase TextSpec TextHandler.

(** The reader fails earlier, with an error of its own; perhaps no byte is lost. *)
Definition shorter (st st' : pstate) : Prop :=
  exists chunks lost, concat (r_chunks (p_src st)) = concat chunks ++ lost /\ st' = with_src (Src chunks (EndErr false)) st.

(** Some reader before gives every reader after. *)
Definition tame {A} (f : pstate -> eres A) : Prop := forall st, eager st ->
  match f st with
  | EOk a st1 => eager st1 /\ forall st1', shorter st1 st1' -> exists st', shorter st st' /\ f st' = EOk a st1'
  | r => exists st', shorter st st' /\ f st' = r
  end.

Lemma shorter_some st : shorter st (with_src (Src (r_chunks (p_src st)) (EndErr false)) st).
Proof. exists (r_chunks (p_src st)), []. by rewrite app_nil_r. Qed.

Lemma tame_ext {A} (f g : pstate -> eres A) : (forall st, f st = g st) -> tame f -> tame g.
Proof.
  intros E H1 st He. specialize (H1 st He). rewrite <- E. destruct (f st) as [a st1| | |].
  - destruct H1 as [? H1]. split; [done|]. intros st1' Hc. destruct (H1 st1' Hc) as (st' & ? & ?). exists st'. by rewrite <- E.
  - destruct H1 as (st' & ? & ?). exists st'. by rewrite <- E.
  - destruct H1 as (st' & ? & ?). exists st'. by rewrite <- E.
  - destruct H1 as (st' & ? & ?). exists st'. by rewrite <- E.
Qed.

(** Functions that do not touch the reader. *)
Lemma tame_local {A} (f : pstate -> eres A) :
  (forall s st, f (with_src s st) = match f st with EOk a st1 => EOk a (with_src s st1) | EErr m => EErr m | EPanic => EPanic | EHang => EHang end) ->
  (forall st a st1, f st = EOk a st1 -> p_src st1 = p_src st) -> tame f.
Proof.
  intros Hs Hp st He. pose proof (shorter_some st) as Hsome. destruct (f st) as [a st1| | |] eqn:E.
  - pose proof (Hp _ _ _ E) as Hp1. split; [by unfold eager; rewrite Hp1|]. intros st1' (chunks & lost & Hc & ->). exists (with_src (Src chunks (EndErr false)) st). rewrite Hp1 in Hc.
    split; [by exists chunks, lost|]. by rewrite Hs, E.
  - eexists. split; [exact Hsome|]. by rewrite Hs, E.
  - eexists. split; [exact Hsome|]. by rewrite Hs, E.
  - eexists. split; [exact Hsome|]. by rewrite Hs, E.
Qed.

Lemma tame_ok {A} (g : pstate -> A) h : (forall s st, g (with_src s st) = g st) -> (forall s st, h (with_src s st) = with_src s (h st)) -> (forall st, p_src (h st) = p_src st) ->
  tame (fun st => EOk (g st) (h st)).
Proof. intros Hg Hh Hp. apply tame_local; [intros s st; by rewrite Hg, Hh|]. intros st a st1 [= <- <-]. apply Hp. Qed.

Lemma tame_err {A} m : tame (fun _ : pstate => @EErr A m). Proof. by apply tame_local. Qed.
Lemma tame_panic {A} : tame (fun _ : pstate => @EPanic A). Proof. by apply tame_local. Qed.
Lemma tame_hang {A} : tame (fun _ : pstate => @EHang A). Proof. by apply tame_local. Qed.
Lemma tame_ret {A} (a : A) : tame (EOk a). Proof. apply tame_local; [done|]. by intros st b st1 [= <- <-]. Qed.
Lemma tame_wrong {A} ty : tame (@e_wrong_type A ty).
Proof. apply tame_local. - intros s st. unfold e_wrong_type, wrong_type_error. cbn [with_src p_buf p_tail]. by destruct (match _ !! _ with Some _ => _ | None => _ end). - intros st a st1. unfold e_wrong_type. by destruct (wrong_type_error _ _). Qed.

Lemma tame_bind {A B} (f : pstate -> eres A) (g : A -> pstate -> eres B) : tame f -> (forall a, tame (g a)) -> tame (fun st => ebind (f st) g).
Proof.
  intros F1 G st He. specialize (F1 st He). destruct (f st) as [a st1| | |] eqn:E; cbn [ebind].
  - destruct F1 as [He1 F1]. specialize (G a st1 He1). destruct (g a st1) as [b st2| | |] eqn:E2.
    + destruct G as [He2 G1]. split; [done|]. intros st2' Hc. destruct (G1 _ Hc) as (st1' & Hc1 & E1). destruct (F1 _ Hc1) as (st' & Hc' & E'). exists st'. split; [done|]. rewrite E'. done.
    + destruct G as (st1' & Hc1 & E1). destruct (F1 _ Hc1) as (st' & Hc' & E'). exists st'. split; [done|]. rewrite E'. done.
    + destruct G as (st1' & Hc1 & E1). destruct (F1 _ Hc1) as (st' & Hc' & E'). exists st'. split; [done|]. rewrite E'. done.
    + destruct G as (st1' & Hc1 & E1). destruct (F1 _ Hc1) as (st' & Hc' & E'). exists st'. split; [done|]. rewrite E'. done.
  - destruct F1 as (st' & Hc' & E'). exists st'. split; [done|]. by rewrite E'.
  - destruct F1 as (st' & Hc' & E'). exists st'. split; [done|]. by rewrite E'.
  - destruct F1 as (st' & Hc' & E'). exists st'. split; [done|]. by rewrite E'.
Qed.

(** Looking at what is not the reader before deciding. *)
Lemma tame_case {A B} (d : pstate -> B) (f : B -> pstate -> eres A) : (forall s st, d (with_src s st) = d st) -> (forall b, tame (f b)) -> tame (fun st => f (d st) st).
Proof.
  intros Hd Hf st He. specialize (Hf (d st) st He). destruct (f (d st) st) as [a st1| | |].
  - destruct Hf as [? H]. split; [done|]. intros st1' Hc. destruct (H _ Hc) as (st' & (chunks & lost & Hp & ->) & E). exists (with_src (Src chunks (EndErr false)) st). split; [by exists chunks, lost|]. by rewrite Hd.
  - destruct Hf as (st' & (chunks & lost & Hp & ->) & E). exists (with_src (Src chunks (EndErr false)) st). split; [by exists chunks, lost|]. by rewrite Hd.
  - destruct Hf as (st' & (chunks & lost & Hp & ->) & E). exists (with_src (Src chunks (EndErr false)) st). split; [by exists chunks, lost|]. by rewrite Hd.
  - destruct Hf as (st' & (chunks & lost & Hp & ->) & E). exists (with_src (Src chunks (EndErr false)) st). split; [by exists chunks, lost|]. by rewrite Hd.
Qed.

Section texts.
Context (oth : bytes).

(** The reads. *)
Definition e_fill (st1 : pstate) : eres unit :=
  let '(got, err, src) := src_read (p_src st1) (length (p_buf st1) - p_head st1) in
  let buf := splice (p_buf st1) (p_head st1) got in
  match err with
  | REof =>
      match got with
      | [] => EErr (str "EOF")
      | _ => EOk tt (PState src buf (p_tail st1) (p_head st1 + length got) true)
      end
  | ROther => EErr (with_message (str "buffer more data") oth)
  | RNil => EOk tt (PState src buf (p_tail st1) (p_head st1 + length got) false)
  end.

Lemma tame_fill : tame e_fill.
Proof.
  intros st He. unfold eager in He. unfold e_fill, src_read. rewrite He. destruct (r_chunks (p_src st)) as [|c cs] eqn:Ec.
  { exists (with_src (Src [] (EndErr false)) st). split; [|done]. exists [], []. by rewrite Ec. }
  set (m := (length (p_buf st) - p_head st)%nat). set (rest := match drop m c with [] => cs | c' => c' :: cs end).
  assert (Hcat : c ++ concat cs = take m c ++ concat rest).
  { unfold rest. rewrite <- (take_drop m c) at 1. destruct (drop m c) as [|x d]; [by rewrite app_nil_r|]. cbn [concat]. by rewrite app_assoc. }
  destruct rest as [|r0 rs] eqn:Er.
  + cbn [end_eager end_err]. exists (with_src (Src [] (EndErr false)) st). split; [|done]. exists [], (concat (c :: cs)). by rewrite Ec.
  + split; [done|]. intros st1' (chunks & lost & Hc & ->). cbn [p_src r_chunks] in Hc.
    exists (with_src (Src (take m c :: chunks) (EndErr false)) st). split.
    * exists (take m c :: chunks), lost. split; [|done]. rewrite Ec. cbn [concat]. cbn [concat] in Hcat, Hc. rewrite Hcat, Hc. by rewrite app_assoc.
    * cbn [with_src p_src r_chunks r_end p_buf p_head p_tail end_eager end_err]. fold m. rewrite take_take, Nat.min_id.
      rewrite (drop_ge (take m c)) by (rewrite take_length; lia). by destruct chunks.
Qed.

Local Notation Skip' := (e_Skip oth).
Local Notation boolean' := (e_boolean oth).
Local Notation consume' := (e_consume oth).
Local Notation literal' := (e_literal oth).
Local Notation more' := (e_more oth).
Local Notation next' := (e_next oth).
Local Notation null' := (e_null oth).
Local Notation number' := (e_number oth).
Local Notation number_loop' := (e_number_loop oth).
Local Notation op' := (e_op oth).
Local Notation read_n' := (e_read_n oth).
Local Notation require' := (e_require oth).
Local Notation skip' := (e_skip oth).
Local Notation skip_elements' := (e_skip_elements oth).
Local Notation skip_members' := (e_skip_members oth).
Local Notation space' := (e_space oth).
Local Notation string' := (e_string oth).
Local Notation string_loop' := (e_string_loop oth).

Lemma tame_more : tame more'.
Proof.
  apply (tame_ext (fun st =>
    if p_eof st then EErr (str "EOF") else
    if (0 <? p_tail st)%nat && negb ((p_tail st <=? p_head st)%nat && (p_head st <=? length (p_buf st))%nat) then EPanic else
    ebind (EOk tt (if (0 <? p_tail st)%nat
             then PState (p_src st) (splice (p_buf st) 0 (take (available st) (drop (p_tail st) (p_buf st)))) 0 (available st) false
             else st)) (fun _ st1 => if (length (p_buf st1) <? p_head st1)%nat then EPanic else e_fill st1))); [done|].
  apply (tame_case p_eof (fun b st => if b then EErr (str "EOF") else _)); [done|]. intros []; [(apply tame_err || apply tame_wrong)|].
  apply (tame_case (fun st => (0 <? p_tail st)%nat && negb ((p_tail st <=? p_head st)%nat && (p_head st <=? length (p_buf st))%nat)) (fun b st => if b then EPanic else _)); [done|].
  intros []; [apply tame_panic|]. apply (tame_bind (fun st => EOk tt _)).
  - apply (tame_ok (fun _ => tt)); [done| |].
    + intros s st. cbn [with_src p_tail p_buf p_head p_src]. by destruct (0 <? p_tail st)%nat.
    + intros st. by destruct (0 <? p_tail st)%nat.
  - intros []. apply (tame_case (fun st1 => (length (p_buf st1) <? p_head st1)%nat) (fun b st => if b then EPanic else _)); [done|]. intros []; [apply tame_panic|apply tame_fill].
Qed.

Lemma tame_set_tail {A} (a : A) (t : pstate -> nat) : (forall s st, t (with_src s st) = t st) -> tame (fun st => EOk a (set_tail (t st) st)).
Proof. intros H. apply (tame_ok (fun _ => a)); [done| |done]. intros s st. by rewrite H. Qed.

Lemma tame_space fuel : tame (space' fuel).
Proof.
  induction fuel as [|fuel IH]; cbn [e_space].
  - apply (tame_case (fun st => scan_space (available st) (p_buf st) (p_tail st))
      (fun r st => match r with None => EPanic | Some (t, true) => EOk tt (set_tail t st) | Some (t, false) => EHang end)); [done|].
    intros [[t []]|]; [apply (tame_set_tail tt (fun _ => t)); done|apply tame_hang|apply tame_panic].
  - apply (tame_case (fun st => scan_space (available st) (p_buf st) (p_tail st))
      (fun r st => match r with None => EPanic | Some (t, true) => EOk tt (set_tail t st) | Some (t, false) => ebind (more' (set_tail t st)) (fun _ st' => space' fuel st') end)); [done|].
    intros [[t []]|]; [apply (tame_set_tail tt (fun _ => t)); done| |apply tame_panic].
    apply (tame_bind (fun st => more' (set_tail t st)) (fun _ st' => space' fuel st')); [|done].
    apply (tame_ext (fun st => ebind (EOk tt (set_tail t st)) (fun _ st' => more' st'))); [done|].
    apply (tame_bind (fun st => EOk tt (set_tail t st))); [by apply (tame_set_tail tt (fun _ => t))|]. intros _. apply tame_more.
Qed.

Lemma tame_current : tame e_current.
Proof.
  apply (tame_case (fun st => p_buf st !! p_tail st) (fun r st => match r with Some b => EOk b st | None => EPanic end)); [done|].
  intros [b|]; [apply tame_ret|apply tame_panic].
Qed.

Lemma tame_next fuel : tame (next' fuel).
Proof.
  apply (tame_bind (space' fuel)); [apply tame_space|]. intros _. apply (tame_bind e_current); [apply tame_current|]. intros b. destruct (symbol b); first [(apply tame_err || apply tame_wrong)|apply tame_ret].
Qed.

Lemma tame_consume1 ty : tame (e_consume1 ty).
Proof.
  apply (tame_bind e_current); [apply tame_current|]. intros b. destruct (decide (symbol b = ty)); [|(apply tame_err || apply tame_wrong)]. by apply (tame_set_tail tt (fun st => S (p_tail st))).
Qed.

Lemma tame_consume fuel ty : tame (consume' fuel ty).
Proof. apply (tame_bind (space' fuel)); [apply tame_space|]. intros _. apply tame_consume1. Qed.

Lemma tame_string_loop fuel : forall n esc has, tame (fun st => string_loop' fuel st n esc has).
Proof.
  assert (Hf : forall n has, tame (fun st =>
      if (length (p_buf st) <? p_tail st + n)%nat then EPanic else
      let value := take n (drop (p_tail st) (p_buf st)) in
      if has : bool then
        match decode_in_place n value 0 0 with
        | DecOk mem w =>
            EOk (Token TString (take w mem))
                (PState (p_src st) (splice (p_buf st) (p_tail st) mem) (p_tail st + n + 1) (p_head st) (p_eof st))
        | DecErr => EErr (decode_error n value 0 0)
        | DecPanic => EPanic
        | DecFuel => EHang
        end
      else EOk (Token TString value) (set_tail (p_tail st + n + 1) st))).
  { intros n has. apply tame_local.
    - intros s st. cbn [with_src p_buf p_tail p_src p_head p_eof]. destruct (_ <? _)%nat; [done|]. destruct has; [|done]. by destruct (decode_in_place _ _ _ _).
    - intros st a st1. destruct (_ <? _)%nat; [done|]. cbn zeta. destruct has; [|by intros [= <- <-]]. destruct (decode_in_place _ _ _ _); try done. by intros [= <- <-]. }
  induction fuel as [|fuel IH]; intros n esc has.
  - apply (tame_ext (fun st => match scan_string (available st - n) (p_buf st) (p_tail st) n esc has with
      | SPanic => EPanic
      | SFound n has => (fun st => if (length (p_buf st) <? p_tail st + n)%nat then EPanic else
          let value := take n (drop (p_tail st) (p_buf st)) in
          if has : bool then
            match decode_in_place n value 0 0 with
            | DecOk mem w => EOk (Token TString (take w mem)) (PState (p_src st) (splice (p_buf st) (p_tail st) mem) (p_tail st + n + 1) (p_head st) (p_eof st))
            | DecErr => EErr (decode_error n value 0 0) | DecPanic => EPanic | DecFuel => EHang end
          else EOk (Token TString value) (set_tail (p_tail st + n + 1) st)) st
      | SMore esc has => EHang end)); [done|].
    apply (tame_case (fun st => scan_string (available st - n) (p_buf st) (p_tail st) n esc has) (fun r st => match r with SPanic => EPanic | SFound n has => _ | SMore esc has => EHang end)); [done|].
    intros [n' has'|esc' has'|]; [apply Hf|apply tame_hang|apply tame_panic].
  - apply (tame_ext (fun st => match scan_string (available st - n) (p_buf st) (p_tail st) n esc has with
      | SPanic => EPanic
      | SFound n has => (fun st => if (length (p_buf st) <? p_tail st + n)%nat then EPanic else
          let value := take n (drop (p_tail st) (p_buf st)) in
          if has : bool then
            match decode_in_place n value 0 0 with
            | DecOk mem w => EOk (Token TString (take w mem)) (PState (p_src st) (splice (p_buf st) (p_tail st) mem) (p_tail st + n + 1) (p_head st) (p_eof st))
            | DecErr => EErr (decode_error n value 0 0) | DecPanic => EPanic | DecFuel => EHang end
          else EOk (Token TString value) (set_tail (p_tail st + n + 1) st)) st
      | SMore esc has => (fun st => ebind (more' st) (fun _ st' => string_loop' fuel st' (n + (available st - n))%nat esc has)) st end)); [done|].
    apply (tame_case (fun st => scan_string (available st - n) (p_buf st) (p_tail st) n esc has) (fun r st => match r with SPanic => EPanic | SFound n has => _ | SMore esc has => _ end)); [done|].
    intros [n' has'|esc' has'|]; [apply Hf| |apply tame_panic].
    apply (tame_case (fun st => (n + (available st - n))%nat) (fun n' st => ebind (more' st) (fun _ st' => string_loop' fuel st' n' esc' has'))); [done|].
    intros n'. apply (tame_bind more'); [apply tame_more|]. intros _. apply IH.
Qed.

Lemma tame_read_string fuel : tame (string' fuel).
Proof.
  apply (tame_bind e_current); [apply tame_current|]. intros ch. destruct (negb _); [(apply tame_err || apply tame_wrong)|].
  apply (tame_ext (fun st => ebind (EOk tt (set_tail (S (p_tail st)) st)) (fun _ st => string_loop' fuel st 0 false false))); [done|].
  apply (tame_bind (fun st => EOk tt (set_tail (S (p_tail st)) st))); [by apply (tame_set_tail tt (fun st => S (p_tail st)))|]. intros _. apply tame_string_loop.
Qed.

Lemma tame_number_loop fuel : forall n, tame (fun st => number_loop' fuel st n).
Proof.
  assert (Hf : forall n, tame (fun st => if (length (p_buf st) <? p_tail st + n)%nat then EPanic else
      EOk (Token TNumber (take n (drop (p_tail st) (p_buf st)))) (set_tail (p_tail st + n) st))).
  { intros n. apply tame_local.
    - intros s st. cbn [with_src p_buf p_tail p_src p_head p_eof]. by destruct (_ <? _)%nat.
    - intros st a st1. destruct (_ <? _)%nat; [done|]. by intros [= <- <-]. }
  induction fuel as [|fuel IH]; intros n.
  - apply (tame_case (fun st => scan_number (available st - n) (p_buf st) (p_tail st) n) (fun r st => match r with NPanic => EPanic | NFound n => (fun st => if (length (p_buf st) <? p_tail st + n)%nat then EPanic else
      EOk (Token TNumber (take n (drop (p_tail st) (p_buf st)))) (set_tail (p_tail st + n) st)) st | NMore => EHang end)); [done|].
    intros [n'| |]; [apply Hf|apply tame_hang|apply tame_panic].
  - apply (tame_case (fun st => scan_number (available st - n) (p_buf st) (p_tail st) n) (fun r st => match r with NPanic => EPanic | NFound n => (fun st => if (length (p_buf st) <? p_tail st + n)%nat then EPanic else
      EOk (Token TNumber (take n (drop (p_tail st) (p_buf st)))) (set_tail (p_tail st + n) st)) st
      | NMore => (fun st => ebind (more' st) (fun _ st' => number_loop' fuel st' (n + (available st - n))%nat)) st end)); [done|].
    intros [n'| |]; [apply Hf| |apply tame_panic].
    apply (tame_case (fun st => (n + (available st - n))%nat) (fun n' st => ebind (more' st) (fun _ st' => number_loop' fuel st' n'))); [done|].
    intros n'. apply (tame_bind more'); [apply tame_more|]. intros _. apply IH.
Qed.

Lemma tame_read_number fuel : tame (number' fuel).
Proof. apply (tame_bind e_current); [apply tame_current|]. intros ch. destruct (negb _); [(apply tame_err || apply tame_wrong)|]. apply tame_number_loop. Qed.

Lemma tame_required {A} n (f : pstate -> eres A) : tame f -> tame (fun st => e_required n (f st)).
Proof.
  intros H st He. specialize (H st He). destruct (f st) as [a st1|m| |]; cbn [e_required].
  - destruct H as [? H]. split; [done|]. intros st1' Hc. destruct (H _ Hc) as (st' & ? & E). exists st'. by rewrite E.
  - destruct H as (st' & ? & E). exists st'. by rewrite E.
  - destruct H as (st' & ? & E). exists st'. by rewrite E.
  - destruct H as (st' & ? & E). exists st'. by rewrite E.
Qed.
Lemma tame_require fuel n : tame (fun st => require' fuel st n).
Proof.
  induction fuel as [|fuel IH].
  - apply (tame_case (fun st => (n <=? available st)%nat) (fun b st => if b then EOk tt st else EHang)); [done|]. intros []; [apply tame_ret|apply tame_hang].
  - apply (tame_case (fun st => (n <=? available st)%nat) (fun b st => if b then EOk tt st else
      let missing := (n - available st)%nat in
      let free := (length (p_buf st) - available st)%nat in
      if (free <? missing)%nat && (available st + n <? length (p_buf st))%nat then EPanic else
      let st1 := if (free <? missing)%nat
                 then PState (p_src st) (splice (replicate (available st + n) 0) 0 (p_buf st)) (p_tail st) (p_head st) (p_eof st)
                 else st in
      ebind (e_required n (more' st1)) (fun _ st' => require' fuel st' n))); [done|]. intros []; [apply tame_ret|]. cbn zeta.
    apply (tame_case (fun st => (length (p_buf st) - available st <? n - available st)%nat && (available st + n <? length (p_buf st))%nat) (fun b st => if b then EPanic else
      ebind (e_required n (more' _)) (fun _ st' => require' fuel st' n))); [done|]. intros []; [apply tame_panic|].
    apply (tame_bind (fun st => e_required n (more' _)) (fun _ st' => require' fuel st' n)); [|done]. apply (tame_required n (fun st => more' _)).
    apply (tame_ext (fun st => ebind (EOk tt (if (length (p_buf st) - available st <? n - available st)%nat
                 then PState (p_src st) (splice (replicate (available st + n) 0) 0 (p_buf st)) (p_tail st) (p_head st) (p_eof st) else st)) (fun _ st => more' st))); [done|].
    apply (tame_bind (fun st => EOk tt _)); [|intros _; apply tame_more]. apply (tame_ok (fun _ => tt)); [done| |].
    + intros s st. unfold available. cbn [with_src p_tail p_buf p_head p_src p_eof]. by destruct (_ <? _)%nat.
    + intros st. by destruct (_ <? _)%nat.
Qed.

Lemma tame_read_n fuel ty first n : tame (fun st => read_n' fuel st ty first n).
Proof.
  apply (tame_bind (fun st => require' fuel st n)); [apply tame_require|]. intros _. apply (tame_bind e_current); [apply tame_current|]. intros ch. destruct (negb _); [(apply tame_err || apply tame_wrong)|].
  apply tame_local.
  - intros s st. cbn [with_src p_buf p_tail p_src p_head p_eof]. by destruct (_ <? _)%nat.
  - intros st a st1. destruct (_ <? _)%nat; [done|]. by intros [= <- <-].
Qed.

Lemma tame_null fuel : tame (null' fuel). Proof. apply tame_read_n. Qed.
Lemma tame_boolean fuel : tame (boolean' fuel).
Proof. apply (tame_bind e_current); [apply tame_current|]. intros ch. destruct (_ =? _); apply tame_read_n. Qed.

Lemma tame_literal fuel : tame (literal' fuel).
Proof.
  apply (tame_bind (next' fuel)); [apply tame_next|]. intros []; first [(apply tame_err || apply tame_wrong)|apply tame_read_string|apply tame_read_number|apply tame_boolean|apply tame_null].
Qed.

Lemma tame_drop {A} (f : pstate -> eres A) : tame f -> tame (fun st => ebind (f st) (fun _ st => EOk tt st)).
Proof. intros H. apply (tame_bind f); [done|]. intros _. apply tame_ret. Qed.

Lemma tame_skip_all depth : forall fuel, (forall next, tame (skip' depth fuel next)) /\ tame (skip_elements' depth fuel) /\ tame (skip_members' depth fuel).
Proof.
  induction depth as [|depth IH]; intros fuel; [repeat split; intros; apply tame_hang|]. destruct (IH fuel) as (H1 & H2 & H3). split; [|split].
  - intros []; cbn [e_skip]; try (apply tame_err || apply tame_wrong); try (apply tame_drop; first [apply tame_null|apply tame_boolean|apply tame_read_number|apply tame_read_string]).
    + apply (tame_bind (e_consume1 TObjBegin)); [apply tame_consume1|]. by intros _.
    + apply (tame_bind (e_consume1 TArrBegin)); [apply tame_consume1|]. by intros _.
  - cbn [e_skip_elements]. apply (tame_bind (next' fuel)); [apply tame_next|]. intros next. destruct (decide _); [apply tame_consume1|]. apply (tame_bind (skip' depth fuel next)); [done|]. by intros _.
  - cbn [e_skip_members]. apply (tame_bind (next' fuel)); [apply tame_next|]. intros next. destruct (decide _); [apply tame_consume1|]. apply (tame_bind (string' fuel)); [apply tame_read_string|].
    intros _. apply (tame_bind (next' fuel)); [apply tame_next|]. intros next2. apply (tame_bind (skip' depth fuel next2)); [done|]. by intros _.
Qed.

Lemma tame_op fuel o : tame (op' fuel o).
Proof.
  destruct o; cbn [e_op].
  - apply (tame_bind (next' fuel)); [apply tame_next|]. intros t. apply tame_ret.
  - apply (tame_bind (consume' fuel TObjBegin)); [apply tame_consume|]. intros t. apply tame_ret.
  - apply (tame_bind (consume' fuel TObjEnd)); [apply tame_consume|]. intros t. apply tame_ret.
  - apply (tame_bind (consume' fuel TArrBegin)); [apply tame_consume|]. intros t. apply tame_ret.
  - apply (tame_bind (consume' fuel TArrEnd)); [apply tame_consume|]. intros t. apply tame_ret.
  - apply (tame_bind (space' fuel)); [apply tame_space|]. intros _. apply tame_read_string.
  - apply (tame_bind (space' fuel)); [apply tame_space|]. intros _. apply tame_read_number.
  - apply tame_literal.
  - apply (tame_bind (Skip' fuel)); [|intros t; apply tame_ret]. apply (tame_bind (next' fuel)); [apply tame_next|]. intros next. apply tame_skip_all.
Qed.

End texts.

(* ---------- programs and requests ---------- *)

Lemma texec_shorter {A} oth fuel (p : tprog A) : forall st, eager st -> exists st', shorter st st' /\ texec oth fuel p st' = texec oth fuel p st.
Proof.
  induction p as [a|a m|o k IH a w|]; intros st He; cbn [texec]; try (eexists; split; [apply shorter_some|done]).
  pose proof (tame_op oth fuel o st He) as H. destruct (e_op oth fuel o st) as [t st1| | |].
  - destruct H as [He1 H]. destruct (IH t st1 He1) as (st1' & Hc1 & E1). destruct (H _ Hc1) as (st' & Hc & E). exists st'. by rewrite E.
  - destruct H as (st' & Hc & E). exists st'. by rewrite E.
  - destruct H as (st' & Hc & E). exists st'. by rewrite E.
  - destruct H as (st' & Hc & E). exists st'. by rewrite E.
Qed.

Lemma new_shorter {A} oth fuel (p : tprog A) buf chunks : exists chunks' lost, concat chunks = concat chunks' ++ lost /\
  texec oth fuel p (new_parser (Src chunks (EndErr true)) buf) = texec oth fuel p (new_parser (Src chunks' (EndErr false)) buf).
Proof.
  destruct (texec_shorter oth fuel p (new_parser (Src chunks (EndErr true)) buf) eq_refl) as (st' & (chunks' & lost & Hc & ->) & E).
  exists chunks', lost. split; [exact Hc|]. symmetry. exact E.
Qed.

Lemma t_handle_reads lib env q b : reads env q b -> t_handle lib env q = t_handle_spans lib env q b.
Proof. unfold t_handle. intros [[E Hg]|[E ->]]; [rewrite decide_True, Hg by done|rewrite decide_False by done]; done. Qed.

Lemma eager_text lib env q chunks : parsed q -> reads env q (Src chunks (EndErr true)) ->
  exists chunks' lost, concat chunks = concat chunks' ++ lost /\
  forall q', q_endpoint q' = q_endpoint q -> q_type q' = q_type q -> reads env q' (Src chunks' (EndErr false)) -> t_handle lib env q' = t_handle lib env q.
Proof.
  intros Hp Hr. assert (H : exists chunks' lost, concat chunks = concat chunks' ++ lost /\
    t_parser lib env (q_endpoint q) (Src chunks (EndErr true)) = t_parser lib env (q_endpoint q) (Src chunks' (EndErr false))).
  { destruct (parsed_endpoint q Hp) as [-> | ->]; cbn [t_parser]; unfold TextJsonV1, TextJsonV2.
    - destruct (new_shorter (x_read lib) (n_fuel env) (t_v1_prog (n_fuel env) (n_pool env)) (n_buf env) chunks) as (chunks' & lost & Hc & E). exists chunks', lost. by rewrite E.
    - destruct (new_shorter (x_read lib) (n_fuel env) (t_v2_prog (n_fuel env)) (n_buf env) chunks) as (chunks' & lost & Hc & E). exists chunks', lost. by rewrite E. }
  destruct H as (chunks' & lost & Hc & E). exists chunks', lost. split; [done|]. intros q' Eq Et Hr'. rewrite (t_handle_reads _ _ _ _ Hr), (t_handle_reads _ _ _ _ Hr'). unfold t_handle_spans. rewrite Eq, Et.
  destruct (parsed_endpoint q Hp) as [Hq|Hq]; rewrite Hq in *; by rewrite E.
Qed.

(** The same request with another body. *)
Definition plain_request (q : request) (b : rsrc) : request := Request (q_endpoint q) (q_type q) [] b.
Lemma plain_reads env q b : reads env (plain_request q b) b.
Proof. right. split; [discriminate|done]. Qed.

Lemma without_eager lib env q chunks e r : parsed q -> reads env q (Src chunks e) -> t_handle lib env q = XDone r ->
  exists q' chunks' e' lost, q_endpoint q' = q_endpoint q /\ parsed q' /\ reads env q' (Src chunks' e') /\ no_eager_error e' /\
    concat chunks = concat chunks' ++ lost /\ (no_eager_error e -> lost = []) /\ end_text (x_read lib) e' = end_text (x_read lib) e /\ t_handle lib env q' = XDone r.
Proof.
  intros Hp Hr Hh. assert (Hd : e = EndErr true \/ no_eager_error e) by (destruct e as [[]|[]]; (by left) || by right). destruct Hd as [-> |He].
  - destruct (eager_text lib env q chunks Hp Hr) as (chunks' & lost & Hc & H). exists (plain_request q (Src chunks' (EndErr false))), chunks', (EndErr false), lost.
    split; [done|]. split; [exact Hp|]. split; [apply plain_reads|]. split; [done|]. split; [done|]. split; [by intros He|]. split; [done|]. rewrite <- Hh. apply H; [done|done|apply plain_reads].
  - exists q, chunks, e, []. rewrite app_nil_r. done.
Qed.

Lemma cause_mono fin l l' m : l ⊆ l' -> cause fin l m -> cause fin l' m.
Proof.
  intros Hl. assert (Ht : forall k, has_token l k -> has_token l' k) by (intros k (s & b & ? & ? & ?); exists s, b; auto).
  destruct 1; constructor; auto.
Qed.

Lemma text_of_rejection_any lib env q chunks e r : parsed q -> reads env q (Src chunks e) -> (5 <= length (n_buf env))%nat ->
  t_handle lib env q = XDone r -> y_status r = 400 ->
  exists c m, c ∈ contexts (q_endpoint q) /\ cause (end_text (x_read lib) e) (concat chunks) m /\ y_body r = heading (q_endpoint q) ++ c ++ m ++ [10].
Proof.
  intros Hp Hr Hb Hh Hs. destruct (without_eager lib env q chunks e r Hp Hr Hh) as (q' & chunks' & e' & lost & Eq & Hp' & Hr' & He' & Hc & _ & Ee & Hh').
  destruct (text_of_rejection lib env q' chunks' e' r) as (c & m & H1 & H2 & H3); try done. exists c, m. rewrite <- Eq, <- Ee. split; [done|]. split; [|done].
  eapply cause_mono; [|exact H2]. rewrite Hc. intros x Hx. apply elem_of_app. by left.
Qed.

Lemma text_length_any lib env q chunks e r : parsed q -> reads env q (Src chunks e) -> (5 <= length (n_buf env))%nat ->
  t_handle lib env q = XDone r -> (length (y_body r) <= 255 + length (x_read lib))%nat.
Proof.
  intros Hp Hr Hb Hh. destruct (without_eager lib env q chunks e r Hp Hr Hh) as (q' & chunks' & e' & lost & Eq & Hp' & Hr' & He' & _ & _ & Ee & Hh').
  by apply (text_length lib env q' chunks' e' r).
Qed.

Lemma final_text_any lib env env' q q' b b' more r r' : parsed q -> parsed q' -> q_endpoint q = q_endpoint q' -> reads env q b -> reads env' q' b' ->
  concat (r_chunks b') = concat (r_chunks b) ++ more -> no_eager_error (r_end b') ->
  (5 <= length (n_buf env))%nat -> length (n_buf env) = length (n_buf env') ->
  t_handle lib env q = XDone r -> t_handle lib env' q' = XDone r' ->
  (y_status r = 400 -> ~ exists p, y_body r = p ++ end_text (x_read lib) (r_end b) ++ [10]) -> y_status r' = y_status r /\ y_body r' = y_body r.
Proof.
  intros Hp Hp' Eq Hr Hr' Hc He' Hb Eb Hh Hh' Hend. destruct b as [cs e]. cbn [r_chunks r_end] in *.
  destruct (without_eager lib env q cs e r Hp Hr Hh) as (q1 & cs1 & e1 & lost & Eq1 & Hp1 & Hr1 & He1 & Hc1 & _ & Ee & Hh1).
  apply (final_text lib env env' q1 q' (Src cs1 e1) b' (lost ++ more) r r'); try done; cbn [r_chunks r_end]; [by rewrite Eq1|by rewrite Hc, Hc1, <- app_assoc|by rewrite Ee].
Qed.
