(** Readers that fail together with their last bytes (C104). *)
From Verif Require Import Base IdModel SpanModel JsonModel JsonSpec CodecModel ParseSpec.

Definition with_src (s : rsrc) (st : pstate) : pstate := PState s (p_buf st) (p_tail st) (p_head st) (p_eof st).
Definition eager (st : pstate) : Prop := r_end (p_src st) = EndErr true.
Definition lazy (st : pstate) : pstate := with_src (Src (r_chunks (p_src st)) (EndErr false)) st.

Lemma with_src_id st : with_src (p_src st) st = st.
Proof. by destruct st. Qed.

(** The last piece has bytes. *)
Definition loaded (chunks : list bytes) : Prop := exists cs c, chunks = cs ++ [c] /\ c <> [].
Definition hungry (st : pstate) : Prop := eager st /\ loaded (r_chunks (p_src st)).

(** The reader fails a little earlier, with an error of its own. *)
Definition cut (st st' : pstate) : Prop :=
  exists chunks lost, lost <> [] /\ concat (r_chunks (p_src st)) = concat chunks ++ lost /\ st' = with_src (Src chunks (EndErr false)) st.

(** Some cut before gives every cut after. *)
Definition cuts {A} (f : pstate -> pres A) : Prop := forall st, hungry st ->
  match f st with
  | POk a st1 => hungry st1 /\ forall st1', cut st1 st1' -> exists st', cut st st' /\ f st' = POk a st1'
  | r => exists st', cut st st' /\ f st' = r
  end.

(** The same with an error of its own, or failed. *)
Definition same_or_failed {A} (f : pstate -> pres A) : Prop := forall st, eager st ->
  f st = PErr \/
  match f st with
  | POk a st1 => eager st1 /\ f (lazy st) = POk a (lazy st1)
  | r => f (lazy st) = r
  end.

Definition tame {A} (f : pstate -> pres A) : Prop := cuts f /\ same_or_failed f.

Lemma cut_some st : hungry st -> exists s, cut st (with_src s st).
Proof.
  intros [_ (cs & c & E & Hc)]. exists (Src cs (EndErr false)), cs, c. split; [done|]. split; [|done]. by rewrite E, concat_app, concat_cons, app_nil_r.
Qed.

Lemma tame_ext {A} (f g : pstate -> pres A) : (forall st, f st = g st) -> tame f -> tame g.
Proof.
  intros E [H1 H2]. split; intros st He.
  - specialize (H1 st He). rewrite <- E. destruct (f st) as [a st1| | |].
    + destruct H1 as [? H1]. split; [done|]. intros st1' Hc. destruct (H1 st1' Hc) as (st' & ? & ?). exists st'. by rewrite <- E.
    + destruct H1 as (st' & ? & ?). exists st'. by rewrite <- E.
    + destruct H1 as (st' & ? & ?). exists st'. by rewrite <- E.
    + destruct H1 as (st' & ? & ?). exists st'. by rewrite <- E.
  - specialize (H2 st He). by rewrite <- !E.
Qed.

(** Functions that do not touch the reader. *)
Lemma tame_local {A} (f : pstate -> pres A) :
  (forall s st, f (with_src s st) = match f st with POk a st1 => POk a (with_src s st1) | PErr => PErr | PPanic => PPanic | PHang => PHang end) ->
  (forall st a st1, f st = POk a st1 -> p_src st1 = p_src st) -> tame f.
Proof.
  intros Hs Hp. split; intros st He.
  - destruct (f st) as [a st1| | |] eqn:E.
    + pose proof (Hp _ _ _ E) as Hp1. split; [by unfold hungry, eager; rewrite Hp1|]. intros st1' (chunks & lost & Hl & Hc & ->). exists (with_src (Src chunks (EndErr false)) st). rewrite Hp1 in Hc.
      split; [by exists chunks, lost|]. by rewrite Hs, E.
    + destruct (cut_some _ He) as [s Hs']. exists (with_src s st). split; [done|]. by rewrite Hs, E.
    + destruct (cut_some _ He) as [s Hs']. exists (with_src s st). split; [done|]. by rewrite Hs, E.
    + destruct (cut_some _ He) as [s Hs']. exists (with_src s st). split; [done|]. by rewrite Hs, E.
  - right. destruct (f st) as [a st1| | |] eqn:E; unfold lazy; rewrite Hs, E; try done. rewrite (Hp _ _ _ E). unfold eager. by rewrite (Hp _ _ _ E).
Qed.

Lemma tame_ok {A} (g : pstate -> A) h : (forall s st, g (with_src s st) = g st) -> (forall s st, h (with_src s st) = with_src s (h st)) -> (forall st, p_src (h st) = p_src st) ->
  tame (fun st => POk (g st) (h st)).
Proof. intros Hg Hh Hp. apply tame_local; [intros s st; by rewrite Hg, Hh|]. intros st a st1 [= <- <-]. apply Hp. Qed.

Lemma tame_err {A} : tame (fun _ : pstate => @PErr A). Proof. by apply tame_local. Qed.
Lemma tame_panic {A} : tame (fun _ : pstate => @PPanic A). Proof. by apply tame_local. Qed.
Lemma tame_hang {A} : tame (fun _ : pstate => @PHang A). Proof. by apply tame_local. Qed.
Lemma tame_ret {A} (a : A) : tame (POk a). Proof. apply tame_local; [done|]. by intros st b st1 [= <- <-]. Qed.

Lemma tame_bind {A B} (f : pstate -> pres A) (g : A -> pstate -> pres B) : tame f -> (forall a, tame (g a)) -> tame (fun st => pbind (f st) g).
Proof.
  intros [F1 F2] G. split; intros st He.
  - specialize (F1 st He). destruct (f st) as [a st1| | |] eqn:E; cbn [pbind].
    + destruct F1 as [He1 F1]. destruct (G a) as [G1 _]. specialize (G1 st1 He1). destruct (g a st1) as [b st2| | |] eqn:E2.
      * destruct G1 as [He2 G1]. split; [done|]. intros st2' Hc. destruct (G1 _ Hc) as (st1' & Hc1 & E1). destruct (F1 _ Hc1) as (st' & Hc' & E'). exists st'. split; [done|]. rewrite E'. done.
      * destruct G1 as (st1' & Hc1 & E1). destruct (F1 _ Hc1) as (st' & Hc' & E'). exists st'. split; [done|]. rewrite E'. done.
      * destruct G1 as (st1' & Hc1 & E1). destruct (F1 _ Hc1) as (st' & Hc' & E'). exists st'. split; [done|]. rewrite E'. done.
      * destruct G1 as (st1' & Hc1 & E1). destruct (F1 _ Hc1) as (st' & Hc' & E'). exists st'. split; [done|]. rewrite E'. done.
    + destruct F1 as (st' & Hc' & E'). exists st'. split; [done|]. by rewrite E'.
    + destruct F1 as (st' & Hc' & E'). exists st'. split; [done|]. by rewrite E'.
    + destruct F1 as (st' & Hc' & E'). exists st'. split; [done|]. by rewrite E'.
  - specialize (F2 st He). destruct (f st) as [a st1| | |] eqn:E; cbn [pbind].
    + destruct F2 as [F2|[He1 F2]]; [done|]. rewrite F2. cbn [pbind]. destruct (G a) as [_ G2]. by apply G2.
    + by left.
    + destruct F2 as [F2|F2]; [done|]. rewrite F2. by right.
    + destruct F2 as [F2|F2]; [done|]. rewrite F2. by right.
Qed.

(** Looking at what is not the reader before deciding. *)
Lemma tame_case {A B} (d : pstate -> B) (f : B -> pstate -> pres A) : (forall s st, d (with_src s st) = d st) -> (forall b, tame (f b)) -> tame (fun st => f (d st) st).
Proof.
  intros Hd Hf. split; intros st He.
  - destruct (Hf (d st)) as [H _]. specialize (H st He). destruct (f (d st) st) as [a st1| | |].
    + destruct H as [? H]. split; [done|]. intros st1' Hc. destruct (H _ Hc) as (st' & (chunks & lost & Hl & Hp & ->) & E). exists (with_src (Src chunks (EndErr false)) st). split; [by exists chunks, lost|]. by rewrite Hd.
    + destruct H as (st' & (chunks & lost & Hl & Hp & ->) & E). exists (with_src (Src chunks (EndErr false)) st). split; [by exists chunks, lost|]. by rewrite Hd.
    + destruct H as (st' & (chunks & lost & Hl & Hp & ->) & E). exists (with_src (Src chunks (EndErr false)) st). split; [by exists chunks, lost|]. by rewrite Hd.
    + destruct H as (st' & (chunks & lost & Hl & Hp & ->) & E). exists (with_src (Src chunks (EndErr false)) st). split; [by exists chunks, lost|]. by rewrite Hd.
  - unfold lazy. rewrite Hd. by apply (Hf (d st)).
Qed.

(** The reads. *)
Definition fill (st1 : pstate) : pres unit :=
  let '(got, err, src) := src_read (p_src st1) (length (p_buf st1) - p_head st1) in
  let buf := splice (p_buf st1) (p_head st1) got in
  match err with
  | REof =>
      match got with
      | [] => PErr
      | _ => POk tt (PState src buf (p_tail st1) (p_head st1 + length got) true)
      end
  | ROther => PErr
  | RNil => POk tt (PState src buf (p_tail st1) (p_head st1 + length got) false)
  end.

Lemma tame_fill : tame fill.
Proof.
  split; intros st He.
  - destruct He as [He (cs0 & c0 & E0 & Hc0)]. unfold eager in He. unfold fill, src_read. rewrite He. destruct (r_chunks (p_src st)) as [|c cs] eqn:Ec; [by destruct cs0|].
    set (m := (length (p_buf st) - p_head st)%nat). set (rest := match drop m c with [] => cs | c' => c' :: cs end).
    assert (Hcat : c ++ concat cs = take m c ++ concat rest).
    { unfold rest. rewrite <- (take_drop m c) at 1. destruct (drop m c) as [|x d]; [by rewrite app_nil_r|]. cbn [concat]. by rewrite app_assoc. }
    assert (Hrest : rest = [] \/ loaded rest).
    { unfold rest. destruct cs0 as [|y cs0]; cbn [app] in E0; injection E0 as -> ->.
      - destruct (drop m c0) as [|x d]; [by left|]. right. by exists [], (x :: d).
      - right. destruct (drop m y) as [|x d]; [by exists cs0, c0|]. by exists ((x :: d) :: cs0), c0. }
    destruct rest as [|r0 rs] eqn:Er.
    + cbn [end_eager end_err]. exists (with_src (Src [] (EndErr false)) st). split; [|done]. exists [], (concat (c :: cs)). split; [|by rewrite Ec].
      rewrite E0, concat_app, concat_cons, app_nil_r. by destruct (concat cs0), c0.
    + destruct Hrest as [|Hrest]; [done|]. split; [done|]. intros st1' (chunks & lost & Hl & Hc & ->). cbn [p_src r_chunks] in Hc.
      exists (with_src (Src (take m c :: chunks) (EndErr false)) st). split.
      * exists (take m c :: chunks), lost. split; [done|]. split; [|done]. rewrite Ec. cbn [concat]. cbn [concat] in Hcat, Hc. rewrite Hcat, Hc. by rewrite app_assoc.
      * cbn [with_src p_src r_chunks r_end p_buf p_head p_tail end_eager end_err]. fold m. rewrite take_take, Nat.min_id.
        rewrite (drop_ge (take m c)) by (rewrite take_length; lia). by destruct chunks.
  - unfold eager in He. unfold fill, src_read. rewrite He. unfold lazy. cbn [with_src p_src r_chunks r_end p_buf p_head p_tail]. destruct (r_chunks (p_src st)) as [|c cs] eqn:Ec; [by left|].
    destruct (match drop _ c with [] => cs | c' => c' :: cs end) as [|r0 rs] eqn:Er; [by left|]. by right.
Qed.

Lemma tame_more : tame buffer_more.
Proof.
  apply (tame_ext (fun st =>
    if p_eof st then PErr else
    if (0 <? p_tail st)%nat && negb ((p_tail st <=? p_head st)%nat && (p_head st <=? length (p_buf st))%nat) then PPanic else
    pbind (POk tt (if (0 <? p_tail st)%nat
             then PState (p_src st) (splice (p_buf st) 0 (take (available st) (drop (p_tail st) (p_buf st)))) 0 (available st) false
             else st)) (fun _ st1 => if (length (p_buf st1) <? p_head st1)%nat then PPanic else fill st1))); [done|].
  apply (tame_case p_eof (fun b st => if b then PErr else _)); [done|]. intros []; [apply tame_err|].
  apply (tame_case (fun st => (0 <? p_tail st)%nat && negb ((p_tail st <=? p_head st)%nat && (p_head st <=? length (p_buf st))%nat)) (fun b st => if b then PPanic else _)); [done|].
  intros []; [apply tame_panic|]. apply (tame_bind (fun st => POk tt _)).
  - apply (tame_ok (fun _ => tt)); [done| |].
    + intros s st. cbn [with_src p_tail p_buf p_head p_src]. by destruct (0 <? p_tail st)%nat.
    + intros st. by destruct (0 <? p_tail st)%nat.
  - intros []. apply (tame_case (fun st1 => (length (p_buf st1) <? p_head st1)%nat) (fun b st => if b then PPanic else _)); [done|]. intros []; [apply tame_panic|apply tame_fill].
Qed.

Lemma tame_set_tail {A} (a : A) (t : pstate -> nat) : (forall s st, t (with_src s st) = t st) -> tame (fun st => POk a (set_tail (t st) st)).
Proof. intros H. apply (tame_ok (fun _ => a)); [done| |done]. intros s st. by rewrite H. Qed.

Lemma tame_space fuel : tame (skip_whitespace fuel).
Proof.
  induction fuel as [|fuel IH]; cbn [skip_whitespace].
  - apply (tame_case (fun st => scan_space (available st) (p_buf st) (p_tail st))
      (fun r st => match r with None => PPanic | Some (t, true) => POk tt (set_tail t st) | Some (t, false) => PHang end)); [done|].
    intros [[t []]|]; [apply (tame_set_tail tt (fun _ => t)); done|apply tame_hang|apply tame_panic].
  - apply (tame_case (fun st => scan_space (available st) (p_buf st) (p_tail st))
      (fun r st => match r with None => PPanic | Some (t, true) => POk tt (set_tail t st) | Some (t, false) => pbind (buffer_more (set_tail t st)) (fun _ st' => skip_whitespace fuel st') end)); [done|].
    intros [[t []]|]; [apply (tame_set_tail tt (fun _ => t)); done| |apply tame_panic].
    apply (tame_bind (fun st => buffer_more (set_tail t st)) (fun _ st' => skip_whitespace fuel st')); [|done].
    apply (tame_ext (fun st => pbind (POk tt (set_tail t st)) (fun _ st' => buffer_more st'))); [done|].
    apply (tame_bind (fun st => POk tt (set_tail t st))); [by apply (tame_set_tail tt (fun _ => t))|]. intros _. apply tame_more.
Qed.

Lemma tame_current : tame current.
Proof.
  apply (tame_case (fun st => p_buf st !! p_tail st) (fun r st => match r with Some b => POk b st | None => PPanic end)); [done|].
  intros [b|]; [apply tame_ret|apply tame_panic].
Qed.

Lemma tame_next fuel : tame (next_type fuel).
Proof.
  apply (tame_bind (skip_whitespace fuel)); [apply tame_space|]. intros _. apply (tame_bind current); [apply tame_current|]. intros b. destruct (symbol b); first [apply tame_err|apply tame_ret].
Qed.

Lemma tame_consume1 ty : tame (consume1 ty).
Proof.
  apply (tame_bind current); [apply tame_current|]. intros b. destruct (decide (symbol b = ty)); [|apply tame_err]. by apply (tame_set_tail tt (fun st => S (p_tail st))).
Qed.

Lemma tame_consume fuel ty : tame (consume fuel ty).
Proof. apply (tame_bind (skip_whitespace fuel)); [apply tame_space|]. intros _. apply tame_consume1. Qed.

Lemma tame_string_loop fuel : forall n esc has, tame (fun st => read_string_loop fuel st n esc has).
Proof.
  assert (Hf : forall n has, tame (fun st =>
      if (length (p_buf st) <? p_tail st + n)%nat then PPanic else
      let value := take n (drop (p_tail st) (p_buf st)) in
      if has : bool then
        match decode_in_place n value 0 0 with
        | DecOk mem w =>
            POk (Token TString (take w mem))
                (PState (p_src st) (splice (p_buf st) (p_tail st) mem) (p_tail st + n + 1) (p_head st) (p_eof st))
        | DecErr => PErr
        | DecPanic => PPanic
        | DecFuel => PHang
        end
      else POk (Token TString value) (set_tail (p_tail st + n + 1) st))).
  { intros n has. apply tame_local.
    - intros s st. cbn [with_src p_buf p_tail p_src p_head p_eof]. destruct (_ <? _)%nat; [done|]. destruct has; [|done]. by destruct (decode_in_place _ _ _ _).
    - intros st a st1. destruct (_ <? _)%nat; [done|]. cbn zeta. destruct has; [|by intros [= <- <-]]. destruct (decode_in_place _ _ _ _); try done. by intros [= <- <-]. }
  induction fuel as [|fuel IH]; intros n esc has.
  - apply (tame_ext (fun st => match scan_string (available st - n) (p_buf st) (p_tail st) n esc has with
      | SPanic => PPanic
      | SFound n has => (fun st => if (length (p_buf st) <? p_tail st + n)%nat then PPanic else
          let value := take n (drop (p_tail st) (p_buf st)) in
          if has : bool then
            match decode_in_place n value 0 0 with
            | DecOk mem w => POk (Token TString (take w mem)) (PState (p_src st) (splice (p_buf st) (p_tail st) mem) (p_tail st + n + 1) (p_head st) (p_eof st))
            | DecErr => PErr | DecPanic => PPanic | DecFuel => PHang end
          else POk (Token TString value) (set_tail (p_tail st + n + 1) st)) st
      | SMore esc has => PHang end)); [done|].
    apply (tame_case (fun st => scan_string (available st - n) (p_buf st) (p_tail st) n esc has) (fun r st => match r with SPanic => PPanic | SFound n has => _ | SMore esc has => PHang end)); [done|].
    intros [n' has'|esc' has'|]; [apply Hf|apply tame_hang|apply tame_panic].
  - apply (tame_ext (fun st => match scan_string (available st - n) (p_buf st) (p_tail st) n esc has with
      | SPanic => PPanic
      | SFound n has => (fun st => if (length (p_buf st) <? p_tail st + n)%nat then PPanic else
          let value := take n (drop (p_tail st) (p_buf st)) in
          if has : bool then
            match decode_in_place n value 0 0 with
            | DecOk mem w => POk (Token TString (take w mem)) (PState (p_src st) (splice (p_buf st) (p_tail st) mem) (p_tail st + n + 1) (p_head st) (p_eof st))
            | DecErr => PErr | DecPanic => PPanic | DecFuel => PHang end
          else POk (Token TString value) (set_tail (p_tail st + n + 1) st)) st
      | SMore esc has => (fun st => pbind (buffer_more st) (fun _ st' => read_string_loop fuel st' (n + (available st - n))%nat esc has)) st end)); [done|].
    apply (tame_case (fun st => scan_string (available st - n) (p_buf st) (p_tail st) n esc has) (fun r st => match r with SPanic => PPanic | SFound n has => _ | SMore esc has => _ end)); [done|].
    intros [n' has'|esc' has'|]; [apply Hf| |apply tame_panic].
    apply (tame_case (fun st => (n + (available st - n))%nat) (fun n' st => pbind (buffer_more st) (fun _ st' => read_string_loop fuel st' n' esc' has'))); [done|].
    intros n'. apply (tame_bind buffer_more); [apply tame_more|]. intros _. apply IH.
Qed.

Lemma tame_read_string fuel : tame (read_string fuel).
Proof.
  apply (tame_bind current); [apply tame_current|]. intros ch. destruct (negb _); [apply tame_err|].
  apply (tame_ext (fun st => pbind (POk tt (set_tail (S (p_tail st)) st)) (fun _ st => read_string_loop fuel st 0 false false))); [done|].
  apply (tame_bind (fun st => POk tt (set_tail (S (p_tail st)) st))); [by apply (tame_set_tail tt (fun st => S (p_tail st)))|]. intros _. apply tame_string_loop.
Qed.

Lemma tame_number_loop fuel : forall n, tame (fun st => read_number_loop fuel st n).
Proof.
  assert (Hf : forall n, tame (fun st => if (length (p_buf st) <? p_tail st + n)%nat then PPanic else
      POk (Token TNumber (take n (drop (p_tail st) (p_buf st)))) (set_tail (p_tail st + n) st))).
  { intros n. apply tame_local.
    - intros s st. cbn [with_src p_buf p_tail p_src p_head p_eof]. by destruct (_ <? _)%nat.
    - intros st a st1. destruct (_ <? _)%nat; [done|]. by intros [= <- <-]. }
  induction fuel as [|fuel IH]; intros n.
  - apply (tame_case (fun st => scan_number (available st - n) (p_buf st) (p_tail st) n) (fun r st => match r with NPanic => PPanic | NFound n => (fun st => if (length (p_buf st) <? p_tail st + n)%nat then PPanic else
      POk (Token TNumber (take n (drop (p_tail st) (p_buf st)))) (set_tail (p_tail st + n) st)) st | NMore => PHang end)); [done|].
    intros [n'| |]; [apply Hf|apply tame_hang|apply tame_panic].
  - apply (tame_case (fun st => scan_number (available st - n) (p_buf st) (p_tail st) n) (fun r st => match r with NPanic => PPanic | NFound n => (fun st => if (length (p_buf st) <? p_tail st + n)%nat then PPanic else
      POk (Token TNumber (take n (drop (p_tail st) (p_buf st)))) (set_tail (p_tail st + n) st)) st
      | NMore => (fun st => pbind (buffer_more st) (fun _ st' => read_number_loop fuel st' (n + (available st - n))%nat)) st end)); [done|].
    intros [n'| |]; [apply Hf| |apply tame_panic].
    apply (tame_case (fun st => (n + (available st - n))%nat) (fun n' st => pbind (buffer_more st) (fun _ st' => read_number_loop fuel st' n'))); [done|].
    intros n'. apply (tame_bind buffer_more); [apply tame_more|]. intros _. apply IH.
Qed.

Lemma tame_read_number fuel : tame (read_number fuel).
Proof. apply (tame_bind current); [apply tame_current|]. intros ch. destruct (negb _); [apply tame_err|]. apply tame_number_loop. Qed.

Lemma tame_require fuel n : tame (fun st => require fuel st n).
Proof.
  induction fuel as [|fuel IH].
  - apply (tame_case (fun st => (n <=? available st)%nat) (fun b st => if b then POk tt st else PHang)); [done|]. intros []; [apply tame_ret|apply tame_hang].
  - apply (tame_case (fun st => (n <=? available st)%nat) (fun b st => if b then POk tt st else
      let missing := (n - available st)%nat in
      let free := (length (p_buf st) - available st)%nat in
      if (free <? missing)%nat && (available st + n <? length (p_buf st))%nat then PPanic else
      let st1 := if (free <? missing)%nat
                 then PState (p_src st) (splice (replicate (available st + n) 0) 0 (p_buf st)) (p_tail st) (p_head st) (p_eof st)
                 else st in
      pbind (buffer_more st1) (fun _ st' => require fuel st' n))); [done|]. intros []; [apply tame_ret|]. cbn zeta.
    apply (tame_case (fun st => (length (p_buf st) - available st <? n - available st)%nat && (available st + n <? length (p_buf st))%nat) (fun b st => if b then PPanic else
      pbind (buffer_more _) (fun _ st' => require fuel st' n))); [done|]. intros []; [apply tame_panic|].
    apply (tame_bind (fun st => buffer_more _) (fun _ st' => require fuel st' n)); [|done].
    apply (tame_ext (fun st => pbind (POk tt (if (length (p_buf st) - available st <? n - available st)%nat
                 then PState (p_src st) (splice (replicate (available st + n) 0) 0 (p_buf st)) (p_tail st) (p_head st) (p_eof st) else st)) (fun _ st => buffer_more st))); [done|].
    apply (tame_bind (fun st => POk tt _)); [|intros _; apply tame_more]. apply (tame_ok (fun _ => tt)); [done| |].
    + intros s st. unfold available. cbn [with_src p_tail p_buf p_head p_src p_eof]. by destruct (_ <? _)%nat.
    + intros st. by destruct (_ <? _)%nat.
Qed.

Lemma tame_read_n fuel ty first n : tame (fun st => read_n fuel st ty first n).
Proof.
  apply (tame_bind (fun st => require fuel st n)); [apply tame_require|]. intros _. apply (tame_bind current); [apply tame_current|]. intros ch. destruct (negb _); [apply tame_err|].
  apply tame_local.
  - intros s st. cbn [with_src p_buf p_tail p_src p_head p_eof]. by destruct (_ <? _)%nat.
  - intros st a st1. destruct (_ <? _)%nat; [done|]. by intros [= <- <-].
Qed.

Lemma tame_null fuel : tame (read_null fuel). Proof. apply tame_read_n. Qed.
Lemma tame_boolean fuel : tame (read_boolean fuel).
Proof. apply (tame_bind current); [apply tame_current|]. intros ch. destruct (_ =? _); apply tame_read_n. Qed.

Lemma tame_literal fuel : tame (ReadLiteral fuel).
Proof.
  apply (tame_bind (next_type fuel)); [apply tame_next|]. intros []; first [apply tame_err|apply tame_read_string|apply tame_read_number|apply tame_boolean|apply tame_null].
Qed.

Lemma tame_drop {A} (f : pstate -> pres A) : tame f -> tame (fun st => pbind (f st) (fun _ st => POk tt st)).
Proof. intros H. apply (tame_bind f); [done|]. intros _. apply tame_ret. Qed.

Lemma tame_skip_all depth : forall fuel, (forall next, tame (skip depth fuel next)) /\ tame (skip_elements depth fuel) /\ tame (skip_members depth fuel).
Proof.
  induction depth as [|depth IH]; intros fuel; [repeat split; intros; apply tame_hang|]. destruct (IH fuel) as (H1 & H2 & H3). split; [|split].
  - intros []; cbn [skip]; try apply tame_err; try (apply tame_drop; first [apply tame_null|apply tame_boolean|apply tame_read_number|apply tame_read_string]).
    + apply (tame_bind (consume1 TObjBegin)); [apply tame_consume1|]. by intros _.
    + apply (tame_bind (consume1 TArrBegin)); [apply tame_consume1|]. by intros _.
  - cbn [skip_elements]. apply (tame_bind (next_type fuel)); [apply tame_next|]. intros next. destruct (decide _); [apply tame_consume1|]. apply (tame_bind (skip depth fuel next)); [done|]. by intros _.
  - cbn [skip_members]. apply (tame_bind (next_type fuel)); [apply tame_next|]. intros next. destruct (decide _); [apply tame_consume1|]. apply (tame_bind (read_string fuel)); [apply tame_read_string|].
    intros _. apply (tame_bind (next_type fuel)); [apply tame_next|]. intros next'. apply (tame_bind (skip depth fuel next')); [done|]. by intros _.
Qed.

Lemma tame_op fuel o : tame (run_op fuel o).
Proof.
  destruct o; cbn [run_op].
  - apply (tame_bind (next_type fuel)); [apply tame_next|]. intros t. apply tame_ret.
  - apply (tame_bind (consume fuel TObjBegin)); [apply tame_consume|]. intros t. apply tame_ret.
  - apply (tame_bind (consume fuel TObjEnd)); [apply tame_consume|]. intros t. apply tame_ret.
  - apply (tame_bind (consume fuel TArrBegin)); [apply tame_consume|]. intros t. apply tame_ret.
  - apply (tame_bind (consume fuel TArrEnd)); [apply tame_consume|]. intros t. apply tame_ret.
  - apply (tame_bind (skip_whitespace fuel)); [apply tame_space|]. intros _. apply tame_read_string.
  - apply (tame_bind (skip_whitespace fuel)); [apply tame_space|]. intros _. apply tame_read_number.
  - apply tame_literal.
  - apply (tame_bind (Skip fuel)); [|intros t; apply tame_ret]. apply (tame_bind (next_type fuel)); [apply tame_next|]. intros next. apply tame_skip_all.
Qed.

(* ---------- programs ---------- *)

Lemma exec_cut {A} fuel (p : prog A) : forall st, hungry st -> exists st', cut st st' /\ exec fuel p st' = exec fuel p st.
Proof.
  induction p as [a|o k IH e|]; intros st He; cbn [exec]; [destruct (cut_some _ He) as [s ?]; by exists (with_src s st)| |destruct (cut_some _ He) as [s ?]; by exists (with_src s st)].
  destruct (tame_op fuel o) as [H _]. specialize (H st He). destruct (run_op fuel o st) as [t st1| | |].
  - destruct H as [He1 H]. destruct (IH t st1 He1) as (st1' & Hc1 & E1). destruct (H _ Hc1) as (st' & Hc & E). exists st'. by rewrite E.
  - destruct H as (st' & Hc & E). exists st'. by rewrite E.
  - destruct H as (st' & Hc & E). exists st'. by rewrite E.
  - destruct H as (st' & Hc & E). exists st'. by rewrite E.
Qed.

(** All ends after an error satisfy [P]. *)
Inductive ends {A} (P : A -> Prop) : prog A -> Prop :=
  | ends_ret a : ends P (Ret a)
  | ends_call o k e : P e -> (forall t, ends P (k t)) -> ends P (Call o k e)
  | ends_fuel : ends P OutOfFuel.

Lemma exec_lazy {A} fuel P (p : prog A) : ends P p -> forall st, eager st -> exec fuel p st = exec fuel p (lazy st) \/ exists a, P a /\ exec fuel p st = XDone a.
Proof.
  induction 1 as [a|o k e HP Hk IH|]; intros st He; cbn [exec]; [by left| |by left].
  destruct (tame_op fuel o) as [_ H]. specialize (H st He). destruct (run_op fuel o st) as [t st1| | |].
  - destruct H as [H|[He1 H]]; [done|]. rewrite H. by apply IH.
  - right. eauto.
  - destruct H as [H|H]; [done|]. rewrite H. by left.
  - destruct H as [H|H]; [done|]. rewrite H. by left.
Qed.

(* ---------- the decoders end with false after an error ---------- *)

Definition failed {A} (r : A * bool) : Prop := r.2 = false.

Lemma ends_then {A B} (p : prog (A * bool)) (f : A -> B) k : ends failed p -> (forall a, ends failed (k a)) -> ends failed (pthen p f k).
Proof.
  intros H Hk. induction H as [[a []]|o c [a b] He Hc IH|]; cbn [pthen]; [apply Hk|constructor|constructor; [done|apply IH]|constructor].
Qed.

Lemma ends_field {T A} (get : T -> A) put (d : decoder A) t : (forall a, ends failed (d a)) -> ends failed (at_field get put d t).
Proof. intros H. apply ends_then; [apply H|]. constructor. Qed.

Lemma ends_uint64 t : ends failed (uint64_decoder t).
Proof. constructor; [done|]. intros tok. destruct (digits_value _ _); constructor. Qed.
Lemma ends_string t : ends failed (string_decoder t).
Proof. constructor; [done|]. constructor. Qed.
Lemma ends_any t : ends failed (any_decoder t).
Proof. constructor; [done|]. constructor. Qed.
Lemma ends_id t : ends failed (id_decoder t).
Proof.
  constructor; [done|]. intros next. destruct (decide _); constructor; try done; [constructor|]. intros tok. destruct (parse_id _); constructor.
Qed.

Lemma ends_map fuel t : ends failed (map_decoder fuel t).
Proof.
  constructor; [done|]. intros _. generalize (∅ : gmap gostring gostring). induction fuel as [|fuel IH]; intros m; cbn [map_loop]; constructor; [done|]. intros next. destruct (decide _).
  - constructor; [done|constructor].
  - apply ends_then; [apply ends_string|]. intros key. apply ends_then; [apply ends_string|]. intros v. apply IH.
Qed.

Lemma ends_slice {T} zero (d : decoder T) fuel s : (forall a, ends failed (d a)) -> ends failed (slice_decoder zero d fuel s).
Proof.
  intros Hd. constructor; [done|]. intros _. generalize 0%nat. revert s. induction fuel as [|fuel IH]; intros s i; cbn [slice_loop]; constructor; [done|]. intros next. destruct (decide _).
  - constructor; [done|constructor].
  - cbn zeta. apply ends_then; [apply Hd|]. intros el. apply IH.
Qed.

Lemma ends_array {T} (d : decoder T) fuel s : (forall a, ends failed (d a)) -> ends failed (array_decoder d fuel s).
Proof.
  intros Hd. constructor; [done|]. intros _. generalize 0%nat. revert s. induction fuel as [|fuel IH]; intros s i; cbn [array_loop]; constructor; [done|]. intros next. destruct (decide _).
  - constructor; [done|constructor].
  - destruct (s !! i); [apply ends_then; [apply Hd|]; intros el; apply IH|]. constructor; [done|]. intros _. apply IH.
Qed.

Lemma ends_struct {T} (fields : list (gostring * decoder T)) fuel t : Forall (fun f => forall a, ends failed (f.2 a)) fields -> ends failed (struct_decoder fields fuel t).
Proof.
  intros Hf. assert (Hl : forall name d, lookup_field fields name = Some d -> forall a, ends failed (d a)).
  { intros name d. induction Hf as [|[n d'] l Hd _ IH]; cbn [lookup_field]; [done|]. destruct (decide _); [|exact IH]. intros [= <-]. exact Hd. }
  constructor; [done|]. intros _. revert t. induction fuel as [|fuel IH]; intros t; cbn [struct_loop]; constructor; [done|]. intros next. destruct (decide _).
  - constructor; [done|constructor].
  - constructor; [done|]. intros key. destruct (lookup_field fields (t_val key)) as [d|] eqn:E.
    + apply ends_then; [by apply (Hl _ _ E)|]. intros t'. apply IH.
    + constructor; [done|]. intros _. apply IH.
Qed.

Lemma ends_endpoint fuel t : ends failed (endpoint_decoder fuel t).
Proof. apply ends_struct. apply Forall_cons_2; [exact ends_string|apply Forall_nil_2]. Qed.

Lemma ends_v2 fuel : ends failed (parse_v2_prog fuel).
Proof.
  apply ends_slice. intros a. apply ends_struct. unfold v2_fields. repeat (apply Forall_cons_2; [intros b; apply ends_field; intros c|]); [..|apply Forall_nil_2];
    first [apply ends_id|apply ends_uint64|apply ends_string|apply ends_map|apply ends_endpoint].
Qed.

Lemma ends_v1 fuel pool : ends failed (parse_v1_prog fuel pool).
Proof.
  apply ends_slice. intros a. apply ends_struct. unfold v1_fields. repeat (apply Forall_cons_2; [intros b; apply ends_field; intros c|]); [..|apply Forall_nil_2];
    first [apply ends_id|apply ends_uint64|apply ends_string|idtac].
  - apply ends_slice. intros d. apply ends_struct. unfold ba_fields. repeat (apply Forall_cons_2; [intros e; apply ends_field; intros f|]); [..|apply Forall_nil_2];
      first [apply ends_string|apply ends_any|apply ends_endpoint].
  - apply ends_array. intros d. apply ends_struct. unfold annot_fields. repeat (apply Forall_cons_2; [intros e; apply ends_field; intros f|]); [..|apply Forall_nil_2];
      first [apply ends_uint64|apply ends_string|apply ends_endpoint].
Qed.

(* ---------- the parsers ---------- *)

Lemma new_cut chunks buf st' : cut (new_parser (Src chunks (EndErr true)) buf) st' ->
  exists chunks' lost, lost <> [] /\ concat chunks = concat chunks' ++ lost /\ st' = new_parser (Src chunks' (EndErr false)) buf.
Proof. intros (chunks' & lost & Hl & Hp & ->). by exists chunks', lost. Qed.

Lemma v2_cut fuel buf chunks : loaded chunks -> exists chunks' lost, lost <> [] /\ concat chunks = concat chunks' ++ lost /\
  ParseJsonV2 fuel buf (Src chunks (EndErr true)) = ParseJsonV2 fuel buf (Src chunks' (EndErr false)).
Proof.
  intros Hl. destruct (exec_cut fuel (parse_v2_prog fuel) (new_parser (Src chunks (EndErr true)) buf) (conj eq_refl Hl)) as (st' & Hc & E). apply new_cut in Hc as (chunks' & lost & Hn & Hp & ->).
  exists chunks', lost. split; [done|]. split; [done|]. unfold ParseJsonV2. by rewrite E.
Qed.

Lemma v1_cut fuel buf pool chunks : loaded chunks -> exists chunks' lost, lost <> [] /\ concat chunks = concat chunks' ++ lost /\
  ParseJsonV1 fuel buf pool (Src chunks (EndErr true)) = ParseJsonV1 fuel buf pool (Src chunks' (EndErr false)).
Proof.
  intros Hl. destruct (exec_cut fuel (parse_v1_prog fuel pool) (new_parser (Src chunks (EndErr true)) buf) (conj eq_refl Hl)) as (st' & Hc & E). apply new_cut in Hc as (chunks' & lost & Hn & Hp & ->).
  exists chunks', lost. split; [done|]. split; [done|]. unfold ParseJsonV1. by rewrite E.
Qed.

Lemma v2_lazy fuel buf chunks : ParseJsonV2 fuel buf (Src chunks (EndErr true)) = ParseJsonV2 fuel buf (Src chunks (EndErr false)) \/
  ParseJsonV2 fuel buf (Src chunks (EndErr true)) = XDone None.
Proof.
  unfold ParseJsonV2. destruct (exec_lazy fuel failed _ (ends_v2 fuel) (new_parser (Src chunks (EndErr true)) buf) eq_refl) as [->|([a b] & Hf & ->)]; [by left|].
  right. unfold failed in Hf. cbn in Hf. by subst b.
Qed.

Lemma v1_lazy fuel buf pool chunks : ParseJsonV1 fuel buf pool (Src chunks (EndErr true)) = ParseJsonV1 fuel buf pool (Src chunks (EndErr false)) \/
  exists pool', ParseJsonV1 fuel buf pool (Src chunks (EndErr true)) = XDone (None, pool').
Proof.
  unfold ParseJsonV1. destruct (exec_lazy fuel failed _ (ends_v1 fuel pool) (new_parser (Src chunks (EndErr true)) buf) eq_refl) as [->|([a b] & Hf & ->)]; [by left|].
  right. unfold failed in Hf. cbn in Hf. subst b. by eexists.
Qed.
