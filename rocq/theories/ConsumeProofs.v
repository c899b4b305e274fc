(** The consumer loop and its end. *)
From Verif Require Import Base SpanModel BinaryModel PipelineModel ConsumeModel ConsumeSpec.

(** The channel is closed exactly when the goroutine has returned; that needs a cancel; nobody returns before. *)
Definition vinv (st : vstate) : Prop :=
  (v_finished st = true <-> v_loop st = LDone) /\ (v_loop st = LDone -> v_cancelled st = true) /\
  (v_returned st <> 0%nat -> v_finished st = true) /\
  ((v_waiting st + v_returned st)%nat <> 0%nat <-> v_cancelled st = true).

Lemma vinit_inv : vinv vinit.
Proof. unfold vinv, vinit; cbn. repeat split; try done; lia. Qed.

Lemma vstep_inv e st : vinv st -> match vstep e st with Next st' => vinv st' | Blocked => True | Panicked => False end.
Proof.
  destruct st as [lp c f w r]. unfold vinv. cbn [v_loop v_cancelled v_finished v_waiting v_returned].
  intros (H1 & H2 & H3 & H4). destruct e; cbn [vstep].
  - destruct lp; [|done|done]. destruct c.
    + destruct f; [destruct H1 as [H1 _]; by specialize (H1 eq_refl)|]. cbn. repeat split; try done; by apply H4.
    + cbn. repeat split; try done; try (intros; by apply H1); try (by apply H4). intros Hf. apply H1 in Hf. done.
  - destruct lp as [|l|]; [done| |done]. cbn. repeat split; try done; try (by apply H4). intros Hf. apply H1 in Hf. done.
  - destruct lp as [|l|]; [done| |done]. destruct (l !! j) as [[| |]|]; [|done|done|done]. destruct (binary_decode v); cbn; repeat split; try done; try (by apply H4); intros Hf; apply H1 in Hf; done.
  - destruct lp as [|l|]; [done| |done]. destruct (l !! j) as [[| |]|]; [done| |done|done]. cbn. repeat split; try done; try (by apply H4). intros Hf. apply H1 in Hf. done.
  - destruct lp as [|l|]; [done| |done]. destruct (l !! j) as [[| |]|]; [done|done| |done]. cbn. repeat split; try done; try (by apply H4). intros Hf. apply H1 in Hf. done.
  - destruct lp as [|l|]; [done| |done]. destruct (l !! j) as [[| |]|]; [|done|done|done]. cbn. repeat split; try done; try (by apply H4). intros Hf. apply H1 in Hf. done.
  - destruct lp as [|[|x l]|]; [done| |done|done]. cbn. repeat split; try done; try (by apply H4). intros Hf. apply H1 in Hf. done.
  - cbn. split; [done|]. repeat split; done.
  - destruct w as [|w]; [done|]. destruct f; [|done]. cbn. split; [done|]. repeat split; try done; try (intros; apply H4; lia); lia.
Qed.

Lemma vrun_inv evs : forall st, vinv st -> exists st', vrun evs st = Next st' /\ vinv st'.
Proof.
  induction evs as [|e evs IH]; intros st Hi; [by exists st|]. cbn [vrun]. pose proof (vstep_inv e st Hi) as H.
  destruct (vstep e st); [by apply IH|by apply IH|done].
Qed.

Lemma consume_no_panic evs : exists st, vrun evs vinit = Next st.
Proof. destruct (vrun_inv evs vinit vinit_inv) as (st & H & _). by exists st. Qed.

Lemma vstep_done e st : v_loop st = LDone -> v_finished st = true -> match vstep e st with Next st' => v_loop st' = LDone /\ v_finished st' = true | _ => True end.
Proof. destruct st as [lp c f w r]. cbn. intros -> ->. destruct e; cbn; try done. by destruct w. Qed.

Lemma vrun_done evs : forall st, v_loop st = LDone -> v_finished st = true -> forall st', vrun evs st = Next st' -> v_loop st' = LDone.
Proof.
  induction evs as [|e evs IH]; intros st Hl Hf st'; cbn [vrun]; [by intros [= <-]|].
  pose proof (vstep_done e st Hl Hf) as H. destruct (vstep e st) as [a| |]; [destruct H; by apply IH|by apply IH|done].
Qed.

Lemma vrun_app evs evs' st st' : vrun evs st = Next st' -> vrun (evs ++ evs') st = vrun evs' st'.
Proof.
  revert st. induction evs as [|e evs IH]; intros st; cbn [vrun app]; [by intros [= ->]|].
  destruct (vstep e st); [apply IH|apply IH|done].
Qed.

(** Once a call of the returned function has returned, no callback runs and none ever will. *)
Lemma closed_for_good evs st evs' st' : vrun evs vinit = Next st -> v_returned st <> 0%nat -> vrun evs' st = Next st' ->
  ~ in_callback st' /\ forall j v, vstep (VMessage j v) st' = Blocked.
Proof.
  intros Hr Hn Hr'. destruct (vrun_inv evs vinit vinit_inv) as (st1 & E & Hi). rewrite Hr in E. injection E as <-.
  destruct Hi as (H1 & _ & H3 & _). specialize (H3 Hn). pose proof (proj1 H1 H3) as Hl.
  pose proof (vrun_done evs' st Hl H3 st' Hr') as Hd. split.
  - intros (l & j & s & E & _). congruence.
  - intros j v. destruct st' as [lp c f w r]. cbn in Hd. subst lp. done.
Qed.

(** The loop goes on until it is told to end, whatever [Consume] returns. *)
Lemma goes_on evs st : vrun evs vinit = Next st -> ~ VClose ∈ evs -> v_loop st <> LDone /\
  exists evs' st' l, vrun evs' st = Next st' /\ v_loop st' = LConsume l.
Proof.
  intros Hr Hc.
  assert (Hk : forall evs st st', vrun evs st = Next st' -> ~ VClose ∈ evs -> v_cancelled st = false -> v_cancelled st' = false).
  { clear. induction evs as [|e evs IH]; intros st st' Hr Hc H; cbn [vrun] in Hr; [by injection Hr as <-|].
    apply not_elem_of_cons in Hc as [Hc1 Hc]. destruct (vstep e st) as [a| |] eqn:E; [|by eapply IH|done].
    eapply IH; [exact Hr|done|]. destruct st as [lp c f w r]. cbn in H. subst c. destruct e; cbn [vstep] in E.
    - destruct lp; try done. by injection E as <-.
    - destruct lp; try done. by injection E as <-.
    - destruct lp as [|l|]; try done. destruct (l !! j) as [[| |]|]; try done. destruct (binary_decode v); by injection E as <-.
    - destruct lp as [|l|]; try done. destruct (l !! j) as [[| |]|]; try done. by injection E as <-.
    - destruct lp as [|l|]; try done. destruct (l !! j) as [[| |]|]; try done. by injection E as <-.
    - destruct lp as [|l|]; try done. destruct (l !! j) as [[| |]|]; try done. by injection E as <-.
    - destruct lp as [|[|x l]|]; try done. by injection E as <-.
    - done.
    - destruct w; [done|]. destruct f; [|done]. by injection E as <-. }
  pose proof (Hk _ _ _ Hr Hc eq_refl) as Hnc.
  destruct (vrun_inv evs vinit vinit_inv) as (st1 & E & Hi). rewrite Hr in E. injection E as <-.
  destruct Hi as (H1 & H2 & _). assert (Hd : v_loop st <> LDone) by (intros Hl; specialize (H2 Hl); congruence). split; [done|].
  destruct st as [[|l|] c f w r]; cbn in *; [|by exists [], (VState (LConsume l) c f w r), l|done].
  subst c. exists [VSelect], (VState (LConsume []) false f w r), []. done.
Qed.

(* ---------- the end comes ---------- *)

Definition claim_rest (c : claim) : nat := match c with CWaiting => 1 | CMarking => 2 | CCalling _ => 3 end.
Definition rest (st : vstate) : nat :=
  (match v_loop st with LSelect => 1 | LConsume l => 2 + foldr (fun c n => claim_rest c + n) 0 l | LDone => 0 end + v_waiting st)%nat.

Lemma foldr_insert l j c c' : l !! j = Some c ->
  (foldr (fun c n => claim_rest c + n) 0 (<[j := c']> l) + claim_rest c = foldr (fun c n => claim_rest c + n) 0 l + claim_rest c')%nat.
Proof.
  revert j. induction l as [|x l IH]; intros [|j]; cbn; intros H; [done|done| |].
  - injection H as ->. lia.
  - rewrite <- !Nat.add_assoc. f_equal. exact (IH j H).
Qed.
Lemma foldr_remove l j c : l !! j = Some c ->
  (foldr (fun c n => claim_rest c + n) 0 (remove j l) + claim_rest c = foldr (fun c n => claim_rest c + n) 0 l)%nat.
Proof.
  revert j. induction l as [|x l IH]; intros [|j]; cbn; intros H; [done|done| |].
  - injection H as ->. unfold remove. cbn. rewrite drop_0. lia.
  - unfold remove. cbn. specialize (IH j H). unfold remove in IH. lia.
Qed.

Lemma wind_step e st st' : v_cancelled st = true -> winding_down e = true -> vstep e st = Next st' ->
  v_cancelled st' = true /\ (rest st' < rest st)%nat.
Proof.
  destruct st as [lp c f w r]. cbn [v_cancelled]. intros -> Hw E. destruct e; cbn [vstep winding_down] in *; try done.
  - destruct lp; try done. destruct f; [done|]. injection E as <-. cbn. split; [done|lia].
  - destruct lp as [|l|]; try done. destruct (l !! j) as [[| |]|] eqn:Ej; try done. injection E as <-. split; [done|].
    pose proof (foldr_insert l j _ CMarking Ej) as Hf. unfold rest. cbn [v_loop v_waiting]. cbn [claim_rest] in Hf. lia.
  - destruct lp as [|l|]; try done. destruct (l !! j) as [[| |]|] eqn:Ej; try done. injection E as <-. split; [done|].
    pose proof (foldr_insert l j _ CWaiting Ej) as Hf. unfold rest. cbn [v_loop v_waiting]. cbn [claim_rest] in Hf. lia.
  - destruct lp as [|l|]; try done. destruct (l !! j) as [[| |]|] eqn:Ej; try done. injection E as <-. split; [done|].
    pose proof (foldr_remove l j _ Ej) as Hf. unfold rest. cbn [v_loop v_waiting]. cbn [claim_rest] in Hf. lia.
  - destruct lp as [|[|x l]|]; try done. injection E as <-. split; [done|]. unfold rest. cbn. lia.
  - destruct w as [|w]; [done|]. destruct f; [|done]. injection E as <-. split; [done|]. unfold rest. cbn. lia.
Qed.

Lemma wind_enabled st : vinv st -> v_waiting st <> 0%nat -> exists e st', winding_down e = true /\ vstep e st = Next st'.
Proof.
  intros (H1 & H2 & H3 & H4) Hw. assert (Hc : v_cancelled st = true) by (apply H4; lia).
  destruct st as [lp c f w r]. cbn in *. subst c. destruct lp as [|[|c l]|].
  - exists VSelect. cbn. destruct f; [destruct H1 as [H1 _]; by specialize (H1 eq_refl)|]. eauto.
  - exists VReturn. cbn. eauto.
  - destruct c as [|s|]; [exists (VClaimEnd 0)|exists (VCallback 0)|exists (VMark 0)]; cbn; eauto.
  - destruct w as [|w]; [done|]. exists VWake. cbn. rewrite (proj2 H1 eq_refl). eauto.
Qed.

Lemma wind_bound evs : forall st, v_cancelled st = true -> forallb winding_down evs = true -> (done_steps evs st <= rest st)%nat.
Proof.
  induction evs as [|e evs IH]; intros st Hc Hw; [cbn; lia|].
  cbn [forallb] in Hw. apply andb_true_iff in Hw as [He Hw]. cbn [done_steps]. destruct (vstep e st) as [a| |] eqn:E; [|by apply IH|lia].
  destruct (wind_step _ _ _ Hc He E) as [Hc' Hlt]. specialize (IH a Hc' Hw). lia.
Qed.

Lemma close_returns evs st : vrun evs vinit = Next st -> v_waiting st <> 0%nat ->
  (exists n, forall evs', forallb winding_down evs' = true -> (done_steps evs' st <= n)%nat) /\
  (forall evs' st', forallb winding_down evs' = true -> vrun evs' st = Next st' -> v_waiting st' <> 0%nat ->
     exists e st'', winding_down e = true /\ vstep e st' = Next st'').
Proof.
  intros Hr Hw. destruct (vrun_inv evs vinit vinit_inv) as (st1 & E & Hi). rewrite Hr in E. injection E as <-. split.
  - exists (rest st). intros evs'. apply wind_bound. destruct Hi as (_ & _ & _ & H4). apply H4. lia.
  - intros evs' st' _ Hr' Hn. destruct (vrun_inv evs' st Hi) as (st2 & E & Hi2). rewrite Hr' in E. injection E as <-. by apply wind_enabled.
Qed.

Lemma claim_messages st l j v : v_loop st = LConsume l -> l !! j = Some CWaiting ->
  (forall s rest, binary_decode v = DOk s rest -> exists st', vstep (VMessage j v) st = Next st' /\ v_loop st' = LConsume (<[j := CCalling s]> l) /\
     vrun [VCallback j; VMark j] st' = Next st) /\
  ((forall s rest, binary_decode v <> DOk s rest) -> vstep (VMessage j v) st = Next st).
Proof.
  destruct st as [lp c f w r]. cbn [v_loop]. intros -> Hj. split.
  - intros s rest E. cbn [vstep]. rewrite Hj, E. eexists. split; [done|]. split; [done|]. assert (Hlt : (j < length l)%nat) by (by eapply lookup_lt_Some).
    cbn [vrun vstep]. rewrite list_lookup_insert by done. cbn [vstep]. rewrite list_lookup_insert by (by rewrite insert_length). rewrite !list_insert_insert.
    by rewrite list_insert_id.
  - intros Hno. cbn [vstep]. rewrite Hj. destruct (binary_decode v) as [s rest|]; [by destruct (Hno s rest)|done].
Qed.
