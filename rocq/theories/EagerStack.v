(** C98 whatever the reader does at its end. *)
From Verif Require Import Base SpanModel JsonModel CodecModel ParseSpec StackModel StackSpec StackProofs EagerProofs EagerTheorems.

Definition osame {A} (f : pstate -> option (pres A)) : Prop := forall st, eager st ->
  f st = Some PErr \/
  match f st with
  | Some (POk a st1) => eager st1 /\ f (lazy st) = Some (POk a (lazy st1))
  | r => f (lazy st) = r
  end.

Lemma osame_calm {A} (f : pstate -> pres A) : tame f -> osame (fun st => calm (f st)).
Proof. intros [_ H] st He. unfold calm. destruct (H st He) as [->|K]; [by left|]. right. destruct (f st) as [a st1| | |]; [destruct K as [? ->]; done|by rewrite K..]. Qed.
Lemma osame_bind {A B} (f : pstate -> option (pres A)) (g : A -> pstate -> option (pres B)) : osame f -> (forall a, osame (g a)) -> osame (fun st => obind (f st) g).
Proof.
  intros Hf Hg st He. specialize (Hf st He). destruct (f st) as [[a st1| | |]|] eqn:E; cbn [obind].
  - destruct Hf as [?|[He1 ->]]; [done|]. cbn [obind]. by apply Hg.
  - by left.
  - destruct Hf as [?| ->]; [done|]. by right.
  - destruct Hf as [?| ->]; [done|]. by right.
  - destruct Hf as [?| ->]; [done|]. by right.
Qed.
Lemma osame_const {A} (r : option (pres A)) : (forall a st, r <> Some (POk a st)) -> osame (fun _ => r).
Proof. intros H st He. right. destruct r as [[a st1| | |]|]; try done. by destruct (H a st1). Qed.

Lemma osame_skips fuel : forall depth room, (forall next, osame (skip_in depth room fuel next)) /\ osame (skip_elements_in depth room fuel) /\ osame (skip_members_in depth room fuel).
Proof.
  induction depth as [|depth IH]; intros room; [split; [|split]; intros; by apply osame_const|]. destruct (IH room) as (H1 & H2 & H3). split; [|split].
  - intros next. cbn [skip_in]. destruct room as [|room]; [by apply osame_const|]. destruct (IH room) as (K1 & K2 & K3).
    destruct next; try by apply osame_const.
    all: first [apply (osame_calm (fun st => pbind _ _)), tame_drop; first [apply tame_null|apply tame_boolean|apply tame_read_number|apply tame_read_string]|idtac].
    + apply (osame_bind (fun st => calm (consume1 TObjBegin st))); [apply osame_calm, tame_consume1|]. by intros _.
    + apply (osame_bind (fun st => calm (consume1 TArrBegin st))); [apply osame_calm, tame_consume1|]. by intros _.
  - cbn [skip_elements_in]. apply (osame_bind (fun st => calm (next_type fuel st))); [apply osame_calm, tame_next|]. intros next.
    destruct (decide _); [apply osame_calm, tame_consume1|]. apply (osame_bind (skip_in depth room fuel next)); [done|]. by intros _.
  - cbn [skip_members_in]. apply (osame_bind (fun st => calm (next_type fuel st))); [apply osame_calm, tame_next|]. intros next.
    destruct (decide _); [apply osame_calm, tame_consume1|]. apply (osame_bind (fun st => calm (read_string fuel st))); [apply osame_calm, tame_read_string|]. intros _.
    apply (osame_bind (fun st => calm (next_type fuel st))); [apply osame_calm, tame_next|]. intros next'. apply (osame_bind (skip_in depth room fuel next')); [done|]. by intros _.
Qed.

Lemma osame_op room fuel o : osame (run_op_in room fuel o).
Proof.
  destruct o; try apply (osame_calm (fun st => run_op fuel _ st)), tame_op. cbn [run_op_in]. apply (osame_bind (Skip_in room fuel)); [|intros _; apply osame_calm, tame_ret].
  apply (osame_bind (fun st => calm (next_type fuel st))); [apply osame_calm, tame_next|]. intros next. apply osame_skips.
Qed.

Lemma exec_in_lazy {A} room fuel (p : prog A) : forall st, eager st -> exec_in room fuel p st = None -> exec_in room fuel p (lazy st) = None.
Proof.
  induction p as [a|o k IH e|]; intros st He; cbn [exec_in]; [done| |done]. pose proof (osame_op room fuel o st He) as H.
  destruct (run_op_in room fuel o st) as [[t st1| | |]|]; try done.
  - destruct H as [?|[He1 ->]]; [done|]. by apply IH.
  - destruct H as [?| ->]; done.
Qed.

Lemma exec_enough_any {A} room fuel (p : prog A) buf chunks e : (5 <= length buf)%nat -> (opens (concat chunks) < room)%nat ->
  exec_in room fuel p (new_parser (Src chunks e) buf) = Some (exec fuel p (new_parser (Src chunks e) buf)).
Proof.
  intros Hb Ho. destruct (end_cases e) as [->|He]; [|by apply exec_enough]. destruct (exec_in room fuel p _) as [r|] eqn:E; [by rewrite (exec_agrees _ _ _ _ _ E)|].
  apply exec_in_lazy in E; [|done]. pose proof (exec_enough room fuel p buf chunks (EndErr false) Hb ltac:(done) Ho) as K.
  change (new_parser (Src chunks (EndErr false)) buf) with (lazy (new_parser (Src chunks (EndErr true)) buf)) in K. by rewrite E in K.
Qed.
Lemma v2_enough_any room fuel buf chunks e : (5 <= length buf)%nat -> (opens (concat chunks) < room)%nat ->
  ParseJsonV2_in room fuel buf (Src chunks e) = Some (ParseJsonV2 fuel buf (Src chunks e)).
Proof. intros. unfold ParseJsonV2_in. by rewrite exec_enough_any. Qed.
Lemma v1_enough_any room fuel buf pool chunks e : (5 <= length buf)%nat -> (opens (concat chunks) < room)%nat ->
  ParseJsonV1_in room fuel buf pool (Src chunks e) = Some (ParseJsonV1 fuel buf pool (Src chunks e)).
Proof. intros. unfold ParseJsonV1_in. by rewrite exec_enough_any. Qed.
