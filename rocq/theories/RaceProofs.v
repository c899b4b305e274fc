(** Data races in general (C92, C93): a discipline of ownership that excludes them. *)
From Verif Require Import Base RaceSpec.
Local Open Scope nat_scope.

(** Where the knowledge about earlier actions is: with a goroutine, in a message, in a lock, in an object of a pool. *)
Inductive holder (T C M P : Type) := HT (t : T) | HM (c : C) (n : nat) | HL (m : M) | HP (p : P).
Arguments HT {T C M P}. Arguments HM {T C M P}. Arguments HL {T C M P}. Arguments HP {T C M P}.

Section discipline.
Context {T C M P L : Type} `{EqDecision T, EqDecision C, EqDecision M, EqDecision P, EqDecision L}.
Local Notation actions := (actions T C M P L).
Local Notation holder := (holder T C M P).
Implicit Types (tr : actions) (h : holder) (x : L).

Lemma sends_app c tr tr' : sends c (tr ++ tr') = sends c tr + sends c tr'.
Proof using. induction tr as [|[t a] tr IH]; cbn [app sends]; [done|]. destruct a; lia. Qed.
Lemma recvs_app c tr tr' : recvs c (tr ++ tr') = recvs c tr + recvs c tr'.
Proof using. induction tr as [|[t a] tr IH]; cbn [app recvs]; [done|]. destruct a; lia. Qed.

Lemma before_lt tr i j : before tr i j -> i < j < length tr.
Proof using. induction 1; try (split; [done|by eapply lookup_lt_Some]). lia. Qed.

Lemma before_app tr tr' i j : before tr i j -> before (tr ++ tr') i j.
Proof using.
  assert (Lk : forall k (v : T * action C M P L), tr !! k = Some v -> (tr ++ tr') !! k = Some v) by (intros k v H; by apply lookup_app_l_Some).
  assert (K : forall k (v : T * action C M P L), tr !! k = Some v -> take k (tr ++ tr') = take k tr).
  { intros k v H. apply take_app_le. apply lookup_lt_Some in H. lia. }
  induction 1 as [i j t a b ? H1 H2|i j t u c ? H1 H2 H3|i j t u m ? H1 H2|i j t u p ? H1 H2|]; [by eapply bf_own; eauto| |by eapply bf_lock; eauto|by eapply bf_pool; eauto|by eapply bf_trans].
  eapply bf_chan; [done|by eauto|by eauto|]. by rewrite (K _ _ H1), (K _ _ H2).
Qed.

Definition holds tr h j : Prop :=
  match h with
  | HT t => exists a, tr !! j = Some (t, a)
  | HM c n => exists t, tr !! j = Some (t, ASend c) /\ sends c (take j tr) = n
  | HL m => exists t, tr !! j = Some (t, AUnlock m)
  | HP p => exists t, tr !! j = Some (t, APut p)
  end.
Definition knows tr h i : Prop := exists j, holds tr h j /\ (i = j \/ before tr i j).

Lemma knows_app tr tr' h i : knows tr h i -> knows (tr ++ tr') h i.
Proof using.
  intros (j & Hj & Hi). exists j. split; [|destruct Hi as [->|Hi]; [by left|right; by apply before_app]].
  destruct h as [t|c n|m|p]; cbn [holds] in *.
  - destruct Hj as [a Ha]. exists a. by apply lookup_app_l_Some.
  - destruct Hj as (t & Ht & Hn). exists t. split; [by apply lookup_app_l_Some|]. rewrite take_app_le; [done|]. apply lookup_lt_Some in Ht. lia.
  - destruct Hj as [t Ht]. exists t. by apply lookup_app_l_Some.
  - destruct Hj as [t Ht]. exists t. by apply lookup_app_l_Some.
Qed.

(** How an action passes knowledge on. *)
Definition flow tr (t : T) (a : action C M P L) (h h' : holder) : Prop :=
  match a with
  | ASend c => h = HT t /\ h' = HM c (sends c tr)
  | ARecv c => h = HM c (recvs c tr) /\ h' = HT t
  | ALock m => h = HL m /\ h' = HT t
  | AUnlock m => h = HT t /\ h' = HL m
  | APut p => h = HT t /\ h' = HP p
  | AGet p => h = HP p /\ h' = HT t
  | _ => False
  end.

Lemma lookup_last tr v : (tr ++ [v]) !! length tr = Some v.
Proof using. by apply list_lookup_middle. Qed.
Lemma take_last tr v : take (length tr) (tr ++ [v]) = tr.
Proof using. by rewrite take_app. Qed.

Lemma knows_own tr t a i : knows tr (HT t) i -> knows (tr ++ [(t, a)]) (HT t) (length tr) /\ before (tr ++ [(t, a)]) i (length tr).
Proof using.
  intros (j & [b Hb] & Hi). split; [exists (length tr); split; [exists a; apply lookup_last|by left]|].
  assert (B : before (tr ++ [(t, a)]) j (length tr)).
  { eapply bf_own; [by eapply lookup_lt_Some|by apply lookup_app_l_Some|apply lookup_last]. }
  destruct Hi as [->|Hi]; [done|]. eapply bf_trans; [by apply before_app|done].
Qed.

Lemma knows_flow tr t a h h' i : flow tr t a h h' -> knows tr h i -> knows (tr ++ [(t, a)]) h' i.
Proof using.
  intros Hf Hk. destruct a as [c|c|m|m|p|p|x|x]; cbn [flow] in Hf; try done; destruct Hf as [-> ->].
  - exists (length tr). split; [exists t; split; [apply lookup_last|by rewrite take_last]|]. right. by apply knows_own.
  - destruct Hk as (j & (u & Hu & Hn) & Hi). pose proof (lookup_lt_Some _ _ _ Hu). exists (length tr). split; [exists (ARecv c); apply lookup_last|]. right.
    assert (B : before (tr ++ [(t, ARecv c)]) j (length tr)).
    { eapply bf_chan; [done|by apply lookup_app_l_Some|apply lookup_last|]. rewrite take_last, take_app_le by lia. done. }
    destruct Hi as [->|Hi]; [done|]. eapply bf_trans; [by apply before_app|done].
  - destruct Hk as (j & (u & Hu) & Hi). pose proof (lookup_lt_Some _ _ _ Hu). exists (length tr). split; [exists (ALock m); apply lookup_last|]. right.
    assert (B : before (tr ++ [(t, ALock m)]) j (length tr)) by (eapply bf_lock; [done|by apply lookup_app_l_Some|apply lookup_last]).
    destruct Hi as [->|Hi]; [done|]. eapply bf_trans; [by apply before_app|done].
  - exists (length tr). split; [exists t; apply lookup_last|]. right. by apply knows_own.
  - exists (length tr). split; [exists t; apply lookup_last|]. right. by apply knows_own.
  - destruct Hk as (j & (u & Hu) & Hi). pose proof (lookup_lt_Some _ _ _ Hu). exists (length tr). split; [exists (AGet p); apply lookup_last|]. right.
    assert (B : before (tr ++ [(t, AGet p)]) j (length tr)) by (eapply bf_pool; [done|by apply lookup_app_l_Some|apply lookup_last]).
    destruct Hi as [->|Hi]; [done|]. eapply bf_trans; [by apply before_app|done].
Qed.

Definition used tr x : Prop := exists i, accesses tr i x.

Lemma writes_accesses tr i x : writes tr i x -> accesses tr i x.
Proof using. intros [t H]. exists t. by left. Qed.

Lemma accesses_snoc tr v i x : accesses (tr ++ [v]) i x -> accesses tr i x \/ i = length tr /\ exists t, v = (t, AWrite x) \/ v = (t, ARead x).
Proof using.
  intros (t & Ht). destruct (decide (i < length tr)) as [Hi|Hi].
  - left. exists t. by rewrite lookup_app_l in Ht.
  - right. assert (Ei : i = length tr).
    { assert (i < length (tr ++ [v])) as Hl by (destruct Ht as [H|H]; by eapply lookup_lt_Some). rewrite app_length in Hl. cbn in Hl. lia. }
    split; [done|]. subst i. rewrite lookup_last in Ht. exists t. destruct Ht as [[= ->]|[= ->]]; [by left|by right].
Qed.
Lemma writes_snoc tr v i x : writes (tr ++ [v]) i x -> writes tr i x \/ i = length tr /\ exists t, v = (t, AWrite x).
Proof using.
  intros (t & Ht). destruct (decide (i < length tr)) as [Hi|Hi].
  - left. exists t. by rewrite lookup_app_l in Ht.
  - right. assert (Ei : i = length tr).
    { apply lookup_lt_Some in Ht. rewrite app_length in Ht. cbn in Ht. lia. }
    split; [done|]. subst i. rewrite lookup_last in Ht. exists t. by injection Ht as ->.
Qed.
Lemma accesses_lt tr i x : accesses tr i x -> i < length tr.
Proof using. intros (t & [H|H]); by eapply lookup_lt_Some. Qed.

(** A place is not used yet, or used by one holder only, or only read. *)
Inductive status := Fresh | Owned (h : holder) | Shared.

Record sound tr (o : L -> status) : Prop := {
  sd_own x h : o x = Owned h -> forall i, accesses tr i x -> knows tr h i;
  sd_fresh x : o x = Fresh -> ~ used tr x;
  sd_free : race_free tr }.

(** The holder knows all writes. *)
Definition aware tr h x : Prop := forall i, writes tr i x -> knows tr h i.

(** How the status may change when knowledge is passed on along [f]. *)
Definition moves (f : holder -> holder -> Prop) (s s' : status) : Prop :=
  s' = s \/ s = Fresh \/ match s, s' with Owned h, Owned h' => f h h' | Owned _, Shared => True | _, _ => False end.

Lemma sound_silent tr o o' : (forall x, moves (fun _ _ => False) (o x) (o' x)) -> sound tr o -> sound tr o'.
Proof using.
  intros Hm [I1 I2 I3]. split; [| |done].
  - intros x h Hx i Hi. destruct (Hm x) as [E|[E|E]]; [eapply I1; [by rewrite <- E|done]|destruct (I2 x E); by exists i|]. rewrite Hx in E. by destruct (o x).
  - intros x Hx. destruct (Hm x) as [E|[E|E]]; [apply I2; by rewrite <- E|by apply I2|]. rewrite Hx in E. by destruct (o x).
Qed.

Lemma sound_sync tr t a o o' : (match a with ARead _ | AWrite _ => False | _ => True end) -> (forall x, moves (flow tr t a) (o x) (o' x)) ->
  sound tr o -> sound (tr ++ [(t, a)]) o'.
Proof using.
  intros Ha Hm [I1 I2 I3].
  assert (A : forall i x, accesses (tr ++ [(t, a)]) i x -> accesses tr i x).
  { intros i x Hi. apply accesses_snoc in Hi as [Hi|(_ & u & [[= -> ->]|[= -> ->]])]; done. }
  assert (W : forall i x, writes (tr ++ [(t, a)]) i x -> writes tr i x).
  { intros i x Hi. apply writes_snoc in Hi as [Hi|(_ & u & [= -> ->])]; done. }
  split.
  - intros x h Hx i Hi%A. destruct (Hm x) as [E|[E|E]]; [apply knows_app; eapply I1; [by rewrite <- E|done]|destruct (I2 x E); by exists i|].
    rewrite Hx in E. destruct (o x) as [|h0|] eqn:Eo; try done. eapply knows_flow; [done|by eapply I1].
  - intros x Hx (i & Hi%A). destruct (Hm x) as [E|[E|E]]; [apply (I2 x); [by rewrite <- E|by exists i]|apply (I2 x); [done|by exists i]|]. rewrite Hx in E. by destruct (o x).
  - intros i j x Hij Hi%A Hj%A Hw. apply before_app. eapply I3; [done..|]. destruct Hw as [Hw|Hw]; apply W in Hw; tauto.
Qed.

Lemma sound_write tr t x o : o x = Owned (HT t) -> sound tr o -> sound (tr ++ [(t, AWrite x)]) o.
Proof using.
  intros Ho [I1 I2 I3]. split.
  - intros y h Hy i Hi. apply accesses_snoc in Hi as [Hi|(-> & u & [[= -> ->]|[=]])]; [apply knows_app; by eapply I1|].
    rewrite Hy in Ho. injection Ho as ->. exists (length tr). split; [exists (AWrite y); apply lookup_last|by left].
  - intros y Hy (i & Hi). apply accesses_snoc in Hi as [Hi|(-> & u & [[= -> ->]|[=]])]; [apply (I2 y Hy); by exists i|congruence].
  - intros i j y Hij Hi Hj Hw. pose proof (accesses_lt _ _ _ Hj) as Hl. rewrite app_length in Hl. cbn [length] in Hl.
    apply accesses_snoc in Hi as [Hi|(-> & _)]; [|lia]. apply accesses_snoc in Hj as [Hj|(-> & u & [[= -> ->]|[=]])].
    + apply before_app. eapply I3; [done..|]. destruct Hw as [Hw|Hw]; apply writes_snoc in Hw as [Hw|(-> & _)]; try tauto; [apply accesses_lt in Hi; lia|apply accesses_lt in Hj; lia].
    + apply knows_own. by eapply I1.
Qed.
Lemma sound_read tr t x o : o x = Owned (HT t) \/ o x = Shared /\ aware tr (HT t) x -> sound tr o -> sound (tr ++ [(t, ARead x)]) o.
Proof using.
  intros Ho [I1 I2 I3]. split.
  - intros y h Hy i Hi. apply accesses_snoc in Hi as [Hi|(-> & u & [[=]|[= -> ->]])]; [apply knows_app; by eapply I1|].
    destruct Ho as [Ho|[Ho _]]; [|congruence]. rewrite Hy in Ho. injection Ho as ->. exists (length tr). split; [exists (ARead y); apply lookup_last|by left].
  - intros y Hy (i & Hi). apply accesses_snoc in Hi as [Hi|(-> & u & [[=]|[= -> ->]])]; [apply (I2 y Hy); by exists i|]. destruct Ho as [Ho|[Ho _]]; congruence.
  - intros i j y Hij Hi Hj Hw. pose proof (accesses_lt _ _ _ Hj) as Hl. rewrite app_length in Hl. cbn [length] in Hl.
    apply accesses_snoc in Hi as [Hi|(-> & _)]; [|lia]. apply accesses_snoc in Hj as [Hj|(-> & u & [[=]|[= -> ->]])].
    + apply before_app. eapply I3; [done..|]. destruct Hw as [Hw|Hw]; apply writes_snoc in Hw as [Hw|(-> & _)]; try tauto; [apply accesses_lt in Hi; lia|apply accesses_lt in Hj; lia].
    + apply knows_own. destruct Hw as [Hw|Hw]; [|apply writes_snoc in Hw as [Hw|(_ & ? & [=])]; apply writes_accesses, accesses_lt in Hw; lia].
      apply writes_snoc in Hw as [Hw|(-> & ? & [=])]. destruct Ho as [Ho|[_ Ho]]; [eapply I1; [done|by apply writes_accesses]|by apply Ho].
Qed.

Lemma sound_nil o : sound [] o.
Proof using.
  split.
  - intros x h _ i (t & [H|H]); by rewrite lookup_nil in H.
  - intros x _ (i & t & [H|H]); by rewrite lookup_nil in H.
  - intros i j x _ (t & [H|H]); by rewrite lookup_nil in H.
Qed.

Lemma aware_own tr o h x : sound tr o -> o x = Owned h -> aware tr h x.
Proof using. intros [I1 _ _] Hx i Hi. eapply I1; [done|by apply writes_accesses]. Qed.
Lemma aware_snoc tr t a h x : a <> AWrite x -> aware tr h x -> aware (tr ++ [(t, a)]) h x.
Proof using. intros Ha H i Hi. apply writes_snoc in Hi as [Hi|(_ & u & [= -> ->])]; [apply knows_app; by apply H|done]. Qed.
Lemma aware_flow tr t a h h' x : flow tr t a h h' -> aware tr h x -> aware (tr ++ [(t, a)]) h' x.
Proof using.
  intros Hf H i Hi. apply writes_snoc in Hi as [Hi|(_ & u & [= -> ->])]; [|done]. eapply knows_flow; [done|by apply H].
Qed.
End discipline.
Arguments status : clear implicits.
