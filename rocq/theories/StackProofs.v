(** Proofs for C98. *)
From Verif Require Import Base SpanModel JsonModel CodecModel JsonPure JsonSim JsonFacts JsonSpec JsonText ParseSpec StackModel StackSpec.

(* ---------- the model without limit ---------- *)

Lemma obind_some {A B} (r : option (pres A)) (f : A -> pstate -> option (pres B)) (r' : pres A) (f' : A -> pstate -> pres B) b :
  obind r f = Some b -> (forall a, r = Some a -> r' = a) -> (forall a st c, f a st = Some c -> f' a st = c) -> pbind r' f' = b.
Proof.
  intros H Hr Hf. destruct r as [r|]; [|done]. rewrite (Hr r eq_refl). destruct r; cbn [obind pbind] in *; try (by injection H). by apply Hf.
Qed.
Lemma calm_some {A} (r a : pres A) : calm r = Some a -> r = a.
Proof. by intros [= ->]. Qed.

Lemma skips_agree fuel : forall depth room,
  (forall next st r, skip_in depth room fuel next st = Some r -> skip depth fuel next st = r) /\
  (forall st r, skip_elements_in depth room fuel st = Some r -> skip_elements depth fuel st = r) /\
  (forall st r, skip_members_in depth room fuel st = Some r -> skip_members depth fuel st = r).
Proof.
  induction depth as [|depth IH]; intros room.
  { split; [|split]; intros; cbn in *; by simplify_eq. }
  split; [|split].
  - intros next st r. destruct room as [|room]; [done|]. destruct (IH room) as (IH1 & IH2 & IH3).
    cbn [skip_in skip]. destruct next; try (by intros ?%calm_some).
    + intros H. eapply obind_some; [exact H|by apply calm_some|]. intros ? st' c. apply IH3.
    + intros H. eapply obind_some; [exact H|by apply calm_some|]. intros ? st' c. apply IH2.
  - destruct (IH room) as (IH1 & IH2 & IH3). intros st r. cbn [skip_elements_in skip_elements]. intros H.
    eapply obind_some; [exact H|by apply calm_some|]. clear H. intros next st' c. cbv beta. destruct (decide (next = TArrEnd)); [by apply calm_some|].
    intros H. eapply obind_some; [exact H|apply IH1|]. intros ? st2 c2. apply IH2.
  - destruct (IH room) as (IH1 & IH2 & IH3). intros st r. cbn [skip_members_in skip_members]. intros H.
    eapply obind_some; [exact H|by apply calm_some|]. clear H. intros next st' c. cbv beta. destruct (decide (next = TObjEnd)); [by apply calm_some|].
    intros H. eapply obind_some; [exact H|by apply calm_some|]. clear H. intros ? st2 c2 H.
    eapply obind_some; [exact H|by apply calm_some|]. clear H. intros n3 st3 c3 H.
    eapply obind_some; [exact H|apply IH1|]. intros ? st4 c4. apply IH3.
Qed.

Lemma Skip_agrees room fuel st r : Skip_in room fuel st = Some r -> Skip fuel st = r.
Proof.
  intros H. unfold Skip. eapply obind_some; [exact H|by apply calm_some|]. intros next st' c. apply skips_agree.
Qed.

Lemma op_agrees room fuel o st r : run_op_in room fuel o st = Some r -> run_op fuel o st = r.
Proof.
  destruct o; try (by apply calm_some). cbn [run_op_in run_op]. intros H. eapply obind_some; [exact H|apply Skip_agrees|].
  intros ? st' c. by apply calm_some.
Qed.

Lemma exec_agrees {A} room fuel (p : prog A) : forall st r, exec_in room fuel p st = Some r -> exec fuel p st = r.
Proof.
  induction p as [a|o k IH e|]; intros st r; cbn [exec_in exec]; [by intros [= ->]| |by intros [= ->]].
  destruct (run_op_in room fuel o st) as [q|] eqn:E; [|done]. rewrite (op_agrees _ _ _ _ _ E).
  destruct q; try (by intros [= ->]). apply IH.
Qed.

(* ---------- the parser on plain bytes ---------- *)

Definition kbind {A B} (r : option (qres A)) (f : A -> bytes -> option (qres B)) : option (qres B) :=
  match r with None => None | Some (QOk a l) => f a l | Some QErr => Some QErr | Some QHang => Some QHang | Some QFuel => Some QFuel end.

Fixpoint k_skip (depth room cap : nat) (next : jtype) (l : bytes) {struct depth} : option (qres unit) :=
  match depth with
  | O => Some QFuel
  | S depth =>
      match room with
      | O => None
      | S room =>
          match next with
          | TString => Some (qbind (q_string cap l) (fun _ l => QOk tt l))
          | TNumber => Some (qbind (q_number cap l) (fun _ l => QOk tt l))
          | TBool => Some (qbind (q_boolean l) (fun _ l => QOk tt l))
          | TNull => Some (qbind (q_null l) (fun _ l => QOk tt l))
          | TObjBegin => kbind (Some (q_consume1 TObjBegin l)) (fun _ l => k_skip_members depth room cap l)
          | TArrBegin => kbind (Some (q_consume1 TArrBegin l)) (fun _ l => k_skip_elements depth room cap l)
          | _ => Some QErr
          end
      end
  end
with k_skip_elements (depth room cap : nat) (l : bytes) {struct depth} : option (qres unit) :=
  match depth with
  | O => Some QFuel
  | S depth =>
      kbind (Some (q_next l)) (fun next l =>
      if decide (next = TArrEnd) then Some (q_consume1 TArrEnd l)
      else kbind (k_skip depth room cap next l) (fun _ l => k_skip_elements depth room cap l))
  end
with k_skip_members (depth room cap : nat) (l : bytes) {struct depth} : option (qres unit) :=
  match depth with
  | O => Some QFuel
  | S depth =>
      kbind (Some (q_next l)) (fun next l =>
      if decide (next = TObjEnd) then Some (q_consume1 TObjEnd l)
      else kbind (Some (q_string cap l)) (fun _ l =>
           kbind (Some (q_next l)) (fun next l =>
           kbind (k_skip depth room cap next l) (fun _ l => k_skip_members depth room cap l))))
  end.
Definition k_Skip (depth room cap : nat) (l : bytes) : option (qres unit) :=
  kbind (Some (q_next l)) (fun next l => k_skip depth room cap next l).
Definition k_op (depth room cap : nat) (o : op) (l : bytes) : option (qres token) :=
  match o with
  | OSkip => kbind (k_Skip depth room cap l) (fun _ l => Some (QOk (Token TNull []) l))
  | _ => Some (q_op depth cap o l)
  end.
Fixpoint k_exec {A} (depth room cap : nat) (p : prog A) (l : bytes) : option (yres A) :=
  match p with
  | Ret a => Some (YDone a l)
  | OutOfFuel => Some YFuel
  | Call o k e =>
      match k_op depth room cap o l with
      | None => None
      | Some (QOk t l') => k_exec depth room cap (k t) l'
      | Some QErr => Some (YError e)
      | Some QHang => Some YHang
      | Some QFuel => Some YFuel
      end
  end.

(* ---------- simulation ---------- *)

Definition osim {A} (cap fuel : nat) (P : pstate -> Prop) (m0 : nat) (p : option (pres A)) (q : option (qres A)) : Prop :=
  match p with
  | None => q = None
  | Some p => (exists q', q = Some q' /\ psim cap fuel P m0 p q') \/ (p = PHang /\ (fuel <= m0)%nat)
  end.

Lemma osim_calm {A} cap fuel P m0 (p : pres A) q : psim cap fuel P m0 p q -> osim cap fuel P m0 (calm p) (Some q).
Proof. intros H. left. by exists q. Qed.
Lemma osim_bind {A B} cap fuel P Q m0 (p : option (pres A)) q (f : A -> pstate -> option (pres B)) g :
  osim cap fuel P m0 p q ->
  (forall a st' l', R cap st' l' -> (left st' <= m0)%nat -> P st' -> osim cap fuel Q m0 (f a st') (g a l')) ->
  osim cap fuel Q m0 (obind p f) (kbind q g).
Proof.
  intros H Hf. destruct p as [p|]; cbn [osim] in H; [|by rewrite H].
  destruct H as [(q' & -> & H)|(-> & H)]; [|by right].
  destruct p as [a st'| | |]; cbn [psim] in H.
  - destruct H as (l' & -> & HR & Hm & HP). cbn [obind kbind]. by apply Hf.
  - subst q'. left. by exists QErr.
  - done.
  - destruct H as [->|[->|H]]; cbn [obind kbind]; [left; exists QHang; cbn; auto|left; exists QFuel; cbn; auto|by right].
Qed.
Lemma osim_weaken {A} cap fuel P m0 m1 (p : option (pres A)) q : (m0 <= m1)%nat -> osim cap fuel P m0 p q -> osim cap fuel P m1 p q.
Proof.
  intros Hm H. destruct p as [p|]; [|done]. destruct H as [(q' & -> & H)|(-> & H)].
  - left. exists q'. split; [done|]. by eapply psim_weaken.
  - right. split; [done|lia].
Qed.

Lemma k_skips_sim cap fuel : (5 <= cap)%nat -> forall depth room,
  (forall next st l, R cap st l -> ready st -> osim cap fuel any (left st) (skip_in depth room fuel next st) (k_skip depth room cap next l)) /\
  (forall st l, R cap st l -> osim cap fuel any (left st) (skip_elements_in depth room fuel st) (k_skip_elements depth room cap l)) /\
  (forall st l, R cap st l -> osim cap fuel any (left st) (skip_members_in depth room fuel st) (k_skip_members depth room cap l)).
Proof.
  intros Hcap. assert (Hc0 : (0 < cap)%nat) by lia. induction depth as [|depth IH]; intros room.
  { split; [|split]; intros; left; exists QFuel; cbn; auto. }
  split; [|split].
  - intros next st l HR Hr. cbn [skip_in k_skip]. destruct room as [|room]; [done|]. destruct (IH room) as (IH1 & IH2 & IH3).
    destruct next; try (by apply osim_calm).
    + apply osim_calm. eapply psim_bind; [by apply null_sim|]. intros ? st1 l1 HR1 Hm1 _. cbn. eexists. split; [done|]. done.
    + eapply osim_bind; [by apply osim_calm, consume1_sim|]. intros ? st1 l1 HR1 Hm1 _. eapply osim_weaken; [exact Hm1|]. by apply IH3.
    + eapply osim_bind; [by apply osim_calm, consume1_sim|]. intros ? st1 l1 HR1 Hm1 _. eapply osim_weaken; [exact Hm1|]. by apply IH2.
    + apply osim_calm. eapply psim_bind; [by apply boolean_sim|]. intros ? st1 l1 HR1 Hm1 _. cbn. eexists. split; [done|]. done.
    + apply osim_calm. eapply psim_bind; [by apply number_sim|]. intros ? st1 l1 HR1 Hm1 _. cbn. eexists. split; [done|]. done.
    + apply osim_calm. eapply psim_bind; [by apply string_sim|]. intros ? st1 l1 HR1 Hm1 _. cbn. eexists. split; [done|]. done.
  - destruct (IH room) as (IH1 & IH2 & IH3). intros st l HR. cbn [skip_elements_in k_skip_elements]. eapply osim_bind; [by apply osim_calm, next_sim|].
    intros ty st1 l1 HR1 Hm1 Hr1. cbv beta. destruct (decide (ty = TArrEnd)).
    + eapply osim_weaken; [exact Hm1|]. by apply osim_calm, consume1_sim.
    + eapply osim_bind; [eapply osim_weaken; [exact Hm1|]; by apply IH1|].
      intros ? st2 l2 HR2 Hm2 _. eapply osim_weaken; [exact Hm2|]. by apply IH2.
  - destruct (IH room) as (IH1 & IH2 & IH3). intros st l HR. cbn [skip_members_in k_skip_members]. eapply osim_bind; [by apply osim_calm, next_sim|].
    intros ty st1 l1 HR1 Hm1 Hr1. cbv beta. destruct (decide (ty = TObjEnd)).
    + eapply osim_weaken; [exact Hm1|]. by apply osim_calm, consume1_sim.
    + eapply osim_bind; [eapply osim_weaken; [exact Hm1|]; by apply osim_calm, string_sim|].
      intros ? st2 l2 HR2 Hm2 _. eapply osim_bind; [eapply osim_weaken; [exact Hm2|]; by apply osim_calm, next_sim|].
      intros ? st3 l3 HR3 Hm3 Hr3. eapply osim_bind; [eapply osim_weaken; [exact Hm3|]; by apply IH1|].
      intros ? st4 l4 HR4 Hm4 _. eapply osim_weaken; [exact Hm4|]. by apply IH3.
Qed.

Lemma k_Skip_sim cap room fuel st l : (5 <= cap)%nat -> R cap st l -> osim cap fuel any (left st) (Skip_in room fuel st) (k_Skip fuel room cap l).
Proof.
  intros Hcap HR. unfold Skip_in, k_Skip. eapply osim_bind; [apply osim_calm, next_sim; [lia|done]|]. intros ? st1 l1 HR1 Hm1 Hr1.
  eapply osim_weaken; [exact Hm1|]. by apply k_skips_sim.
Qed.

Lemma k_op_sim cap room fuel o st l : (5 <= cap)%nat -> R cap st l -> osim cap fuel any (left st) (run_op_in room fuel o st) (k_op fuel room cap o l).
Proof.
  intros Hcap HR. destruct o; try (by apply osim_calm, op_sim). cbn [run_op_in k_op].
  eapply osim_bind; [by apply k_Skip_sim|]. intros ? st1 l1 HR1 Hm1 _. apply osim_calm. cbn. eexists. split; [done|]. done.
Qed.

(** The overflow is the same, unless the bound of the loops is too small. *)
Lemma k_exec_sim {A} cap room fuel (p : prog A) : (5 <= cap)%nat -> forall st l, R cap st l ->
  match exec_in room fuel p st with
  | None => k_exec fuel room cap p l = None
  | Some _ => k_exec fuel room cap p l <> None \/ (fuel <= left st)%nat
  end.
Proof.
  intros Hcap. induction p as [a|o k IH e|]; intros st l HR; cbn [exec_in k_exec]; [by left| |by left].
  pose proof (k_op_sim cap room fuel o st l Hcap HR) as H. destruct (run_op_in room fuel o st) as [p|]; cbn [osim] in H; [|by rewrite H].
  destruct H as [(q & -> & H)|(-> & H)]; [|by right]. destruct p as [t st'| | |]; cbn [psim] in H.
  - destruct H as (l' & -> & HR' & Hm & _). specialize (IH t st' l' HR'). destruct (exec_in room fuel (k t) st'); [|done].
    destruct IH as [?|?]; [by left|]. right. lia.
  - subst q. by left.
  - done.
  - destruct H as [->|[->|?]]; auto.
Qed.

(* ---------- brackets ---------- *)

Lemma opens_cons b l : opens (b :: l) = ((if opening b then 1 else 0) + opens l)%nat.
Proof. unfold opens. cbn [List.filter]. by destruct (opening b). Qed.
Lemma opens_app l l' : opens (l ++ l') = (opens l + opens l')%nat.
Proof. unfold opens. by rewrite List.filter_app, app_length. Qed.
Lemma opens_suffix l l' : l' `suffix_of` l -> (opens l' <= opens l)%nat.
Proof. intros (k & ->). rewrite opens_app. lia. Qed.

Definition part {A} (l : bytes) (q : qres A) : Prop := match q with QOk _ l' => l' `suffix_of` l | _ => True end.
Lemma part_bind {A B} l (q : qres A) (f : A -> bytes -> qres B) :
  part l q -> (forall a l', l' `suffix_of` l -> part l' (f a l')) -> part l (qbind q f).
Proof.
  intros H Hf. destruct q as [a l'| | |]; cbn [qbind part] in *; try done. specialize (Hf a l' H). destruct (f a l'); cbn [part] in *; try done. by etransitivity.
Qed.
Lemma suffix_drop' {A} (l : list A) n : drop n l `suffix_of` l.
Proof. exists (take n l). by rewrite take_drop. Qed.
Lemma part_space l : part l (q_space l).
Proof.
  unfold q_space. assert (H : drop_space l `suffix_of` l).
  { induction l as [|b l IH]; [done|]. cbn [drop_space]. destruct (is_space b); [|done]. etransitivity; [exact IH|]. by apply suffix_cons_r. }
  destruct (drop_space l); done.
Qed.
Lemma part_current l : part l (q_current l).
Proof. destruct l; [done|]. cbn [part q_current]. reflexivity. Qed.
Lemma part_next l : part l (q_next l).
Proof.
  unfold q_next. apply part_bind; [apply part_space|]. intros _ l1 H1. apply part_bind; [apply part_current|]. intros b l2 H2. destruct (symbol b); try done; cbn [part]; reflexivity.
Qed.
Lemma part_consume1 ty l : part l (q_consume1 ty l).
Proof. destruct l as [|b l]; [done|]. cbn [q_consume1]. destruct (decide _); [|done]. by apply suffix_cons_r. Qed.
Lemma part_string cap l : part l (q_string cap l).
Proof.
  destruct l as [|b l]; [done|]. cbn [q_string]. destruct (negb _); [done|]. unfold q_string_body. destruct (close _ _ _ _) as [[n has]|].
  - destruct (_ <? _)%nat; [|done]. assert (H : drop (n + 1) l `suffix_of` b :: l) by (etransitivity; [apply suffix_drop'|by apply suffix_cons_r]).
    destruct has; [|done]. by destruct (unescape _).
  - by destruct (_ <=? _)%nat.
Qed.
Lemma part_number cap l : part l (q_number cap l).
Proof.
  destruct l as [|b l]; [done|]. cbn [q_number]. destruct (negb _); [done|]. destruct (number_end _ _) as [n|].
  - destruct (_ <? _)%nat; [|done]. apply suffix_drop'.
  - by destruct (_ <=? _)%nat.
Qed.
Lemma part_read_n l ty first n : part l (q_read_n l ty first n).
Proof. unfold q_read_n. destruct (_ <=? _)%nat; [|done]. destruct l as [|b l]; [done|]. destruct (negb _); [done|]. apply suffix_drop'. Qed.
Lemma part_boolean l : part l (q_boolean l).
Proof. unfold q_boolean. apply part_bind; [apply part_current|]. intros b l1 H1. destruct (b =? 116); apply part_read_n. Qed.
Lemma part_literal cap l : part l (q_literal cap l).
Proof.
  unfold q_literal. apply part_bind; [apply part_next|]. intros t l1 H1.
  destruct t; try done; [apply part_read_n|apply part_boolean|apply part_number|apply part_string].
Qed.

Definition kpart {A} (l : bytes) (q : option (qres A)) : Prop := exists q', q = Some q' /\ part l q'.
Lemma kpart_some {A} l (q : qres A) : part l q -> kpart l (Some q).
Proof. by exists q. Qed.
Lemma kpart_bind {A B} l (q : option (qres A)) (f : A -> bytes -> option (qres B)) :
  kpart l q -> (forall a l', l' `suffix_of` l -> kpart l' (f a l')) -> kpart l (kbind q f).
Proof.
  intros (q' & -> & H) Hf. destruct q' as [a l'| | |]; cbn [kbind]; try (by eexists). cbn [part] in H.
  destruct (Hf a l' H) as (r & -> & Hr). exists r. split; [done|]. destruct r; cbn [part] in *; try done. by etransitivity.
Qed.
Lemma part_unit {A} l (q : qres A) : part l q -> part l (qbind q (fun _ l => QOk tt l)).
Proof. intros H. apply part_bind; [done|]. intros a l' _. cbn [part]. reflexivity. Qed.

Lemma symbol_opening b : symbol b = TObjBegin \/ symbol b = TArrBegin -> opening b = true.
Proof.
  unfold symbol, opening. intros H. repeat (case_match; [destruct H as [H|H]; try discriminate H|]).
  all: try (zlia). all: try (destruct H; discriminate).
Qed.

Lemma enough cap : forall depth room,
  (forall next l, (opens l < room)%nat -> kpart l (k_skip depth room cap next l)) /\
  (forall l, (opens l < room)%nat -> kpart l (k_skip_elements depth room cap l)) /\
  (forall l, (opens l < room)%nat -> kpart l (k_skip_members depth room cap l)).
Proof.
  induction depth as [|depth IH]; intros room.
  { split; [|split]; intros; by eexists. }
  assert (Hmono : forall l l', l' `suffix_of` l -> (opens l < room)%nat -> (opens l' < room)%nat).
  { intros l l' H%opens_suffix. lia. }
  split; [|split].
  - intros next l Hl. destruct room as [|room]; [lia|]. cbn [k_skip].
    assert (Hc : forall ty (f : bytes -> option (qres unit)), ty = TObjBegin \/ ty = TArrBegin ->
      (forall l, (opens l < room)%nat -> kpart l (f l)) -> kpart l (kbind (Some (q_consume1 ty l)) (fun _ l => f l))).
    { intros ty f Hty Hf. destruct l as [|b l]; [by eexists|]. cbn [q_consume1]. destruct (decide (symbol b = ty)) as [E|]; [|by eexists].
      cbn [kbind]. rewrite opens_cons, symbol_opening in Hl by (rewrite E; tauto). destruct (Hf l) as (r & -> & Hr); [lia|].
      exists r. split; [done|]. destruct r; cbn [part] in *; try done. etransitivity; [exact Hr|]. by apply suffix_cons_r. }
    destruct (IH room) as (IH1 & IH2 & IH3).
    destruct next; try (by eexists); try (by apply Hc; auto); apply kpart_some, part_unit;
      [apply part_read_n|apply part_boolean|apply part_number|apply part_string].
  - destruct (IH room) as (IH1 & IH2 & IH3). intros l Hl. cbn [k_skip_elements]. apply kpart_bind; [apply kpart_some, part_next|].
    intros t l1 H1. destruct (decide _); [apply kpart_some, part_consume1|]. apply kpart_bind; [apply IH1; eauto|]. intros _ l2 H2. apply IH2; eauto.
  - destruct (IH room) as (IH1 & IH2 & IH3). intros l Hl. cbn [k_skip_members]. apply kpart_bind; [apply kpart_some, part_next|].
    intros t l1 H1. destruct (decide _); [apply kpart_some, part_consume1|]. apply kpart_bind; [apply kpart_some, part_string|].
    intros _ l2 H2. apply kpart_bind; [apply kpart_some, part_next|]. intros t3 l3 H3.
    apply kpart_bind; [apply IH1; eauto|]. intros _ l4 H4. apply IH3; eauto 6.
Qed.

Lemma enough_Skip depth room cap l : (opens l < room)%nat -> kpart l (k_Skip depth room cap l).
Proof.
  intros H. unfold k_Skip. apply kpart_bind; [apply kpart_some, part_next|]. intros t l1 H1%opens_suffix. apply enough. lia.
Qed.
Lemma enough_op depth room cap o l : (opens l < room)%nat -> kpart l (k_op depth room cap o l).
Proof.
  intros H. assert (Hu : forall q : qres unit, part l q -> part l (qbind q (fun _ l => QOk (Token TNull []) l))).
  { intros q Hq. apply part_bind; [done|]. intros a l' _. cbn [part]. reflexivity. }
  assert (Hc : forall ty, part l (q_consume ty l)).
  { intros ty. unfold q_consume. apply part_bind; [apply part_space|]. intros _ l1 _. apply part_consume1. }
  destruct o; cbn [k_op q_op]; try apply kpart_some; auto.
  - apply part_bind; [apply part_next|]. intros a l' _. cbn [part]. reflexivity.
  - apply part_bind; [apply part_space|]. intros _ l1 _. apply part_string.
  - apply part_bind; [apply part_space|]. intros _ l1 _. apply part_number.
  - apply part_literal.
  - apply kpart_bind; [by apply enough_Skip|]. intros _ l1 _. apply kpart_some. cbn [part]. reflexivity.
Qed.
Lemma enough_exec {A} depth room cap (p : prog A) : forall l, (opens l < room)%nat -> k_exec depth room cap p l <> None.
Proof.
  induction p as [a|o k IH e|]; intros l Hl; cbn [k_exec]; [done| |done].
  destruct (enough_op depth room cap o l Hl) as (q & -> & Hq). destruct q as [t l'| | |]; try done. apply IH. cbn [part] in Hq. apply opens_suffix in Hq. lia.
Qed.

(** Enough room for all brackets is enough. *)
Lemma exec_enough {A} room fuel (p : prog A) buf chunks e : (5 <= length buf)%nat -> no_eager_error e -> (opens (concat chunks) < room)%nat ->
  exec_in room fuel p (new_parser (Src chunks e) buf) = Some (exec fuel p (new_parser (Src chunks e) buf)).
Proof.
  intros Hb He Ho. pose proof (k_exec_sim (length buf) room fuel p Hb _ _ (R_new (length buf) chunks e buf eq_refl He)) as H.
  pose proof (enough_exec fuel room (length buf) p _ Ho) as Hn. destruct (exec_in room fuel p _) as [r|] eqn:E; [|done].
  by rewrite (exec_agrees _ _ _ _ _ E).
Qed.
Lemma v2_enough room fuel buf chunks e : (5 <= length buf)%nat -> no_eager_error e -> (opens (concat chunks) < room)%nat ->
  ParseJsonV2_in room fuel buf (Src chunks e) = Some (ParseJsonV2 fuel buf (Src chunks e)).
Proof. intros. unfold ParseJsonV2_in. by rewrite exec_enough. Qed.
Lemma v1_enough room fuel buf pool chunks e : (5 <= length buf)%nat -> no_eager_error e -> (opens (concat chunks) < room)%nat ->
  ParseJsonV1_in room fuel buf pool (Src chunks e) = Some (ParseJsonV1 fuel buf pool (Src chunks e)).
Proof. intros. unfold ParseJsonV1_in. by rewrite exec_enough. Qed.

Lemma v2_agrees room fuel buf src r : ParseJsonV2_in room fuel buf src = Some r -> ParseJsonV2 fuel buf src = r.
Proof.
  unfold ParseJsonV2_in, ParseJsonV2. destruct (exec_in _ _ _ _) as [x|] eqn:E; [|done]. intros [= <-]. by rewrite (exec_agrees _ _ _ _ _ E).
Qed.
Lemma v1_agrees room fuel buf pool src r : ParseJsonV1_in room fuel buf pool src = Some r -> ParseJsonV1 fuel buf pool src = r.
Proof.
  unfold ParseJsonV1_in, ParseJsonV1. destruct (exec_in _ _ _ _) as [x|] eqn:E; [|done]. intros [= <-]. by rewrite (exec_agrees _ _ _ _ _ E).
Qed.

(* ---------- nested values ---------- *)

Definition heights (vs : list json) : nat := foldr Nat.max 0%nat (map height vs).
Definition heights_m (ms : list (bytes * json)) : nat := foldr Nat.max 0%nat (map (fun m => height m.2) ms).
Definition upto (n room : nat) (rest : bytes) : option (qres unit) := if (n <=? room)%nat then Some (QOk tt rest) else None.
Lemma upto_S n room rest : upto (S n) (S room) rest = upto n room rest.
Proof. done. Qed.

Lemma k_skip_text cap m : (m <= cap)%nat ->
  (forall v l, loose m v l -> forall depth room rest, (2 * length l < depth)%nat -> delimited v rest ->
     k_skip depth room cap (kind v) (l ++ rest) = upto (height v) room rest) /\
  (forall vs l, loose_elements m vs l -> forall depth room rest, (2 * length l + 1 < depth)%nat ->
     k_skip_elements depth room cap (l ++ 93 :: rest) = upto (heights vs) room rest) /\
  (forall ms l, loose_members m ms l -> forall depth room rest, (2 * length l + 1 < depth)%nat ->
     k_skip_members depth room cap (l ++ 125 :: rest) = upto (heights_m ms) room rest).
Proof.
  intros Hm. apply loose_mutind.
  - intros depth room rest Hd Hv. destruct depth; [lia|]. destruct room; done.
  - intros depth room rest Hd Hv. destruct depth; [lia|]. destruct room; done.
  - intros depth room rest Hd Hv. destruct depth; [lia|]. destruct room; done.
  - intros l w depth room rest Hd Hv. destruct depth; [lia|]. destruct room; [done|].
    pose proof (q_word_text l rest w) as E. destruct w as [(c & l' & -> & [->| ->] & Hl)|(l' & -> & Hl)]; cbn [k_skip kind]; by rewrite E.
  - intros l Hn Hl depth room rest Hd Hv. destruct depth; [lia|]. destruct room; [done|]. cbn [k_skip kind]. rewrite q_number_text by (done || lia). done.
  - intros raw s Hs Hl depth room rest Hd Hv. destruct depth; [lia|]. destruct room; [done|]. cbn [k_skip kind app]. rewrite <- app_assoc. cbn [app].
    rewrite (q_string_text cap raw s) by (done || lia). done.
  - intros vs l _ IH depth room rest Hd Hv. destruct depth as [|depth]; [lia|]. cbn [length] in *. rewrite app_length in *. destruct room as [|room]; [done|].
    cbn [k_skip kind app q_consume1 kbind]. rewrite decide_True by done. cbn [kbind]. rewrite <- app_assoc. cbn [app]. rewrite IH by (cbn in *; lia). done.
  - intros ms l _ IH depth room rest Hd Hv. destruct depth as [|depth]; [lia|]. cbn [length] in *. rewrite app_length in *. destruct room as [|room]; [done|].
    cbn [k_skip kind app q_consume1 kbind]. rewrite decide_True by done. cbn [kbind]. rewrite <- app_assoc. cbn [app]. rewrite IH by (cbn in *; lia). done.
  - intros w Hw depth room rest Hd. destruct depth; [lia|]. cbn [k_skip_elements]. rewrite q_next_char by (try done; by apply ws_sep). done.
  - intros w v l vs l' Hw Hl IH1 Hv _ IH2 depth room rest Hd. destruct depth as [|depth]; [lia|]. rewrite !app_length in *. rewrite <- !app_assoc. cbn [k_skip_elements].
    erewrite q_next_text; [|eassumption|by apply ws_sep]. cbn [kbind]. destruct (kind_not_end v). rewrite decide_False by done.
    destruct (text_head _ _ _ Hl) as (? & ? & -> & _). cbn [length] in *.
    rewrite IH1; [|lia|by apply delimited_prefix]. change (heights (v :: vs)) with (Nat.max (height v) (heights vs)). unfold upto.
    destruct (Nat.leb_spec (height v) room).
    + cbn [kbind]. rewrite IH2 by lia. unfold upto. destruct (Nat.leb_spec (heights vs) room), (Nat.leb_spec (Nat.max (height v) (heights vs)) room); (done || lia).
    + cbn [kbind]. destruct (Nat.leb_spec (Nat.max (height v) (heights vs)) room); [lia|done].
  - intros w Hw depth room rest Hd. destruct depth; [lia|]. cbn [k_skip_members]. rewrite q_next_char by (try done; by apply ws_sep). done.
  - intros w raw k w' v l ms l' Hw Hs Hr Hw' Hl IH1 Hv _ IH2 depth room rest Hd. destruct depth as [|depth]; [lia|]. lens. cbn [k_skip_members]. rewrite <- app_assoc. cbn [app].
    rewrite q_next_char by (try done; by apply ws_sep).
    cbn [kbind]. rewrite decide_False by done. rewrite <- app_assoc. cbn [app]. rewrite (q_string_text cap raw k) by (done || lia). cbn [kbind].
    rewrite <- !app_assoc. erewrite q_next_text; [|eassumption|by apply ws_sep]. cbn [kbind].
    rewrite IH1; [|lia|by apply delimited_prefix]. change (heights_m ((k, v) :: ms)) with (Nat.max (height v) (heights_m ms)). unfold upto.
    destruct (Nat.leb_spec (height v) room).
    + cbn [kbind]. rewrite IH2 by lia. unfold upto. destruct (Nat.leb_spec (heights_m ms) room), (Nat.leb_spec (Nat.max (height v) (heights_m ms)) room); (done || lia).
    + cbn [kbind]. destruct (Nat.leb_spec (Nat.max (height v) (heights_m ms)) room); [lia|done].
Qed.

(** Skipping needs one open call for every level of the value. *)
Lemma Skip_height room fuel buf chunks e w v l rest : concat chunks = w ++ l ++ rest -> ws w -> loose (length buf) v l -> delimited v rest ->
  (5 <= length buf)%nat -> no_eager_error e -> (length chunks + length (concat chunks) < fuel)%nat -> (2 * length l < fuel)%nat ->
  let st := new_parser (Src chunks e) buf in
  Skip_in room fuel st = if (height v <=? room)%nat then Some (Skip fuel st) else None.
Proof.
  intros Hc Hw Hl Hv Hb He Hf1 Hf2 st. pose proof (R_new (length buf) chunks e buf eq_refl He) as HR.
  pose proof (k_Skip_sim (length buf) room fuel st _ Hb HR) as H. rewrite Hc in H. unfold k_Skip in H.
  erewrite q_next_text in H; [|exact Hl|by apply ws_sep]. cbn [kbind] in H.
  rewrite (proj1 (k_skip_text (length buf) (length buf) (le_n _)) v l Hl fuel room rest Hf2 Hv) in H. unfold upto in H.
  destruct (Nat.leb_spec (height v) room).
  - destruct (Skip_in room fuel st) as [r|] eqn:E; [|done]. by rewrite (Skip_agrees _ _ _ _ E).
  - destruct (Skip_in room fuel st) as [r|] eqn:E; [|done]. exfalso. destruct H as [(q & ? & _)|(_ & H)]; [done|].
    unfold left, st, new_parser in H. cbn [p_src r_chunks] in H. lia.
Qed.

(* ---------- brackets without end ---------- *)

Lemma k_brackets cap : forall room depth, (2 * room < depth)%nat -> k_skip depth room cap TArrBegin (replicate (S room) 91) = None.
Proof.
  induction room as [|room IH]; intros depth Hd; (destruct depth as [|depth]; [lia|]); [done|]. cbn [replicate k_skip q_consume1].
  rewrite decide_True by done. cbn [kbind]. destruct depth as [|depth]; [lia|]. cbn [k_skip_elements].
  assert (E : q_next (91 :: replicate room 91) = QOk TArrBegin (91 :: replicate room 91)) by (apply (q_next_char [] 91); (done || constructor)).
  rewrite E. cbn [kbind]. rewrite decide_False by done. change (91 :: replicate room 91) with (replicate (S room) 91). rewrite IH by lia. done.
Qed.

Lemma k_Brackets cap room depth : (2 * room < depth)%nat -> k_Skip depth room cap (58 :: replicate (S room) 91) = None.
Proof.
  intros H. unfold k_Skip. assert (E : q_next (58 :: replicate (S room) 91) = QOk TArrBegin (replicate (S room) 91)).
  { apply (q_next_char [58] 91); try done. by apply ws_sep, Forall_cons_2; [lia|constructor]. }
  rewrite E. cbn [kbind]. by apply k_brackets.
Qed.
Lemma k_call {A} depth room cap o (k : token -> prog A) e l t l' : k_op depth room cap o l = Some (QOk t l') ->
  k_exec depth room cap (Call o k e) l = k_exec depth room cap (k t) l'.
Proof. intros E. cbn [k_exec]. by rewrite E. Qed.
Lemma k_key depth room cap l : (5 <= cap)%nat -> k_op depth room cap OString (34 :: 120 :: 34 :: 58 :: l) = Some (QOk (Token TString (str "x")) (58 :: l)).
Proof. intros H. destruct cap as [|[|cap]]; [lia|lia|]. reflexivity. Qed.
Lemma k_unknown {T} (zero : T) (f : T -> T) fields s room depth fuel cap : (5 <= cap)%nat -> (2 * room < depth)%nat -> (0 < fuel)%nat -> lookup_field fields (str "x") = None ->
  k_exec depth room cap (slice_decoder zero (fun t => struct_decoder fields fuel (f t)) fuel s) (brackets (S room)) = None.
Proof.
  intros Hc Hd Hf Hx. destruct fuel as [|fuel]; [lia|]. unfold slice_decoder. cbn [slice_loop].
  erewrite k_call; [|reflexivity]. erewrite k_call; [|reflexivity]. cbn [t_type]. rewrite decide_False by done.
  unfold struct_decoder. cbn [pthen struct_loop]. erewrite k_call; [|reflexivity]. cbn [pthen]. erewrite k_call; [|reflexivity]. cbn [t_type]. rewrite decide_False by done.
  cbn [pthen].
  erewrite k_call; [|by apply (k_key _ _ _ (replicate (S room) 91))].
  cbn [t_val]. rewrite Hx. cbn [pthen k_exec]. cbn [k_op]. by rewrite k_Brackets.
Qed.

Lemma v2_overflow room fuel buf chunks e : concat chunks = brackets (S room) -> (5 <= length buf)%nat -> no_eager_error e ->
  (length chunks + length (concat chunks) < fuel)%nat -> (2 * room < fuel)%nat -> ParseJsonV2_in room fuel buf (Src chunks e) = None.
Proof.
  intros Hch Hb He Hf1 Hf2. pose proof (k_exec_sim (length buf) room fuel (parse_v2_prog fuel) Hb _ _ (R_new (length buf) chunks e buf eq_refl He)) as H.
  rewrite Hch in H. unfold parse_v2_prog at 2 3 in H. unfold span_v2_decoder in H. rewrite (k_unknown zero_v2 (fun _ => zero_v2)) in H by (done || lia).
  unfold ParseJsonV2_in. destruct (exec_in room fuel (parse_v2_prog fuel) _) as [r|]; [|done]. destruct H as [?|H]; [done|].
  unfold left, new_parser in H. cbn [p_src r_chunks] in H. lia.
Qed.
Lemma v1_overflow room fuel buf pool chunks e : concat chunks = brackets (S room) -> (5 <= length buf)%nat -> no_eager_error e ->
  (length chunks + length (concat chunks) < fuel)%nat -> (2 * room < fuel)%nat -> ParseJsonV1_in room fuel buf pool (Src chunks e) = None.
Proof.
  intros Hch Hb He Hf1 Hf2. pose proof (k_exec_sim (length buf) room fuel (parse_v1_prog fuel pool) Hb _ _ (R_new (length buf) chunks e buf eq_refl He)) as H.
  rewrite Hch in H. unfold parse_v1_prog at 2 3 in H. unfold span_v1_decoder in H. rewrite (k_unknown zero_v1 reset_v1) in H by (done || lia).
  unfold ParseJsonV1_in. destruct (exec_in room fuel (parse_v1_prog fuel pool) _) as [r|]; [|done]. destruct H as [?|H]; [done|].
  unfold left, new_parser in H. cbn [p_src r_chunks] in H. lia.
Qed.
