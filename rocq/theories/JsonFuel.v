(** Results of the list parser do not depend on the fuel, once it does not run out. *)
From Verif Require Import Base IdModel SpanModel JsonModel CodecModel JsonPure JsonSim JsonFacts.

Lemma qbind_fuel {A B} (q q' : qres A) (f f' : A -> bytes -> qres B) :
  (q <> QFuel -> q' = q) -> (forall a l, q = QOk a l -> f a l <> QFuel -> f' a l = f a l) -> qbind q f <> QFuel -> qbind q' f' = qbind q f.
Proof.
  intros H1 H2 Hb. destruct q as [a l| | |]; cbn [qbind] in *; try done; rewrite H1 by done; cbn [qbind]; auto.
Qed.

Lemma q_skips_mono cap : forall depth depth', (depth <= depth')%nat ->
  (forall next l, q_skip depth cap next l <> QFuel -> q_skip depth' cap next l = q_skip depth cap next l) /\
  (forall l, q_skip_elements depth cap l <> QFuel -> q_skip_elements depth' cap l = q_skip_elements depth cap l) /\
  (forall l, q_skip_members depth cap l <> QFuel -> q_skip_members depth' cap l = q_skip_members depth cap l).
Proof.
  induction depth as [|depth IH]; [done|]. intros [|depth'] Hd; [lia|].
  destruct (IH depth' ltac:(lia)) as (IH1 & IH2 & IH3). split; [|split].
  - intros next l. cbn [q_skip]. destruct next; try done; apply qbind_fuel; auto.
  - intros l. cbn [q_skip_elements]. apply qbind_fuel; [done|]. intros ty l1 _. destruct (decide _); [done|]. apply qbind_fuel; auto.
  - intros l. cbn [q_skip_members]. apply qbind_fuel; [done|]. intros ty l1 _. destruct (decide _); [done|].
    apply qbind_fuel; [done|]. intros tk l2 _. apply qbind_fuel; [done|]. intros ty2 l3 _. apply qbind_fuel; auto.
Qed.

Lemma q_op_mono depth depth' cap o l : (depth <= depth')%nat -> q_op depth cap o l <> QFuel -> q_op depth' cap o l = q_op depth cap o l.
Proof.
  intros Hd. destruct o; cbn [q_op]; try done.
  apply qbind_fuel; [|done]. unfold q_Skip. apply qbind_fuel; [done|]. intros ty l1 _. by apply q_skips_mono.
Qed.

Inductive ple {A} : prog A -> prog A -> Prop :=
  | ple_fuel p : ple OutOfFuel p
  | ple_ret a : ple (Ret a) (Ret a)
  | ple_call o k k' e : (forall t, ple (k t) (k' t)) -> ple (Call o k e) (Call o k' e).

Lemma ple_refl {A} (p : prog A) : ple p p.
Proof. induction p; constructor; auto. Qed.

Lemma q_exec_mono {A} depth depth' cap (p p' : prog A) : (depth <= depth')%nat -> ple p p' -> forall l,
  q_exec depth cap p l <> YFuel -> q_exec depth' cap p' l = q_exec depth cap p l.
Proof.
  intros Hd. induction 1 as [p|a|o k k' e Hk IH]; intros l; cbn [q_exec]; try done.
  intros H. rewrite (q_op_mono depth depth') by (try done; by destruct (q_op depth cap o l)).
  destruct (q_op depth cap o l); try done. by apply IH.
Qed.

Lemma ple_pthen {A B} (p p' : prog (A * bool)) (f : A -> B) k k' :
  ple p p' -> (forall a, ple (k a) (k' a)) -> ple (pthen p f k) (pthen p' f k').
Proof.
  intros Hp Hk. induction Hp as [p|[a []]|o c c' [a b] Hc IH]; cbn [pthen]; try by constructor. auto.
Qed.

Lemma ple_map_loop target : forall n n' r, (n <= n')%nat -> ple (map_loop n target r) (map_loop n' target r).
Proof.
  induction n as [|n IH]; intros n' r Hn; [constructor|]. destruct n' as [|n']; [lia|]. cbn [map_loop]. constructor. intros next.
  destruct (decide _); [apply ple_refl|]. apply ple_pthen; [apply ple_refl|]. intros key. apply ple_pthen; [apply ple_refl|].
  intros v. apply IH. lia.
Qed.

Definition ple_fields {T} (fs fs' : list (gostring * decoder T)) : Prop :=
  Forall2 (fun a b => a.1 = b.1 /\ forall t, ple (a.2 t) (b.2 t)) fs fs'.

Lemma ple_lookup {T} (fs fs' : list (gostring * decoder T)) name : ple_fields fs fs' ->
  match lookup_field fs name, lookup_field fs' name with
  | Some d, Some d' => forall t, ple (d t) (d' t)
  | None, None => True
  | _, _ => False
  end.
Proof.
  induction 1 as [|[n d] [n' d'] fs fs' [E Hd] H IH]; cbn [lookup_field]; [done|]. cbn in E, Hd. subst n'.
  by destruct (decide (n = name)).
Qed.

Lemma ple_struct_loop {T} (fs fs' : list (gostring * decoder T)) : ple_fields fs fs' ->
  forall n n' t, (n <= n')%nat -> ple (struct_loop fs n t) (struct_loop fs' n' t).
Proof.
  intros Hf. induction n as [|n IH]; intros n' t Hn; [constructor|]. destruct n' as [|n']; [lia|]. cbn [struct_loop]. constructor. intros next.
  destruct (decide _); [apply ple_refl|]. constructor. intros key. pose proof (ple_lookup fs fs' (t_val key) Hf) as H.
  destruct (lookup_field fs (t_val key)), (lookup_field fs' (t_val key)); try done.
  - apply ple_pthen; [done|]. intros a. apply IH. lia.
  - constructor. intros _. apply IH. lia.
Qed.

Lemma ple_struct {T} (fs fs' : list (gostring * decoder T)) n n' t : ple_fields fs fs' -> (n <= n')%nat ->
  ple (struct_decoder fs n t) (struct_decoder fs' n' t).
Proof. intros Hf Hn. constructor. intros _. by apply ple_struct_loop. Qed.

Lemma ple_slice {T} (zero : T) d d' n n' t : (forall t, ple (d t) (d' t)) -> (n <= n')%nat ->
  ple (slice_decoder zero d n t) (slice_decoder zero d' n' t).
Proof.
  intros Hd Hn. constructor. intros _. generalize 0%nat. revert n' t Hn. induction n as [|n IH]; intros n' t Hn idx; [constructor|].
  destruct n' as [|n']; [lia|]. cbn [slice_loop]. constructor. intros next. destruct (decide _); [apply ple_refl|].
  apply ple_pthen; [done|]. intros el. apply IH. lia.
Qed.

Lemma ple_array {T} (d d' : decoder T) n n' t : (forall t, ple (d t) (d' t)) -> (n <= n')%nat ->
  ple (array_decoder d n t) (array_decoder d' n' t).
Proof.
  intros Hd Hn. constructor. intros _. generalize 0%nat. revert n' t Hn. induction n as [|n IH]; intros n' t Hn idx; [constructor|].
  destruct n' as [|n']; [lia|]. cbn [array_loop]. constructor. intros next. destruct (decide _); [apply ple_refl|].
  destruct (t !! idx). - apply ple_pthen; [done|]. intros el. apply IH. lia. - constructor. intros _. apply IH. lia.
Qed.

Lemma ple_at_field {T A} (get : T -> A) put (d d' : decoder A) t : (forall a, ple (d a) (d' a)) ->
  ple (at_field get put d t) (at_field get put d' t).
Proof. intros Hd. apply ple_pthen; [done|]. intros. apply ple_refl. Qed.

Lemma ple_endpoint n n' t : (n <= n')%nat -> ple (endpoint_decoder n t) (endpoint_decoder n' t).
Proof. intros Hn. apply ple_struct; [|done]. repeat constructor. Qed.

Ltac each := apply Forall2_cons_2; [split; [done|]; intros ?; cbn [snd]|].
Lemma ple_span_v2 n n' t : (n <= n')%nat -> ple (span_v2_decoder n t) (span_v2_decoder n' t).
Proof.
  intros Hn. apply ple_struct; [|done]. unfold v2_fields.
  repeat first [apply Forall2_nil_2 | each]; apply ple_at_field; try (intros; apply ple_refl).
  - intros a. constructor. intros _. by apply ple_map_loop.
  - intros a. by apply ple_endpoint.
Qed.

Lemma ple_v2 n n' : (n <= n')%nat -> ple (parse_v2_prog n) (parse_v2_prog n').
Proof. intros Hn. apply ple_slice; [|done]. intros. by apply ple_span_v2. Qed.

Lemma ple_span_v1 n n' t : (n <= n')%nat -> ple (span_v1_decoder n t) (span_v1_decoder n' t).
Proof.
  intros Hn. apply ple_struct; [|done]. unfold v1_fields.
  repeat first [apply Forall2_nil_2 | each]; apply ple_at_field; try (intros; apply ple_refl).
  - intros a. apply ple_slice; [|done]. intros b. apply ple_struct; [|done]. unfold ba_fields.
    repeat first [apply Forall2_nil_2 | each]; apply ple_at_field; try (intros; apply ple_refl). intros c. by apply ple_endpoint.
  - intros a. apply ple_array; [|done]. intros b. apply ple_struct; [|done]. unfold annot_fields.
    repeat first [apply Forall2_nil_2 | each]; apply ple_at_field; try (intros; apply ple_refl). intros c. by apply ple_endpoint.
Qed.

Lemma ple_v1 n n' pool : (n <= n')%nat -> ple (parse_v1_prog n pool) (parse_v1_prog n' pool).
Proof. intros Hn. apply ple_slice; [|done]. intros. by apply ple_span_v1. Qed.
