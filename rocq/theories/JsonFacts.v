(** Facts about the list parser: consumption, sufficient fuel, monotonicity. *)
From Verif Require Import Base IdModel SpanModel JsonModel CodecModel JsonPure JsonSim.

(* ---------- consumption ---------- *)

Lemma drop_space_length l : (length (drop_space l) <= length l)%nat.
Proof. induction l as [|b l IH]; cbn; [lia|]. destruct (is_space b); cbn; lia. Qed.

Lemma q_space_length l l' : q_space l = QOk tt l' -> (length l' <= length l)%nat.
Proof. unfold q_space. pose proof (drop_space_length l). destruct (drop_space l) eqn:E; [done|]. intros [= <-]. lia. Qed.

Lemma q_next_length l t l' : q_next l = QOk t l' -> (length l' <= length l)%nat.
Proof.
  unfold q_next. destruct (q_space l) as [[] l1| | |] eqn:E; cbn [qbind]; try done. apply q_space_length in E.
  destruct l1 as [|b l1]; cbn [q_current qbind]; [done|]. destruct (symbol b); try done; intros [= <- <-]; done.
Qed.

Lemma q_next_no_fuel l : q_next l <> QFuel /\ q_next l <> QHang.
Proof.
  unfold q_next, q_space. destruct (drop_space l) as [|b l1]; cbn; [done|]. destruct (symbol b); done.
Qed.

Lemma q_consume1_length ty l u l' : q_consume1 ty l = QOk u l' -> (length l' < length l)%nat.
Proof. destruct l as [|b l]; cbn [q_consume1]; [done|]. destruct (decide _); [|done]. intros [= <- <-]. cbn; lia. Qed.

Lemma q_consume_length ty l u l' : q_consume ty l = QOk u l' -> (length l' < length l)%nat.
Proof.
  unfold q_consume. destruct (q_space l) as [[] l1| | |] eqn:E; cbn [qbind]; try done. apply q_space_length in E.
  intros H%q_consume1_length. lia.
Qed.

Lemma q_string_length cap l t l' : q_string cap l = QOk t l' -> (length l' < length l)%nat.
Proof.
  destruct l as [|b l]; cbn [q_string]; [done|]. destruct (negb _); [done|]. unfold q_string_body.
  destruct (close l 0 false false) as [[n has]|]; [|by destruct (_ <=? _)%nat].
  destruct (n <? cap)%nat; [|done]. destruct has.
  - destruct (unescape _); [|done]. intros [= <- <-]. rewrite drop_length. cbn; lia.
  - intros [= <- <-]. rewrite drop_length. cbn; lia.
Qed.

Lemma q_number_length cap l t l' : q_number cap l = QOk t l' -> (length l' < length l)%nat.
Proof.
  destruct l as [|b l]; cbn [q_number]; [done|]. destruct (negb _); [done|].
  destruct (number_end l 1) as [n|] eqn:E; [|by destruct (_ <=? _)%nat]. apply number_end_bound in E.
  destruct (n <? cap)%nat; [|done]. intros [= <- <-]. rewrite drop_length. cbn; lia.
Qed.

Lemma q_read_n_length l ty first n t l' : (0 < n)%nat -> q_read_n l ty first n = QOk t l' -> (length l' < length l)%nat.
Proof.
  intros Hn. unfold q_read_n. destruct (n <=? length l)%nat eqn:E; [|done]. destruct l as [|b l]; [done|].
  destruct (negb _); [done|]. intros [= <- <-]. rewrite drop_length. cbn; lia.
Qed.

Lemma q_boolean_length l t l' : q_boolean l = QOk t l' -> (length l' < length l)%nat.
Proof.
  unfold q_boolean. destruct l as [|b l]; cbn [q_current qbind]; [done|]. destruct (b =? 116); apply q_read_n_length; lia.
Qed.

Lemma q_skips_length cap : forall depth,
  (forall next l u l', q_skip depth cap next l = QOk u l' -> (length l' < length l)%nat) /\
  (forall l u l', q_skip_elements depth cap l = QOk u l' -> (length l' < length l)%nat) /\
  (forall l u l', q_skip_members depth cap l = QOk u l' -> (length l' < length l)%nat).
Proof.
  induction depth as [|depth (IH1 & IH2 & IH3)]; [done|]. split; [|split].
  - intros next l u l'. cbn [q_skip]. destruct next; try done.
    + destruct (q_null l) eqn:E; cbn [qbind]; try done. intros [= <- <-]. eapply q_read_n_length; [|exact E]; lia.
    + destruct (q_consume1 _ l) eqn:E; cbn [qbind]; try done. apply q_consume1_length in E. intros H%IH3. lia.
    + destruct (q_consume1 _ l) eqn:E; cbn [qbind]; try done. apply q_consume1_length in E. intros H%IH2. lia.
    + destruct (q_boolean l) eqn:E; cbn [qbind]; try done. intros [= <- <-]. by apply q_boolean_length in E.
    + destruct (q_number cap l) eqn:E; cbn [qbind]; try done. intros [= <- <-]. by apply q_number_length in E.
    + destruct (q_string cap l) eqn:E; cbn [qbind]; try done. intros [= <- <-]. by apply q_string_length in E.
  - intros l u l'. cbn [q_skip_elements]. destruct (q_next l) as [ty l1| | |] eqn:E; cbn [qbind]; try done. apply q_next_length in E.
    destruct (decide _). { intros H%q_consume1_length. lia. }
    destruct (q_skip depth cap ty l1) eqn:E2; cbn [qbind]; try done. apply IH1 in E2. intros H%IH2. lia.
  - intros l u l'. cbn [q_skip_members]. destruct (q_next l) as [ty l1| | |] eqn:E; cbn [qbind]; try done. apply q_next_length in E.
    destruct (decide _). { intros H%q_consume1_length. lia. }
    destruct (q_string cap l1) as [tk l2| | |] eqn:E2; cbn [qbind]; try done. apply q_string_length in E2.
    destruct (q_next l2) as [ty2 l3| | |] eqn:E3; cbn [qbind]; try done. apply q_next_length in E3.
    destruct (q_skip depth cap ty2 l3) eqn:E4; cbn [qbind]; try done. apply IH1 in E4. intros H%IH3. lia.
Qed.

(** Only skipping needs fuel. *)
Lemma q_string_no_fuel cap l : q_string cap l <> QFuel.
Proof.
  destruct l as [|b l]; cbn [q_string]; [done|]. destruct (negb _); [done|]. unfold q_string_body.
  destruct (close l 0 false false) as [[n has]|]; [|by destruct (_ <=? _)%nat].
  destruct (n <? cap)%nat; [|done]. destruct has; [|done]. by destruct (unescape _).
Qed.
Lemma q_number_no_fuel cap l : q_number cap l <> QFuel.
Proof.
  destruct l as [|b l]; cbn [q_number]; [done|]. destruct (negb _); [done|].
  destruct (number_end l 1) as [n|]; [|by destruct (_ <=? _)%nat]. by destruct (n <? cap)%nat.
Qed.
Lemma q_read_n_no_fuel l ty first n : q_read_n l ty first n <> QFuel /\ q_read_n l ty first n <> QHang.
Proof. unfold q_read_n. destruct (_ <=? _)%nat; [|done]. destruct l; [done|]. by destruct (negb _). Qed.
Lemma q_boolean_no_fuel l : q_boolean l <> QFuel /\ q_boolean l <> QHang.
Proof. unfold q_boolean. destruct l as [|b l]; cbn [q_current qbind]; [done|]. destruct (b =? 116); apply q_read_n_no_fuel. Qed.
Lemma q_consume1_no_fuel ty l : q_consume1 ty l <> QFuel /\ q_consume1 ty l <> QHang.
Proof. destruct l; cbn [q_consume1]; [done|]. by destruct (decide _). Qed.

Lemma q_skips_fuel cap : forall depth,
  (forall next l, (2 * length l < depth)%nat -> q_skip depth cap next l <> QFuel) /\
  (forall l, (2 * length l + 1 < depth)%nat -> q_skip_elements depth cap l <> QFuel) /\
  (forall l, (2 * length l + 1 < depth)%nat -> q_skip_members depth cap l <> QFuel).
Proof.
  induction depth as [|depth (IH1 & IH2 & IH3)]; [split; [|split]; intros; lia|].
  destruct (q_skips_length cap depth) as (L1 & L2 & L3). split; [|split].
  - intros next l Hl. cbn [q_skip]. destruct next; try done.
    + pose proof (q_read_n_no_fuel l TNull 110 4) as [? ?]. fold (q_null l) in *. destruct (q_null l); cbn [qbind]; done.
    + pose proof (q_consume1_no_fuel TObjBegin l) as [? ?]. destruct (q_consume1 _ l) eqn:E; cbn [qbind]; try done.
      apply q_consume1_length in E. apply IH3. lia.
    + pose proof (q_consume1_no_fuel TArrBegin l) as [? ?]. destruct (q_consume1 _ l) eqn:E; cbn [qbind]; try done.
      apply q_consume1_length in E. apply IH2. lia.
    + pose proof (q_boolean_no_fuel l) as [? ?]. destruct (q_boolean l); cbn [qbind]; done.
    + pose proof (q_number_no_fuel cap l). destruct (q_number cap l); cbn [qbind]; done.
    + pose proof (q_string_no_fuel cap l). destruct (q_string cap l); cbn [qbind]; done.
  - intros l Hl. cbn [q_skip_elements]. pose proof (q_next_no_fuel l) as [? ?].
    destruct (q_next l) as [ty l1| | |] eqn:E; cbn [qbind]; try done. apply q_next_length in E.
    destruct (decide _); [apply q_consume1_no_fuel|]. pose proof (IH1 ty l1 ltac:(lia)).
    destruct (q_skip depth cap ty l1) eqn:E2; cbn [qbind]; try done. apply L1 in E2. apply IH2. lia.
  - intros l Hl. cbn [q_skip_members]. pose proof (q_next_no_fuel l) as [? ?].
    destruct (q_next l) as [ty l1| | |] eqn:E; cbn [qbind]; try done. apply q_next_length in E.
    destruct (decide _); [apply q_consume1_no_fuel|]. pose proof (q_string_no_fuel cap l1).
    destruct (q_string cap l1) as [tk l2| | |] eqn:E2; cbn [qbind]; try done. apply q_string_length in E2.
    pose proof (q_next_no_fuel l2) as [? ?].
    destruct (q_next l2) as [ty2 l3| | |] eqn:E3; cbn [qbind]; try done. apply q_next_length in E3.
    pose proof (IH1 ty2 l3 ltac:(lia)).
    destruct (q_skip depth cap ty2 l3) eqn:E4; cbn [qbind]; try done. apply L1 in E4. apply IH3. lia.
Qed.

(** The methods that consume something. *)
Definition consuming (o : op) : bool := match o with ONext => false | _ => true end.

Lemma q_op_length depth cap o l t l' : q_op depth cap o l = QOk t l' ->
  (length l' <= length l)%nat /\ (consuming o = true -> (length l' < length l)%nat).
Proof.
  assert (Hu : forall (q : qres unit), (forall u l', q = QOk u l' -> (length l' < length l)%nat) ->
    qbind q (fun _ l => QOk (Token TNull []) l) = QOk t l' -> (length l' < length l)%nat).
  { intros q Hq. destruct q; cbn [qbind]; try done. intros [= <- <-]. eauto. }
  destruct o; cbn [q_op consuming].
  - destruct (q_next l) eqn:E; cbn [qbind]; try done. intros [= <- <-]. apply q_next_length in E. split; [lia|done].
  - intros H. apply Hu in H; [lia|apply q_consume_length].
  - intros H. apply Hu in H; [lia|apply q_consume_length].
  - intros H. apply Hu in H; [lia|apply q_consume_length].
  - intros H. apply Hu in H; [lia|apply q_consume_length].
  - destruct (q_space l) as [[] l1| | |] eqn:E; cbn [qbind]; try done. apply q_space_length in E. intros H%q_string_length. lia.
  - destruct (q_space l) as [[] l1| | |] eqn:E; cbn [qbind]; try done. apply q_space_length in E. intros H%q_number_length. lia.
  - unfold q_literal. destruct (q_next l) as [ty l1| | |] eqn:E; cbn [qbind]; try done. apply q_next_length in E.
    assert (forall x, (x < length l1)%nat -> (x <= length l)%nat /\ (true = true -> (x < length l)%nat)) as K by (intros; lia).
    destruct ty; try done; intros H; apply K.
    + eapply q_read_n_length; [|exact H]; lia. + by apply q_boolean_length in H. + by apply q_number_length in H. + by apply q_string_length in H.
  - intros H. apply Hu in H; [lia|]. intros u l1. unfold q_Skip. destruct (q_next l) as [ty l2| | |] eqn:E; cbn [qbind]; try done.
    apply q_next_length in E. intros H'%(proj1 (q_skips_length cap depth)). lia.
Qed.

Lemma q_op_fuel depth cap o l : (2 * length l < depth)%nat -> q_op depth cap o l <> QFuel.
Proof.
  intros Hl. assert (Hu : forall (q : qres unit), q <> QFuel -> qbind q (fun _ l => QOk (Token TNull []) l) <> QFuel) by (intros []; done).
  assert (Hc : forall ty, q_consume ty l <> QFuel).
  { intros ty. unfold q_consume, q_space. destruct (drop_space l); cbn [qbind]; [done|]. apply q_consume1_no_fuel. }
  destruct o; cbn [q_op]; try (apply Hu; apply Hc).
  - pose proof (q_next_no_fuel l) as [? ?]. by destruct (q_next l).
  - unfold q_space. destruct (drop_space l); cbn [qbind]; [done|]. apply q_string_no_fuel.
  - unfold q_space. destruct (drop_space l); cbn [qbind]; [done|]. apply q_number_no_fuel.
  - unfold q_literal. pose proof (q_next_no_fuel l) as [? ?]. destruct (q_next l) as [ty l1| | |]; cbn [qbind]; try done.
    destruct ty; try done; [apply q_read_n_no_fuel|apply q_boolean_no_fuel|apply q_number_no_fuel|apply q_string_no_fuel].
  - apply Hu. unfold q_Skip. pose proof (q_next_no_fuel l) as [? ?]. destruct (q_next l) as [ty l1| | |] eqn:E; cbn [qbind]; try done.
    apply q_next_length in E. apply q_skips_fuel. lia.
Qed.

(* ---------- sequencing ---------- *)

Definition ythen {A B} (y : yres (A * bool)) (f : A -> B) (k : A -> bytes -> yres (B * bool)) : yres (B * bool) :=
  match y with
  | YDone (a, true) l => k a l
  | YDone (a, false) l => YDone (f a, false) l
  | YError (a, _) => YError (f a, false)
  | YHang => YHang
  | YFuel => YFuel
  end.

Lemma q_exec_pthen {A B} depth cap (p : prog (A * bool)) (f : A -> B) k l :
  q_exec depth cap (pthen p f k) l = ythen (q_exec depth cap p l) f (fun a l => q_exec depth cap (k a) l).
Proof.
  revert l. induction p as [[a []]|o c IH [a b]|]; intros l; cbn [pthen q_exec ythen]; try done.
  destruct (q_op depth cap o l); try done.
Qed.

(* ---------- sufficient fuel ---------- *)

Section enough.
  Context (fuel cap : nat).

  (** Runs out of nothing on inputs of at most [n] bytes, and consumes something when it succeeds. *)
  Definition enough {A} (n : nat) (p : prog (A * bool)) : Prop :=
    forall l, (length l <= n)%nat -> (2 * n + 2 < fuel)%nat ->
    match q_exec fuel cap p l with
    | YFuel => False
    | YDone (_, b) l' => (length l' <= length l)%nat /\ (b = true -> (length l' < length l)%nat)
    | _ => True
    end.

  (** The same, but may consume nothing. *)
  Definition enough0 {A} (n : nat) (p : prog (A * bool)) : Prop :=
    forall l, (length l <= n)%nat -> (2 * n + 2 < fuel)%nat ->
    match q_exec fuel cap p l with
    | YFuel => False
    | YDone (_, b) l' => (length l' <= length l)%nat
    | _ => True
    end.

  Lemma enough_weaken {A} n (p : prog (A * bool)) : enough n p -> enough0 n p.
  Proof. intros H l Hl Hf. specialize (H l Hl Hf). destruct (q_exec fuel cap p l) as [[a b] l'| | |]; try done. lia. Qed.

  Lemma enough0_ret {A} n (a : A) b : enough0 n (Ret (a, b)).
  Proof. intros l Hl Hf. cbn. lia. Qed.

  Lemma enough_ret_false {A} n (a : A) : enough n (Ret (a, false)).
  Proof. intros l Hl Hf. cbn. split; [lia|done]. Qed.

  Lemma enough_call {A} n o (k : token -> prog (A * bool)) e :
    consuming o = true -> ((0 < n)%nat -> forall t, enough0 (n - 1) (k t)) -> enough n (Call o k e).
  Proof.
    intros Ho Hk l Hl Hf. cbn [q_exec]. pose proof (q_op_fuel fuel cap o l ltac:(lia)) as Hn.
    destruct (q_op fuel cap o l) as [t l1| | |] eqn:E; try done.
    apply q_op_length in E as [E1 E2]. specialize (E2 Ho). specialize (Hk ltac:(lia) t l1 ltac:(lia) ltac:(lia)).
    destruct (q_exec fuel cap (k t) l1) as [[a b] l'| | |]; try done. lia.
  Qed.

  Lemma enough_peek {A} n o (k : token -> prog (A * bool)) e :
    (forall t, enough n (k t)) -> enough n (Call o k e).
  Proof.
    intros Hk l Hl Hf. cbn [q_exec]. pose proof (q_op_fuel fuel cap o l ltac:(lia)) as Hn.
    destruct (q_op fuel cap o l) as [t l1| | |] eqn:E; try done.
    apply q_op_length in E as [E1 E2]. specialize (Hk t l1 ltac:(lia) ltac:(lia)).
    destruct (q_exec fuel cap (k t) l1) as [[a b] l'| | |]; try done. split; [lia|]. intros ->. lia.
  Qed.

  Lemma enough_pthen {A B} n (p : prog (A * bool)) (f : A -> B) k :
    enough n p -> ((0 < n)%nat -> forall a, enough0 (n - 1) (k a)) -> enough n (pthen p f k).
  Proof.
    intros Hp Hk l Hl Hf. rewrite q_exec_pthen. specialize (Hp l Hl Hf).
    destruct (q_exec fuel cap p l) as [[a []] l1|[a b]| |]; cbn [ythen]; try done.
    destruct Hp as [H1 H2]. specialize (H2 eq_refl). specialize (Hk ltac:(lia) a l1 ltac:(lia) ltac:(lia)).
    destruct (q_exec fuel cap (k a) l1) as [[a' b'] l2| | |]; try done. lia.
  Qed.

  Lemma enough_at_field {T A} n (get : T -> A) put (d : decoder A) t : (forall a, enough n (d a)) -> enough n (at_field get put d t).
  Proof. intros Hd. apply enough_pthen; [done|]. intros ? a. apply enough0_ret. Qed.

  Lemma enough_string n t : enough n (string_decoder t).
  Proof. apply enough_call; [done|]. intros ? ?. apply enough0_ret. Qed.
  Lemma enough_any n t : enough n (any_decoder t).
  Proof. apply enough_call; [done|]. intros ? ?. apply enough0_ret. Qed.
  Lemma enough_uint64 n t : enough n (uint64_decoder t).
  Proof. apply enough_call; [done|]. intros ? tok. destruct (digits_value _ _); apply enough0_ret. Qed.
  Lemma enough_id n t : enough n (id_decoder t).
  Proof.
    apply enough_peek. intros next. destruct (decide _); (apply enough_call; [done|]; intros ? tok).
    - apply enough0_ret. - destruct (parse_id _); apply enough0_ret.
  Qed.

  Lemma enough_map_loop target : forall k n r, (n < k)%nat -> enough n (map_loop k target r).
  Proof.
    induction k as [|k IH]; intros n r Hn; [lia|]. cbn [map_loop]. apply enough_peek. intros next.
    destruct (decide _). { apply enough_call; [done|]. intros ? ?. apply enough0_ret. }
    apply enough_pthen; [apply enough_string|]. intros ? key. apply enough_weaken.
    apply enough_pthen; [apply enough_string|]. intros ? value. apply enough_weaken. apply IH. lia.
  Qed.
  Lemma enough_map n t : (n < fuel)%nat -> enough n (map_decoder fuel t).
  Proof. intros Hn. apply enough_call; [done|]. intros ? _. apply enough_weaken, enough_map_loop. lia. Qed.

  Lemma enough_struct_loop {T} (fields : list (gostring * decoder T)) n0 :
    (forall name d, lookup_field fields name = Some d -> forall n t, (n <= n0)%nat -> enough n (d t)) ->
    forall k n t, (n < k)%nat -> (n <= n0)%nat -> enough n (struct_loop fields k t).
  Proof.
    intros Hfields. induction k as [|k IH]; intros n t Hn Hn0; [lia|]. cbn [struct_loop]. apply enough_peek. intros next.
    destruct (decide _). { apply enough_call; [done|]. intros ? ?. apply enough0_ret. }
    apply enough_call; [done|]. intros ? key. destruct (lookup_field fields (t_val key)) as [d|] eqn:E.
    - apply enough_weaken. apply enough_pthen; [by apply (Hfields _ _ E); lia|]. intros ? a. apply enough_weaken. apply IH; lia.
    - apply enough_weaken. apply enough_call; [done|]. intros ? _. apply enough_weaken. apply IH; lia.
  Qed.
  Lemma enough_struct {T} (fields : list (gostring * decoder T)) n t :
    (forall name d, lookup_field fields name = Some d -> forall n' t, (n' <= n)%nat -> enough n' (d t)) ->
    (n < fuel)%nat -> enough n (struct_decoder fields fuel t).
  Proof.
    intros Hf Hn. apply enough_call; [done|]. intros ? _. apply enough_weaken.
    destruct n as [|n]; [apply (enough_struct_loop fields 0)|apply (enough_struct_loop fields (S n))]; try done; lia.
  Qed.

  Lemma enough_slice_loop {T} (zero : T) d n0 : (forall n t, (n <= n0)%nat -> enough n (d t)) ->
    forall k n s idx, (n < k)%nat -> (n <= n0)%nat -> enough n (slice_loop zero d k s idx).
  Proof.
    intros Hd. induction k as [|k IH]; intros n s idx Hn Hn0; [lia|]. cbn [slice_loop]. apply enough_peek. intros next.
    destruct (decide _). { apply enough_call; [done|]. intros ? ?. apply enough0_ret. }
    apply enough_pthen; [apply Hd; lia|]. intros ? el. apply enough_weaken. apply IH; lia.
  Qed.
  Lemma enough_slice {T} (zero : T) d n t : (forall n' t, (n' <= n)%nat -> enough n' (d t)) -> (n < fuel)%nat ->
    enough n (slice_decoder zero d fuel t).
  Proof.
    intros Hd Hn. apply enough_call; [done|]. intros ? _. apply enough_weaken. apply (enough_slice_loop zero d n Hd); lia.
  Qed.

  Lemma enough_array_loop {T} (d : decoder T) n0 : (forall n t, (n <= n0)%nat -> enough n (d t)) ->
    forall k n a idx, (n < k)%nat -> (n <= n0)%nat -> enough n (array_loop d k a idx).
  Proof.
    intros Hd. induction k as [|k IH]; intros n a idx Hn Hn0; [lia|]. cbn [array_loop]. apply enough_peek. intros next.
    destruct (decide _). { apply enough_call; [done|]. intros ? ?. apply enough0_ret. }
    destruct (a !! idx) as [el|].
    - apply enough_pthen; [apply Hd; lia|]. intros ? el'. apply enough_weaken. apply IH; lia.
    - apply enough_call; [done|]. intros ? _. apply enough_weaken. apply IH; lia.
  Qed.
  Lemma enough_array {T} (d : decoder T) n t : (forall n' t, (n' <= n)%nat -> enough n' (d t)) -> (n < fuel)%nat ->
    enough n (array_decoder d fuel t).
  Proof.
    intros Hd Hn. apply enough_call; [done|]. intros ? _. apply enough_weaken. apply (enough_array_loop d n Hd); lia.
  Qed.

  Ltac fields H := cbn [lookup_field] in H; repeat (case_decide; [injection H as <-|]); [..|done].

  Lemma enough_endpoint n t : (n < fuel)%nat -> enough n (endpoint_decoder fuel t).
  Proof. intros Hn. apply enough_struct; [|done]. intros name d H. fields H. intros. apply enough_string. Qed.

  Lemma enough_span_v2 n t : (n < fuel)%nat -> enough n (span_v2_decoder fuel t).
  Proof.
    intros Hn. apply enough_struct; [|done]. intros name d H. unfold v2_fields in H. fields H; intros n' t' Hn'; apply enough_at_field; intros a.
    1-3: apply enough_id. 1,2: apply enough_uint64. 1: apply enough_string. 1: apply enough_map; lia. 1: apply enough_string.
    apply enough_endpoint; lia.
  Qed.

  Lemma enough_v2 n : (n < fuel)%nat -> enough n (parse_v2_prog fuel).
  Proof. intros Hn. apply enough_slice; [|done]. intros. apply enough_span_v2. lia. Qed.

  Lemma enough_span_v1 n t : (n < fuel)%nat -> enough n (span_v1_decoder fuel t).
  Proof.
    intros Hn. apply enough_struct; [|done]. intros name d H. unfold v1_fields in H. fields H; intros n' t' Hn'; apply enough_at_field; intros a.
    1-3: apply enough_id. 1,2: apply enough_uint64. 1: apply enough_string.
    - apply enough_slice; [|lia]. intros n2 t2 Hn2. apply enough_struct; [|lia]. intros name2 d2 HF2. unfold ba_fields in HF2.
      fields HF2; intros n3 t3 Hn3; apply enough_at_field; intros a3. + apply enough_string. + apply enough_any. + apply enough_endpoint; lia.
    - apply enough_array; [|lia]. intros n2 t2 Hn2. apply enough_struct; [|lia]. intros name2 d2 HF2. unfold annot_fields in HF2.
      fields HF2; intros n3 t3 Hn3; apply enough_at_field; intros a3. + apply enough_uint64. + apply enough_string. + apply enough_endpoint; lia.
  Qed.

  Lemma enough_v1 n pool : (n < fuel)%nat -> enough n (parse_v1_prog fuel pool).
  Proof. intros Hn. apply enough_slice; [|done]. intros. apply enough_span_v1. lia. Qed.
End enough.

(* ---------- larger buffers ---------- *)

Lemma q_string_cap cap cap' l : (cap <= cap')%nat -> q_string cap l <> QHang -> q_string cap' l = q_string cap l.
Proof.
  intros Hc. destruct l as [|b l]; cbn [q_string]; [done|]. destruct (negb _); [done|]. unfold q_string_body.
  destruct (close l 0 false false) as [[n has]|].
  - destruct (Nat.ltb_spec n cap); [|done]. replace (n <? cap')%nat with true by lia. done.
  - destruct (Nat.leb_spec (length l) cap); [|done]. replace (length l <=? cap')%nat with true by lia. done.
Qed.
Lemma q_number_cap cap cap' l : (cap <= cap')%nat -> q_number cap l <> QHang -> q_number cap' l = q_number cap l.
Proof.
  intros Hc. destruct l as [|b l]; cbn [q_number]; [done|]. destruct (negb _); [done|].
  destruct (number_end l 1) as [n|].
  - destruct (Nat.ltb_spec n cap); [|done]. replace (n <? cap')%nat with true by lia. done.
  - destruct (Nat.leb_spec (length (b :: l)) cap); [|done]. replace (length (b :: l) <=? cap')%nat with true by lia. done.
Qed.

Lemma qbind_cap {A B} (q q' : qres A) (f f' : A -> bytes -> qres B) :
  (q <> QHang -> q' = q) -> (forall a l, q = QOk a l -> f a l <> QHang -> f' a l = f a l) -> qbind q f <> QHang -> qbind q' f' = qbind q f.
Proof.
  intros H1 H2 Hb. destruct q as [a l| | |]; cbn [qbind] in *; try done; rewrite H1 by done; cbn [qbind]; auto.
Qed.

Lemma q_skips_cap cap cap' : (cap <= cap')%nat -> forall depth,
  (forall next l, q_skip depth cap next l <> QHang -> q_skip depth cap' next l = q_skip depth cap next l) /\
  (forall l, q_skip_elements depth cap l <> QHang -> q_skip_elements depth cap' l = q_skip_elements depth cap l) /\
  (forall l, q_skip_members depth cap l <> QHang -> q_skip_members depth cap' l = q_skip_members depth cap l).
Proof.
  intros Hc. induction depth as [|depth (IH1 & IH2 & IH3)]; [done|]. split; [|split].
  - intros next l. cbn [q_skip]. destruct next; try done; apply qbind_cap; auto.
    + by apply q_number_cap. + by apply q_string_cap.
  - intros l. cbn [q_skip_elements]. apply qbind_cap; [done|]. intros ty l1 _. destruct (decide _); [done|]. apply qbind_cap; auto.
  - intros l. cbn [q_skip_members]. apply qbind_cap; [done|]. intros ty l1 _. destruct (decide _); [done|].
    apply qbind_cap; [by apply q_string_cap|]. intros tk l2 _. apply qbind_cap; [done|]. intros ty2 l3 _. apply qbind_cap; auto.
Qed.

Lemma q_op_cap depth cap cap' o l : (cap <= cap')%nat -> q_op depth cap o l <> QHang -> q_op depth cap' o l = q_op depth cap o l.
Proof.
  intros Hc. destruct o; cbn [q_op]; try done.
  - apply qbind_cap; [done|]. intros. by apply q_string_cap.
  - apply qbind_cap; [done|]. intros. by apply q_number_cap.
  - unfold q_literal. apply qbind_cap; [done|]. intros ty l1 _. destruct ty; try done; [apply q_number_cap|apply q_string_cap]; done.
  - apply qbind_cap; [|done]. unfold q_Skip. apply qbind_cap; [done|]. intros ty l1 _. by apply q_skips_cap.
Qed.

Lemma q_exec_cap {A} depth cap cap' (p : prog A) : (cap <= cap')%nat -> forall l,
  q_exec depth cap p l <> YHang -> q_exec depth cap' p l = q_exec depth cap p l.
Proof.
  intros Hc. induction p as [a|o k IH e|]; intros l; cbn [q_exec]; try done.
  intros H. rewrite (q_op_cap depth cap cap') by (try done; by destruct (q_op depth cap o l)).
  destruct (q_op depth cap o l); try done. by apply IH.
Qed.
