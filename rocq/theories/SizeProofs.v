From Verif Require Import Base IdModel SpanModel JsonModel CodecModel JsonPure JsonFacts ParseSpec DocTheorems SizeSpec.
Local Open Scope nat_scope.

(* ---------- tags ---------- *)

Lemma tags_size_empty : tags_size ∅ = 0.
Proof. apply map_fold_empty. Qed.
Lemma tags_size_fresh k v m : m !! k = None -> tags_size (<[k := v]> m) = 2 + length k + length v + tags_size m.
Proof. intros H. unfold tags_size. rewrite map_fold_insert_L; [done| |done]. intros. lia. Qed.
Lemma tags_size_delete k m : tags_size (delete k m) <= tags_size m.
Proof.
  destruct (m !! k) as [v|] eqn:E; [|by rewrite delete_notin].
  pose proof (tags_size_fresh k v (delete k m) (lookup_delete m k)) as H. rewrite insert_delete in H by done. lia.
Qed.
Lemma tags_size_insert k v m : tags_size (<[k := v]> m) <= 2 + length k + length v + tags_size m.
Proof.
  rewrite <- insert_delete_insert. rewrite tags_size_fresh by apply lookup_delete. pose proof (tags_size_delete k m). lia.
Qed.
Lemma tags_size_own k v m : tags_size (delete k (<[k := v]> m)) <= tags_size m.
Proof. rewrite delete_insert_delete. apply tags_size_delete. Qed.

(* ---------- tokens ---------- *)

Lemma encode_rune_length r : length (encode_rune r) <= 3.
Proof. unfold encode_rune. repeat case_match; cbn [length]; lia. Qed.

Lemma unescape_length k : forall l v, length l <= k -> unescape l = Some v -> length v <= length l.
Proof.
  induction k as [|k IH]; intros [|c l1] v Hl; cbn [unescape length] in *; try lia; try (by intros [= <-]).
  destruct (negb (c =? 92)%Z).
  - destruct (unescape l1) as [v1|] eqn:E; cbn [option_map]; [|done]. intros [= <-]. apply IH in E; [|lia]. cbn [length]. lia.
  - destruct l1 as [|c2 l2]; [done|]. cbn [length] in *. destruct (negb (c2 =? 117)%Z).
    + destruct (unescape l2) as [v1|] eqn:E; cbn [option_map]; [|done]. intros [= <-]. apply IH in E; [|lia]. cbn [length]. lia.
    + destruct l2 as [|a [|b [|c3 [|d l3]]]]; try done. cbn [length] in *.
      destruct (hex_digit a), (hex_digit b), (hex_digit c3), (hex_digit d); try done.
      destruct (unescape l3) as [v1|] eqn:E; cbn [option_map]; [|done]. intros [= <-]. apply IH in E; [|lia].
      rewrite app_length. pose proof (encode_rune_length (((z * 16 + z0) * 16 + z1) * 16 + z2)%Z). lia.
Qed.

Lemma close_length l : forall n esc has m h, close l n esc has = Some (m, h) -> m < n + length l.
Proof.
  induction l as [|c l IH]; intros n esc has m h; cbn [close length]; [done|].
  repeat case_match; try (intros H'; apply IH in H'; lia). intros [= -> _]. lia.
Qed.

Lemma q_string_gain cap l t l' : q_string cap l = QOk t l' -> length (t_val t) + 2 + length l' <= length l.
Proof.
  unfold q_string. destruct l as [|ch l]; [done|]. destruct (negb _); [done|]. unfold q_string_body. cbn [length].
  destruct (close l 0 false false) as [[n has]|] eqn:E; [|by destruct (length l <=? cap)].
  apply close_length in E. destruct (n <? cap); [|done]. destruct has.
  - destruct (unescape (take n l)) as [v|] eqn:Ev; [|done]. intros [= <- <-]. cbn [t_val].
    apply (unescape_length (length (take n l))) in Ev; [|done]. rewrite take_length in Ev. rewrite drop_length. lia.
  - intros [= <- <-]. cbn [t_val]. rewrite take_length, drop_length. lia.
Qed.

Lemma number_end_length l : forall n m, number_end l n = Some m -> m < n + length l.
Proof.
  induction l as [|c l IH]; intros n m; cbn [number_end length]; [done|]. case_match; [intros H'; apply IH in H'; lia|]. intros [= ->]. lia.
Qed.

Lemma q_number_gain cap l t l' : q_number cap l = QOk t l' -> length (t_val t) + length l' <= length l.
Proof.
  unfold q_number. destruct l as [|ch l]; [done|]. destruct (negb _); [done|].
  destruct (number_end l 1) as [n|] eqn:E; [|by destruct (_ <=? cap)]. destruct (n <? cap); [|done].
  intros [= <- <-]. cbn [t_val]. rewrite take_length, drop_length. lia.
Qed.
Lemma q_read_n_gain l ty first n t l' : q_read_n l ty first n = QOk t l' -> length (t_val t) + length l' <= length l.
Proof.
  unfold q_read_n. destruct (n <=? length l); [|done]. destruct l as [|ch l]; [done|]. destruct (negb _); [done|].
  intros [= <- <-]. cbn [t_val]. rewrite take_length, drop_length. lia.
Qed.

(** The bytes that a call takes from the input, at least. *)
Definition gain (o : op) (t : token) : nat :=
  match o with
  | ONext | ONumber => 0
  | OString => length (t_val t) + 2
  | OLiteral => length (t_val t)
  | _ => 1
  end.

Lemma q_op_gain depth cap o l t l' : q_op depth cap o l = QOk t l' -> gain o t + length l' <= length l.
Proof.
  intros H. destruct (q_op_length _ _ _ _ _ _ H) as [H1 H2]. destruct o; cbn [gain consuming] in *; try (specialize (H2 eq_refl); lia); try lia.
  - cbn [q_op] in H. destruct (q_space l) as [[] l1| | |] eqn:E; cbn [qbind] in H; try done. apply q_space_length in E. apply q_string_gain in H. lia.
  - cbn [q_op] in H. unfold q_literal in H. destruct (q_next l) as [ty l1| | |] eqn:E; cbn [qbind] in H; try done. apply q_next_length in E.
    destruct ty; try done.
    + apply q_read_n_gain in H. lia.
    + unfold q_boolean in H. destruct l1 as [|b l1]; cbn [q_current qbind] in H; [done|]. destruct (b =? 116)%Z; apply q_read_n_gain in H; lia.
    + apply q_number_gain in H. lia.
    + apply q_string_gain in H. lia.
Qed.

(* ---------- programs that produce no more than they read ---------- *)

Section weight.
  Context (depth cap : nat).

  Definition wt {A} (p : prog (A * bool)) (m : A -> nat) (base : nat) : Prop :=
    forall l, match q_exec depth cap p l with
              | YDone (a, true) l' => m a + length l' <= base + length l
              | YError (_, true) => False
              | _ => True
              end.

  Lemma wt_ret {A} (a : A) b m base : (b = true -> m a <= base) -> wt (Ret (a, b)) m base.
  Proof. intros H l. cbn. destruct b; [|done]. specialize (H eq_refl). lia. Qed.
  Lemma wt_fuel {A} (m : A -> nat) base : wt OutOfFuel m base.
  Proof. by intros l. Qed.
  Lemma wt_call {A} o k (e : A) m base : (forall t, wt (k t) m (base + gain o t)) -> wt (Call o k (e, false)) m base.
  Proof.
    intros H l. cbn [q_exec]. destruct (q_op depth cap o l) as [t l1| | |] eqn:E; try done. apply q_op_gain in E.
    specialize (H t l1). destruct (q_exec depth cap (k t) l1) as [[a []] l2|[a []]| |]; try done. lia.
  Qed.
  Lemma wt_le {A} (p : prog (A * bool)) m base m' base' : wt p m base -> (forall a, m' a <= m a) -> base <= base' -> wt p m' base'.
  Proof.
    intros H Hm Hb l. specialize (H l). destruct (q_exec depth cap p l) as [[a []] l2|[a []]| |]; try done. specialize (Hm a). lia.
  Qed.
  Lemma wt_base {A} (p : prog (A * bool)) m base base' : wt p m base -> base <= base' -> wt p m base'.
  Proof. intros H Hb. by eapply wt_le. Qed.
  Lemma wt_pthen {A B} (p : prog (A * bool)) (f : A -> B) k m m' base c :
    wt p m base -> (forall a, wt (k a) m' (m a + c)) -> wt (pthen p f k) m' (base + c).
  Proof.
    intros H K l. rewrite q_exec_pthen. specialize (H l). destruct (q_exec depth cap p l) as [[a []] l1|[a b]| |]; cbn [ythen]; try done.
    specialize (K a l1). destruct (q_exec depth cap (k a) l1) as [[a' []] l2|[a' []]| |]; try done. lia.
  Qed.

  Lemma wt_uint64 t m base : (forall a, m a <= base) -> wt (uint64_decoder t) m base.
  Proof. intros H. apply wt_call. intros tok. destruct (digits_value _ _); apply wt_ret; [|done]. intros _. specialize (H z). lia. Qed.
  Lemma wt_id t m base : (forall a, m a <= base) -> wt (id_decoder t) m base.
  Proof.
    intros H. apply wt_call. intros tok. case_decide.
    - apply wt_call. intros ?tk. cbn [gain]. apply wt_ret. intros _. specialize (H 0%Z). lia.
    - apply wt_call. intros tok'. destruct (parse_id _); apply wt_ret; [|done]. intros _. specialize (H z). lia.
  Qed.
  Lemma wt_string t : wt (string_decoder t) (fun s => length s + 2) 0.
  Proof. apply wt_call. intros tok. apply wt_ret. intros _. cbn [gain]. lia. Qed.
  Lemma wt_any t : wt (any_decoder t) (fun s => length s) 0.
  Proof. apply wt_call. intros tok. apply wt_ret. intros _. cbn [gain]. lia. Qed.

  Lemma wt_at_field {T A} (get : T -> A) (put : A -> T -> T) (d : decoder A) (t : T) m base mu c :
    wt (d (get t)) m base -> (forall a, mu (put a t) <= m a + c) -> wt (at_field get put d t) mu (base + c).
  Proof. intros H K. unfold at_field. eapply wt_pthen; [exact H|]. intros a. apply wt_ret. intros _. apply K. Qed.

  Lemma wt_map_loop fuel : forall target result, wt (map_loop fuel target result) tags_size (tags_size result).
  Proof.
    induction fuel as [|fuel IH]; intros target result; cbn [map_loop]; [apply wt_fuel|].
    apply wt_call. intros next. case_decide.
    - apply wt_call. intros ?tk. cbn [gain]. apply wt_ret. intros _. lia.
    - eapply wt_le; [|done|].
      + eapply (wt_pthen _ _ _ (fun s => length s + 2) _ 0 (tags_size result)); [apply wt_string|]. intros key.
        eapply wt_le; [|done|].
        * eapply (wt_pthen _ _ _ (fun s => length s + 2) _ 0 (length key + 2 + tags_size result)); [apply wt_string|]. intros value.
          eapply wt_le; [apply IH|done|]. pose proof (tags_size_insert key value result). lia.
        * lia.
      + lia.
  Qed.
  Lemma wt_map fuel t : wt (map_decoder fuel t) tags_size 0.
  Proof. apply wt_call. intros ?tk. cbn [gain]. eapply wt_le; [apply wt_map_loop|done|]. rewrite tags_size_empty. lia. Qed.

  Lemma wt_struct {T} (fields : list (gostring * decoder T)) (mu : T -> nat) : (forall n d, (n, d) ∈ fields -> forall t, wt (d t) mu (mu t)) ->
    forall fuel t, wt (struct_decoder fields fuel t) (fun t => mu t + 2) (mu t).
  Proof.
    intros Hf. assert (Hl : forall name d, lookup_field fields name = Some d -> forall t, wt (d t) mu (mu t)).
    { intros name d E. apply (Hf name). clear Hf. induction fields as [|[n d'] fs IH]; cbn [lookup_field] in E; [done|]. case_decide.
      - injection E as <-. subst n. left.
      - right. by apply IH. }
    assert (Hlp : forall fuel t, wt (struct_loop fields fuel t) (fun t => mu t + 1) (mu t)).
    { induction fuel as [|fuel IH]; intros t; cbn [struct_loop]; [apply wt_fuel|]. apply wt_call. intros next. cbn [gain]. case_decide.
      - apply wt_call. intros ?tk. cbn [gain]. apply wt_ret. intros _. cbn [gain]. lia.
      - apply wt_call. intros key. destruct (lookup_field fields (t_val key)) as [d|] eqn:E.
        + eapply wt_base; [eapply (wt_pthen _ _ _ mu _ (mu t) 0); [apply (Hl _ _ E)|intros a; rewrite Nat.add_0_r; apply IH]|lia].
        + apply wt_call. intros ?tk. cbn [gain]. eapply wt_le; [apply IH|done|lia]. }
    intros fuel t. apply wt_call. intros ?tk. cbn [gain]. cbn [gain]. intros l. specialize (Hlp fuel t l).
    destruct (q_exec depth cap (struct_loop fields fuel t) l) as [[a []] l2|[a []]| |]; try done. lia.
  Qed.

  (** Lists: [pot] weighs what is in the slots that have not been read yet, [mu] what has been read. *)
  Fixpoint sum {T} (f : T -> nat) (l : list T) : nat := match l with [] => 0 | x :: l' => f x + sum f l' end.
  Lemma sum_app {T} (f : T -> nat) a b : sum f (a ++ b) = sum f a + sum f b.
  Proof. induction a; cbn [app sum]; lia. Qed.
  Lemma sum_take_drop {T} (f : T -> nat) n l : sum f (take n l) + sum f (drop n l) = sum f l.
  Proof. by rewrite <- sum_app, take_drop. Qed.
  Lemma sum_replicate {T} (f : T -> nat) n x : f x = 0 -> sum f (replicate n x) = 0.
  Proof. intros H. induction n; cbn; lia. Qed.

  Definition lw {T} (pot mu : T -> nat) (idx : nat) (s : slice T) : nat :=
    sum mu (take idx (sl_mem s)) + sum pot (drop idx (sl_mem s)).

  Lemma sum_take_le {T} (f : T -> nat) n l : sum f (take n l) <= sum f l.
  Proof. pose proof (sum_take_drop f n l). lia. Qed.
  Lemma sum_drop_le {T} (f : T -> nat) n l : sum f (drop n l) <= sum f l.
  Proof. pose proof (sum_take_drop f n l). lia. Qed.
  Lemma sum_take_zero {T} (f : T -> nat) k n x : f x = 0 -> sum f (take k (replicate n x)) = 0.
  Proof. intros H. rewrite take_replicate. by apply sum_replicate. Qed.
  Lemma sum_drop_zero {T} (f : T -> nat) k n x : f x = 0 -> sum f (drop k (replicate n x)) = 0.
  Proof. intros H. rewrite drop_replicate. by apply sum_replicate. Qed.

  Lemma grow_lw {T} (zero : T) (pot mu : T -> nat) idx s n : pot zero = 0 -> mu zero = 0 -> idx = 0 \/ idx = sl_len s ->
    lw pot mu idx (unsafe_grow zero s n) <= lw pot mu idx s /\ sl_len (unsafe_grow zero s n) = n.
  Proof.
    intros Hz Hm Hi. unfold unsafe_grow. destruct (n <=? length (sl_mem s)); [done|]. unfold lw. cbn [sl_mem sl_len]. split; [|done].
    generalize (new_cap (length (sl_mem s)) n - sl_len s) as c. intros c.
    destruct Hi as [->| ->].
    - rewrite !take_0, !drop_0, sum_app, sum_replicate by done. cbn [sum]. pose proof (sum_take_le pot (sl_len s) (sl_mem s)). lia.
    - rewrite firstn_app, skipn_app, !sum_app, firstn_firstn, Nat.min_id, sum_take_zero, sum_drop_zero by done.
      rewrite (skipn_all2 (take (sl_len s) (sl_mem s))) by (rewrite take_length; lia). cbn [sum]. lia.
  Qed.

  Lemma insert_lw {T} (zero : T) (pot mu : T -> nat) idx s el : pot zero = 0 ->
    lw pot mu (idx + 1) (Slice (<[idx := el]> (sl_mem s)) (sl_len s)) + pot (nth idx (sl_mem s) zero) <= lw pot mu idx s + mu el.
  Proof.
    intros Hz. unfold lw. cbn [sl_mem]. generalize (sl_mem s) as l. intros l. rewrite Nat.add_1_r. clear s. revert idx.
    induction l as [|x l IH]; intros [|idx]; try (cbn; lia).
    - change (<[0 := el]> (x :: l)) with (el :: l). cbn [take drop sum nth]. rewrite take_0, drop_0. cbn [sum]. lia.
    - change (<[S idx := el]> (x :: l)) with (x :: <[idx := el]> l). specialize (IH idx). cbn [take drop sum nth] in *. lia.
  Qed.
  Lemma nth_lw {T} (zero : T) (pot mu : T -> nat) idx s : pot zero = 0 -> pot (nth idx (sl_mem s) zero) <= lw pot mu idx s.
  Proof.
    intros Hz. unfold lw. generalize (sl_mem s) as l. intros l. clear s. revert idx.
    induction l as [|x l IH]; intros [|idx]; cbn [take drop sum nth]; try lia. specialize (IH idx). lia.
  Qed.

  Lemma wt_slice {T} (zero : T) (d : decoder T) (pot mu : T -> nat) : pot zero = 0 -> mu zero = 0 ->
    (forall t, wt (d t) (fun a => mu a + 2) (pot t)) ->
    forall fuel s, lw pot mu (sl_len s) s <= lw pot mu 0 s ->
    wt (slice_decoder zero d fuel s) (fun s => lw pot mu (sl_len s) s + 2 * sl_len s + 2) (lw pot mu 0 s + 2 * sl_len s).
  Proof.
    intros Hz Hm Hd.
    assert (Hlp : forall fuel s idx, idx = sl_len s \/ idx = 0 /\ lw pot mu (sl_len s) s <= lw pot mu 0 s ->
      wt (slice_loop zero d fuel s idx) (fun s => lw pot mu (sl_len s) s + 2 * sl_len s + 1) (lw pot mu idx s + 2 * sl_len s)).
    { induction fuel as [|fuel IH]; intros s idx Hi; cbn [slice_loop]; [apply wt_fuel|]. apply wt_call. intros next. cbn [gain]. case_decide.
      - apply wt_call. intros ?tk. cbn [gain]. apply wt_ret. intros _. cbn [gain]. destruct Hi as [->|[-> Hi]]; lia.
      - cbv zeta. destruct (grow_lw zero pot mu idx s (idx + 1) Hz Hm ltac:(tauto)) as [G1 G2]. set (s' := unsafe_grow zero s (idx + 1)) in *.
        pose proof (nth_lw zero pot mu idx s' Hz) as Hn.
        eapply wt_base; [eapply (wt_pthen _ _ _ (fun a => mu a + 2) _ (pot (nth idx (sl_mem s') zero)) (lw pot mu idx s' - pot (nth idx (sl_mem s') zero) + 2 * sl_len s)); [apply Hd|]|lia].
        intros el. pose proof (insert_lw zero pot mu idx s' el Hz) as Hx.
        eapply wt_le; [apply IH; left; cbn [sl_len]; lia|done|]. cbn [sl_len]. destruct Hi as [->|[-> Hi]]; lia. }
    intros fuel s Hs. apply wt_call. intros ?tk. cbn [gain]. cbn [gain]. intros l. specialize (Hlp fuel s 0 ltac:(right; done) l).
    destruct (q_exec depth cap (slice_loop zero d fuel s 0) l) as [[a []] l2|[a []]| |]; try done. lia.
  Qed.

  Lemma sum_insert {T} (f : T -> nat) l idx x y : l !! idx = Some x -> sum f (<[idx := y]> l) + f x = sum f l + f y.
  Proof.
    revert idx. induction l as [|z l IH]; intros [|idx]; try done.
    - intros [= ->]. change (<[0 := y]> (x :: l)) with (y :: l). cbn [sum]. lia.
    - intros E. apply (IH idx) in E. change (<[S idx := y]> (z :: l)) with (z :: <[idx := y]> l). cbn [sum]. lia.
  Qed.

  Lemma wt_array {T} (d : decoder T) (mu : T -> nat) : (forall t, wt (d t) mu (mu t)) ->
    forall fuel a, wt (array_decoder d fuel a) (sum mu) (sum mu a).
  Proof.
    intros Hd.
    assert (Hlp : forall fuel a idx, wt (array_loop d fuel a idx) (sum mu) (sum mu a)).
    { induction fuel as [|fuel IH]; intros a idx; cbn [array_loop]; [apply wt_fuel|]. apply wt_call. intros next. cbn [gain]. case_decide.
      - apply wt_call. intros ?tk. cbn [gain]. apply wt_ret. intros _. lia.
      - destruct (a !! idx) as [el|] eqn:E.
        + pose proof (sum_insert mu a idx el el E) as H1.
          eapply wt_base; [eapply (wt_pthen _ _ _ mu _ (mu el) (sum mu a - mu el)); [apply Hd|]|].
          * intros el'. eapply wt_le; [apply IH|done|]. pose proof (sum_insert mu a idx el el' E). lia.
          * assert (mu el <= sum mu a); [|lia]. clear -E. revert idx E. induction a as [|z a IHa]; intros [|idx]; cbn [lookup list_lookup sum]; try done; [intros [= ->]; lia|]. intros E. apply IHa in E. lia.
        + apply wt_call. intros ?tk. cbn [gain]. eapply wt_le; [apply IH|done|lia]. }
    intros fuel a. apply wt_call. intros ?tk. cbn [gain]. eapply wt_le; [apply Hlp|done|lia].
  Qed.

  (* ---------- the decoders ---------- *)

  Lemma wt_endpoint fuel t : wt (endpoint_decoder fuel t) (fun s => length s) (length t).
  Proof.
    unfold endpoint_decoder. eapply wt_le; [apply (wt_struct [(str "serviceName", string_decoder)] (fun s => length s))|cbn; lia|done].
    intros n d [[= -> ->]|?%elem_of_nil]%elem_of_cons t'; [|done]. eapply wt_le; [apply wt_string|cbn; lia|lia].
  Qed.

  Definition v2w (s : spanV2) : nat := length (v2_name s) + length (v2_endpoint s) + tags_size (v2_tags s).
  Lemma wt_v2 fuel t : wt (span_v2_decoder fuel t) (fun s => v2w s + 2) 0.
  Proof.
    unfold span_v2_decoder. change 0 with (v2w zero_v2). apply wt_struct. intros n d Hd s. unfold v2_fields in Hd.
    repeat (apply elem_of_cons in Hd as [[= -> ->]|Hd]); [..|by apply elem_of_nil in Hd].
    - rewrite <- (Nat.add_0_l (v2w s)). eapply wt_at_field; [apply (wt_id _ (fun _ => 0))|]; cbn; [lia|unfold v2w; cbn; lia].
    - rewrite <- (Nat.add_0_l (v2w s)). eapply wt_at_field; [apply (wt_id _ (fun _ => 0))|]; cbn; [lia|unfold v2w; cbn; lia].
    - rewrite <- (Nat.add_0_l (v2w s)). eapply wt_at_field; [apply (wt_id _ (fun _ => 0))|]; cbn; [lia|unfold v2w; cbn; lia].
    - rewrite <- (Nat.add_0_l (v2w s)). eapply wt_at_field; [apply (wt_uint64 _ (fun _ => 0))|]; cbn; [lia|unfold v2w; cbn; lia].
    - rewrite <- (Nat.add_0_l (v2w s)). eapply wt_at_field; [apply (wt_uint64 _ (fun _ => 0))|]; cbn; [lia|unfold v2w; cbn; lia].
    - rewrite <- (Nat.add_0_l (v2w s)). eapply wt_at_field; [apply wt_string|]. intros a. unfold v2w. cbn. lia.
    - rewrite <- (Nat.add_0_l (v2w s)). eapply wt_at_field; [apply wt_map|]. intros a. unfold v2w. cbn. lia.
    - rewrite <- (Nat.add_0_l (v2w s)). eapply wt_at_field; [apply wt_string|]. intros a. unfold v2w. cbn. lia.
    - eapply wt_le; [eapply (wt_at_field _ _ _ _ _ _ v2w (v2w s - length (v2_endpoint s))); [apply wt_endpoint|]|done|unfold v2w; lia].
      intros a. unfold v2w. cbn. lia.
  Qed.

  Definition baw (a : binaryAnnotationV1) : nat := length (ba_key a) + length (ba_value a) + length (ba_endpoint a).
  Definition anw (a : annotationV1) : nat := length (an_endpoint a).
  Definition basw (s : slice binaryAnnotationV1) : nat := sum baw (sl_mem s) + 2 * sl_len s.
  Definition v1w (s : spanV1) : nat := length (v1_name s) + sum anw (v1_annots s) + basw (v1_bas s).
  Definition v1pot (s : spanV1) : nat := sum baw (sl_mem (v1_bas s)).

  Lemma wt_ba fuel t : wt (struct_decoder (ba_fields fuel) fuel t) (fun a => baw a + 2) (baw t).
  Proof.
    apply wt_struct. intros n d Hd s. unfold ba_fields in Hd.
    repeat (apply elem_of_cons in Hd as [[= -> ->]|Hd]); [..|by apply elem_of_nil in Hd].
    - rewrite <- (Nat.add_0_l (baw s)). eapply wt_at_field; [apply wt_string|]. intros a. unfold baw. cbn. lia.
    - rewrite <- (Nat.add_0_l (baw s)). eapply wt_at_field; [apply wt_any|]. intros a. unfold baw. cbn. lia.
    - eapply wt_le; [eapply (wt_at_field _ _ _ _ _ _ baw (baw s - length (ba_endpoint s))); [apply wt_endpoint|]|done|unfold baw; lia].
      intros a. unfold baw. cbn. lia.
  Qed.
  Lemma wt_an fuel t : wt (struct_decoder (annot_fields fuel) fuel t) anw (anw t).
  Proof.
    eapply wt_le; [apply (wt_struct _ anw)|cbn; lia|done]. intros n d Hd s. unfold annot_fields in Hd.
    repeat (apply elem_of_cons in Hd as [[= -> ->]|Hd]); [..|by apply elem_of_nil in Hd].
    - rewrite <- (Nat.add_0_l (anw s)). eapply wt_at_field; [apply (wt_uint64 _ (fun _ => 0))|]; cbn; [lia|unfold anw; cbn; lia].
    - rewrite <- (Nat.add_0_l (anw s)). eapply wt_at_field; [apply wt_string|]. intros a. unfold anw. cbn. lia.
    - eapply wt_le; [eapply (wt_at_field _ _ _ _ _ _ anw 0); [apply wt_endpoint|]|done|unfold anw; lia].
      intros a. unfold anw. cbn. lia.
  Qed.
  Lemma lw_same {T} (f : T -> nat) idx s : lw f f idx s = sum f (sl_mem s).
  Proof. apply sum_take_drop. Qed.
  Lemma wt_bas fuel s : wt (slice_decoder zero_ba (struct_decoder (ba_fields fuel) fuel) fuel s) basw (basw s).
  Proof.
    eapply wt_le; [apply (wt_slice zero_ba _ baw baw); [done|done|apply wt_ba|by rewrite !lw_same]|..].
    - intros a. cbn beta. rewrite lw_same. unfold basw. lia.
    - rewrite lw_same. unfold basw. lia.
  Qed.

  Lemma reset_pot s : v1w (reset_v1 s) <= v1pot s.
  Proof.
    unfold v1w, reset_v1, v1pot, basw. cbn [v1_name v1_annots v1_bas sl_mem sl_len length]. rewrite (sum_replicate anw) by done.
    rewrite sum_app, (sum_replicate baw) by done. pose proof (sum_drop_le baw (sl_len (v1_bas s)) (sl_mem (v1_bas s))). lia.
  Qed.

  Lemma wt_v1 fuel t : wt (span_v1_decoder fuel t) (fun s => v1w s + 2) (v1pot t).
  Proof.
    unfold span_v1_decoder. eapply wt_le; [apply (wt_struct _ v1w)|done|apply reset_pot]. intros n d Hd s. unfold v1_fields in Hd.
    repeat (apply elem_of_cons in Hd as [[= -> ->]|Hd]); [..|by apply elem_of_nil in Hd].
    - rewrite <- (Nat.add_0_l (v1w s)). eapply wt_at_field; [apply (wt_id _ (fun _ => 0))|]; cbn; [lia|unfold v1w; cbn; lia].
    - rewrite <- (Nat.add_0_l (v1w s)). eapply wt_at_field; [apply (wt_id _ (fun _ => 0))|]; cbn; [lia|unfold v1w; cbn; lia].
    - rewrite <- (Nat.add_0_l (v1w s)). eapply wt_at_field; [apply (wt_id _ (fun _ => 0))|]; cbn; [lia|unfold v1w; cbn; lia].
    - rewrite <- (Nat.add_0_l (v1w s)). eapply wt_at_field; [apply (wt_uint64 _ (fun _ => 0))|]; cbn; [lia|unfold v1w; cbn; lia].
    - rewrite <- (Nat.add_0_l (v1w s)). eapply wt_at_field; [apply (wt_uint64 _ (fun _ => 0))|]; cbn; [lia|unfold v1w; cbn; lia].
    - rewrite <- (Nat.add_0_l (v1w s)). eapply wt_at_field; [apply wt_string|]. intros a. unfold v1w. cbn. lia.
    - eapply wt_le; [eapply (wt_at_field _ _ _ _ _ _ v1w (v1w s - basw (v1_bas s))); [apply wt_bas|]|done|unfold v1w; lia].
      intros a. unfold v1w. cbn [v1_name v1_annots v1_bas set_v1_bas]. lia.
    - eapply wt_le; [eapply (wt_at_field _ _ _ _ _ _ v1w (v1w s - sum anw (v1_annots s))); [apply (wt_array _ anw), wt_an|]|done|unfold v1w; lia].
      intros a. unfold v1w. cbn [v1_name v1_annots v1_bas set_v1_annots]. lia.
  Qed.
End weight.

(* ---------- conversion ---------- *)

Lemma v2_span_size v : span_size (v2_to_span v) <= v2w v.
Proof.
  unfold v2_to_span. cbv zeta.
  assert (Ht : forall (c : bool) t s, span_size (if c then set_timings t s else s) = span_size s) by (by intros []).
  rewrite !Ht.
  assert (Hd : forall d s, span_size (set_dur d s) = span_size s) by done.
  assert (Hi : forall (c : bool) d s, span_size (if c then set_dur d s else s) = span_size s) by (by intros []).
  rewrite Hi, Hd. change (span_size (set_ts ?t ?s)) with (span_size s).
  unfold span_size, v2w, add_tag. cbn [s_name s_service s_tags set_tags]. pose proof (tags_size_own tag_protocol_version (str "json v2") (v2_tags v)) as K.
  change (str "protocolVersion") with tag_protocol_version. case_decide as E; cbn [s_name s_service set_service new_span length]; lia.
Qed.

Lemma use_service_size e s : length (s_service (use_service e s)) <= length (s_service s) + length e /\ s_name (use_service e s) = s_name s /\ s_tags (use_service e s) = s_tags s.
Proof. unfold use_service. case_decide; cbn [s_service set_service s_name s_tags]; split; try done; lia. Qed.
Lemma add_timing_size k t s : s_service (add_timing k t s) = s_service s /\ s_name (add_timing k t s) = s_name s.
Proof. unfold add_timing. repeat case_decide; done. Qed.
Lemma annots_size l : forall s, length (s_service (foldl add_annot s l)) <= length (s_service s) + sum anw l /\ s_name (foldl add_annot s l) = s_name s.
Proof.
  induction l as [|a l IH]; intros s; cbn [foldl sum]; [split; [lia|done]|]. destruct (IH (add_annot s a)) as [I1 I2].
  assert (length (s_service (add_annot s a)) <= length (s_service s) + anw a /\ s_name (add_annot s a) = s_name s) as [K1 K2].
  { unfold add_annot, anw. case_match; [split; [lia|done]|]. destruct (use_service_size (an_endpoint a) (add_timing (an_value a) (microseconds (wrap64 (an_ts a))) s)) as (U1 & U2 & _).
    destruct (add_timing_size (an_value a) (microseconds (wrap64 (an_ts a))) s) as [T1 T2]. rewrite T1 in U1. rewrite U2, T2. split; [lia|done]. }
  split; [lia|congruence].
Qed.
Lemma bas_size l : forall s, length (s_service (foldl add_ba s l)) + tags_size (s_tags (foldl add_ba s l)) <= length (s_service s) + tags_size (s_tags s) + sum baw l + 2 * length l /\ s_name (foldl add_ba s l) = s_name s.
Proof.
  induction l as [|a l IH]; intros s; cbn [foldl sum length]; [split; [lia|done]|]. destruct (IH (add_ba s a)) as [I1 I2].
  assert (length (s_service (add_ba s a)) + tags_size (s_tags (add_ba s a)) <= length (s_service s) + tags_size (s_tags s) + baw a + 2 /\ s_name (add_ba s a) = s_name s) as [K1 K2].
  { unfold add_ba, baw. destruct (use_service_size (ba_endpoint a) (add_tag (ba_key a) (ba_value a) s)) as (U1 & U2 & U3). rewrite U2, U3.
    cbn [add_tag set_tags s_service s_tags s_name] in *. pose proof (tags_size_insert (ba_key a) (ba_value a) (s_tags s)). split; [lia|done]. }
  split; [lia|congruence].
Qed.

Lemma fill_size s : span_size (fill_in_timestamp s) = span_size s.
Proof. unfold fill_in_timestamp. repeat case_match; done. Qed.

Lemma v1_span_size v : span_size (v1_to_span v) <= v1w v.
Proof.
  unfold v1_to_span. cbv zeta. rewrite fill_size.
  assert (Hi : forall (c : bool) d s, span_size (if c then s else set_dur d s) = span_size s) by (by intros []).
  assert (Hj : forall (c : bool) d s, span_size (if c then s else set_ts d s) = span_size s) by (by intros []).
  rewrite Hi, Hj.
  destruct (annots_size (v1_annots v) (new_span (v1_name v) (v1_trace v) (v1_id v) (v1_parent v))) as [A1 A2].
  set (s0 := foldl add_annot _ _) in *.
  destruct (bas_size (sl_list (v1_bas v)) (set_tags ∅ s0)) as [B1 B2]. set (s1 := foldl add_ba _ _) in *.
  cbn [set_tags s_tags s_service s_name new_span length] in *. rewrite tags_size_empty in B1.
  unfold span_size, v1w, basw, add_tag. cbn [s_name s_service s_tags set_tags]. change (str "protocolVersion") with tag_protocol_version.
  pose proof (tags_size_own tag_protocol_version (str "json v1") (s_tags s1)) as K. rewrite B2, A2.
  unfold sl_list in *. pose proof (sum_take_le baw (sl_len (v1_bas v)) (sl_mem (v1_bas v))). pose proof (firstn_le_length (sl_len (v1_bas v)) (sl_mem (v1_bas v))).
  lia.
Qed.

Lemma spans_sum {T} (f : T -> span) (w : T -> nat) l : (forall x, span_size (f x) <= w x) -> spans_size (map f l) <= sum w l + 2 * length l.
Proof. intros H. induction l as [|x l IH]; cbn [map spans_size sum length]; [lia|]. specialize (H x). lia. Qed.

Lemma pool_sum pool : sum v1pot pool = pool_texts pool.
Proof.
  induction pool as [|s pool IH]; cbn [sum pool_texts]; [done|]. rewrite IH. f_equal. unfold v1pot.
  generalize (sl_mem (v1_bas s)). intros l. induction l as [|a l IHl]; cbn [sum texts_size]; [done|]. rewrite IHl. unfold baw. lia.
Qed.

Lemma v2_size fuel buf chunks e spans : 5 <= length buf -> no_eager_error e ->
  ParseJsonV2 fuel buf (Src chunks e) = XDone (Some spans) -> 2 + spans_size spans <= length (concat chunks).
Proof.
  intros Hb He. unfold ParseJsonV2. destruct (exec _ _ _) as [[s b]| |] eqn:E; cbn [xmap]; try done.
  unfold v2_result. cbn [fst snd]. destruct b; [|done]. intros [= <-]. apply q_of_exec in E; [|done..].
  pose proof (wt_slice fuel (length buf) zero_v2 (span_v2_decoder fuel) (fun _ => 0) v2w eq_refl eq_refl (wt_v2 fuel (length buf) fuel) fuel (Slice [] 0) (le_n _) (concat chunks)) as H.
  fold (parse_v2_prog fuel) in H. destruct (q_exec fuel (length buf) (parse_v2_prog fuel) (concat chunks)) as [[a []] l'|[a []]| |]; cbn [y_result] in E; try done.
  injection E as ->. cbn [lw sl_mem sl_len] in H. unfold lw at 2 in H. cbn in H. unfold lw in H. unfold sl_list.
  pose proof (spans_sum v2_to_span v2w (take (sl_len s) (sl_mem s)) v2_span_size) as K. pose proof (firstn_le_length (sl_len s) (sl_mem s)). lia.
Qed.

Lemma v1_size fuel buf pool chunks e spans pool' : 5 <= length buf -> no_eager_error e ->
  ParseJsonV1 fuel buf pool (Src chunks e) = XDone (Some spans, pool') -> 2 + spans_size spans <= length (concat chunks) + pool_texts pool.
Proof.
  intros Hb He. unfold ParseJsonV1. destruct (exec _ _ _) as [[s b]| |] eqn:E; cbn [xmap]; try done.
  unfold v1_result. cbn [fst snd]. destruct b; [|done]. intros [= <- _]. apply q_of_exec in E; [|done..].
  pose proof (wt_slice fuel (length buf) zero_v1 (span_v1_decoder fuel) v1pot v1w eq_refl eq_refl (wt_v1 fuel (length buf) fuel) fuel (Slice pool 0) (le_n _) (concat chunks)) as H.
  fold (parse_v1_prog fuel pool) in H. destruct (q_exec fuel (length buf) (parse_v1_prog fuel pool) (concat chunks)) as [[a []] l'|[a []]| |]; cbn [y_result] in E; try done.
  injection E as ->. unfold lw at 2 in H. cbn [sl_mem sl_len] in H. rewrite take_0, drop_0, pool_sum in H. cbn [sum] in H. unfold lw in H. unfold sl_list.
  pose proof (spans_sum v1_to_span v1w (take (sl_len s) (sl_mem s)) v1_span_size) as K. pose proof (firstn_le_length (sl_len s) (sl_mem s)). lia.
Qed.
