(** Pooled decode memory: what a request sees of what an earlier request left behind. *)
From Verif Require Import Base IdModel IdSpec SpanModel JsonModel CodecModel JsonPure JsonSpec DocSpec DocSem DocProofs1 ParseSpec.

(* ---------- related programs ---------- *)

Inductive prel {A B} (Q : A -> B -> Prop) : prog A -> prog B -> Prop :=
  | prel_ret a b : Q a b -> prel Q (Ret a) (Ret b)
  | prel_call o k k' e e' : (forall t, prel Q (k t) (k' t)) -> Q e e' -> prel Q (Call o k e) (Call o k' e')
  | prel_fuel : prel Q OutOfFuel OutOfFuel.

Definition xrel {A B} (Q : A -> B -> Prop) (x : xres A) (y : xres B) : Prop :=
  match x, y with XDone a, XDone b => Q a b | XPanic, XPanic => True | XHang, XHang => True | _, _ => False end.

Lemma prel_exec {A B} (Q : A -> B -> Prop) fuel p p' : prel Q p p' -> forall st, xrel Q (exec fuel p st) (exec fuel p' st).
Proof.
  induction 1 as [a b H|o k k' e e' Hk IH He|]; intros st; cbn [exec]; [exact H| |done].
  by destruct (run_op fuel o st).
Qed.

(** Memory and success flag related. *)
Definition both {A B} (Q : A -> B -> Prop) (x : A * bool) (y : B * bool) : Prop := Q x.1 y.1 /\ x.2 = y.2.

Lemma prel_pthen {A A' B B'} (Q : A -> A' -> Prop) (S : B -> B' -> Prop) p p' f f' k k' :
  prel (both Q) p p' -> (forall a a', Q a a' -> S (f a) (f' a')) -> (forall a a', Q a a' -> prel (both S) (k a) (k' a')) ->
  prel (both S) (pthen p f k) (pthen p' f' k').
Proof.
  intros Hp Hf Hk. induction Hp as [[a b] [a' b'] [H E]|o c c' [a b] [a' b'] Hc IH [H E]|]; cbn [pthen].
  - cbn in E. subst b'. cbn in H. destruct b; [by apply Hk|]. constructor. split; [by apply Hf|done].
  - constructor; [done|]. split; [by apply Hf|done].
  - constructor.
Qed.

Lemma prel_refl {A} (p : prog (A * bool)) : prel (both eq) p p.
Proof. induction p as [a|o k IH e|]; constructor; auto; split; done. Qed.

Lemma prel_struct_loop {T T'} (Q : T -> T' -> Prop) fs fs' :
  Forall2 (fun a b => a.1 = b.1 /\ forall t t', Q t t' -> prel (both Q) (a.2 t) (b.2 t')) fs fs' ->
  forall n t t', Q t t' -> prel (both Q) (struct_loop fs n t) (struct_loop fs' n t').
Proof.
  intros Hf. induction n as [|n IH]; intros t t' Ht; cbn [struct_loop]; [constructor|]. constructor; [|by split]. intros next.
  destruct (decide _). { constructor; [|by split]. intros _. constructor. by split. }
  constructor; [|by split]. intros key.
  assert (H : match lookup_field fs (t_val key), lookup_field fs' (t_val key) with
    | Some d, Some d' => forall t t', Q t t' -> prel (both Q) (d t) (d' t') | None, None => True | _, _ => False end).
  { clear IH. induction Hf as [|[a d] [a' d'] fs fs' [E Hd] Hf IH]; cbn [lookup_field]; [done|]. cbn in E, Hd. subst a'. by destruct (decide (a = t_val key)). }
  destruct (lookup_field fs (t_val key)) as [d|], (lookup_field fs' (t_val key)) as [d'|]; try done.
  - eapply prel_pthen; [by apply H|done|]. intros. by apply IH.
  - constructor; [|by split]. intros _. by apply IH.
Qed.

Lemma prel_at_field {T T' A A'} (Q : T -> T' -> Prop) (S : A -> A' -> Prop) (get : T -> A) put (get' : T' -> A') put' (d : decoder A) (d' : decoder A') t t' :
  Q t t' -> S (get t) (get' t') -> (forall a a', S a a' -> Q (put a t) (put' a' t')) -> (forall a a', S a a' -> prel (both S) (d a) (d' a')) ->
  prel (both Q) (at_field get put d t) (at_field get' put' d' t').
Proof.
  intros Ht Hg Hp Hd. unfold at_field. eapply prel_pthen; [by apply Hd|done|]. intros. constructor. split; [by apply Hp|done].
Qed.

(* ---------- growing ---------- *)

Definition same_slots {T} (zero : T) (s s' : slice T) : Prop :=
  sl_len s = sl_len s' /\ (sl_len s <= length (sl_mem s))%nat /\ (sl_len s' <= length (sl_mem s'))%nat /\
  forall i, nth i (sl_mem s) zero = nth i (sl_mem s') zero.

Lemma nth_pad {T} (zero : T) l n i : nth i (l ++ replicate n zero) zero = nth i l zero.
Proof.
  destruct (Nat.lt_ge_cases i (length l)) as [H|H]; [by rewrite app_nth1|]. rewrite app_nth2 by done. rewrite (nth_overflow l) by done.
  clear. generalize (i - length l)%nat. induction n as [|n IH]; intros [|k]; cbn; done.
Qed.

Lemma grow_nth {T} (zero : T) s n : (sl_len s <= length (sl_mem s))%nat -> (n = 1 \/ n = sl_len s + 1)%nat ->
  let s' := unsafe_grow zero s n in sl_len s' = n /\ (n <= length (sl_mem s'))%nat /\ (forall i, nth i (sl_mem s') zero = nth i (sl_mem s) zero) /\ (length (sl_mem s) <= length (sl_mem s'))%nat.
Proof.
  intros Hl Hn s'. unfold s', unsafe_grow. destruct (Nat.leb_spec n (length (sl_mem s))) as [H|H]; [done|]. cbn [sl_len sl_mem].
  assert (sl_len s = length (sl_mem s)) as E by lia.
  pose proof (new_cap_ge (length (sl_mem s)) n). split; [done|]. rewrite E, take_ge by done. rewrite app_length, replicate_length.
  split; [lia|]. split; [|lia]. intros i. apply nth_pad.
Qed.

Lemma nth_insert {T} (zero : T) l i j x : (i < length l)%nat -> nth j (<[i := x]> l) zero = if decide (j = i) then x else nth j l zero.
Proof.
  intros Hi. destruct (decide (j = i)) as [->|Hn].
  - apply nth_lookup_Some. by apply list_lookup_insert.
  - rewrite !nth_lookup. by rewrite list_lookup_insert_ne.
Qed.

Lemma prel_slice {T} (zero : T) (d : decoder T) n s s' : (forall t, prel (both eq) (d t) (d t)) -> same_slots zero s s' ->
  prel (both (same_slots zero)) (slice_decoder zero d n s) (slice_decoder zero d n s').
Proof.
  intros Hd Hs. constructor; [|by split]. intros _.
  assert (Hi : (0 = 0 \/ 0 = sl_len s)%nat) by lia. revert s s' Hs Hi. generalize 0%nat at 2 3 4 5 as idx. induction n as [|n IH]; intros idx s s' Hs Hi; cbn [slice_loop]; [constructor|].
  constructor; [|by split]. intros next. destruct (decide _). { constructor; [|by split]. intros _. constructor. by split. }
  destruct Hs as (H1 & H2 & H3 & H4).
  destruct (grow_nth zero s (idx + 1) H2 ltac:(lia)) as (G1 & G2 & G3 & _). destruct (grow_nth zero s' (idx + 1) H3 ltac:(lia)) as (G1' & G2' & G3' & _).
  set (r := unsafe_grow zero s (idx + 1)) in *. set (r' := unsafe_grow zero s' (idx + 1)) in *.
  assert (E : nth idx (sl_mem r) zero = nth idx (sl_mem r') zero) by (by rewrite G3, G3', H4).
  assert (K : forall el el', el = el' -> same_slots zero (Slice (<[idx := el]> (sl_mem r)) (sl_len r)) (Slice (<[idx := el']> (sl_mem r')) (sl_len r'))).
  { intros el el' <-. split; [cbn; lia|]. split; [cbn; rewrite insert_length; lia|]. split; [cbn; rewrite insert_length; lia|].
    intros i. cbn [sl_mem]. rewrite !nth_insert by lia. destruct (decide _); [done|]. by rewrite G3, G3', H4. }
  eapply (prel_pthen eq); [|exact K|].
  - rewrite E. apply Hd.
  - intros a a' Ha. apply IH; [by apply K|]. cbn [sl_len]. lia.
Qed.

(* ---------- slots of spans ---------- *)

Definition same_span (t t' : spanV1) : Prop :=
  v1_trace t = v1_trace t' /\ v1_id t = v1_id t' /\ v1_parent t = v1_parent t' /\ v1_annots t = v1_annots t' /\
  same_slots zero_ba (v1_bas t) (v1_bas t') /\ v1_name t = v1_name t' /\ v1_ts t = v1_ts t' /\ v1_dur t = v1_dur t'.

Lemma nth_eq_take {T} (zero : T) n l l' : (n <= length l)%nat -> (n <= length l')%nat -> (forall i, nth i l zero = nth i l' zero) -> take n l = take n l'.
Proof.
  intros H1 H2 H. apply (nth_ext _ _ zero zero); rewrite !take_length; [lia|]. intros i Hi. specialize (H i).
  rewrite !nth_lookup. rewrite !lookup_take by lia. by rewrite !nth_lookup in H.
Qed.

Lemma same_to_span t t' : same_span t t' -> v1_to_span t = v1_to_span t'.
Proof.
  destruct t as [a b c d s f g h], t' as [a' b' c' d' s' f' g' h']. unfold same_span. cbn. intros (-> & -> & -> & -> & (H1 & H2 & H3 & H4) & -> & -> & ->).
  unfold v1_to_span. cbn [v1_id v1_trace v1_parent v1_ts v1_dur v1_name v1_annots v1_bas].
  replace (sl_list s') with (sl_list s); [done|]. unfold sl_list. rewrite <- H1. eapply nth_eq_take; [done|lia|done].
Qed.

Lemma nth_zeros {T} (zero : T) l : Forall (eq zero) l -> forall i, nth i l zero = zero.
Proof. induction 1 as [|x l <- _ IH]; intros [|i]; cbn; done. Qed.

Lemma reset_same t t' : clean t -> clean t' -> same_span (reset_v1 t) (reset_v1 t').
Proof.
  intros Ht Ht'. destruct (reset_clean t Ht) as (mem & Hm & ->). destruct (reset_clean t' Ht') as (mem' & Hm' & ->).
  unfold same_span. cbn. repeat split; cbn; try lia. intros i. by rewrite !nth_zeros.
Qed.

Ltac eachf := apply Forall2_cons_2; [split; [done|]; intros ? ? ?; cbn [snd]|].
Ltac simple_field get get' :=
  eapply (prel_at_field _ eq); [eassumption|unfold same_span in *; tauto|intros ? ? ->; unfold same_span in *; tauto|intros ? ? ->; apply prel_refl].

Lemma prel_span_v1 n t t' : clean t -> clean t' -> prel (both same_span) (span_v1_decoder n t) (span_v1_decoder n t').
Proof.
  intros Ht Ht'. pose proof (reset_same t t' Ht Ht') as Hr. constructor; [|by split]. intros _. apply prel_struct_loop; [|done]. unfold v1_fields.
  repeat first [apply Forall2_nil_2 | eachf].
  1-6,8: (eapply (prel_at_field _ eq); [eassumption|unfold same_span in *; naive_solver|intros ? ? ->; unfold same_span in *; naive_solver|intros ? ? ->; apply prel_refl]).
  eapply (prel_at_field _ (same_slots zero_ba)); [eassumption|unfold same_span in *; naive_solver|intros ? ? ?; unfold same_span in *; naive_solver|].
  intros a a' Ha. apply prel_slice; [|done]. intros. apply prel_refl.
Qed.

(** The slots decoded so far agree; the others are clean. *)
Definition same_pool (s s' : slice spanV1) : Prop :=
  sl_len s = sl_len s' /\ (sl_len s <= length (sl_mem s))%nat /\ (sl_len s' <= length (sl_mem s'))%nat /\
  Forall2 same_span (sl_list s) (sl_list s') /\ Forall clean (drop (sl_len s) (sl_mem s)) /\ Forall clean (drop (sl_len s') (sl_mem s')).

Lemma clean_nth s i : Forall clean (drop i s) -> clean (nth i s zero_v1).
Proof.
  intros H. destruct (s !! i) as [x|] eqn:E.
  - rewrite (nth_lookup_Some _ _ _ _ E). rewrite Forall_lookup in H. apply (H 0%nat). by rewrite lookup_drop, Nat.add_0_r.
  - rewrite nth_overflow by (by apply lookup_ge_None). apply clean_zero.
Qed.

Definition same_spans (s s' : slice spanV1) : Prop := map v1_to_span (sl_list s) = map v1_to_span (sl_list s').
Lemma pool_spans s s' : same_pool s s' -> same_spans s s'.
Proof. intros (_ & _ & _ & H & _). unfold same_spans. induction H as [|x y l l' Hx _ IH]; [done|]. cbn [map]. by rewrite IH, (same_to_span x y). Qed.

Lemma pool_step s s' : same_pool s s' ->
  let r := unsafe_grow zero_v1 s (sl_len s + 1) in let r' := unsafe_grow zero_v1 s' (sl_len s' + 1) in
  clean (nth (sl_len s) (sl_mem r) zero_v1) /\ clean (nth (sl_len s') (sl_mem r') zero_v1) /\ sl_len r = (sl_len s + 1)%nat /\ sl_len r' = (sl_len s' + 1)%nat /\
  forall el el', same_span el el' -> same_pool (Slice (<[sl_len s := el]> (sl_mem r)) (sl_len r)) (Slice (<[sl_len s' := el']> (sl_mem r')) (sl_len r')).
Proof.
  intros (H1 & H2 & H3 & H4 & H5 & H6).
  destruct (unsafe_grow_spec zero_v1 clean s clean_zero H2 H5) as (G1 & G2 & G3 & G4).
  destruct (unsafe_grow_spec zero_v1 clean s' clean_zero H3 H6) as (G1' & G2' & G3' & G4'). cbv zeta.
  set (r := unsafe_grow zero_v1 s (sl_len s + 1)) in *. set (r' := unsafe_grow zero_v1 s' (sl_len s' + 1)) in *.
  split; [by apply clean_nth|]. split; [by apply clean_nth|]. split; [done|]. split; [done|]. intros el el' Hel.
  unfold same_pool, sl_list. cbn [sl_mem sl_len]. rewrite !insert_length. split; [lia|]. split; [lia|]. split; [lia|].
  rewrite G1, G1', !Nat.add_1_r.
  assert (T : forall (q : slice spanV1) i x, (i < length (sl_mem q))%nat -> take (S i) (<[i := x]> (sl_mem q)) = take i (sl_mem q) ++ [x]).
  { intros q i x Hi. rewrite (take_S_r _ _ x) by (by rewrite list_lookup_insert). by rewrite take_insert by lia. }
  rewrite !T by lia. split.
  - apply Forall2_app; [by rewrite G3, G3'|]. by constructor.
  - rewrite !drop_insert_gt by lia. rewrite <- (Nat.add_1_r (sl_len s)), <- (Nat.add_1_r (sl_len s')), <- !drop_drop. split; by apply Forall_drop.
Qed.

Lemma prel_v1_loop n : forall k s s', same_pool s s' ->
  prel (both same_spans) (slice_loop zero_v1 (span_v1_decoder n) k s (sl_len s)) (slice_loop zero_v1 (span_v1_decoder n) k s' (sl_len s')).
Proof.
  induction k as [|k IH]; intros s s' Hs; cbn [slice_loop]; [constructor|]. pose proof (pool_spans s s' Hs) as Q.
  constructor; [|by split]. intros next. destruct (decide _). { constructor; [|by split]. intros _. constructor. by split. }
  destruct (pool_step s s' Hs) as (C & C' & L & L' & K). cbv zeta in *.
  eapply (prel_pthen same_span); [by apply prel_span_v1|intros; by apply pool_spans, K|].
  intros a a' Ha. specialize (IH _ _ (K a a' Ha)). cbn [sl_len] in IH. by rewrite L, L' in IH at 2.
Qed.

Lemma clean_pool_independent fuel buf pool pool' src : Forall clean pool -> Forall clean pool' ->
  xrel (fun r r' => r.1 = r'.1) (ParseJsonV1 fuel buf pool src) (ParseJsonV1 fuel buf pool' src).
Proof.
  intros Hp Hp'. unfold ParseJsonV1.
  assert (H : prel (both same_spans) (parse_v1_prog fuel pool) (parse_v1_prog fuel pool')).
  { assert (Hs : same_pool (Slice pool 0) (Slice pool' 0)).
    { unfold same_pool, sl_list. cbn [sl_mem sl_len]. rewrite !take_0, !drop_0. split; [done|]. split; [lia|]. split; [lia|]. done. }
    constructor; [|split; [by apply pool_spans|done]]. intros _. apply (prel_v1_loop fuel fuel _ _ Hs). }
  apply (prel_exec _ fuel _ _) with (st := new_parser src buf) in H.
  destruct (exec fuel (parse_v1_prog fuel pool) (new_parser src buf)) as [[s b]| |], (exec fuel (parse_v1_prog fuel pool') (new_parser src buf)) as [[s' b']| |]; cbn [xrel xmap] in *; try done.
  destruct H as [H E]. cbn in E, H. subst b'. unfold v1_result. cbn [fst snd]. destruct b; [|done]. by rewrite H.
Qed.

(* ---------- when is the memory left clean ---------- *)

Definition slot_ok (tc : spanV1 * nat) (t : spanV1) : Prop :=
  tc.1 = t /\ (tc.2 = 0%nat -> exists mem, v1_bas t = Slice mem 0 /\ Forall (eq zero_ba) mem) /\ (tc.2 = 1%nat -> clean t).

Lemma slot_clean tc t : slot_ok tc t -> (tc.2 <= 1)%nat -> clean t.
Proof.
  intros (_ & H0 & H1) H. destruct tc as [t' [|[|c]]]; cbn in *; [|auto|lia]. destruct (H0 eq_refl) as (mem & E & Hz).
  unfold clean, clean_slice. rewrite E. cbn [sl_len sl_mem]. rewrite drop_0. split; [lia|done].
Qed.

Lemma prel_both_refl {A} (S : A -> Prop) (p : prog (A * bool)) : (forall a, S a) -> prel (both (fun a b => a = b /\ S a)) p p.
Proof. intros H. induction p as [a|o k IH e|]; constructor; auto; split; auto. Qed.

Lemma prel_clean_loop (d : decoder binaryAnnotationV1) k : forall s, clean_slice s ->
  prel (both (fun s s' => s = s' /\ clean_slice s)) (slice_loop zero_ba d k s (sl_len s)) (slice_loop zero_ba d k s (sl_len s)).
Proof.
  induction k as [|k IH]; intros s Hs; cbn [slice_loop]; [constructor|].
  constructor; [|by split]. intros next. destruct (decide _). { constructor; [|by split]. intros _. constructor. by split. }
  destruct Hs as [H1 H2]. destruct (unsafe_grow_spec zero_ba (eq zero_ba) s eq_refl H1 H2) as (G1 & G2 & G3 & G4). cbv zeta.
  set (r := unsafe_grow zero_ba s (sl_len s + 1)) in *.
  assert (K : forall el, clean_slice (Slice (<[sl_len s := el]> (sl_mem r)) (sl_len r))).
  { intros el. split; cbn [sl_len sl_mem]; [rewrite insert_length; lia|]. rewrite drop_insert_gt by lia. rewrite G1, <- drop_drop. by apply Forall_drop. }
  eapply (prel_pthen eq); [apply prel_refl|intros ? ? <-; split; [done|apply K]|].
  intros a a' <-. specialize (IH _ (K a)). cbn [sl_len] in IH. rewrite G1 in IH. rewrite <- G1 in IH at 1 3. exact IH.
Qed.

Lemma counted_span n tc t : tc.1 = t -> clean t -> prel (both slot_ok) (counted_decoder n tc) (span_v1_decoder n t).
Proof.
  intros Et Ht. subst t. destruct (reset_clean tc.1 Ht) as (mem & Hm & Hr).
  assert (Hinit : slot_ok (reset_v1 tc.1, 0%nat) (reset_v1 tc.1)).
  { split; [done|]. cbn [snd]. split; [|done]. intros _. exists mem. rewrite Hr. done. }
  constructor; [|by split]. intros _. apply prel_struct_loop; [|done].
  assert (Other : forall A (get : spanV1 -> A) put name d, (forall a t, v1_bas (put a t) = v1_bas t) -> name <> str "binaryAnnotations" ->
    forall uc u, slot_ok uc u -> prel (both slot_ok) ((counted_field (name, at_field get put d)).2 uc) (at_field get put d u)).
  { intros A get put name d Hb Hn uc u (<- & H0 & H1). cbn [counted_field snd fst]. unfold at_field.
    assert (Hu : forall a, slot_ok (put a uc.1, uc.2) (put a uc.1)).
    { intros a. unfold slot_ok, clean. cbn [fst snd]. rewrite Hb. done. }
    rewrite decide_False by done. generalize (d (get uc.1)). intros p.
    induction p as [[a b]|o k IH [a b]|]; cbn [pthen].
    - destruct b; constructor; split; try done; apply Hu.
    - constructor; [done|]. split; [apply Hu|done].
    - constructor. }
  assert (Bas : forall uc u, slot_ok uc u -> prel (both slot_ok)
     ((counted_field (str "binaryAnnotations", at_field v1_bas set_v1_bas (slice_decoder zero_ba (struct_decoder (ba_fields n) n) n))).2 uc)
     (at_field v1_bas set_v1_bas (slice_decoder zero_ba (struct_decoder (ba_fields n) n) n) u)).
  { intros uc u (<- & H0 & H1). cbn [counted_field snd fst]. unfold at_field. rewrite decide_True by done.
    destruct uc as [u [|c]]; cbn [fst snd] in *.
    - destruct (H0 eq_refl) as (mem' & E & Hz). rewrite E.
      assert (Hc : clean_slice (Slice mem' 0)) by (split; cbn [sl_len sl_mem]; [lia|by rewrite drop_0]).
      assert (P : prel (both (fun s s' => s = s' /\ clean_slice s)) (slice_decoder zero_ba (struct_decoder (ba_fields n) n) n (Slice mem' 0))
                   (slice_decoder zero_ba (struct_decoder (ba_fields n) n) n (Slice mem' 0))).
      { constructor; [|by split]. intros _. apply (prel_clean_loop _ n _ Hc). }
      assert (Hs : forall s, clean_slice s -> slot_ok (set_v1_bas s u, 1%nat) (set_v1_bas s u)) by (intros s Hcs; split; [done|]; split; [done|]; intros _; exact Hcs).
      revert P. generalize (slice_decoder zero_ba (struct_decoder (ba_fields n) n) n (Slice mem' 0)). intros p P.
      assert (P' : prel (both slot_ok) (pthen (pthen p (fun a => set_v1_bas a u) (fun a => Ret (set_v1_bas a u, true))) (fun t => (t, 1%nat)) (fun t => Ret ((t, 1%nat), true)))
         (pthen p (fun a => set_v1_bas a u) (fun a => Ret (set_v1_bas a u, true)))).
      { clear -P Hs. remember p as p' eqn:Ep in P at 2. assert (Ep' : p' = p) by done. clear Ep. induction P as [[a b] [a' b'] [[H Hc] E]|o k k' [a b] [a' b'] Hk IH [[H Hc] E]|].
        - cbn in *. destruct b; constructor; split; try done; by apply Hs.
        - cbn [pthen]. injection Ep' as ? ?. constructor.
          + intros t. apply IH. subst k'. done.
          + split; [|done]. by apply Hs.
        - constructor. }
      exact P'.
    - assert (Hs : forall s, slot_ok (set_v1_bas s u, S (S c)) (set_v1_bas s u)) by (intros s; split; [done|]; split; [done|]; cbn; lia).
      generalize (slice_decoder zero_ba (struct_decoder (ba_fields n) n) n (v1_bas u)). intros p.
      induction p as [[a b]|o k IH [a b]|]; cbn [pthen].
      + destruct b; constructor; split; try done; apply Hs.
      + constructor; [done|]. split; [apply Hs|done].
      + constructor. }
  unfold v1_fields. cbn [map].
  repeat first [apply Forall2_nil_2 | apply Forall2_cons_2; [split; [done|]|]].
  7: exact Bas.
  all: apply Other; [intros; reflexivity|discriminate].
Qed.

Definition counted_pool (s : slice (spanV1 * nat)) (s' : slice spanV1) : Prop :=
  s' = Slice (map fst (sl_mem s)) (sl_len s) /\ (sl_len s <= length (sl_mem s))%nat /\
  Forall (fun tc => (tc.2 <= 1)%nat -> clean tc.1) (sl_list s) /\ Forall (fun tc => clean tc.1) (drop (sl_len s) (sl_mem s)).

Lemma counted_loop n : forall k s s', counted_pool s s' ->
  prel (both counted_pool) (slice_loop (zero_v1, 0%nat) (counted_decoder n) k s (sl_len s)) (slice_loop zero_v1 (span_v1_decoder n) k s' (sl_len s')).
Proof.
  induction k as [|k IH]; intros s s' Hs; cbn [slice_loop]; [constructor|].
  constructor; [|by split]. intros next. destruct (decide _). { constructor; [|by split]. intros _. constructor. by split. }
  destruct Hs as (-> & H1 & H2 & H3). cbn [sl_len]. cbv zeta.
  destruct (unsafe_grow_spec (zero_v1, 0%nat) (fun tc => clean tc.1) s clean_zero H1 H3) as (G1 & G2 & G3 & G4).
  assert (E : unsafe_grow zero_v1 (Slice (map fst (sl_mem s)) (sl_len s)) (sl_len s + 1) =
    Slice (map fst (sl_mem (unsafe_grow (zero_v1, 0%nat) s (sl_len s + 1)))) (sl_len s + 1)).
  { unfold unsafe_grow. cbn [sl_mem sl_len]. rewrite map_length. destruct (_ <=? _)%nat; [done|]. cbn [sl_mem]. f_equal.
    rewrite map_app, firstn_map. f_equal. generalize (new_cap (length (sl_mem s)) (sl_len s + 1) - sl_len s)%nat as j. clear. induction j as [|j IH]; [done|]. cbn. by rewrite <- IH. }
  rewrite E. set (r := unsafe_grow (zero_v1, 0%nat) s (sl_len s + 1)) in *. cbn [sl_mem sl_len].
  destruct (sl_mem r !! sl_len s) as [tc|] eqn:Etc; [|apply lookup_ge_None in Etc; lia].
  assert (Hc : clean tc.1). { rewrite Forall_lookup in G4. apply (G4 0%nat). by rewrite lookup_drop, Nat.add_0_r. }
  assert (K : forall el el', slot_ok el el' -> counted_pool (Slice (<[sl_len s := el]> (sl_mem r)) (sl_len r)) (Slice (<[sl_len s := el']> (map fst (sl_mem r))) (sl_len s + 1))).
  { intros el el' Hel. unfold counted_pool, sl_list. cbn [sl_mem sl_len]. rewrite insert_length. split.
    - rewrite G1. f_equal. destruct Hel as [<- _]. symmetry. apply list_fmap_insert.
    - split; [lia|]. rewrite G1, Nat.add_1_r. rewrite (take_S_r _ _ el) by (rewrite list_lookup_insert; [done|lia]). rewrite take_insert by lia. split.
      + apply Forall_app_2; [by rewrite G3|]. constructor; [|done]. intros Hle. destruct Hel as [Hf Hrest]. rewrite Hf. eapply slot_clean; [|exact Hle]. split; done.
      + rewrite drop_insert_gt by lia. rewrite <- Nat.add_1_r, <- drop_drop. by apply Forall_drop. }
  eapply (prel_pthen slot_ok); [|exact K|].
  - rewrite (nth_lookup_Some _ _ _ _ Etc). replace (nth (sl_len s) (map fst (sl_mem r)) zero_v1) with tc.1.
    + by apply counted_span.
    + symmetry. apply nth_lookup_Some. rewrite list_lookup_fmap. by rewrite Etc.
  - intros a a' Ha. specialize (IH _ _ (K a a' Ha)). cbn [sl_len] in IH. rewrite G1 in IH. rewrite <- G1 in IH at 1. exact IH.
Qed.

Lemma clean_unless_repeats fuel buf pool src r pool' : Forall clean pool -> ParseJsonV1 fuel buf pool src = XDone (r, pool') ->
  ~ repeats fuel buf pool src -> Forall clean pool'.
Proof.
  intros Hp. unfold ParseJsonV1, repeats.
  assert (Hs : counted_pool (Slice (map (fun t => (t, 0%nat)) pool) 0) (Slice pool 0)).
  { unfold counted_pool, sl_list. cbn [sl_mem sl_len]. rewrite map_map, map_id, drop_0, take_0. split; [done|]. split; [lia|]. split; [constructor|].
    apply Forall_map. done. }
  assert (H : prel (both counted_pool) (counted_prog fuel pool) (parse_v1_prog fuel pool)).
  { constructor; [|by split]. intros _. apply (counted_loop fuel fuel _ _ Hs). }
  apply (prel_exec _ fuel _ _) with (st := new_parser src buf) in H.
  destruct (exec fuel (counted_prog fuel pool) (new_parser src buf)) as [[s b]| |], (exec fuel (parse_v1_prog fuel pool) (new_parser src buf)) as [[s' b']| |]; cbn [xrel xmap] in *; try done.
  destruct H as [(E & _ & H1 & H2) _]. cbn [fst] in E. subst s'. unfold v1_result. cbn [fst snd sl_mem]. intros [= _ <-] Hn. apply Forall_take.
  apply Forall_map. rewrite <- (take_drop (sl_len s) (sl_mem s)) in Hn |- *. apply Forall_app_2; [|done].
  unfold sl_list in H1. rewrite Forall_forall in H1 |- *. intros tc Htc. apply H1; [done|]. destruct (decide (tc.2 <= 1)%nat); [done|].
  exfalso. apply Hn. rewrite Exists_app. left. rewrite Exists_exists. exists tc. split; [done|lia].
Qed.

Lemma once_clean entry : pooled_once entry -> Forall clean entry.
Proof.
  induction 1 as [|fuel buf entry src r entry' _ IH E Hn].
  - apply Forall_replicate. apply clean_zero.
  - by eapply clean_unless_repeats.
Qed.

Lemma no_leak fuel buf entry src : pooled_once entry ->
  match ParseJsonV1 fuel buf entry src, ParseJsonV1 fuel buf new_pool_entry src with
  | XDone (r, _), XDone (r', _) => r = r'
  | XHang, XHang => True
  | XPanic, XPanic => True
  | _, _ => False
  end.
Proof.
  intros H. pose proof (clean_pool_independent fuel buf entry new_pool_entry src (once_clean entry H) (once_clean _ once_new)) as E.
  destruct (ParseJsonV1 fuel buf entry src) as [[r p]| |], (ParseJsonV1 fuel buf new_pool_entry src) as [[r' p']| |]; cbn in E; done.
Qed.

Lemma pool_leaks : exists entry fuel buf src r r' p p', pooled entry /\
  ParseJsonV1 fuel buf entry src = XDone (Some r, p) /\ ParseJsonV1 fuel buf new_pool_entry src = XDone (Some r', p') /\ r <> r'.
Proof.
  pose (b1 := str "[{""binaryAnnotations"":[{},{""key"":""b"",""value"":""secret""}],""binaryAnnotations"":[{}]}]").
  pose (b2 := str "[{""binaryAnnotations"":[{""key"":""x"",""value"":""y""},{}]}]").
  destruct (ParseJsonV1 200 (replicate 20 0) new_pool_entry (Src [b1] (EndEOF false))) as [[r1 e1]| |] eqn:E1; [|vm_compute in E1; discriminate E1..].
  destruct (ParseJsonV1 200 (replicate 20 0) e1 (Src [b2] (EndEOF false))) as [[r2 e2]| |] eqn:E2; [|vm_compute in E1; injection E1 as <- <-; vm_compute in E2; discriminate E2..].
  destruct (ParseJsonV1 200 (replicate 20 0) new_pool_entry (Src [b2] (EndEOF false))) as [[r3 e3]| |] eqn:E3; [|vm_compute in E3; discriminate E3..].
  vm_compute in E3. injection E3 as <- <-. pose proof E1 as E1'. vm_compute in E1'. injection E1' as <- <-. pose proof E2 as E2'. vm_compute in E2'. injection E2' as <- <-.
  eexists _, _, _, _, _, _, _, _. split; [eapply pooled_put; [apply pooled_new|exact E1]|]. split; [exact E2|]. split; [vm_compute; reflexivity|]. discriminate.
Qed.
