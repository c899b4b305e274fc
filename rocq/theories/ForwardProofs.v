(** Proofs about forwarding (C46). *)
From Verif Require Import Base SpanModel ForwardModel ForwardSpec.

Lemma converts_det {S} (conv : converter S) s l s1 l1 : converts conv s l s1 l1 -> forall s2 l2, converts conv s l s2 l2 -> s1 = s2 /\ l1 = l2.
Proof.
  induction 1 as [s|s x l s1 c s2 l' E Hi Ht H IH|s x l s1 c err s2 l' E Hd H IH]; intros s3 l3 H3; inversion H3; subst; try done.
  all: rewrite E in *; simplify_eq.
  - match goal with H' : converts conv _ l s3 _ |- _ => by destruct (IH _ _ H') as [-> ->] end.
  - naive_solver.
  - naive_solver.
  - match goal with H' : converts conv _ l s3 l3 |- _ => by destruct (IH _ _ H') end.
Qed.

Lemma converts_snoc {S} (conv : converter S) s l s1 l1 x s2 l2 :
  converts conv s l s1 l1 -> converts conv s1 [x] s2 l2 -> converts conv s (l ++ [x]) s2 (l1 ++ l2).
Proof.
  induction 1 as [|? ? ? ? ? ? ? ? ? ? ? IH|? ? ? ? ? ? ? ? ? ? ? IH]; intros Hx; cbn; [done| |].
  - eapply converts_keep; eauto.
  - eapply converts_drop; eauto.
Qed.

Lemma converts_total {S} (conv : converter S) l : forall s, exists s' l', converts conv s l s' l' /\ (length l' <= length l)%nat.
Proof.
  induction l as [|x l IH]; intros s; [exists s, []; split; [constructor|done]|].
  destruct (conv s x) as [s1 [c err]] eqn:E. destruct (IH s1) as (s2 & l2 & H & Hl).
  destruct (err || (s_id c =? 0) || (s_trace c =? 0)) eqn:B.
  - exists s2, l2. split; [|cbn; lia]. eapply converts_drop; eauto. destruct err; [by left|]. right. cbn in B. lia.
  - exists s2, (c :: l2). split; [|cbn; lia]. destruct err; [done|]. cbn in B. eapply converts_keep; eauto; lia.
Qed.

Lemma put_other h a b n x : a <> b -> put h a n x !! b = h !! b.
Proof. intros H. unfold put. by apply list_lookup_alter_ne. Qed.

(** One iteration: from a state in which [take n] of the array is the result for the first [idx] spans and the array is
    unchanged from [idx] on. *)
Lemma convert_one_ok {S} (conv : converter S) a l s h idx arr r x s0 :
  h !! a = Some arr -> converts conv s0 (take idx l) s r -> (idx < length l)%nat -> length arr = length l ->
  take (length r) arr = r -> drop idx arr = drop idx l -> (length r <= idx)%nat -> l !! idx = Some x ->
  exists s1 h1 arr1 r1, convert_one conv a (s, h, length r) idx = Some (s1, h1, length r1) /\
    converts conv s0 (take (idx + 1) l) s1 r1 /\ h1 !! a = Some arr1 /\ length arr1 = length l /\
    take (length r1) arr1 = r1 /\ drop (idx + 1) arr1 = drop (idx + 1) l /\ (length r1 <= idx + 1)%nat /\
    length h1 = length h /\ (forall b, b <> a -> h1 !! b = h !! b).
Proof.
  intros Ha Hc Hlt Hlen Hr Hd Hle Hx.
  assert (Harr : arr !! idx = Some x).
  { rewrite <- (Nat.add_0_r idx), <- lookup_drop, Hd, lookup_drop, Nat.add_0_r. done. }
  assert (Htk : take (idx + 1) l = take idx l ++ [x]) by (rewrite Nat.add_1_r; by apply take_S_r).
  assert (Hdr : drop (idx + 1) arr = drop (idx + 1) l).
  { rewrite <- !drop_drop. by rewrite Hd. }
  unfold convert_one, get. rewrite Ha. cbn [mbind option_bind]. rewrite Harr. cbn [mbind option_bind].
  destruct (conv s x) as [s1 [c err]] eqn:E.
  destruct (err || (s_id c =? 0) || (s_trace c =? 0)) eqn:B.
  - exists s1, h, arr, r. split_and!; try done; try lia.
    rewrite Htk. rewrite <- (app_nil_r r). eapply converts_snoc; [done|].
    eapply converts_drop; [done| |constructor]. destruct err; [by left|]. right. cbn in B. lia.
  - exists s1, (put h a (length r) c), (<[length r := c]> arr), (r ++ [c]).
    assert (Hri : (length r < length arr)%nat) by lia.
    split; [by rewrite app_length|]. split.
    { rewrite Htk. eapply converts_snoc; [done|]. destruct err; [done|]. cbn in B. eapply converts_keep; [done|lia|lia|constructor]. }
    split. { unfold put. by rewrite list_lookup_alter, Ha. }
    split; [by rewrite insert_length|]. split.
    { rewrite app_length. cbn [length]. rewrite Nat.add_1_r. erewrite take_S_r by (by apply list_lookup_insert).
      rewrite take_insert by lia. by rewrite Hr. }
    split; [rewrite drop_insert_gt by lia; done|]. split; [rewrite app_length; cbn; lia|].
    split; [unfold put; by rewrite alter_length|]. intros b Hb. by apply put_other.
Qed.

Lemma convert_loop_ok {S} (conv : converter S) a l s0 m : forall idx s h arr r,
  (idx + m)%nat = length l -> h !! a = Some arr -> converts conv s0 (take idx l) s r -> length arr = length l ->
  take (length r) arr = r -> drop idx arr = drop idx l -> (length r <= idx)%nat ->
  exists s1 h1 arr1 r1, convert_loop conv a (seq idx m) (s, h, length r) = Some (s1, h1, length r1) /\
    converts conv s0 l s1 r1 /\ h1 !! a = Some arr1 /\ take (length r1) arr1 = r1 /\ length arr1 = length l /\ (length r1 <= length l)%nat /\
    length h1 = length h /\ (forall b, b <> a -> h1 !! b = h !! b).
Proof.
  induction m as [|m IH]; intros idx s h arr r Hm Ha Hc Hlen Hr Hd Hle; cbn [seq convert_loop].
  - rewrite (take_ge l) in Hc by lia. exists s, h, arr, r. split_and!; try done; lia.
  - destruct (lookup_lt_is_Some_2 l idx) as [x Hx]; [lia|].
    destruct (convert_one_ok conv a l s h idx arr r x s0) as (s1 & h1 & arr1 & r1 & E & Hc1 & Ha1 & Hl1 & Hr1 & Hd1 & Hle1 & Hh1 & Ho1); try done; [lia|].
    rewrite E. cbn [mbind option_bind]. replace (Datatypes.S idx) with (idx + 1)%nat by lia.
    destruct (IH (idx + 1)%nat s1 h1 arr1 r1) as (s2 & h2 & arr2 & r2 & E2 & Hc2 & Ha2 & Hr2 & Hl2 & Hle2 & Hh2 & Ho2); try done; [lia|].
    exists s2, h2, arr2, r2. split_and!; try done; [congruence|]. intros b Hb. by rewrite Ho2, Ho1.
Qed.

Lemma process_trace_ok {S} (conv : converter S) s h sl : slice_ok h sl ->
  exists s1 h1 r, process_trace conv s h sl = Some (s1, h1, Slice (sl_arr sl) (length r)) /\ converts conv s (read h sl) s1 r /\
    read h1 (Slice (sl_arr sl) (length r)) = r /\ slice_ok h1 (Slice (sl_arr sl) (length r)) /\
    length h1 = length h /\ (forall b, b <> sl_arr sl -> h1 !! b = h !! b) /\
    forall arr, h !! sl_arr sl = Some arr -> exists arr', h1 !! sl_arr sl = Some arr' /\ length arr' = length arr.
Proof.
  intros (arr & Ha & Hle). unfold process_trace.
  (* the part of the array beyond the slice *)
  assert (Hgen : forall m idx s' h' n arr', (idx + m <= sl_len sl)%nat -> h' !! sl_arr sl = Some (arr' ++ drop (sl_len sl) arr) -> length arr' = sl_len sl -> (n <= idx)%nat ->
    forall h'', h'' !! sl_arr sl = Some arr' -> (forall b, b <> sl_arr sl -> h'' !! b = h' !! b) -> length h'' = length h' ->
    match convert_loop conv (sl_arr sl) (seq idx m) (s', h'', n) with
    | Some (s2, h2, n2) => exists h3 arr3, convert_loop conv (sl_arr sl) (seq idx m) (s', h', n) = Some (s2, h3, n2) /\
        h2 !! sl_arr sl = Some arr3 /\ h3 !! sl_arr sl = Some (arr3 ++ drop (sl_len sl) arr) /\ length arr3 = sl_len sl /\
        (forall b, b <> sl_arr sl -> h3 !! b = h2 !! b) /\ length h3 = length h2
    | None => True end).
  { induction m as [|m IH]; intros idx s' h' n arr' Hm Hh Hl Hn h'' Hh2 Ho Hlen; cbn [seq convert_loop].
    - exists h', arr'. split_and!; try done. intros b Hb. by rewrite Ho.
    - unfold convert_one, get. rewrite Hh, Hh2. cbn [mbind option_bind]. rewrite lookup_app_l by lia.
      destruct (arr' !! idx) as [x|]; [|done]. cbn [mbind option_bind]. destruct (conv s' x) as [s1 [c err]].
      destruct (err || (s_id c =? 0) || (s_trace c =? 0)); cbn [mbind option_bind].
      + apply (IH _ _ _ _ arr'); try done; lia.
      + apply (IH _ _ _ _ (<[n := c]> arr')); try done; try lia.
        * unfold put. rewrite list_lookup_alter, Hh. cbn. by rewrite insert_app_l by lia.
        * by rewrite insert_length.
        * unfold put. by rewrite list_lookup_alter, Hh2.
        * intros b Hb. rewrite !put_other by done. by apply Ho.
        * unfold put. by rewrite !alter_length. }
  set (l := read h sl). assert (El : l = take (sl_len sl) arr) by (unfold l, read; by rewrite Ha).
  assert (Ell : length l = sl_len sl) by (rewrite El, take_length; lia).
  set (h'' := <[sl_arr sl := l]> h).
  assert (Hin : (sl_arr sl < length h)%nat) by (by eapply lookup_lt_Some).
  assert (Hh'' : h'' !! sl_arr sl = Some l) by (by apply list_lookup_insert).
  destruct (convert_loop_ok conv (sl_arr sl) l s (sl_len sl) 0 s h'' l []) as (s1 & h1 & arr1 & r1 & E & Hc & Ha1 & Hr & Hl1 & Hle1 & Hh & Ho); try done; [constructor|].
  specialize (Hgen (sl_len sl) 0%nat s h 0%nat l). cbn [length] in E.
  specialize (Hgen ltac:(lia)). rewrite El in Hgen at 1. rewrite (take_drop (sl_len sl) arr) in Hgen.
  specialize (Hgen Ha Ell ltac:(lia) h'' Hh'' ltac:(intros b Hb; unfold h''; by apply list_lookup_insert_ne) ltac:(unfold h''; by rewrite insert_length)).
  rewrite E in Hgen. destruct Hgen as (h3 & arr3 & E3 & Ha3 & Hb3 & Hl3 & Ho3 & Hn3).
  rewrite Ha3 in Ha1. injection Ha1 as ->.
  rewrite E3. cbn [mbind option_bind]. exists s1, h3, r1. split; [done|]. split; [done|].
  split. { unfold read. cbn [sl_arr sl_len]. rewrite Hb3. cbn. rewrite take_app_le by lia. done. }
  split. { exists (arr1 ++ drop (sl_len sl) arr). cbn [sl_arr sl_len]. split; [done|]. rewrite app_length. lia. }
  split. { rewrite Hn3, Hh. unfold h''. by rewrite insert_length. }
  split. { intros b Hb. rewrite Ho3, Ho by done. unfold h''. by apply list_lookup_insert_ne. }
  intros arr' Ha'. simplify_eq. eexists. split; [done|]. rewrite app_length, drop_length. lia.
Qed.

Lemma read_ext h h' sl : h !! sl_arr sl = h' !! sl_arr sl -> read h sl = read h' sl.
Proof. intros E. unfold read. by rewrite E. Qed.

Lemma slice_ok_ext h h' sl : h !! sl_arr sl = h' !! sl_arr sl -> slice_ok h sl -> slice_ok h' sl.
Proof. unfold slice_ok. by intros ->. Qed.

Lemma forward_ok {S} (conv : converter S) targets src : forall s h,
  NoDup (map sl_arr src) -> Forall (slice_ok h) src ->
  exists s1 h1 outs ts, forward conv targets s h src = Some (s1, h1, outs) /\ length outs = targets /\
    converts_all conv s (map (read h) src) s1 ts /\ Forall (fun out => map sl_arr out = map sl_arr src /\ map (read h1) out = ts) outs /\
    length h1 = length h /\ (forall b, b ∉ map sl_arr src -> h1 !! b = h !! b).
Proof.
  induction src as [|sl src IH]; intros s h Hnd Hok; cbn [forward map].
  - exists s, h, (replicate targets []), []. split; [done|]. split; [apply replicate_length|]. split; [constructor|].
    split; [|done]. by apply Forall_replicate.
  - inversion Hnd as [|? ? Hni Hnd']; subst. inversion Hok as [|? ? Hs Hok']; subst.
    destruct (process_trace_ok conv s h sl Hs) as (s1 & h1 & r & E & Hc & Hr & Hro & Hlen & Ho & _).
    rewrite E. cbn [mbind option_bind].
    assert (Hext : forall x, x ∈ src -> h !! sl_arr x = h1 !! sl_arr x).
    { intros x Hx. symmetry. apply Ho. intros Ex. apply Hni. rewrite <- Ex. apply elem_of_list_fmap. eauto. }
    destruct (IH s1 h1 Hnd') as (s2 & h2 & outs & ts & E2 & Hn & Hc2 & Hf & Hl2 & Ho2).
    { rewrite Forall_forall in Hok' |- *. intros x Hx. eapply slice_ok_ext; [by apply Hext|]. by apply Hok'. }
    rewrite E2. cbn [mbind option_bind]. exists s2, h2, (map (cons (Slice (sl_arr sl) (length r))) outs), (r :: ts).
    split; [done|]. split; [by rewrite map_length|]. split.
    { econstructor; [done|]. replace (map (read h) src) with (map (read h1) src); [done|].
      apply map_ext_in. intros x Hx. symmetry. apply read_ext, Hext. by apply elem_of_list_In. }
    split.
    { rewrite Forall_forall in Hf |- *. intros o Ho'. apply elem_of_list_fmap in Ho' as (o' & -> & Ho'). apply Hf in Ho' as [<- <-].
      cbn [map]. split; [done|]. f_equal. rewrite <- Hr at 2. apply read_ext. cbn [sl_arr]. by apply Ho2. }
    split; [congruence|]. intros b Hb. apply not_elem_of_cons in Hb as [Hb1 Hb2]. rewrite Ho2 by done. by apply Ho.
Qed.
