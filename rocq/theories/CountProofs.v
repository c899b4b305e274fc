(** Proofs about the metrics of requests and messages. *)
From Coq Require Znumtheory.
From Verif Require Import Base SpanModel JsonModel CodecModel HandlerModel HandlerSpec HandlerProofs BinaryModel EncoderModel EncoderSpec EncoderProofs CountModel CountSpec.

(* ---------- one request ---------- *)

Lemma visible_app l l' : visible (l ++ l') = visible l ++ visible l'.
Proof. unfold visible. by rewrite map_app, concat_app. Qed.

Lemma visible_puts spans : visible (map (fun s => Do (Put s)) spans) = map Put spans.
Proof. induction spans as [|s l IH]; [done|]. unfold visible in *. cbn. by rewrite IH. Qed.

Lemma xmap_xmap {A B C} (f : A -> B) (g : B -> C) x : xmap g (xmap f x) = xmap (fun a => g (f a)) x.
Proof. by destruct x. Qed.

Lemma parse_visible env ep body : xmap answer (parse_spans env ep body) = xmap visible (xmap (fun r => answer_counted (timed ep r)) (parse_counted env ep body)).
Proof.
  unfold parse_spans, parse_counted. rewrite !xmap_xmap. destruct (parser env ep body) as [[spans|]| |]; cbn [xmap]; try done.
  unfold answer, answer_counted, timed. cbn [fst snd]. rewrite !visible_app, visible_puts. by rewrite !app_nil_r.
Qed.

Lemma counted_visible env q : handle env q = xmap visible (handle_counted env q).
Proof.
  unfold handle, handle_counted.
  assert (H : forall body, handle_spans env q body = xmap visible (handle_spans_counted env q body)).
  { intros body. unfold handle_spans, handle_spans_counted. destruct (q_endpoint q); try apply parse_visible.
    destruct (contains _ _); [apply parse_visible|done]. }
  destruct (decide _); [|apply H]. destruct (n_gunzip env (q_body q)); [apply H|done].
Qed.

Lemma parse_cases env ep body effs : xmap (fun r => answer_counted (timed ep r)) (parse_counted env ep body) = XDone effs ->
  (exists spans, effs = map (fun s => Do (Put s)) spans ++ [Parsed (Z.of_nat (length spans)); Timed ep; Do (Status 202)]) \/
  effs = [Timed ep; Do (Status 400)].
Proof.
  unfold parse_counted. rewrite xmap_xmap. destruct (parser env ep body) as [[spans|]| |]; cbn [xmap]; try done; intros [= <-].
  - left. exists spans. unfold answer_counted, timed. cbn [fst snd]. by rewrite <- !app_assoc.
  - by right.
Qed.

Lemma counted_cases env q effs : handle_counted env q = XDone effs ->
  (parsed_at_all env q /\ ((exists spans, effs = map (fun s => Do (Put s)) spans ++ [Parsed (Z.of_nat (length spans)); Timed (q_endpoint q); Do (Status 202)]) \/
    effs = [Timed (q_endpoint q); Do (Status 400)])) \/
  (~ parsed_at_all env q /\ effs = [Do (Status 400)]).
Proof.
  assert (H : forall body, reads env q body -> handle_spans_counted env q body = XDone effs ->
    (parsed_at_all env q /\ ((exists spans, effs = map (fun s => Do (Put s)) spans ++ [Parsed (Z.of_nat (length spans)); Timed (q_endpoint q); Do (Status 202)]) \/
      effs = [Timed (q_endpoint q); Do (Status 400)])) \/ (~ parsed_at_all env q /\ effs = [Do (Status 400)])).
  { intros body Hr. unfold handle_spans_counted, parsed_at_all. destruct (q_endpoint q) eqn:Eq; cycle 1.
    - intros H%parse_cases. left. split; [|done]. split; [by exists body|done].
    - intros H%parse_cases. left. split; [|done]. split; [by exists body|done].
    - destruct (contains _ _) eqn:Ec.
      + intros H%parse_cases. left. split; [|done]. split; [by exists body|]. intros _. by apply contains_spec in Ec.
      + intros [= <-]. right. split; [|done]. intros [_ Hd]. specialize (Hd eq_refl). apply contains_spec in Hd. by rewrite Ec in Hd. }
  unfold handle_counted. destruct (decide (q_encoding q = str "gzip")) as [E|E].
  - destruct (n_gunzip env (q_body q)) as [body|] eqn:Eg.
    + apply H. by left.
    + intros [= <-]. right. split; [|done]. intros [[body [[_ Hb]|[Hb _]]] _]; [by rewrite Eg in Hb|done].
  - apply H. by right.
Qed.

(* ---------- many requests ---------- *)

Lemma total_app f l l' : total f (l ++ l') = total f l + total f l'.
Proof. unfold total. induction l as [|e l IH]; cbn [foldr app]; [done|]. rewrite IH. lia. Qed.

Definition sums (f : effect -> Z) (n : nat) (t : list (nat * effect)) : Z := foldr (fun i z => total f (by_request i t) + z) 0 (seq 0 n).

Lemma sums_ext (g h : nat -> Z) l : (forall i, i ∈ l -> g i = h i) -> foldr (fun i z => g i + z) 0 l = foldr (fun i z => h i + z) 0 l.
Proof.
  induction l as [|i l IH]; intros H; cbn [foldr]; [done|]. rewrite (H i) by (by left). f_equal. apply IH. intros j Hj. apply H. by right.
Qed.

Lemma sums_one (g : nat -> Z) i v l : NoDup l -> i ∈ l ->
  foldr (fun j z => (g j + (if (i =? j)%nat then v else 0)) + z) 0 l = v + foldr (fun j z => g j + z) 0 l.
Proof.
  induction 1 as [|j l Hj Hn IH]; intros Hi; [by apply elem_of_nil in Hi|]. cbn [foldr]. apply elem_of_cons in Hi as [->|Hi].
  - rewrite Nat.eqb_refl. rewrite (sums_ext (fun k => g k + (if (j =? k)%nat then v else 0)) g l); [lia|].
    intros k Hk. destruct (Nat.eqb_spec j k) as [->|]; [done|]. lia.
  - rewrite IH by done. destruct (Nat.eqb_spec i j) as [->|]; [done|]. lia.
Qed.

Lemma total_sums f n t : Forall (fun p => p.1 < n)%nat t -> total f (all t) = sums f n t.
Proof.
  induction 1 as [|[i e] t Hi _ IH].
  - unfold sums. cbn. induction (seq 0 n) as [|j l IHl]; cbn [foldr]; [done|]. by rewrite <- IHl.
  - unfold all in *. cbn [map snd total foldr]. fold (total f (map snd t)). rewrite IH. unfold sums.
    rewrite <- (sums_one (fun j => total f (by_request j t)) i (f e)); [|apply NoDup_seq|apply elem_of_seq; cbn in Hi; lia].
    apply sums_ext. intros j _. unfold by_request. cbn [List.filter fst]. destruct (i =? j)%nat; cbn [map snd total foldr]; unfold total; lia.
Qed.

Lemma interleave_own turns : forall todo, Forall (fun p => p.1 < length todo)%nat (interleave todo turns) /\
  forall i effs, todo !! i = Some effs -> exists rest, effs = by_request i (interleave todo turns) ++ rest.
Proof.
  induction turns as [|i turns IH]; intros todo; cbn [interleave].
  { split; [by apply Forall_nil_2|]. intros i effs _. by exists effs. }
  destruct (todo !! i) as [[|e rest]|] eqn:E; [apply IH| |apply IH].
  destruct (IH (<[i := rest]> todo)) as [H1 H2]. rewrite insert_length in H1. split.
  - apply Forall_cons_2; [|done]. cbn. by eapply lookup_lt_Some.
  - intros j effs Hj. unfold by_request. cbn [List.filter fst]. destruct (Nat.eqb_spec i j) as [->|Hne].
    + rewrite E in Hj. injection Hj as <-. destruct (H2 j rest) as [r Hr].
      { apply list_lookup_insert. by eapply lookup_lt_Some. }
      exists r. cbn [map snd app]. f_equal. exact Hr.
    + apply H2. by rewrite list_lookup_insert_ne.
Qed.

Definition request_shape (effs : list effect) : Prop :=
  (exists spans ep, effs = map (fun s => Do (Put s)) spans ++ [Parsed (Z.of_nat (length spans)); Timed ep; Do (Status 202)]) \/
  (exists l, effs = l ++ [Do (Status 400)] /\ Forall (fun e => exists ep, e = Timed ep) l).

Lemma counted_shape env q effs : handle_counted env q = XDone effs -> request_shape effs.
Proof.
  intros [(_ & [(spans & ->)| ->])|(_ & ->)]%counted_cases.
  - left. by exists spans, (q_endpoint q).
  - right. exists [Timed (q_endpoint q)]. split; [done|]. apply Forall_cons_2; [by eexists|by apply Forall_nil_2].
  - right. exists []. split; [done|by apply Forall_nil_2].
Qed.

Lemma total_puts spans : total put (map (fun s => Do (Put s)) spans) = Z.of_nat (length spans) /\ total marked (map (fun s => Do (Put s)) spans) = 0.
Proof. induction spans as [|s l [IH1 IH2]]; [done|]. unfold total in *. cbn [map foldr length put marked]. lia. Qed.

Lemma prefix_puts spans : forall p rest, map (fun s : span => Do (Put s)) spans = p ++ rest -> exists spans', p = map (fun s => Do (Put s)) spans'.
Proof.
  induction spans as [|s l IH]; intros [|e p] rest H; cbn in H; try done; [by exists []..|].
  injection H as <- H. destruct (IH _ _ H) as [l' ->]. by exists (s :: l').
Qed.

Lemma prefix_shape effs p rest : request_shape effs -> effs = p ++ rest ->
  0 <= total marked p <= total put p /\
  ((forall s, Do (Put s) ∉ p) \/ (exists c, Do (Status c) ∈ p) -> total marked p = total put p) /\
  (Do (Status 202) ∈ p -> Parsed (total put p) ∈ p).
Proof.
  intros [(spans & ep & ->)|(l & -> & Hl)] E.
  - destruct (total_puts spans) as [Hp Hm]. destruct (le_lt_dec (length p) (length spans)) as [Hle|Hgt].
    + assert (Hpre : exists r, map (fun s => Do (Put s)) spans = p ++ r).
      { exists (drop (length p) (map (fun s => Do (Put s)) spans)). rewrite <- (take_drop (length p) (map _ spans)) at 1. f_equal.
        apply (f_equal (take (length p))) in E. rewrite take_app_le in E by (by rewrite map_length). by rewrite take_app in E. }
      destruct Hpre as [r Hr]. destruct (prefix_puts _ _ _ Hr) as [sp' ->]. destruct (total_puts sp') as [-> ->].
      split; [lia|]. split.
      * intros [Hno|(c & Hc)].
        -- destruct sp' as [|s sp']; [done|]. exfalso. apply (Hno s). by left.
        -- apply elem_of_list_fmap in Hc as (s & ? & _). done.
      * intros Hc. apply elem_of_list_fmap in Hc as (s & ? & _). done.
    + assert (Hpre : exists p', p = map (fun s => Do (Put s)) spans ++ Parsed (Z.of_nat (length spans)) :: p' /\ p' ++ rest = [Timed ep; Do (Status 202)]).
      { set (pp := map (fun s => Do (Put s)) spans) in *. assert (Hlen : length pp = length spans) by (unfold pp; by rewrite map_length).
        pose proof E as E2. apply (f_equal (take (length pp))) in E. apply (f_equal (drop (length pp))) in E2.
        rewrite take_app in E. rewrite drop_app in E2. rewrite take_app_le in E by lia. rewrite drop_app_le in E2 by lia.
        rewrite <- (take_drop (length pp) p), <- E. destruct (drop (length pp) p) as [|x p'] eqn:Ed.
        { apply (f_equal length) in Ed. rewrite drop_length in Ed. cbn in Ed. lia. }
        cbn [app] in E2. injection E2 as <- E2. exists p'. done. }
      destruct Hpre as (p' & -> & Hp').
      assert (Hz : total put p' = 0 /\ total marked p' = 0).
      { clear -Hp'. destruct p' as [|a [|b [|? ?]]]; cbn [app] in Hp'; [done|inversion Hp'; subst; done..]. }
      destruct Hz as [Hz1 Hz2]. rewrite !total_app.
      assert (Ht : forall f e l, total f (e :: l) = f e + total f l) by done. rewrite !Ht. cbn [put marked]. rewrite Hp, Hm, Hz1, Hz2.
      split; [lia|]. split; [lia|]. intros _. rewrite !Z.add_0_l, Z.add_0_r. apply elem_of_app. right. by left.
  - assert (Hz : total put p = 0 /\ total marked p = 0 /\ Do (Status 202) ∉ p).
    { assert (H : Forall (fun e => put e = 0 /\ marked e = 0 /\ e <> Do (Status 202)) p).
      { assert (H : Forall (fun e => put e = 0 /\ marked e = 0 /\ e <> Do (Status 202)) (l ++ [Do (Status 400)])).
        { apply Forall_app. split; [|apply Forall_cons_2; [done|by apply Forall_nil_2]]. eapply Forall_impl; [exact Hl|]. by intros e (ep & ->). }
        rewrite E in H. by apply Forall_app in H as [? _]. }
      clear E. induction H as [|e p (H1 & H2 & H3) _ (IH1 & IH2 & IH3)]; [split; [done|split; [done|apply not_elem_of_nil]]|].
      unfold total in *. cbn [foldr]. split; [lia|]. split; [lia|]. intros [<-|?]%elem_of_cons; done. }
    destruct Hz as (-> & -> & Hn). split; [lia|]. split; [done|]. by intros ?.
Qed.

Lemma by_request_in i e t : e ∈ by_request i t <-> (i, e) ∈ t.
Proof.
  unfold by_request. rewrite elem_of_list_fmap. split.
  - intros ([j e'] & -> & H). apply elem_of_list_In, filter_In in H as [H Hj]. cbn in Hj. apply Nat.eqb_eq in Hj as ->. by apply elem_of_list_In.
  - intros H. exists (i, e). split; [done|]. apply elem_of_list_In, filter_In. split; [by apply elem_of_list_In|]. cbn. apply Nat.eqb_refl.
Qed.

Lemma running env qs todo turns t : Forall2 (fun q effs => handle_counted env q = XDone effs) qs todo -> t = interleave todo turns ->
  0 <= total marked (all t) <= total put (all t) /\
  ((forall i s, (i, Do (Put s)) ∈ t -> exists c, (i, Do (Status c)) ∈ t) -> total marked (all t) = total put (all t)) /\
  (forall i, (i, Do (Status 202)) ∈ t -> (i, Parsed (total put (by_request i t))) ∈ t).
Proof.
  intros H ->. destruct (interleave_own turns todo) as [Hlt Hown]. set (t := interleave todo turns) in *.
  assert (Hi : forall i, (i < length todo)%nat ->
    0 <= total marked (by_request i t) <= total put (by_request i t) /\
    ((forall s, Do (Put s) ∉ by_request i t) \/ (exists c, Do (Status c) ∈ by_request i t) -> total marked (by_request i t) = total put (by_request i t)) /\
    (Do (Status 202) ∈ by_request i t -> Parsed (total put (by_request i t)) ∈ by_request i t)).
  { intros i Hl. destruct (lookup_lt_is_Some_2 _ _ Hl) as [effs He]. destruct (Hown i effs He) as [rest Hr].
    destruct (Forall2_lookup_r _ _ _ _ _ H He) as (q & _ & Hq). eapply prefix_shape; [|exact Hr]. by eapply counted_shape. }
  rewrite !(total_sums _ (length todo)) by done. unfold sums. split; [|split].
  - assert (Hin : forall i, i ∈ seq 0 (length todo) -> (i < length todo)%nat) by (intros i ?%elem_of_seq; lia). revert Hin.
    induction (seq 0 (length todo)) as [|i l IH]; cbn [foldr]; intros Hin; [lia|]. destruct (Hi i) as [? _]; [apply Hin; by left|].
    assert (Hl : forall i, i ∈ l -> (i < length todo)%nat) by (intros j Hj; apply Hin; by right). specialize (IH Hl). lia.
  - intros Hdone. apply sums_ext. intros i Hin%elem_of_seq. destruct (Hi i) as (_ & Heq & _); [lia|]. apply Heq.
    destruct (decide (Exists (fun e => put e = 1) (by_request i t))) as [Hex|Hex].
    + apply Exists_exists in Hex as (e & Hein & Hp). destruct e as [[s|]| |]; try done. apply by_request_in in Hein.
      destruct (Hdone i s Hein) as [c Hc]. right. exists c. by apply by_request_in.
    + left. intros s Hs. apply Hex, Exists_exists. by exists (Do (Put s)).
  - intros i Hs. apply by_request_in. destruct (Hi i) as (_ & _ & H3).
    + rewrite Forall_forall in Hlt. by apply (Hlt _ Hs).
    + apply H3. by apply by_request_in.
Qed.

(* ---------- sizes of messages ---------- *)

Lemma sized_same l : forall c m, match send_sized c m l with Some (m', msgs, _, _) => send_all m l = Some (m', msgs) | None => send_all m l = None end.
Proof.
  induction l as [|s l IH]; intros c m; cbn [send_sized send_all]; [done|]. unfold make_sized. destruct (make_message _ _ _ _) as [[m1 msg]|]; [|done].
  specialize (IH (u64 (c + 1)) m1). destruct (send_sized (u64 (c + 1)) m1 l) as [[[[m2 msgs] c2] z2]|]; by rewrite IH.
Qed.

Lemma send_sized_app l l' : forall c m, send_sized c m (l ++ l') =
  match send_sized c m l with
  | Some (m1, msgs1, c1, z1) => match send_sized c1 m1 l' with Some (m2, msgs2, c2, z2) => Some (m2, msgs1 ++ msgs2, c2, z1 ++ z2) | None => None end
  | None => None end.
Proof.
  induction l as [|s l IH]; intros c m; cbn [send_sized app].
  - by destruct (send_sized c m l') as [[[[? ?] ?] ?]|].
  - destruct (make_sized c m s) as [[[[m1 msg] c1] z1]|]; [|done]. rewrite IH. destruct (send_sized c1 m1 l) as [[[[? ?] ?] ?]|]; [|done].
    destruct (send_sized _ _ l') as [[[[? ?] ?] ?]|]; [|done]. by rewrite app_assoc.
Qed.

Lemma pool_choices_app l l' : forall n, pool_choices n (l ++ l') -> pool_choices n l.
Proof. induction l as [|s l IH]; intros n; cbn [pool_choices app]; [done|]. intros [? ?]. split; [done|]. by eapply IH. Qed.

Lemma count_wraps (n : nat) : (u64 (Z.of_nat n mod 2^64 + 1)) = Z.of_nat (S n) mod 2^64.
Proof. unfold u64. rewrite Zplus_mod_idemp_l. f_equal. lia. Qed.

Lemma count_128 (n : nat) : (Z.of_nat n mod 2^64) mod 128 = Z.of_nat (n mod Pos.to_nat 128).
Proof.
  rewrite Nat2Z.inj_mod, positive_nat_Z. rewrite <- (Znumtheory.Zmod_div_mod 128 (2^64)) by (first [lia|by exists (2^57)]). done.
Qed.

Lemma sizes_ok l : pool_choices 0 l ->
  exists m msgs sizes, send_sized 0 empty_mem l = Some (m, msgs, Z.of_nat (length l) mod 2^64, sizes) /\ every_128th l msgs sizes.
Proof.
  induction l as [|s l IH] using rev_ind; intros Hp.
  { exists empty_mem, [], []. split; [done|]. split; [done|]. intros j s bs H. done. }
  destruct (IH (pool_choices_app _ _ _ Hp)) as (m & msgs & sizes & E & Hlen & Hz). rewrite send_sized_app, E. cbn [send_sized]. unfold make_sized.
  destruct (sent_messages _ Hp) as (m' & msgs' & E' & HF). pose proof (sized_same (l ++ [s]) 0 empty_mem) as Hs. rewrite send_sized_app, E in Hs.
  cbn [send_sized] in Hs. unfold make_sized in Hs. destruct (make_message m _ _ _) as [[m1 msg]|] eqn:Em; [|by rewrite E' in Hs].
  rewrite E' in Hs. injection Hs as -> ->. pose proof (Forall2_length _ _ _ HF) as Hl2. rewrite !app_length in Hl2. cbn in Hl2.
  apply Forall2_app_inv in HF as [_ HF]; [|lia]. inversion HF as [|? ? ? ? (bs & Hbs & Hcell & _) _]; subst. clear HF.
  exists m1, (msgs ++ [msg]). rewrite count_wraps. rewrite count_128. rewrite app_length. cbn [length]. rewrite (Nat.add_comm (length l) 1). cbn [Nat.add].
  eexists. split; [reflexivity|]. rewrite app_nil_r. assert (Hmsgs : length msgs = length l) by lia.
  unfold every_128th. set (k := Pos.to_nat 128) in *. assert (Hk : (k = Pos.to_nat 127 + 1)%nat) by lia. assert (Hk0 : (k <> 0)%nat) by lia. split.
  - rewrite !app_length. cbn [length]. rewrite Hlen, Hmsgs. rewrite (Nat.add_comm (length l) 1). cbn [Nat.add].
    pose proof (Nat.div_mod (length l) k Hk0) as Hd. pose proof (Nat.mod_upper_bound (length l) k Hk0) as Hr.
    destruct (decide (length l mod k + 1 = k)%nat) as [Hc|Hc].
    + rewrite <- (Nat.mod_unique (S (length l)) k (length l / k + 1) 0) by nia. rewrite <- (Nat.div_unique (S (length l)) k (length l / k + 1) 0) by nia. done.
    + rewrite <- (Nat.mod_unique (S (length l)) k (length l / k) (length l mod k + 1)) by nia. rewrite <- (Nat.div_unique (S (length l)) k (length l / k) (length l mod k + 1)) by nia.
      destruct (Z.eqb_spec (Z.of_nat (length l mod k + 1)) 0); cbn [length]; lia.
  - intros j s' bs' Hl Hb. destruct (decide ((k * j + Pos.to_nat 127)%nat = length l)) as [Hj|Hj].
    + rewrite Hj in Hl. rewrite list_lookup_middle in Hl by done. injection Hl as <-. rewrite Hbs in Hb. injection Hb as <-.
      assert (HS : (S (length l) = (j + 1) * k)%nat) by nia. rewrite HS, Nat.mod_mul by done. cbn [Z.of_nat Z.eqb].
      assert (Hjl : (length sizes = j)%nat). { rewrite Hlen, Hmsgs, <- Hj. symmetry. apply (Nat.div_unique _ _ _ (Pos.to_nat 127)); lia. }
      rewrite <- Hjl. by apply list_lookup_middle.
    + pose proof (lookup_lt_Some _ _ _ Hl) as Hlt. rewrite app_length in Hlt. cbn [length] in Hlt. rewrite lookup_app_l in Hl by lia.
      specialize (Hz j s' bs' Hl Hb). by apply lookup_app_l_Some.
Qed.

Lemma send_all_length l : forall m m' msgs, send_all m l = Some (m', msgs) -> length l = length msgs.
Proof.
  induction l as [|s l IH]; intros m m' msgs; cbn [send_all]; [by intros [= <- <-]|]. destruct (make_message _ _ _ _) as [[m1 msg]|]; [|done].
  destruct (send_all m1 l) as [[m2 ms]|] eqn:E; [|done]. intros [= <- <-]. cbn [length]. f_equal. by eapply IH.
Qed.

Lemma sizes_reported l : pool_choices 0 l ->
  exists m msgs c sizes, send_sized 0 empty_mem l = Some (m, msgs, c, sizes) /\ send_all empty_mem l = Some (m, msgs) /\ every_128th l msgs sizes.
Proof.
  intros Hp. destruct (sizes_ok l Hp) as (m & msgs & sizes & E & H). exists m, msgs, (Z.of_nat (length l) mod 2^64), sizes. split; [done|]. split; [|done].
  pose proof (sized_same l 0 empty_mem) as Hs. by rewrite E in Hs.
Qed.
