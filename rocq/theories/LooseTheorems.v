(** What the parsers accept, exactly (C76). *)
From Verif Require Import Base SpanModel JsonModel CodecModel JsonPure JsonSpec JsonProofs JsonSim JsonFacts JsonText DocSpec DocSem DocProofs1 ParseSpec PoolProofs DocTheorems LooseProofs LooseSpec HandlerModel HandlerSpec HandlerProofs.

(** A parser error is reported as an error. *)
Fixpoint honest {A} (p : prog (A * bool)) : Prop :=
  match p with Ret _ | OutOfFuel => True | Call _ k e => e.2 = false /\ forall t, honest (k t) end.
Lemma honest_pthen {A B} (p : prog (A * bool)) (f : A -> B) k : (forall a, honest (k a)) -> honest (pthen p f k).
Proof. intros Hk. induction p as [[a []]|o c IH [a b]|]; cbn [pthen honest]; auto. Qed.
Lemma honest_slice {T} (zero : T) d fuel s : honest (slice_decoder zero d fuel s).
Proof.
  assert (H : forall n s idx, honest (slice_loop zero d n s idx)).
  { induction n as [|n IH]; intros s' idx; cbn [slice_loop honest]; [done|]. split; [done|]. intros t. destruct (decide _); cbn [honest]; [done|]. by apply honest_pthen. }
  cbn. done.
Qed.
Lemma honest_exec {A} fuel cap (p : prog (A * bool)) l a : honest p -> y_result (q_exec fuel cap p l) = Some (a, true) -> exists rest, q_exec fuel cap p l = YDone (a, true) rest.
Proof.
  revert l. induction p as [b|o k IH e|]; intros l; cbn [honest q_exec y_result].
  - intros _ [= ->]. by exists l.
  - intros [He Hk]. destruct (q_op fuel cap o l) as [t l'| | |]; cbn [y_result]; try done; [by apply IH|]. intros [= ->]. done.
  - done.
Qed.

Lemma described_value cap v l' w rest body : body = w ++ l' -> ws w -> value_at cap v l' rest -> document cap body v rest.
Proof. intros -> Hw (l & -> & Hl & Hd). by exists w, l. Qed.

Lemma v2_accepted fuel buf chunks e spans : (5 <= length buf)%nat -> no_eager_error e ->
  ParseJsonV2 fuel buf (Src chunks e) = XDone (Some spans) ->
  exists v rest, document (length buf) (concat chunks) v rest /\ v2_spans v = Some spans.
Proof.
  intros Hb He. unfold ParseJsonV2. destruct (exec fuel (parse_v2_prog fuel) (new_parser (Src chunks e) buf)) as [[s ok]| |] eqn:E; cbn [xmap]; try done.
  unfold v2_result. cbn [fst snd]. destruct ok; [|done]. intros [= <-]. apply q_of_exec in E; [|done..]. unfold parse_v2_prog in E.
  apply honest_exec in E as (rest & E); [|apply honest_slice]. apply yields_v2 in E as (w & v & l' & El & Hw & Hv & Hs).
  exists v, rest. split; [by eapply described_value|]. pose proof (v2_doc_sem v) as K. by rewrite Hs in K.
Qed.

Lemma v1_accepted fuel buf pool chunks e spans pool' : (5 <= length buf)%nat -> no_eager_error e -> pooled_once pool ->
  ParseJsonV1 fuel buf pool (Src chunks e) = XDone (Some spans, pool') ->
  exists v rest, document (length buf) (concat chunks) v rest /\ (unrepeated v -> v1_spans v = Some spans).
Proof.
  intros Hb He Hp%once_clean. unfold ParseJsonV1. destruct (exec fuel (parse_v1_prog fuel pool) (new_parser (Src chunks e) buf)) as [[s ok]| |] eqn:E; cbn [xmap]; try done.
  unfold v1_result. cbn [fst snd]. destruct ok; [|done]. intros [= <- _]. apply q_of_exec in E; [|done..]. unfold parse_v1_prog in E.
  apply honest_exec in E as (rest & E); [|apply honest_slice]. apply yields_v1 in E as (w & v & l' & El & Hw & Hv & Hs).
  exists v, rest. split; [by eapply described_value|]. intros Hu. pose proof (v1_doc_sem v pool Hp Hu) as K. rewrite Hs in K. by destruct K.
Qed.

Lemma v2_exact fuel buf chunks e : (5 <= length buf)%nat -> no_eager_error e ->
  (length chunks + length (concat chunks) < fuel)%nat -> (2 * length (concat chunks) + 2 < fuel)%nat ->
  forall spans, ParseJsonV2 fuel buf (Src chunks e) = XDone (Some spans) <->
    exists v rest, document (length buf) (concat chunks) v rest /\ v2_spans v = Some spans.
Proof.
  intros Hb He Hf1 Hf2 spans. split; [by apply v2_accepted|]. intros (v & rest & (w & l & El & Hw & Hl & Hd) & Hs).
  rewrite <- Hs. apply (v2_loose (length buf) v l w rest); try done. assert (length l <= length (concat chunks))%nat by (rewrite El, !app_length; lia). lia.
Qed.

Lemma v1_exact fuel buf pool chunks e v rest : (5 <= length buf)%nat -> no_eager_error e -> pooled_once pool ->
  (length chunks + length (concat chunks) < fuel)%nat -> (2 * length (concat chunks) + 2 < fuel)%nat ->
  document (length buf) (concat chunks) v rest -> unrepeated v ->
  exists pool', ParseJsonV1 fuel buf pool (Src chunks e) = XDone (v1_spans v, pool').
Proof.
  intros Hb He Hp Hf1 Hf2 (w & l & El & Hw & Hl & Hd) Hu.
  apply (v1_loose (length buf) v l w rest); try done. assert (length l <= length (concat chunks))%nat by (rewrite El, !app_length; lia). lia.
Qed.

Lemma skip_exact fuel buf chunks e : (5 <= length buf)%nat -> no_eager_error e ->
  (length chunks + length (concat chunks) < fuel)%nat -> (2 * length (concat chunks) + 2 < fuel)%nat ->
  forall rest, (exists st, Skip fuel (new_parser (Src chunks e) buf) = POk tt st /\ unread st = rest) <->
    exists v, document (length buf) (concat chunks) v rest.
Proof.
  intros Hb He Hf1 Hf2 rest. split.
  - intros (st & E & Hu). pose proof (op_sim (length buf) fuel OSkip _ _ Hb (R_new (length buf) chunks e buf eq_refl He)) as H.
    cbn [run_op] in H. rewrite E in H. cbn [pbind psim] in H. destruct H as (l' & Eq & HR & _).
    assert (l' = rest) as -> by (destruct HR as (_ & _ & _ & El & _); by rewrite El).
    apply op_skip_inv in Eq as (w & v & l1 & El & Hw & Hv). exists v. by eapply described_value.
  - intros (v & w & l & El & Hw & Hl & Hd). apply (skip_loose (length buf) v l w rest); try done.
    assert (length l <= length (concat chunks))%nat by (rewrite El, !app_length; lia). lia.
Qed.

Lemma handler_v2_exact env q chunks e : q_endpoint q = EV2 -> reads env q (Src chunks e) -> (5 <= length (n_buf env))%nat -> no_eager_error e ->
  (length chunks + length (concat chunks) < n_fuel env)%nat -> (2 * length (concat chunks) + 2 < n_fuel env)%nat ->
  forall spans, (exists acts, handle env q = XDone acts /\ accepts spans acts) <->
    exists v rest, document (length (n_buf env)) (concat chunks) v rest /\ v2_spans v = Some spans.
Proof.
  intros Eq Hr Hb He Hf1 Hf2 spans. rewrite <- (v2_exact (n_fuel env) (n_buf env) chunks e Hb He Hf1 Hf2 spans).
  rewrite (handle_reads _ _ _ Hr). unfold handle_spans. rewrite Eq. unfold parse_spans. cbn [parser].
  destruct (ParseJsonV2 (n_fuel env) (n_buf env) (Src chunks e)) as [[sp|]| |]; cbn [xmap]; unfold accepts, answer; cbn [fst snd app]; split.
  - intros (acts & [= <-] & Ha). f_equal. f_equal. apply app_inj_tail in Ha as [Ha _]. revert Ha. apply fmap_inj. by intros ? ? [= ->].
  - intros [= ->]. by eexists.
  - intros (acts & [= <-] & Ha). destruct spans as [|s spans]; [discriminate Ha|]. destruct spans; discriminate Ha.
  - done.
  - by intros (acts & ? & _).
  - done.
  - by intros (acts & ? & _).
  - done.
Qed.

Lemma accepts_inj s s' acts : accepts s acts -> accepts s' acts -> s = s'.
Proof. unfold accepts. intros -> Ha. apply app_inj_tail in Ha as [Ha _]. revert Ha. apply fmap_inj. by intros ? ? [= ->]. Qed.
Lemma accepts_rejects s acts : accepts s acts -> rejects acts -> False.
Proof. unfold accepts, rejects. intros -> H. destruct s as [|x [|y s]]; discriminate H. Qed.

Lemma handler_v1_accepted env q chunks e spans acts : q_endpoint q = EV1 -> reads env q (Src chunks e) -> (5 <= length (n_buf env))%nat -> no_eager_error e ->
  pooled_once (n_pool env) -> handle env q = XDone acts -> accepts spans acts ->
  declared_json (q_type q) /\ exists v rest, document (length (n_buf env)) (concat chunks) v rest /\ (unrepeated v -> v1_spans v = Some spans).
Proof.
  intros Eq Hr Hb He Hp E Ha. rewrite (handle_reads _ _ _ Hr) in E. unfold handle_spans in E. rewrite Eq in E.
  destruct (contains (q_type q) (str "application/json")) eqn:Ec.
  - split; [by apply contains_spec in Ec|]. unfold parse_spans in E. cbn [parser] in E.
    destruct (ParseJsonV1 (n_fuel env) (n_buf env) (n_pool env) (Src chunks e)) as [[[sp|] pool']| |] eqn:E1; cbn [xmap fst] in E; try done.
    + injection E as <-. assert (sp = spans) as -> by (by eapply accepts_inj). by eapply v1_accepted.
    + injection E as <-. exfalso. eapply accepts_rejects; [exact Ha|done].
  - injection E as <-. exfalso. eapply accepts_rejects; [exact Ha|done].
Qed.

Lemma handler_v2_rejected env q chunks e : q_endpoint q = EV2 -> reads env q (Src chunks e) -> (5 <= length (n_buf env))%nat -> no_eager_error e ->
  (length chunks + length (concat chunks) < n_fuel env)%nat -> (2 * length (concat chunks) + 2 < n_fuel env)%nat -> short_tokens (length (n_buf env)) (concat chunks) ->
  (forall v rest, document (length (n_buf env)) (concat chunks) v rest -> v2_spans v = None) ->
  exists acts, handle env q = XDone acts /\ rejects acts.
Proof.
  intros Eq Hr Hb He Hf1 Hf2 Hs Hn. rewrite (handle_reads _ _ _ Hr). unfold handle_spans. rewrite Eq. unfold parse_spans. cbn [parser].
  destruct (v2_terminates (n_fuel env) chunks e (n_buf env) Hb He Hf1 Hf2 Hs) as ([sp|] & E); rewrite E; cbn [xmap]; [|by eexists].
  apply v2_accepted in E as (v & rest & Hd & Hv); [|done..]. apply Hn in Hd. congruence.
Qed.

Lemma handler_v1_rejected env q chunks e : q_endpoint q = EV1 -> reads env q (Src chunks e) -> (5 <= length (n_buf env))%nat -> no_eager_error e ->
  pooled_once (n_pool env) ->
  (length chunks + length (concat chunks) < n_fuel env)%nat -> (2 * length (concat chunks) + 2 < n_fuel env)%nat -> short_tokens (length (n_buf env)) (concat chunks) ->
  (forall v rest, ~ document (length (n_buf env)) (concat chunks) v rest) ->
  exists acts, handle env q = XDone acts /\ rejects acts.
Proof.
  intros Eq Hr Hb He Hp Hf1 Hf2 Hs Hn. rewrite (handle_reads _ _ _ Hr). unfold handle_spans. rewrite Eq.
  destruct (contains (q_type q) (str "application/json")); [|by eexists]. unfold parse_spans. cbn [parser].
  destruct (v1_terminates (n_fuel env) chunks e (n_buf env) (n_pool env) Hb He Hf1 Hf2 Hs) as ([[sp|] pool'] & E); rewrite E; cbn [xmap fst]; [|by eexists].
  apply v1_accepted in E as (v & rest & Hd & Hv); [|done..]. by apply Hn in Hd.
Qed.

(** A document without separators, with words and a number that JSON does not know. *)
Definition odd_body : bytes := str "[{""id"":nope""x""[1 t--- ]""timestamp""07}{}]junk".
Definition odd_value : json := JArr [JObj [(str "id", JWord (str "nope")); (str "x", JArr [JNum (str "1"); JWord (str "t---")]); (str "timestamp", JNum (str "07"))]; JObj []].

Lemma odd_document : document 20 odd_body odd_value (str "junk").
Proof.
  assert (W0 : ws []) by constructor. assert (W1 : ws [32]) by (repeat constructor; lia). assert (W2 : ws [58]) by (apply Forall_cons_2; [lia|constructor]).
  assert (Nope : loose 20 (JWord (str "nope")) (str "nope")) by (apply l_word; left; by exists 110, (str "ope"); auto).
  assert (T : loose 20 (JWord (str "t---")) (str "t---")) by (apply l_word; left; exists 116, (str "---"); auto).
  assert (N1 : loose 20 (JNum (str "1")) (str "1")) by (apply l_num; [exists 49, []; split; [done|]; split; [lia|constructor]|cbn; lia]).
  assert (N2 : loose 20 (JNum (str "07")) (str "07")).
  { apply l_num; [exists 48, [55]; split; [done|]; split; [lia|]|cbn; lia]. apply Forall_cons_2; [unfold number_byte; lia|constructor]. }
  assert (K1 : loose_string (str "id") (str "id")) by (vm_compute; repeat (apply lo_plain; [discriminate|discriminate|]); apply lo_nil).
  assert (K2 : loose_string (str "x") (str "x")) by (vm_compute; repeat (apply lo_plain; [discriminate|discriminate|]); apply lo_nil).
  assert (K3 : loose_string (str "timestamp") (str "timestamp")) by (vm_compute; repeat (apply lo_plain; [discriminate|discriminate|]); apply lo_nil).
  assert (D : forall b r n, ~ number_byte b -> delimited (JNum n) (b :: r)) by (intros b r n H; exists b, r; done).
  assert (NB : forall b, b = 32 \/ b = 125 -> ~ number_byte b) by (unfold number_byte; lia).
  pose proof (le_more 20 [32] _ _ _ _ W1 T I (le_end 20 [32] W1)) as A1.
  pose proof (l_arr 20 _ _ (le_more 20 [] _ (str "1") _ ([32] ++ str "t---" ++ [32]) W0 N1 (D 32 (str "t--- ]") (str "1") (NB 32 (or_introl eq_refl))) A1)) as A.
  pose proof (lm_more 20 [] _ _ [] _ (str "07") [] [] W0 K3 ltac:(cbn; lia) W0 N2 (D 125 [] (str "07") (NB 125 (or_intror eq_refl))) (lm_end 20 [] W0)) as M3.
  pose proof (lm_more 20 [] _ _ [] _ _ _ _ W0 K2 ltac:(cbn; lia) W0 A I M3) as M2.
  pose proof (lm_more 20 [] _ _ [58] _ _ _ _ W0 K1 ltac:(cbn; lia) W2 Nope I M2) as M1.
  pose proof (l_arr 20 _ _ (le_more 20 [] _ _ _ _ W0 (l_obj 20 _ _ M1) I (le_more 20 [] _ _ _ _ W0 (l_obj 20 _ _ (lm_end 20 [] W0)) I (le_end 20 [] W0)))) as V.
  exists [], (str "[{""id"":nope""x""[1 t--- ]""timestamp""07}{}]"). split; [done|]. split; [done|]. split; [exact V|exact I].
Qed.
