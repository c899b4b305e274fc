(** Proofs about the endpoints (C52). *)
From Verif Require Import Base SpanModel JsonModel CodecModel JaegerModel JaegerSpec JaegerProofs JsonSpec DocSpec ParseSpec PoolProofs DocTheorems HandlerModel HandlerSpec.

Lemma has_prefix_spec p : forall s, has_prefix p s = true <-> exists b, s = p ++ b.
Proof.
  induction p as [|a p IH]; intros s; cbn [has_prefix]; [split; [by exists s|done]|].
  destruct s as [|c s]; [split; [done|by intros (b & ?)]|]. rewrite andb_true_iff, Z.eqb_eq, IH. split.
  - intros [-> [b ->]]. by exists b.
  - intros [b E]. injection E as -> ->. split; [done|by exists b].
Qed.

Lemma contains_spec s p : contains s p = true <-> exists a b, s = a ++ p ++ b.
Proof.
  induction s as [|c s IH]; cbn [contains]; rewrite orb_true_iff, has_prefix_spec.
  - split.
    + intros [[b E]|?]; [by exists [], b|done].
    + intros (a & b & E). left. exists b. by destruct a.
  - rewrite IH. split.
    + intros [[b E]|(a & b & ->)]; [by exists [], b|by exists (c :: a), b].
    + intros (a & b & E). destruct a as [|c' a]; [left; by exists b|]. right. injection E as -> ->. by exists a, b.
Qed.

Lemma handle_reads env q body : reads env q body -> handle env q = handle_spans env q body.
Proof. unfold handle. intros [[E1 E2]|[E ->]]; [by rewrite decide_True, E2|by rewrite decide_False]. Qed.

(** Shape of all effects. *)
Lemma handle_shape env q acts : handle env q = XDone acts ->
  (exists spans body, reads env q body /\ parser env (q_endpoint q) body = XDone (Some spans) /\ (q_endpoint q = EV1 -> declared_json (q_type q)) /\ accepts spans acts) \/
  rejects acts.
Proof.
  assert (Hp : forall body, reads env q body -> forall r, (q_endpoint q = EV1 -> declared_json (q_type q)) -> xmap answer (parse_spans env (q_endpoint q) body) = XDone r ->
     (exists spans body, reads env q body /\ parser env (q_endpoint q) body = XDone (Some spans) /\ (q_endpoint q = EV1 -> declared_json (q_type q)) /\ accepts spans r) \/ rejects r).
  { intros body Hb r Hj. unfold parse_spans. destruct (parser env (q_endpoint q) body) as [[spans|]| |] eqn:E; cbn; intros H; try done.
    - left. exists spans, body. split_and!; try done. by injection H as <-.
    - right. by injection H as <-. }
  assert (Hs : forall body, reads env q body -> handle_spans env q body = XDone acts ->
     (exists spans body, reads env q body /\ parser env (q_endpoint q) body = XDone (Some spans) /\ (q_endpoint q = EV1 -> declared_json (q_type q)) /\ accepts spans acts) \/ rejects acts).
  { intros body Hb. unfold handle_spans. destruct (q_endpoint q) eqn:Eq; try (by apply Hp).
    destruct (contains (q_type q) (str "application/json")) eqn:Ec.
    - apply Hp; [done|]. intros _. apply contains_spec in Ec. done.
    - intros H. right. by injection H as <-. }
  unfold handle. case_decide as Eg.
  - destruct (n_gunzip env (q_body q)) as [body|] eqn:Ez; [|intros H; right; by injection H as <-]. apply Hs. by left.
  - apply Hs. by right.
Qed.

Lemma handle_not_json env q : q_endpoint q = EV1 -> ~ declared_json (q_type q) -> exists acts, handle env q = XDone acts /\ rejects acts.
Proof.
  intros Eq Hj. exists [Status 400]. split; [|done].
  assert (Hs : forall body, handle_spans env q body = XDone [Status 400]).
  { intros body. unfold handle_spans. rewrite Eq. destruct (contains _ _) eqn:Ec; [|done]. apply contains_spec in Ec. done. }
  unfold handle. case_decide; [|apply Hs]. destruct (n_gunzip env (q_body q)); [apply Hs|done].
Qed.

Lemma handle_bad_gzip env q : q_encoding q = str "gzip" -> n_gunzip env (q_body q) = None -> exists acts, handle env q = XDone acts /\ rejects acts.
Proof. intros E1 E2. exists [Status 400]. split; [|done]. unfold handle. by rewrite decide_True, E2. Qed.

Lemma handle_no_panic env q : handle env q <> XPanic.
Proof.
  assert (Hp : forall ep body, xmap answer (parse_spans env ep body) <> XPanic).
  { intros ep body. unfold parse_spans. destruct (parse_safe (n_fuel env) (n_buf env) body (n_pool env)) as [H2 H1].
    destruct ep; cbn [parser].
    - by destruct (ParseJsonV1 _ _ _ _).
    - by destruct (ParseJsonV2 _ _ _).
    - done. }
  assert (Hs : forall body, handle_spans env q body <> XPanic).
  { intros body. unfold handle_spans. destruct (q_endpoint q); try apply Hp. by destruct (contains _ _); [apply Hp|]. }
  unfold handle. case_decide; [|apply Hs]. by destruct (n_gunzip env (q_body q)); [apply Hs|].
Qed.

Lemma handle_v2 env q m v l w rest chunks e : q_endpoint q = EV2 -> reads env q (Src chunks e) ->
  text m v l -> ws w -> delimited v rest -> concat chunks = w ++ l ++ rest ->
  (m <= length (n_buf env))%nat -> (5 <= length (n_buf env))%nat -> no_eager_error e ->
  (length chunks + length (concat chunks) < n_fuel env)%nat -> (2 * length l + 2 < n_fuel env)%nat ->
  exists acts, handle env q = XDone acts /\ answers (v2_spans v) acts.
Proof.
  intros Eq Hr Ht Hw Hd Hc H1 H2 H3 H4 H5. rewrite (handle_reads _ _ _ Hr). unfold handle_spans. rewrite Eq. unfold parse_spans. cbn [parser].
  rewrite (v2_document m v l w rest chunks e) by done. destruct (v2_spans v); eexists; (split; [done|done]).
Qed.

Lemma handle_v1 env q m v l w rest chunks e : q_endpoint q = EV1 -> declared_json (q_type q) -> reads env q (Src chunks e) ->
  text m v l -> ws w -> delimited v rest -> concat chunks = w ++ l ++ rest ->
  (m <= length (n_buf env))%nat -> (5 <= length (n_buf env))%nat -> no_eager_error e ->
  (length chunks + length (concat chunks) < n_fuel env)%nat -> (2 * length l + 2 < n_fuel env)%nat ->
  pooled_once (n_pool env) ->
  (forall vs, v = JArr vs -> Forall (fun v => at_most_once (str "annotations") v /\ at_most_once (str "binaryAnnotations") v) vs) ->
  exists acts, handle env q = XDone acts /\ answers (v1_spans v) acts.
Proof.
  intros Eq Hj Hr Ht Hw Hd Hc H1 H2 H3 H4 H5 H6 H7. rewrite (handle_reads _ _ _ Hr). unfold handle_spans. rewrite Eq.
  assert (contains (q_type q) (str "application/json") = true) as -> by (by apply contains_spec).
  destruct (v1_document m v l w rest chunks e (n_buf env) (n_fuel env) (n_pool env)) as [pool' E]; try done.
  unfold parse_spans. cbn [parser]. rewrite E. cbn [xmap fst]. destruct (v1_spans v); eexists; (split; [done|done]).
Qed.

Lemma handle_jaeger env q body data : q_endpoint q = EJaeger -> reads env q body -> n_jaeger env body = Some data ->
  exists groups acts, handle env q = XDone acts /\ accepts (concat groups) acts /\
  Forall2 (fun d g => Forall2 (jaeger_describes (jd_procs d)) (jd_spans d) g) data groups.
Proof.
  intros Eq Hr Hj. rewrite (handle_reads _ _ _ Hr). unfold handle_spans. rewrite Eq. unfold parse_spans. cbn [parser]. rewrite Hj.
  destruct (parse_jaeger data) as (groups & -> & Hg). exists groups. eexists. split; [done|]. by split.
Qed.

Lemma handle_jaeger_bad env q body : q_endpoint q = EJaeger -> reads env q body -> n_jaeger env body = None ->
  exists acts, handle env q = XDone acts /\ rejects acts.
Proof.
  intros Eq Hr Hj. rewrite (handle_reads _ _ _ Hr). unfold handle_spans. rewrite Eq. unfold parse_spans. cbn [parser]. rewrite Hj. by eexists.
Qed.
