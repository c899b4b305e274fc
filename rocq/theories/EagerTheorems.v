(** Decoding whatever the reader does at its end. *)
From Verif Require Import Base SpanModel JsonModel CodecModel JsonPure JsonSpec JsonProofs JsonSim JsonFacts JsonFuel JsonSafe DocSpec ParseSpec PoolProofs DocTheorems LooseSpec LooseTheorems
  HandlerModel HandlerSpec HandlerProofs SystemSpec ExactSpec ExactProofs HangSpec HangBack HangHttp SizeSpec SizeProofs SizeHttp EagerProofs EagerHang HandlerSpec.

Lemma end_cases (e : rend) : e = EndErr true \/ no_eager_error e.
Proof. unfold no_eager_error. destruct e as [[]|[]]; auto. Qed.

Lemma enough2 n cap l : (2 * length l + 2 < n)%nat -> q_exec n cap (parse_v2_prog n) l <> YFuel.
Proof. intros Hl E. pose proof (enough_v2 n cap (length l) ltac:(lia) l ltac:(lia) Hl) as H. by rewrite E in H. Qed.
Lemma enough1 pool n cap l : (2 * length l + 2 < n)%nat -> q_exec n cap (parse_v1_prog n pool) l <> YFuel.
Proof. intros Hl E. pose proof (enough_v1 n cap (length l) pool ltac:(lia) l ltac:(lia) Hl) as H. by rewrite E in H. Qed.

(* ---------- C18, C89 ---------- *)

Lemma v2_hang_lazy buf chunks : (5 <= length buf)%nat ->
  (forall fuel, ParseJsonV2 fuel buf (Src chunks (EndErr true)) = XHang) <-> (forall fuel, ParseJsonV2 fuel buf (Src chunks (EndErr false)) = XHang).
Proof.
  intros Hb. split; intros H fuel.
  - destruct (v2_lazy fuel buf chunks) as [E|E]; rewrite H in E; done.
  - by apply (run_caught parse_v2_prog v2_result ple_v2 enough2).
Qed.
Lemma v1_hang_lazy buf pool chunks : (5 <= length buf)%nat ->
  (forall fuel, ParseJsonV1 fuel buf pool (Src chunks (EndErr true)) = XHang) <-> (forall fuel, ParseJsonV1 fuel buf pool (Src chunks (EndErr false)) = XHang).
Proof.
  intros Hb. split; intros H fuel.
  - destruct (v1_lazy fuel buf pool chunks) as [E|[? E]]; rewrite H in E; done.
  - apply (run_caught (fun n => parse_v1_prog n pool) (v1_result (length pool))); [intros; by apply ple_v1|intros; by apply enough1|done|done].
Qed.

Lemma v2_ends_or_hangs_any buf chunks e : (5 <= length buf)%nat ->
  (exists r, forall fuel, enough_steps chunks fuel -> ParseJsonV2 fuel buf (Src chunks e) = XDone r) \/
  (forall fuel, ParseJsonV2 fuel buf (Src chunks e) = XHang).
Proof.
  intros Hb. destruct (end_cases e) as [->|He]; [|by apply v2_ends_or_hangs]. destruct (v2_ends_or_hangs buf chunks (EndErr false) Hb ltac:(done)) as [[r H]|H]; [left|right; by apply v2_hang_lazy].
  assert (D : forall fuel, enough_steps chunks fuel -> exists r', ParseJsonV2 fuel buf (Src chunks (EndErr true)) = XDone r').
  { intros fuel Hf. destruct (v2_lazy fuel buf chunks) as [E|E]; rewrite E; [rewrite (H _ Hf)|]; by eexists. }
  destruct (enough_some chunks) as [n Hn]. destruct (D n Hn) as [r' Er]. exists r'. intros fuel Hf. destruct (D fuel Hf) as [r2 E2].
  pose proof (run_mono parse_v2_prog v2_result ple_v2) as Hm. destruct (Nat.le_ge_cases n fuel) as [Hl|Hl].
  - rewrite <- Er. apply Hm; [done|]. change (ParseJsonV2 n buf (Src chunks (EndErr true)) <> XHang). by rewrite Er.
  - rewrite E2. rewrite <- Er, <- E2. symmetry. apply Hm; [done|]. change (ParseJsonV2 fuel buf (Src chunks (EndErr true)) <> XHang). by rewrite E2.
Qed.
Lemma v1_ends_or_hangs_any buf pool chunks e : (5 <= length buf)%nat ->
  (exists r, forall fuel, enough_steps chunks fuel -> ParseJsonV1 fuel buf pool (Src chunks e) = XDone r) \/
  (forall fuel, ParseJsonV1 fuel buf pool (Src chunks e) = XHang).
Proof.
  intros Hb. destruct (end_cases e) as [->|He]; [|by apply v1_ends_or_hangs]. destruct (v1_ends_or_hangs buf pool chunks (EndErr false) Hb ltac:(done)) as [[r H]|H]; [left|right; by apply v1_hang_lazy].
  assert (D : forall fuel, enough_steps chunks fuel -> exists r', ParseJsonV1 fuel buf pool (Src chunks (EndErr true)) = XDone r').
  { intros fuel Hf. destruct (v1_lazy fuel buf pool chunks) as [E|[? E]]; rewrite E; [rewrite (H _ Hf)|]; by eexists. }
  destruct (enough_some chunks) as [n Hn]. destruct (D n Hn) as [r' Er]. exists r'. intros fuel Hf. destruct (D fuel Hf) as [r2 E2].
  pose proof (run_mono (fun n => parse_v1_prog n pool) (v1_result (length pool)) ltac:(intros; by apply ple_v1)) as Hm. destruct (Nat.le_ge_cases n fuel) as [Hl|Hl].
  - rewrite <- Er. apply Hm; [done|]. change (ParseJsonV1 n buf pool (Src chunks (EndErr true)) <> XHang). by rewrite Er.
  - rewrite E2. rewrite <- Er, <- E2. symmetry. apply Hm; [done|]. change (ParseJsonV1 fuel buf pool (Src chunks (EndErr true)) <> XHang). by rewrite E2.
Qed.

Lemma answered_or_never_any env q chunks e : (5 <= length (n_buf env))%nat -> reads env q (Src chunks e) ->
  (exists acts, forall n, enough_steps chunks n -> handle (with_fuel n env) q = XDone acts) \/ (forall n, handle (with_fuel n env) q = XHang).
Proof.
  intros Hb Hr. setoid_rewrite (fun n => reads_fuel env q _ n Hr). unfold handle_spans, parse_spans, parser. cbn [with_fuel n_fuel n_buf n_pool n_jaeger].
  destruct (q_endpoint q).
  - destruct (contains _ _); [|left; by eexists].
    destruct (v1_ends_or_hangs_any (n_buf env) (n_pool env) chunks e Hb) as [[r H]|H]; [left|right].
    + eexists. intros n Hn. rewrite (H n Hn). cbn [xmap]. done.
    + intros n. by rewrite H.
  - destruct (v2_ends_or_hangs_any (n_buf env) chunks e Hb) as [[r H]|H]; [left|right].
    + eexists. intros n Hn. rewrite (H n Hn). cbn [xmap]. done.
    + intros n. by rewrite H.
  - left. eexists. intros n Hn. cbn [xmap]. done.
Qed.

Lemma v2_hang_exact_any buf chunks e : (5 <= length buf)%nat ->
  (forall fuel, ParseJsonV2 fuel buf (Src chunks e) = XHang) <-> stuck ParseJsonV2 (length buf) (concat chunks).
Proof. intros Hb. destruct (end_cases e) as [->|He]; [rewrite v2_hang_lazy by done|]; by apply v2_hang_exact. Qed.
Lemma v1_hang_exact_any pool buf chunks e : (5 <= length buf)%nat ->
  (forall fuel, ParseJsonV1 fuel buf pool (Src chunks e) = XHang) <-> stuck (v1_parser pool) (length buf) (concat chunks).
Proof. intros Hb. destruct (end_cases e) as [->|He]; [rewrite v1_hang_lazy by done|]; by apply v1_hang_exact. Qed.

Lemma unanswered_exact_any env q chunks e : (5 <= length (n_buf env))%nat -> reads env q (Src chunks e) ->
  (forall n, handle (with_fuel n env) q = XHang) <->
  (q_endpoint q = EV2 /\ stuck ParseJsonV2 (length (n_buf env)) (concat chunks) \/
   q_endpoint q = EV1 /\ contains (q_type q) (str "application/json") = true /\ stuck (v1_parser (n_pool env)) (length (n_buf env)) (concat chunks)).
Proof.
  intros Hb Hr. setoid_rewrite (fun n => reads_fuel env q _ n Hr). unfold handle_spans, parse_spans, parser. cbn [with_fuel n_fuel n_buf n_pool n_jaeger].
  rewrite <- (v2_hang_exact_any (n_buf env) chunks e Hb), <- (v1_hang_exact_any (n_pool env) (n_buf env) chunks e Hb). destruct (q_endpoint q).
  - destruct (contains _ _).
    + split; [intros H; right; split; [done|]; split; [done|]; intros n; specialize (H n); by destruct (ParseJsonV1 n _ _ _)|].
      intros [[? _]|(_ & _ & H)] n; [done|]. by rewrite H.
    + split; [intros H; by specialize (H 0%nat)|]. intros [[? _]|(_ & ? & _)]; done.
  - split; [intros H; left; split; [done|]; intros n; specialize (H n); by destruct (ParseJsonV2 n _ _)|].
    intros [[_ H]|(? & _)] n; [|done]. by rewrite H.
  - split; [intros H; by specialize (H 0%nat)|]. intros [[? _]|(? & _)]; done.
Qed.

Lemma v2_hangs_any fuel buf chunks e x tail : (5 <= length buf < length x)%nat -> Forall (fun c => c <> 34 /\ c <> 92) x ->
  concat chunks = str "[{""" ++ x ++ tail -> ParseJsonV2 fuel buf (Src chunks e) = XHang.
Proof.
  intros Hb Hx Hc. destruct (end_cases e) as [->|He]; [|by eapply v2_hangs]. apply v2_hang_lazy; [lia|]. intros n. by eapply v2_hangs.
Qed.
Lemma body_never_decoded_any : exists body, forall fuel e, ParseJsonV2 fuel (replicate (Z.to_nat 8192) 0) (Src [body] e) = XHang.
Proof.
  destruct body_never_decoded as [body H]. exists body. intros fuel e. destruct (end_cases e) as [->|He]; [|by apply H].
  apply v2_hang_lazy; [|intros n; by apply H]. rewrite replicate_length. change 5%nat with (Z.to_nat 5). apply Z2Nat.inj_le; lia.
Qed.
Lemma long_name_unanswered_any env q chunks e x tail n : q_endpoint q = EV2 -> reads env q (Src chunks e) -> (5 <= length (n_buf env) < length x)%nat ->
  Forall (fun c => c <> 34 /\ c <> 92) x -> concat chunks = str "[{""" ++ x ++ tail -> handle (with_fuel n env) q = XHang.
Proof.
  intros Hq Hr Hb Hx Hc. rewrite (reads_fuel env q _ n Hr). unfold handle_spans, parse_spans, parser. rewrite Hq. cbn [with_fuel n_fuel n_buf].
  by rewrite (v2_hangs_any n (n_buf env) chunks e x tail).
Qed.

Lemma v2_terminates_any fuel chunks e buf : (5 <= length buf)%nat ->
  (length chunks + length (concat chunks) < fuel)%nat -> (2 * length (concat chunks) + 2 < fuel)%nat -> short_tokens (length buf) (concat chunks) ->
  exists r, ParseJsonV2 fuel buf (Src chunks e) = XDone r.
Proof.
  intros Hb Hf1 Hf2 Hs. destruct (end_cases e) as [->|He]; [|by apply v2_terminates].
  destruct (v2_lazy fuel buf chunks) as [E|E]; rewrite E; [|by eexists]. by apply v2_terminates.
Qed.
Lemma v1_terminates_any fuel chunks e buf pool : (5 <= length buf)%nat ->
  (length chunks + length (concat chunks) < fuel)%nat -> (2 * length (concat chunks) + 2 < fuel)%nat -> short_tokens (length buf) (concat chunks) ->
  exists r, ParseJsonV1 fuel buf pool (Src chunks e) = XDone r.
Proof.
  intros Hb Hf1 Hf2 Hs. destruct (end_cases e) as [->|He]; [|by apply v1_terminates].
  destruct (v1_lazy fuel buf pool chunks) as [E|[? E]]; rewrite E; [|by eexists]. by apply v1_terminates.
Qed.

(* ---------- C76 ---------- *)

Lemma v2_accepted_any fuel buf chunks e spans : (5 <= length buf)%nat ->
  ParseJsonV2 fuel buf (Src chunks e) = XDone (Some spans) ->
  exists v rest, document (length buf) (concat chunks) v rest /\ v2_spans v = Some spans.
Proof.
  intros Hb H. destruct (end_cases e) as [->|He]; [|by eapply v2_accepted].
  destruct (v2_lazy fuel buf chunks) as [E|E]; rewrite E in H; [|done]. by apply (v2_accepted fuel buf chunks (EndErr false)).
Qed.
Lemma v1_accepted_any fuel buf pool chunks e spans pool' : (5 <= length buf)%nat -> pooled_once pool ->
  ParseJsonV1 fuel buf pool (Src chunks e) = XDone (Some spans, pool') ->
  exists v rest, document (length buf) (concat chunks) v rest /\ (unrepeated v -> v1_spans v = Some spans).
Proof.
  intros Hb Hp H. destruct (end_cases e) as [->|He]; [|by eapply v1_accepted].
  destruct (v1_lazy fuel buf pool chunks) as [E|[? E]]; rewrite E in H; [|done]. by apply (v1_accepted fuel buf pool chunks (EndErr false) spans pool').
Qed.

Lemma handler_v2_accepted_any env q chunks e spans acts : q_endpoint q = EV2 -> reads env q (Src chunks e) -> (5 <= length (n_buf env))%nat ->
  handle env q = XDone acts -> accepts spans acts ->
  exists v rest, document (length (n_buf env)) (concat chunks) v rest /\ v2_spans v = Some spans.
Proof.
  intros Eq Hr Hb E Ha. rewrite (handle_reads _ _ _ Hr) in E. unfold handle_spans in E. rewrite Eq in E. unfold parse_spans in E. cbn [parser] in E.
  destruct (ParseJsonV2 (n_fuel env) (n_buf env) (Src chunks e)) as [[sp|]| |] eqn:E1; cbn [xmap] in E; try done.
  - injection E as <-. assert (sp = spans) as -> by (by eapply accepts_inj). by eapply v2_accepted_any.
  - injection E as <-. exfalso. eapply accepts_rejects; [exact Ha|done].
Qed.
Lemma handler_v1_accepted_any env q chunks e spans acts : q_endpoint q = EV1 -> reads env q (Src chunks e) -> (5 <= length (n_buf env))%nat ->
  pooled_once (n_pool env) -> handle env q = XDone acts -> accepts spans acts ->
  declared_json (q_type q) /\ exists v rest, document (length (n_buf env)) (concat chunks) v rest /\ (unrepeated v -> v1_spans v = Some spans).
Proof.
  intros Eq Hr Hb Hp E Ha. rewrite (handle_reads _ _ _ Hr) in E. unfold handle_spans in E. rewrite Eq in E.
  destruct (contains (q_type q) (str "application/json")) eqn:Ec.
  - split; [by apply contains_spec in Ec|]. unfold parse_spans in E. cbn [parser] in E.
    destruct (ParseJsonV1 (n_fuel env) (n_buf env) (n_pool env) (Src chunks e)) as [[[sp|] pool']| |] eqn:E1; cbn [xmap fst] in E; try done.
    + injection E as <-. assert (sp = spans) as -> by (by eapply accepts_inj). by eapply v1_accepted_any.
    + injection E as <-. exfalso. eapply accepts_rejects; [exact Ha|done].
  - injection E as <-. exfalso. eapply accepts_rejects; [exact Ha|done].
Qed.

Lemma handler_v2_rejected_any env q chunks e : q_endpoint q = EV2 -> reads env q (Src chunks e) -> (5 <= length (n_buf env))%nat ->
  (length chunks + length (concat chunks) < n_fuel env)%nat -> (2 * length (concat chunks) + 2 < n_fuel env)%nat -> short_tokens (length (n_buf env)) (concat chunks) ->
  (forall v rest, document (length (n_buf env)) (concat chunks) v rest -> v2_spans v = None) ->
  exists acts, handle env q = XDone acts /\ rejects acts.
Proof.
  intros Eq Hr Hb Hf1 Hf2 Hs Hn. rewrite (handle_reads _ _ _ Hr). unfold handle_spans. rewrite Eq. unfold parse_spans. cbn [parser].
  destruct (v2_terminates_any (n_fuel env) chunks e (n_buf env) Hb Hf1 Hf2 Hs) as ([sp|] & E); rewrite E; cbn [xmap]; [|by eexists].
  apply v2_accepted_any in E as (v & rest & Hd & Hv); [|done..]. apply Hn in Hd. congruence.
Qed.
Lemma handler_v1_rejected_any env q chunks e : q_endpoint q = EV1 -> reads env q (Src chunks e) -> (5 <= length (n_buf env))%nat ->
  pooled_once (n_pool env) ->
  (length chunks + length (concat chunks) < n_fuel env)%nat -> (2 * length (concat chunks) + 2 < n_fuel env)%nat -> short_tokens (length (n_buf env)) (concat chunks) ->
  (forall v rest, ~ document (length (n_buf env)) (concat chunks) v rest) ->
  exists acts, handle env q = XDone acts /\ rejects acts.
Proof.
  intros Eq Hr Hb Hp Hf1 Hf2 Hs Hn. rewrite (handle_reads _ _ _ Hr). unfold handle_spans. rewrite Eq.
  destruct (contains (q_type q) (str "application/json")); [|by eexists]. unfold parse_spans. cbn [parser].
  destruct (v1_terminates_any (n_fuel env) chunks e (n_buf env) (n_pool env) Hb Hf1 Hf2 Hs) as ([[sp|] pool'] & E); rewrite E; cbn [xmap fst]; [|by eexists].
  apply v1_accepted_any in E as (v & rest & Hd & Hv); [|done..]. by apply Hn in Hd.
Qed.

(* ---------- C90 ---------- *)

Lemma http_size_any env q chunks e acts : (5 <= length (n_buf env))%nat -> reads env q (Src chunks e) -> handle env q = XDone acts ->
  (q_endpoint q = EV2 -> (spans_size (puts_of acts) <= length (concat chunks))%nat) /\
  (q_endpoint q = EV1 -> (spans_size (puts_of acts) <= length (concat chunks) + pool_texts (n_pool env))%nat).
Proof.
  intros Hb Hr H. destruct (end_cases e) as [->|He]; [|by eapply http_size]. apply handle_shape in H as [(spans & body & Hr' & Hp & _ & Ha)| ->].
  - rewrite (puts_accepts _ _ Ha). rewrite (reads_same _ _ _ _ Hr' Hr) in Hp. split; intros Hq; rewrite Hq in Hp; cbn [parser] in Hp.
    + destruct (v2_lazy (n_fuel env) (n_buf env) chunks) as [E|E]; rewrite E in Hp; [|done]. apply v2_size in Hp; [lia|done..].
    + destruct (v1_lazy (n_fuel env) (n_buf env) (n_pool env) chunks) as [E|[? E]]; rewrite E in Hp; [|done].
      destruct (ParseJsonV1 _ _ _ _) as [[o p]| |] eqn:E'; cbn [xmap fst] in Hp; try done. injection Hp as ->. apply v1_size in E'; [lia|done..].
  - cbn. split; intros; lia.
Qed.
Lemma http_size_once_any env q chunks e acts : (5 <= length (n_buf env))%nat -> reads env q (Src chunks e) -> handle env q = XDone acts ->
  q_endpoint q = EV2 \/ q_endpoint q = EV1 /\ pooled_once (n_pool env) -> (spans_size (puts_of acts) <= length (concat chunks))%nat.
Proof.
  intros Hb Hr H [Hq|[Hq Ho]]; [by eapply (http_size_any env)|]. pose proof H as H'.
  apply handle_shape in H as [(spans & body & Hr' & Hp & _ & Ha)| ->]; [|cbn; lia].
  rewrite (puts_accepts _ _ Ha). rewrite (reads_same _ _ _ _ Hr' Hr), Hq in Hp. cbn [parser] in Hp.
  pose proof (no_leak (n_fuel env) (n_buf env) (n_pool env) (Src chunks e) Ho) as Hn.
  destruct (ParseJsonV1 (n_fuel env) (n_buf env) (n_pool env) (Src chunks e)) as [[o p]| |] eqn:E; cbn [xmap fst] in Hp; try done. injection Hp as ->.
  destruct (ParseJsonV1 (n_fuel env) (n_buf env) new_pool_entry (Src chunks e)) as [[o' p']| |] eqn:E'; try done. subst o'.
  assert (K : ParseJsonV1 (n_fuel env) (n_buf env) new_pool_entry (Src chunks (match e with EndErr true => EndErr false | _ => e end)) = XDone (Some spans, p')).
  { destruct e as [b|[]]; try done. destruct (v1_lazy (n_fuel env) (n_buf env) new_pool_entry chunks) as [K|[? K]]; rewrite K in E'; done. }
  apply v1_size in K; [|done|by destruct e as [b|[]]]. rewrite new_pool_texts in K. lia.
Qed.

(* ---------- C104 ---------- *)

Lemma handle_lazy env q q' chunks : q_endpoint q = EV1 \/ q_endpoint q = EV2 -> q_endpoint q' = q_endpoint q -> q_type q' = q_type q ->
  reads env q (Src chunks (EndErr true)) -> reads env q' (Src chunks (EndErr false)) ->
  handle env q = handle env q' \/ exists acts, handle env q = XDone acts /\ rejects acts.
Proof.
  intros Hq Eq Et Hr Hr'. rewrite (handle_reads _ _ _ Hr), (handle_reads _ _ _ Hr'). unfold handle_spans. rewrite Eq, Et. destruct Hq as [Hq|Hq]; rewrite Hq.
  - destruct (contains _ _); [|by left]. unfold parse_spans. cbn [parser]. destruct (v1_lazy (n_fuel env) (n_buf env) (n_pool env) chunks) as [E|[? E]]; rewrite E; [by left|right; by eexists].
  - unfold parse_spans. cbn [parser]. destruct (v2_lazy (n_fuel env) (n_buf env) chunks) as [E|E]; rewrite E; [by left|right; by eexists].
Qed.

Lemma handle_cut env q cs c : q_endpoint q = EV1 \/ q_endpoint q = EV2 -> c <> [] -> reads env q (Src (cs ++ [c]) (EndErr true)) ->
  exists chunks lost, lost <> [] /\ concat (cs ++ [c]) = concat chunks ++ lost /\
  forall q', q_endpoint q' = q_endpoint q -> q_type q' = q_type q -> reads env q' (Src chunks (EndErr false)) -> handle env q = handle env q'.
Proof.
  intros Hq Hc Hr. assert (Hl : loaded (cs ++ [c])) by (by exists cs, c). rewrite (handle_reads _ _ _ Hr). unfold handle_spans, parse_spans. destruct Hq as [Hq|Hq]; rewrite Hq; cbn [parser].
  - destruct (v1_cut (n_fuel env) (n_buf env) (n_pool env) _ Hl) as (chunks & lost & Hn & Hp & E). exists chunks, lost. split; [done|]. split; [done|]. intros q' Eq Et Hr'.
    rewrite (handle_reads _ _ _ Hr'). unfold handle_spans, parse_spans. rewrite Eq, ?Et. cbn [parser]. by rewrite E.
  - destruct (v2_cut (n_fuel env) (n_buf env) _ Hl) as (chunks & lost & Hn & Hp & E). exists chunks, lost. split; [done|]. split; [done|]. intros q' Eq Et Hr'.
    rewrite (handle_reads _ _ _ Hr'). unfold handle_spans, parse_spans. rewrite Eq, ?Et. cbn [parser]. by rewrite E.
Qed.

Lemma handle_hang_lazy env q q' chunks : (5 <= length (n_buf env))%nat -> q_endpoint q' = q_endpoint q -> q_type q' = q_type q ->
  reads env q (Src chunks (EndErr true)) -> reads env q' (Src chunks (EndErr false)) ->
  ((forall n, handle (with_fuel n env) q = XHang) <-> (forall n, handle (with_fuel n env) q' = XHang)).
Proof.
  intros Hb Eq Et Hr Hr'. rewrite (unanswered_exact_any env q chunks (EndErr true) Hb Hr), (unanswered_exact_any env q' chunks (EndErr false) Hb Hr'). by rewrite Eq, Et.
Qed.
