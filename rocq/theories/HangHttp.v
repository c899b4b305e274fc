(** C89 over HTTP, and witnesses. *)
From Verif Require Import Base SpanModel JsonModel CodecModel JsonSpec ParseSpec HandlerModel HandlerSpec ExactSpec ExactProofs DocTheorems HangSpec HangProofs HangBack.

Lemma unanswered_exact env q chunks e : (5 <= length (n_buf env))%nat -> no_eager_error e -> reads env q (Src chunks e) ->
  (forall n, handle (with_fuel n env) q = XHang) <->
  (q_endpoint q = EV2 /\ stuck ParseJsonV2 (length (n_buf env)) (concat chunks) \/
   q_endpoint q = EV1 /\ contains (q_type q) (str "application/json") = true /\ stuck (v1_parser (n_pool env)) (length (n_buf env)) (concat chunks)).
Proof.
  intros Hb He Hr. setoid_rewrite (fun n => reads_fuel env q _ n Hr). unfold handle_spans, parse_spans, parser. cbn [with_fuel n_fuel n_buf n_pool n_jaeger].
  rewrite <- (v2_hang_exact (n_buf env) chunks e Hb He), <- (v1_hang_exact (n_pool env) (n_buf env) chunks e Hb He). destruct (q_endpoint q).
  - destruct (contains _ _).
    + split; [intros H; right; split; [done|]; split; [done|]; intros n; specialize (H n); by destruct (ParseJsonV1 n _ _ _)|].
      intros [[? _]|(_ & _ & H)] n; [done|]. by rewrite H.
    + split; [intros H; by specialize (H 0%nat)|]. intros [[? _]|(_ & ? & _)]; done.
  - split; [intros H; left; split; [done|]; intros n; specialize (H n); by destruct (ParseJsonV2 n _ _)|].
    intros [[_ H]|(? & _)] n; [|done]. by rewrite H.
  - split; [intros H; by specialize (H 0%nat)|]. intros [[? _]|(? & _)]; done.
Qed.

(** The answer of a body that is not caught. *)
Lemma not_stuck fuel buf chunks e r : (5 <= length buf)%nat -> no_eager_error e -> ParseJsonV2 fuel buf (Src chunks e) = XDone r ->
  ~ stuck ParseJsonV2 (length buf) (concat chunks).
Proof. intros Hb He H K. apply (v2_hang_exact buf chunks e Hb He) with (fuel := fuel) in K. by rewrite H in K. Qed.
Lemma not_stuck1 fuel pool buf chunks e r : (5 <= length buf)%nat -> no_eager_error e -> ParseJsonV1 fuel buf pool (Src chunks e) = XDone r ->
  ~ stuck (v1_parser pool) (length buf) (concat chunks).
Proof. intros Hb He H K. apply (v1_hang_exact pool buf chunks e Hb He) with (fuel := fuel) in K. by rewrite H in K. Qed.

Lemma is_stuck fuel buf chunks e : (5 <= length buf)%nat -> no_eager_error e -> enough_steps chunks fuel -> ParseJsonV2 fuel buf (Src chunks e) = XHang ->
  stuck ParseJsonV2 (length buf) (concat chunks).
Proof.
  intros Hb He Hf H. apply (v2_hang_exact buf chunks e Hb He). destruct (v2_ends_or_hangs buf chunks e Hb He) as [[r K]|K]; [|done]. by rewrite K in H.
Qed.
(** A body that is rejected is not accepted with any other buffer. *)
Lemma not_accepted fuel buf body : (5 <= length buf)%nat -> ParseJsonV2 fuel buf (Src [body] (EndEOF false)) = XDone None -> ~ accepted ParseJsonV2 body.
Proof.
  intros Hb H (fuel' & buf' & spans & Hb' & K). set (n := (4 + 2 * length (concat [body]))%nat).
  apply (v2_split_independent fuel n buf (buf ++ buf') [body] [body] (EndEOF false) (EndEOF false)) in H; rewrite ?app_length; try done; try (unfold n; cbn [length]; lia).
  apply (v2_split_independent fuel' n buf' (buf ++ buf') [body] [body] (EndEOF false) (EndEOF false)) in K; rewrite ?app_length; try done; try (unfold n; cbn [length]; lia).
  congruence.
Qed.
