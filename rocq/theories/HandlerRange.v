(** The timestamps of spans that the handlers accept are 64 bit values. *)
From Verif Require Import Base IdModel SpanModel JsonModel CodecModel JaegerModel HandlerModel.

Lemma zero_int64 : int64_ok 0.
Proof. zlia. Qed.
Lemma microseconds_ok z : int64_ok (microseconds z).
Proof. apply wrap64_ok. Qed.

(* ---------- v1 ---------- *)

Definition times_ok (s : span) : Prop := int64_ok (s_ts s) /\ timings_ok (s_timings s).

Lemma use_service_times n s : times_ok s -> times_ok (use_service n s).
Proof. unfold use_service. by destruct (decide _). Qed.
Lemma add_timing_times k v s : int64_ok v -> times_ok s -> times_ok (add_timing k v s).
Proof.
  intros Hv [H1 (H2 & H3 & H4 & H5)]. unfold add_timing.
  unfold times_ok, timings_ok. repeat (case_decide; [cbn; tauto|]). tauto.
Qed.
Lemma add_annot_times a s : times_ok s -> times_ok (add_annot s a).
Proof. intros H. unfold add_annot. destruct (an_ts a =? 0); [done|]. apply use_service_times, add_timing_times; [apply microseconds_ok|done]. Qed.
Lemma add_ba_times a s : times_ok s -> times_ok (add_ba s a).
Proof. intros H. unfold add_ba. by apply use_service_times. Qed.
Lemma foldl_times {A} (f : span -> A -> span) l : (forall s a, times_ok s -> times_ok (f s a)) -> forall s, times_ok s -> times_ok (foldl f s l).
Proof. intros Hf. induction l as [|a l IH]; intros s H; [done|]. apply IH. by apply Hf. Qed.
Lemma new_span_times n t i p : times_ok (new_span n t i p).
Proof. repeat split; cbn; zlia. Qed.
Lemma fill_times s : times_ok s -> int64_ok (s_ts (fill_in_timestamp s)).
Proof.
  intros [H1 (H2 & H3 & H4 & H5)]. unfold fill_in_timestamp.
  destruct ((0 <? tSR (s_timings s)) && (0 <? tSS (s_timings s)));
    cbn [s_timings set_dur set_ts]; destruct ((0 <? tCS (s_timings s)) && (0 <? tCR (s_timings s)));
    match goal with |- int64_ok (s_ts (if ?b then _ else _)) => by destruct b end.
Qed.
Lemma v1_to_span_ts v : int64_ok (s_ts (v1_to_span v)).
Proof.
  unfold v1_to_span. apply fill_times.
  set (a := foldl add_annot _ _).
  assert (Ha : times_ok a) by (apply foldl_times; [intros; by apply add_annot_times|apply new_span_times]).
  set (b := foldl add_ba _ _).
  assert (Hb : times_ok b) by (apply foldl_times; [intros; by apply add_ba_times|exact Ha]).
  destruct (v1_ts v =? 0), (v1_dur v =? 0); destruct Hb as [B1 B2]; (split; [try exact B1; apply microseconds_ok|exact B2]).
Qed.

(* ---------- v2 and Jaeger ---------- *)

Lemma v2_to_span_ts v : int64_ok (s_ts (v2_to_span v)).
Proof.
  unfold v2_to_span. set (s0 := set_tags _ _). clearbody s0.
  repeat match goal with |- context [if ?b then _ else _] => destruct b end; apply microseconds_ok.
Qed.
Lemma jaeger_to_span_ts m js : int64_ok (s_ts (jaeger_to_span m js)).
Proof.
  unfold jaeger_to_span. destruct (foldl jaeger_tag _ _) as [s kind].
  repeat match goal with |- context [if ?b then _ else _] => destruct b end; apply microseconds_ok.
Qed.
Lemma jaeger_ts data spans : ParseJaeger data = Some spans -> Forall (fun s => int64_ok (s_ts s)) spans.
Proof.
  destruct data as [data|]; [|done]. intros [= <-].
  assert (H : forall l acc, Forall (fun s => int64_ok (s_ts s)) acc ->
    Forall (fun s => int64_ok (s_ts s)) (foldl (fun acc d => foldl (fun acc js => acc ++ [jaeger_to_span (jd_procs d) js]) acc (jd_spans d)) acc l)).
  { intros l. induction l as [|d l IH]; intros acc Ha; [done|]. cbn [foldl]. apply IH. clear IH. revert acc Ha. induction (jd_spans d) as [|js jl IH]; intros acc Ha; [done|].
    cbn [foldl]. apply IH. apply Forall_app. split; [done|]. apply Forall_singleton, jaeger_to_span_ts. }
  by apply H.
Qed.

Lemma parser_ts env ep body spans : parser env ep body = XDone (Some spans) -> Forall (fun s => int64_ok (s_ts s)) spans.
Proof.
  intros E. destruct ep; cbn [parser] in E.
  - unfold ParseJsonV1 in E. destruct (exec _ _ _) as [r| |]; [|done|done]. cbn [xmap v1_result fst] in E. destruct r.2; [|done]. injection E as <-.
    apply Forall_forall. intros s Hs. apply elem_of_list_fmap in Hs as (v & -> & _). apply v1_to_span_ts.
  - unfold ParseJsonV2 in E. destruct (exec _ _ _) as [r| |]; [|done|done]. unfold xmap, v2_result in E. destruct r.2; [|done]. injection E as <-.
    apply Forall_forall. intros s Hs. apply elem_of_list_fmap in Hs as (v & -> & _). apply v2_to_span_ts.
  - injection E as E. by eapply jaeger_ts.
Qed.

(** handlers.go: every span put on the channel. *)
Lemma handle_ts env q acts : handle env q = XDone acts -> forall s, Put s ∈ acts -> int64_ok (s_ts s).
Proof.
  assert (A : forall ep body acts, xmap answer (parse_spans env ep body) = XDone acts -> forall s, Put s ∈ acts -> int64_ok (s_ts s)).
  { intros ep body a E s Hs. unfold parse_spans in E. destruct (parser env ep body) as [[spans|]| |] eqn:Ep; cbn [xmap] in E; try done; injection E as <-; unfold answer in Hs; cbn [fst snd] in Hs.
    - apply elem_of_app in Hs as [Hs|Hs]; [|by apply elem_of_list_singleton in Hs]. apply elem_of_list_fmap in Hs as (x & [= ->] & Hx).
      pose proof (parser_ts _ _ _ _ Ep) as F. rewrite Forall_forall in F. by apply F.
    - by apply elem_of_list_singleton in Hs. }
  assert (B : forall body acts, handle_spans env q body = XDone acts -> forall s, Put s ∈ acts -> int64_ok (s_ts s)).
  { intros body a E s Hs. unfold handle_spans in E. destruct (q_endpoint q); [|by eapply A|by eapply A]. destruct (contains _ _); [by eapply A|].
    injection E as <-. by apply elem_of_list_singleton in Hs. }
  unfold handle. destruct (decide _); [|apply B]. destruct (n_gunzip env (q_body q)) as [body|]; [apply B|]. intros [= <-] s Hs. by apply elem_of_list_singleton in Hs.
Qed.
