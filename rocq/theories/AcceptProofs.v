(** Spans that the handlers accept can be carried by the wire format. *)
From Verif Require Import Base IdModel SpanModel JsonModel CodecModel JaegerModel HandlerModel HandlerSpec HandlerRange JsonBound BinaryModel BinarySpec BinaryProofs AcceptSpec.

Definition carried (n : nat) (s : span) : Prop := span_ok s /\ strings_within n s.

Lemma wire_of n s : Z.of_nat n < 2^31 -> carried n s -> Z.of_nat (size (s_tags s)) < 2^63 -> wire_ok s.
Proof.
  intros Hn [H1 (H2 & H3 & H4)] Hs. unfold wire_ok, wire_string. split; [done|]. split; [lia|]. split; [lia|]. split; [|done].
  intros k v Hk. destruct (H4 k v Hk). lia.
Qed.

Section conv.
Context (n : nat) (Hn : (15 <= n)%nat).

Lemma set_ts_carried t s : int64_ok t -> carried n s -> carried n (set_ts t s).
Proof. intros Ht [(H1 & H2 & H3 & H4 & H5 & H6) Hw]. split; [|exact Hw]. unfold span_ok. cbn. tauto. Qed.
Lemma set_dur_carried t s : int64_ok t -> carried n s -> carried n (set_dur t s).
Proof. intros Ht [(H1 & H2 & H3 & H4 & H5 & H6) Hw]. split; [|exact Hw]. unfold span_ok. cbn. tauto. Qed.
Lemma set_timings_carried t s : timings_ok t -> carried n s -> carried n (set_timings t s).
Proof. intros Ht [(H1 & H2 & H3 & H4 & H5 & H6) Hw]. split; [|exact Hw]. unfold span_ok. cbn. tauto. Qed.
Lemma set_service_carried v s : (length v <= n)%nat -> carried n s -> carried n (set_service v s).
Proof. intros Ht [Hr (H1 & H2 & H3)]. split; [exact Hr|]. unfold strings_within. cbn. tauto. Qed.
Lemma set_tags_carried m s : (forall k v, m !! k = Some v -> (length k <= n)%nat /\ (length v <= n)%nat) -> carried n s -> carried n (set_tags m s).
Proof. intros Ht [Hr (H1 & H2 & H3)]. split; [exact Hr|]. unfold strings_within. cbn. tauto. Qed.
Lemma add_tag_carried k v s : (length k <= n)%nat -> (length v <= n)%nat -> carried n s -> carried n (add_tag k v s).
Proof.
  intros Hk Hv H. unfold add_tag. apply set_tags_carried; [|done]. intros k' v' E. apply lookup_insert_Some in E as [[<- <-]|[_ E]]; [done|].
  destruct H as [_ (_ & _ & H)]. by apply H.
Qed.
Lemma new_span_carried name t i p : int64_ok t -> int64_ok i -> int64_ok p -> (length name <= n)%nat -> carried n (new_span name t i p).
Proof.
  intros Ht Hi Hp Hl. unfold new_span. split.
  - unfold span_ok, timings_ok. cbn [s_id s_parent s_trace s_ts s_dur s_timings tCS tCR tSS tSR]. pose proof zero_int64. unfold zero_timings. cbn [tCS tCR tSS tSR]. tauto.
  - split; [done|]. split; [cbn; lia|]. intros k v H. cbn in H. by rewrite lookup_empty in H.
Qed.
Lemma ts_add_ok a b : int64_ok (ts_add a b).
Proof. apply wrap64_ok. Qed.
Lemma carried_ts s : carried n s -> int64_ok (s_ts s).
Proof. by intros [(_ & _ & _ & H & _) _]. Qed.
Lemma carried_timings s : carried n s -> timings_ok (s_timings s).
Proof. by intros [(_ & _ & _ & _ & _ & H) _]. Qed.

Lemma kinds_carried s kind : carried n s ->
  carried n (let s := if equal_fold kind (str "client") then set_timings (set_cr (ts_add (s_ts s) (s_dur s)) (set_cs (s_ts s) (s_timings s))) s else s in
             if equal_fold kind (str "server") then set_timings (set_ss (ts_add (s_ts s) (s_dur s)) (set_sr (s_ts s) (s_timings s))) s else s).
Proof.
  intros H. cbn zeta. set (s1 := if equal_fold kind (str "client") then _ else s).
  assert (H1 : carried n s1).
  { unfold s1. destruct (equal_fold _ _); [|done]. apply set_timings_carried; [|done]. pose proof (carried_ts _ H). pose proof (carried_timings _ H) as (? & ? & ? & ?).
    pose proof (ts_add_ok (s_ts s) (s_dur s)). unfold timings_ok. cbn [set_cr set_cs tCS tCR tSS tSR]. tauto. }
  clearbody s1. destruct (equal_fold _ _); [|done]. apply set_timings_carried; [|done]. pose proof (carried_ts _ H1). pose proof (carried_timings _ H1) as (? & ? & ? & ?).
  pose proof (ts_add_ok (s_ts s1) (s_dur s1)). unfold timings_ok. cbn [set_ss set_sr tCS tCR tSS tSR]. tauto.
Qed.

Lemma default_dur_carried s : carried n s -> carried n (if s_dur s =? 0 then set_dur millisecond s else s).
Proof. intros H. destruct (_ =? _); [|done]. apply set_dur_carried; [unfold millisecond; zlia|done]. Qed.

Lemma v2_carried v : v2_good n v -> carried n (v2_to_span v).
Proof.
  intros (H1 & H2 & H3 & H4 & H5 & H6 & _). unfold v2_to_span. apply kinds_carried, default_dur_carried, set_dur_carried; [apply wrap64_ok|].
  apply set_ts_carried; [apply microseconds_ok|]. apply add_tag_carried; [cbn; lia|cbn; lia|]. apply set_tags_carried; [exact H6|].
  assert (H0 := new_span_carried _ _ _ _ H1 H2 H3 H4). destruct (decide _); [done|]. by apply set_service_carried.
Qed.

Lemma use_service_carried v s : (length v <= n)%nat -> carried n s -> carried n (use_service v s).
Proof. intros Hv H. unfold use_service. destruct (decide _); [by apply set_service_carried|done]. Qed.
Lemma add_timing_carried k v s : int64_ok v -> carried n s -> carried n (add_timing k v s).
Proof.
  intros Hv H. pose proof (carried_timings _ H) as (? & ? & ? & ?). unfold add_timing.
  repeat (case_decide; [apply set_timings_carried; [unfold timings_ok; cbn [set_cs set_cr set_ss set_sr tCS tCR tSS tSR]; tauto|done]|]). done.
Qed.
Lemma fill_carried s : carried n s -> carried n (fill_in_timestamp s).
Proof.
  intros H. unfold fill_in_timestamp. set (s1 := if (0 <? tSR (s_timings s)) && _ then _ else s).
  assert (H1 : carried n s1).
  { unfold s1. destruct (_ && _); [|done]. apply set_dur_carried; [apply wrap64_ok|]. apply set_ts_carried; [|done]. by destruct (carried_timings _ H) as (? & ? & ? & ?). }
  clearbody s1. set (s2 := if (0 <? tCS (s_timings s1)) && _ then _ else s1).
  assert (H2 : carried n s2).
  { unfold s2. destruct (_ && _); [|done]. apply set_dur_carried; [apply wrap64_ok|]. apply set_ts_carried; [|done]. by destruct (carried_timings _ H1) as (? & ? & ? & ?). }
  clearbody s2. by apply default_dur_carried.
Qed.
Lemma foldl_carried {A} (Q : A -> Prop) (f : span -> A -> span) l : (forall s a, Q a -> carried n s -> carried n (f s a)) -> Forall Q l ->
  forall s, carried n s -> carried n (foldl f s l).
Proof. intros Hf Hl. induction Hl as [|a l Ha _ IH]; intros s H; [done|]. cbn [foldl]. apply IH. by apply Hf. Qed.

Lemma v1_carried v : v1_good n v -> carried n (v1_to_span v).
Proof.
  intros (H1 & H2 & H3 & H4 & H5 & H6). unfold v1_to_span. apply fill_carried.
  set (s1 := foldl add_annot _ _).
  assert (C1 : carried n s1).
  { apply (foldl_carried (annot_good n)); [|exact H4|by apply new_span_carried]. intros s a [_ Ha] Hs. unfold add_annot. destruct (_ =? _); [done|].
    apply use_service_carried; [done|]. apply add_timing_carried; [apply microseconds_ok|done]. }
  clearbody s1. set (s2 := foldl add_ba _ _).
  assert (C2 : carried n s2).
  { apply (foldl_carried (ba_good n)).
    - intros s a (Ha & Hb & Hc) Hs. unfold add_ba. apply use_service_carried; [done|]. by apply add_tag_carried.
    - unfold sl_list. by apply Forall_take.
    - apply set_tags_carried; [|done]. intros k x H. by rewrite lookup_empty in H. }
  clearbody s2. set (s3 := add_tag _ _ s2). assert (C3 : carried n s3) by (apply add_tag_carried; [cbn; lia|cbn; lia|done]). clearbody s3.
  set (s4 := if v1_ts v =? 0 then s3 else _). assert (C4 : carried n s4) by (unfold s4; destruct (_ =? _); [done|]; apply set_ts_carried; [apply microseconds_ok|done]).
  clearbody s4. destruct (_ =? _); [done|]. apply set_dur_carried; [apply wrap64_ok|done].
Qed.

Lemma jaeger_parent_ok js : jspan_ok js -> int64_ok (jaeger_parent js).
Proof.
  intros (_ & Hi & Hr & _). unfold jaeger_parent. generalize dependent (js_id js). induction Hr as [|r l Hr _ IH]; intros p Hp; [done|]. cbn [foldl]. apply IH.
  by destruct (decide _).
Qed.
End conv.

Lemma jaeger_carried m js : jspan_ok js -> (forall k v, m !! k = Some v -> wire_string v) -> carried (Z.to_nat (2^31 - 1)) (jaeger_to_span m js).
Proof.
  intros Hj Hm. pose proof (jaeger_parent_ok js Hj) as Hp. destruct Hj as (H1 & H2 & _ & H4 & H5). set (n := Z.to_nat (2^31 - 1)).
  assert (Hn : forall s, wire_string s <-> (length s <= n)%nat) by (intros s; unfold wire_string, n; lia).
  assert (H15 : forall l : gostring, (length l <= 15)%nat -> (length l <= n)%nat) by (intros l; unfold n; lia).
  assert (Hn15 : (15 <= n)%nat) by (unfold n; lia).
  clearbody n. unfold jaeger_to_span. set (s0 := set_service _ _).
  assert (C0 : carried n s0).
  { apply set_service_carried; [|apply new_span_carried; first [done|by apply Hn]]. destruct (m !! js_process js) as [v|] eqn:E; cbn; [|lia]. by apply Hn, (Hm _ _ E). }
  clearbody s0.
  assert (C1 : forall acc, carried n acc.1 -> carried n (foldl jaeger_tag acc (js_tags js)).1).
  { induction H5 as [|t l [Hk Hv] _ IH]; intros acc Ha; [done|]. cbn [foldl]. apply IH. unfold jaeger_tag. destruct (jt_value t) as [v|]; [|done].
    set (key := if decide (jt_key t = _) then _ else _). assert (Hkey : (length key <= n)%nat) by (unfold key; destruct (decide _); [apply H15; cbn; lia|by apply Hn]). clearbody key.
    destruct (decide _); [done|]. destruct (decide _); [done|]. cbn [fst]. apply add_tag_carried; [done|by apply Hn|done]. }
  specialize (C1 (s0, []) C0). destruct (foldl jaeger_tag (s0, []) (js_tags js)) as [s kind]. cbn [fst] in C1.
  apply kinds_carried, default_dur_carried; [done|]. apply set_dur_carried; [apply wrap64_ok|]. apply set_ts_carried; [apply microseconds_ok|].
  apply add_tag_carried; [apply H15; cbn; lia|apply H15; cbn; lia|done].
Qed.

Lemma pool_good pool : pooled_small pool -> Forall (v1_good parse_buffer) pool.
Proof.
  induction 1 as [|fuel buf entry src r entry' _ IH Hb E].
  - apply Forall_replicate. apply zero_v1_good. unfold parse_buffer. lia.
  - apply (parse_v1_good parse_buffer ltac:(unfold parse_buffer; lia) fuel buf entry src r entry'); [lia|done|done].
Qed.

(** handlers.go: what every span on the channel has, if the results of the parsers have it. *)
Lemma put_of env q acts s : handle env q = XDone acts -> Put s ∈ acts ->
  exists body spans, reads env q body /\ parser env (q_endpoint q) body = XDone (Some spans) /\ s ∈ spans.
Proof.
  assert (A : forall ep body acts, xmap answer (parse_spans env ep body) = XDone acts -> Put s ∈ acts -> exists spans, parser env ep body = XDone (Some spans) /\ s ∈ spans).
  { intros ep body a E Hs. unfold parse_spans in E. destruct (parser env ep body) as [[spans|]| |] eqn:Ep; cbn [xmap] in E; try done; injection E as <-; unfold answer in Hs; cbn [fst snd] in Hs.
    - apply elem_of_app in Hs as [Hs|Hs]; [|by apply elem_of_list_singleton in Hs]. apply elem_of_list_fmap in Hs as (x & [= ->] & Hx). by exists spans.
    - by apply elem_of_list_singleton in Hs. }
  assert (B : forall body acts, handle_spans env q body = XDone acts -> Put s ∈ acts -> exists spans, parser env (q_endpoint q) body = XDone (Some spans) /\ s ∈ spans).
  { intros body a E Hs. unfold handle_spans in E. destruct (q_endpoint q); [|by eapply A|by eapply A]. destruct (contains _ _); [by eapply A|].
    injection E as <-. by apply elem_of_list_singleton in Hs. }
  assert (C : forall body, reads env q body -> handle_spans env q body = XDone acts -> Put s ∈ acts ->
    exists body spans, reads env q body /\ parser env (q_endpoint q) body = XDone (Some spans) /\ s ∈ spans).
  { intros body Hr E Hs. exists body. destruct (B body acts E Hs) as (spans & ? & ?). by exists spans. }
  unfold handle. destruct (decide _) as [Hz|Hz]; [|apply C; by right]. destruct (n_gunzip env (q_body q)) as [body|] eqn:Eg; [apply C; by left|]. intros [= <-] Hs. by apply elem_of_list_singleton in Hs.
Qed.

Lemma json_carried env q acts s : pooled_memory env -> q_endpoint q <> EJaeger -> handle env q = XDone acts -> Put s ∈ acts -> carried parse_buffer s.
Proof.
  intros [Hb Hp] He H Hs. destruct (put_of env q acts s H Hs) as (body & spans & Hr & E & Hin). apply pool_good in Hp.
  assert (H15 : (15 <= parse_buffer)%nat) by (unfold parse_buffer; lia). destruct (q_endpoint q); [| |done]; cbn [parser] in E.
  - destruct (ParseJsonV1 (n_fuel env) (n_buf env) (n_pool env) body) as [[r pool']| |] eqn:Ep; [|done..]. cbn [xmap fst] in E. injection E as ->.
    apply (parse_v1_good parse_buffer ltac:(lia)) in Ep as [_ (l & -> & Hl)]; [|lia|done]. apply elem_of_list_fmap in Hin as (v & -> & Hv).
    rewrite Forall_forall in Hl. apply v1_carried; [done|]. by apply Hl.
  - apply (parse_v2_good parse_buffer ltac:(lia)) in E as (l & -> & Hl); [|lia]. apply elem_of_list_fmap in Hin as (v & -> & Hv).
    rewrite Forall_forall in Hl. apply v2_carried; [done|]. by apply Hl.
Qed.

Lemma accepted_strings env q acts s : pooled_memory env -> q_endpoint q <> EJaeger -> handle env q = XDone acts -> Put s ∈ acts -> strings_within parse_buffer s.
Proof. intros. by eapply json_carried. Qed.

Lemma jaeger_spans_carried data spans : Forall jdata_ok data -> ParseJaeger (Some data) = Some spans -> Forall (carried (Z.to_nat (2^31 - 1))) spans.
Proof.
  intros Hd. unfold ParseJaeger. cbn [option_map]. intros [= <-]. pose proof jaeger_carried as HJ. set (n := Z.to_nat (2^31 - 1)) in *. clearbody n.
  assert (H : forall acc, Forall (carried n) acc ->
    Forall (carried n) (foldl (fun acc d => foldl (fun acc js => acc ++ [jaeger_to_span (jd_procs d) js]) acc (jd_spans d)) acc data)); [|by apply H].
  induction Hd as [|d l [Hs Hp] _ IH]; intros acc Ha; [done|]. cbn [foldl]. apply IH. clear IH. revert acc Ha. induction Hs as [|js jl Hj _ IH]; intros acc Ha; [done|].
  cbn [foldl]. apply IH. apply Forall_app. split; [done|]. apply Forall_singleton. by apply HJ.
Qed.

Lemma accepted_wire env q acts s : pooled_memory env -> jaeger_ok env q -> handle env q = XDone acts -> Put s ∈ acts -> Z.of_nat (size (s_tags s)) < 2^63 -> wire_ok s.
Proof.
  intros Hm Hj H Hs Hsz. assert (D : q_endpoint q = EJaeger \/ q_endpoint q <> EJaeger) by (destruct (q_endpoint q); auto). destruct D as [He|He].
  - destruct (put_of env q acts s H Hs) as (body & spans & Hr & E & Hin). rewrite He in E. cbn [parser] in E. destruct (n_jaeger env body) as [data|] eqn:En; [|done].
    assert (EP : ParseJaeger (Some data) = Some spans) by congruence. pose proof (jaeger_spans_carried data spans (Hj _ _ Hr En) EP) as F. rewrite Forall_forall in F.
    apply (wire_of (Z.to_nat (2^31 - 1))); [lia|by apply F|done].
  - apply (wire_of parse_buffer); [unfold parse_buffer; lia|by eapply json_carried|done].
Qed.

Lemma accepted_survives env q acts s order : pooled_memory env -> jaeger_ok env q -> handle env q = XDone acts -> Put s ∈ acts ->
  Z.of_nat (size (s_tags s)) < 2^63 -> iteration_order order (s_tags s) ->
  exists bs, binary_encode order s = Some bs /\ forall rest, binary_decode (bs ++ rest) = DOk s rest.
Proof. intros. apply binary_roundtrip; [|done]. by eapply accepted_wire. Qed.
