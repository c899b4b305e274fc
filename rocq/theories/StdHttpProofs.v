(** Requests with Jaeger bodies. *)
From Verif Require Import Base IdModel SpanModel JsonModel CodecModel JsonSpec DocSpec JaegerModel JaegerSpec JaegerProofs HandlerModel HandlerSpec HandlerProofs
  BinaryModel BinarySpec BinaryProofs AcceptSpec AcceptProofs StdJsonModel StdJsonSpec StdJsonProofs StdTextProofs StdDocProofs StdSafeProofs.

Lemma body_document chunks e t rest v : begins_with (concat chunks) t rest -> ended t rest -> end_visible t rest e ->
  means plain_ids t v -> given_once v -> doubles v -> jaeger_body (Src chunks e) = jaeger_document v.
Proof.
  intros (w & l & E & Hw & Hg & Hn) He Hv Hm Ho Hd. unfold jaeger_body. rewrite (json_decode_complete chunks e w t l rest) by done.
  assert (Hc : complete t rest e = true).
  { unfold complete. destruct Hv as [[? ->]|[[? ->]|[H|[b ->]]]]; [done|done| |]; destruct t, rest; try done. }
  rewrite Hc. by apply document_means.
Qed.
Lemma body_json input data : jaeger_body input = Some data -> exists t rest, begins_with (concat (r_chunks input)) t rest.
Proof.
  unfold jaeger_body. destruct (json_decode input) as [r rest| |] eqn:E; [|done..]. intros _. apply json_decode_sound in E as (w & t & l & Hw & Hg & Hn & El & _).
  exists t, rest, w, l. by split.
Qed.

Lemma http_document env q chunks e t rest v : n_jaeger env = jaeger_body -> q_endpoint q = EJaeger -> reads env q (Src chunks e) ->
  begins_with (concat chunks) t rest -> ended t rest -> end_visible t rest e -> means plain_ids t v -> given_once v -> doubles v ->
  exists acts, handle env q = XDone acts /\
  match jaeger_document v with
  | Some data => exists groups, accepts (concat groups) acts /\ Forall2 (fun d g => Forall2 (jaeger_describes (jd_procs d)) (jd_spans d) g) data groups
  | None => rejects acts
  end.
Proof.
  intros En Hq Hr Hb He Hv Hm Ho Hd. pose proof (body_document chunks e t rest v Hb He Hv Hm Ho Hd) as Ev.
  destruct (jaeger_document v) as [data|].
  - destruct (handle_jaeger env q (Src chunks e) data Hq Hr ltac:(by rewrite En)) as (groups & acts & ? & ? & ?). exists acts. split; [done|]. by exists groups.
  - destruct (handle_jaeger_bad env q (Src chunks e) Hq Hr ltac:(by rewrite En)) as (acts & ? & ?). by exists acts.
Qed.
Lemma http_not_json env q body : n_jaeger env = jaeger_body -> q_endpoint q = EJaeger -> reads env q body ->
  (forall t rest, ~ begins_with (concat (r_chunks body)) t rest) -> exists acts, handle env q = XDone acts /\ rejects acts.
Proof.
  intros En Hq Hr H. apply (handle_jaeger_bad env q body Hq Hr). rewrite En. destruct (jaeger_body body) as [data|] eqn:E; [|done].
  apply body_json in E as (t & rest & E). by apply H in E.
Qed.

Lemma http_cut env q chunks e t rest : n_jaeger env = jaeger_body -> q_endpoint q = EJaeger -> reads env q (Src chunks e) ->
  begins_with (concat chunks) t rest -> ended t rest -> ~ end_visible t rest e -> exists acts, handle env q = XDone acts /\ rejects acts.
Proof.
  intros En Hq Hr (w & l & E & Hw & Hg & Hn) He Hv. apply (handle_jaeger_bad env q _ Hq Hr). rewrite En. unfold jaeger_body.
  rewrite (json_decode_complete chunks e w t l rest) by done. assert (Hc : complete t rest e = false); [|by rewrite Hc].
  unfold end_visible in Hv. destruct t, rest, e; try done; exfalso; apply Hv; eauto.
Qed.

Lemma reads_fun env q b1 b2 : reads env q b1 -> reads env q b2 -> b1 = b2.
Proof. intros [[? ?]|[? ->]] [[? ?]|[? ->]]; congruence. Qed.
Lemma http_described env q acts s : q_endpoint q = EJaeger -> handle env q = XDone acts -> Put s ∈ acts ->
  exists body data d js, reads env q body /\ n_jaeger env body = Some data /\ d ∈ data /\ js ∈ jd_spans d /\ jaeger_describes (jd_procs d) js s.
Proof.
  intros Hq H Hs. destruct (put_of env q acts s H Hs) as (body & spans & Hr & E & Hin). rewrite Hq in E. cbn [parser] in E.
  destruct (n_jaeger env body) as [data|] eqn:En; [|done]. exists body, data. destruct (parse_jaeger data) as (groups & Eg & HF). assert (E2 : ParseJaeger (Some data) = Some spans) by congruence. rewrite E2 in Eg. injection Eg as ->.
  apply elem_of_list_In in Hin. apply in_concat in Hin as (g & Hg & Hin). apply elem_of_list_In in Hg, Hin.
  apply elem_of_list_lookup in Hg as [i Hg]. apply (Forall2_lookup_r _ _ _ _ _ HF) in Hg as (d & Hd & HF').
  apply elem_of_list_lookup in Hin as [j Hin]. apply (Forall2_lookup_r _ _ _ _ _ HF') in Hin as (js & Hjs & Hdes).
  exists d, js. split; [done|]. split; [done|]. split; [by eapply elem_of_list_lookup_2|]. split; [by eapply elem_of_list_lookup_2|done].
Qed.
Lemma last_with_elem {A} (P : A -> Prop) l a : last_with P l a -> a ∈ l /\ P a.
Proof. intros (l1 & l2 & -> & Hp & _). split; [|done]. apply elem_of_app. right. apply elem_of_list_here. Qed.
Lemma described_strings (S : gostring -> Prop) d js s : S [] -> S (str "protocolVersion") -> S (str "jaeger") -> S (str "lc") ->
  jdata_all S d -> js ∈ jd_spans d -> jaeger_describes (jd_procs d) js s -> span_strings S s.
Proof.
  intros H0 H1 H2 H3 [Hd Hp] Hjs (_ & _ & _ & En & Es & _ & _ & (Ht1 & Ht2 & Ht3) & _). rewrite Forall_forall in Hd. destruct (Hd js Hjs) as (_ & _ & Ho & _ & _ & _ & _ & Ht).
  split; [by rewrite En|]. split.
  - rewrite Es. destruct (jd_procs d !! js_process js) as [v|] eqn:E; [|done]. by apply Hp in E as [_ ?].
  - intros k v Hk. destruct (decide (k = str "protocolVersion")) as [->|Hn]; [rewrite Ht1 in Hk; by injection Hk as <-|].
    destruct (decide (k = str "component")) as [->|?]; [rewrite Ht2 in Hk; [done|by left]|]. destruct (decide (k = str "internal.span.format")) as [->|?]; [rewrite Ht2 in Hk; [done|by right; left]|].
    destruct (decide (k = str "span.kind")) as [->|?]; [rewrite Ht2 in Hk; [done|by right; right]|].
    apply Ht3 in Hk as (t & [Hin [Hc _]]%last_with_elem & Hv); [|by intros [|[|]]|done].
    rewrite Forall_forall in Ht. apply Ht in Hin as [Hk1 Hv1]. rewrite Hv in Hv1. split; [|done]. destruct Hc as [<-|[-> _]]; done.
Qed.
Lemma http_utf8 env q acts s : n_jaeger env = jaeger_body -> q_endpoint q = EJaeger -> handle env q = XDone acts -> Put s ∈ acts -> span_strings utf8_text s.
Proof.
  intros En Hq H Hs. destruct (http_described env q acts s Hq H Hs) as (body & data & d & js & _ & Eb & Hd & Hjs & Hdes).
  rewrite En in Eb. apply jaeger_body_utf8 in Eb. rewrite Forall_forall in Eb.
  assert (HA : forall l, forallb (fun c => (0 <=? c) && (c <? 128)) l = true -> utf8_text l).
  { induction l as [|x l IH]; [constructor|]. cbn [forallb]. intros (Hx & Hl)%andb_prop. apply utf8_text_ascii; [lia|by apply IH]. }
  eapply described_strings; [by apply HA..|by apply Eb|done|done].
Qed.

Lemma body_fits body data : Z.of_nat (length (concat (r_chunks body))) < 715827882 -> jaeger_body body = Some data -> Forall jdata_ok data.
Proof.
  intros Hl H. apply jaeger_body_short in H. eapply Forall_impl; [exact H|]. clear H. set (n := length (concat (r_chunks body))) in *. clearbody n.
  intros d [Hd Hp]. split.
  - eapply Forall_impl; [exact Hd|]. intros js (? & ? & ? & Hr & _ & _ & _ & Ht). repeat split; try apply H; try apply H0.
    + eapply Forall_impl; [exact Hr|]. by intros r [].
    + unfold wire_string. lia.
    + eapply Forall_impl; [exact Ht|]. intros t [? ?]. unfold wire_string. split; [lia|]. destruct (jt_value t); [lia|done].
  - intros k v Hk. apply Hp in Hk as [_ ?]. unfold wire_string. lia.
Qed.
Lemma http_survives env q body acts s order : pooled_memory env -> n_jaeger env = jaeger_body -> reads env q body ->
  Z.of_nat (length (concat (r_chunks body))) < 715827882 -> handle env q = XDone acts -> Put s ∈ acts ->
  Z.of_nat (size (s_tags s)) < 2^63 -> iteration_order order (s_tags s) ->
  exists bs, binary_encode order s = Some bs /\ forall rest, binary_decode (bs ++ rest) = DOk s rest.
Proof.
  intros Hm En Hr Hl H Hs. apply (accepted_survives env q acts s order Hm); [|done|done].
  intros b data Hb Eb. rewrite (reads_fun env q b body Hb Hr) in Eb. rewrite En in Eb. by eapply body_fits.
Qed.
