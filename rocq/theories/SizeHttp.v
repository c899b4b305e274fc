From Verif Require Import Base SpanModel JsonModel CodecModel JaegerModel HandlerModel HandlerSpec HandlerProofs SystemSpec ParseSpec PoolProofs DocTheorems StdJsonModel
  SizeSpec SizeProofs.

Lemma puts_accepts spans acts : accepts spans acts -> puts_of acts = spans.
Proof.
  intros ->. unfold puts_of. rewrite map_app, concat_app. cbn [map concat app]. rewrite app_nil_r. induction spans as [|s spans IH]; cbn [map concat app]; [done|]. by rewrite IH.
Qed.

Lemma reads_same env q b b' : reads env q b -> reads env q b' -> b = b'.
Proof. unfold reads. intros [[? ?]|[? ?]] [[? ?]|[? ?]]; congruence. Qed.

Lemma new_pool_texts : pool_texts new_pool_entry = 0%nat.
Proof. by vm_compute. Qed.

Lemma http_size env q chunks e acts : (5 <= length (n_buf env))%nat -> no_eager_error e -> reads env q (Src chunks e) -> handle env q = XDone acts ->
  (q_endpoint q = EV2 -> (spans_size (puts_of acts) <= length (concat chunks))%nat) /\
  (q_endpoint q = EV1 -> (spans_size (puts_of acts) <= length (concat chunks) + pool_texts (n_pool env))%nat).
Proof.
  intros Hb He Hr H. apply handle_shape in H as [(spans & body & Hr' & Hp & _ & Ha)| ->].
  - rewrite (puts_accepts _ _ Ha). rewrite (reads_same _ _ _ _ Hr' Hr) in Hp. split; intros Hq; rewrite Hq in Hp; cbn [parser] in Hp.
    + apply v2_size in Hp; [lia|done..].
    + destruct (ParseJsonV1 _ _ _ _) as [[o p]| |] eqn:E; cbn [xmap fst] in Hp; try done. injection Hp as ->. apply v1_size in E; [lia|done..].
  - cbn. split; intros; lia.
Qed.

Lemma http_size_once env q chunks e acts : (5 <= length (n_buf env))%nat -> no_eager_error e -> reads env q (Src chunks e) -> handle env q = XDone acts ->
  q_endpoint q = EV2 \/ q_endpoint q = EV1 /\ pooled_once (n_pool env) -> (spans_size (puts_of acts) <= length (concat chunks))%nat.
Proof.
  intros Hb He Hr H [Hq|[Hq Ho]]; [by eapply (http_size env)|]. pose proof H as H'.
  apply handle_shape in H as [(spans & body & Hr' & Hp & _ & Ha)| ->]; [|cbn; lia].
  rewrite (puts_accepts _ _ Ha). rewrite (reads_same _ _ _ _ Hr' Hr), Hq in Hp. cbn [parser] in Hp.
  pose proof (no_leak (n_fuel env) (n_buf env) (n_pool env) (Src chunks e) Ho) as Hn.
  destruct (ParseJsonV1 (n_fuel env) (n_buf env) (n_pool env) (Src chunks e)) as [[o p]| |] eqn:E; cbn [xmap fst] in Hp; try done. injection Hp as ->.
  destruct (ParseJsonV1 (n_fuel env) (n_buf env) new_pool_entry (Src chunks e)) as [[o' p']| |] eqn:E'; try done. subst o'.
  apply v1_size in E'; [|done..]. rewrite new_pool_texts in E'. lia.
Qed.

(** A body of 32 bytes after one that left a text of 60 bytes in the pool. *)
Definition left_behind : bytes :=
  str "[{""binaryAnnotations"":[{},{""key"":""b"",""value"":""012345678901234567890123456789012345678901234567890123456789""}],""binaryAnnotations"":[{}]}]".
Definition small_body : bytes := str "[{""binaryAnnotations"":[{},{}]}]".

Lemma pool_size_refuted : exists env q chunks e acts, pooled (n_pool env) /\ (5 <= length (n_buf env))%nat /\ no_eager_error e /\ reads env q (Src chunks e) /\
  q_endpoint q = EV1 /\ handle env q = XDone acts /\ (2 * length (concat chunks) < spans_size (puts_of acts))%nat.
Proof.
  destruct (ParseJsonV1 300 (replicate 80 0) new_pool_entry (Src [left_behind] (EndEOF false))) as [[r1 e1]| |] eqn:E1; [|vm_compute in E1; discriminate E1..].
  pose (env := Env 300 (replicate 80 0) e1 (fun _ => None) jaeger_body). pose (q := Request EV1 (str "application/json") [] (Src [small_body] (EndEOF false))).
  destruct (handle env q) as [acts| |] eqn:E2; [|vm_compute in E1; injection E1 as <- <-; vm_compute in E2; discriminate E2..].
  exists env, q, [small_body], (EndEOF false), acts. split; [eapply pooled_put; [apply pooled_new|exact E1]|].
  split; [cbn; lia|]. split; [done|]. split; [right; split; [discriminate|reflexivity]|]. split; [reflexivity|]. split; [exact E2|].
  vm_compute in E1. injection E1 as <- <-. vm_compute in E2. injection E2 as <-. vm_compute. lia.
Qed.

(** Jaeger: the name of a service, once in the body, in ten spans. *)
Definition shared_service : bytes :=
  str "{""data"":[{""spans"":[{""processID"":""p""},{""processID"":""p""},{""processID"":""p""},{""processID"":""p""},{""processID"":""p""},{""processID"":""p""},{""processID"":""p""},{""processID"":""p""},{""processID"":""p""},{""processID"":""p""}],""processes"":{""p"":{""serviceName"":""0123456789012345678901234567890123456789012345678901234567890123456789""}}}]}".
Lemma jaeger_size_refuted : exists env q acts, n_jaeger env = jaeger_body /\ q_endpoint q = EJaeger /\ q_encoding q = [] /\ handle env q = XDone acts /\
  (2 * length (concat (r_chunks (q_body q))) < spans_size (puts_of acts))%nat.
Proof.
  pose (env := Env 300 (replicate 80 0) [] (fun _ => None) jaeger_body). pose (q := Request EJaeger [] [] (Src [shared_service] (EndEOF false))).
  destruct (handle env q) as [acts| |] eqn:E; [|vm_compute in E; discriminate E..].
  exists env, q, acts. split; [reflexivity|]. split; [reflexivity|]. split; [reflexivity|]. split; [exact E|]. vm_compute in E. injection E as <-. vm_compute. lia.
Qed.
