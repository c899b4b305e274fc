(** Concrete documents and memory for C112. *)
From Verif Require Import Base SpanModel JsonModel CodecModel JsonSpec DocSpec ParseSpec PoolProofs JaegerModel HandlerModel HandlerSpec StdJsonModel
  FormatSpec FormatWitness SwapSpec SwapWitness LayerSpec LayerWitness SaidSpec.

Definition key_m (s : gostring) : bytes * json := (str "key", JStr s).
Definition value_m (s : gostring) : bytes * json := (str "value", JStr s).
Definition service_m (s : gostring) : bytes * json := (str "endpoint", JObj [(str "serviceName", JStr s)]).
Definition with_bins (l : list (list (bytes * json))) : json := JArr [JObj [(str "id", JStr (str "1f")); (str "binaryAnnotations", JArr (map JObj l))]].

(** A request that leaves something behind: its second list is shorter than the first. *)
Definition first_v : json := JArr [JObj [
  (str "binaryAnnotations", JArr [JObj []; JObj [key_m (str "password"); value_m (str "secret"); service_m (str "bank")]]);
  (str "binaryAnnotations", JArr [JObj []])]].
Definition used_pool : list spanV1 :=
  match ParseJsonV1 3000 (replicate 20 0) new_pool_entry (Src [render first_v] (EndEOF true)) with XDone (_, p) => p | _ => [] end.
Definition used_env : environment := Env 3000 (replicate 20 0) used_pool (fun _ => None) jaeger_body.
Lemma used_pooled : pooled used_pool.
Proof.
  unfold used_pool. destruct (ParseJsonV1 3000 (replicate 20 0) new_pool_entry (Src [render first_v] (EndEOF true))) as [[r p]| |] eqn:E.
  - eapply pooled_put; [apply pooled_new|exact E].
  - exfalso. assert (H : (match ParseJsonV1 3000 (replicate 20 0) new_pool_entry (Src [render first_v] (EndEOF true)) with XDone _ => true | _ => false end) = true) by (by vm_compute).
    rewrite E in H. discriminate H.
  - exfalso. assert (H : (match ParseJsonV1 3000 (replicate 20 0) new_pool_entry (Src [render first_v] (EndEOF true)) with XDone _ => true | _ => false end) = true) by (by vm_compute).
    rewrite E in H. discriminate H.
Qed.

Definition first_bin : list (bytes * json) := [key_m (str "k"); value_m (str "v"); service_m []].
Definition no_key : json := with_bins [first_bin; [value_m (str "x"); service_m []]].
Definition no_value : json := with_bins [first_bin; [key_m (str "a"); service_m []]].
Definition no_service : json := with_bins [first_bin; [key_m (str "a"); value_m (str "x")]].
Definition all_three : json := with_bins [first_bin; [key_m (str "a"); value_m (str "x"); service_m (str "shop")]].

Lemma used_ok v : plain_json 20 v = true -> (forall rest, delimited v rest) -> (2 * length (render v) + 2 <? 3000)%nat = true ->
  v1_request_any_memory used_env (order_ask EV1 v) v.
Proof. intros H1 H2 H3. split; [done|]. split; [by exists [], []|]. exact (body_ok EV1 v H1 H2 (proj1 (Nat.ltb_lt _ _) H3)). Qed.

Definition told (service : gostring) (tags : gmap gostring gostring) : span :=
  Span 31 0 0 [] service 0 1000000 (<[str "protocolVersion" := str "json v1"]> tags) (Timings 0 0 0 0).

Lemma parts_leak : pooled (n_pool used_env) /\
  (v1_request_any_memory used_env (order_ask EV1 no_key) no_key /\
   handle used_env (order_ask EV1 no_key) = XDone [Put (told [] {[str "password" := str "x"; str "k" := str "v"]}); Status 202]) /\
  (v1_request_any_memory used_env (order_ask EV1 no_value) no_value /\
   handle used_env (order_ask EV1 no_value) = XDone [Put (told [] {[str "a" := str "secret"; str "k" := str "v"]}); Status 202]) /\
  (v1_request_any_memory used_env (order_ask EV1 no_service) no_service /\
   handle used_env (order_ask EV1 no_service) = XDone [Put (told (str "bank") {[str "a" := str "x"; str "k" := str "v"]}); Status 202]).
Proof.
  split; [exact used_pooled|]. split; [|split].
  - split; [apply used_ok; [by vm_compute|done|by vm_compute]|by vm_compute].
  - split; [apply used_ok; [by vm_compute|done|by vm_compute]|by vm_compute].
  - split; [apply used_ok; [by vm_compute|done|by vm_compute]|by vm_compute].
Qed.

Lemma whole_reads : v1_request_any_memory used_env (order_ask EV1 all_three) all_three /\ (forall vs, all_three = JArr vs -> Forall whole_span vs) /\
  pooled (n_pool used_env) /\ ~ pooled_once (n_pool used_env) /\
  handle used_env (order_ask EV1 all_three) = XDone [Put (told (str "shop") {[str "a" := str "x"; str "k" := str "v"]}); Status 202].
Proof.
  split; [apply used_ok; [by vm_compute|done|by vm_compute]|]. split.
  { intros vs [= <-]. constructor; [|constructor]. intros l Hl. vm_compute in Hl. apply elem_of_list_singleton in Hl. injection Hl as ->.
    repeat constructor; try discriminate; eexists; (split; [apply elem_of_list_here|discriminate]). }
  split; [exact used_pooled|]. split; [|by vm_compute].
  intros H%once_clean. assert (Hc : DocProofs1.clean (nth 0 used_pool zero_v1)).
  { rewrite Forall_lookup in H. apply (H 0%nat). by vm_compute. }
  destruct Hc as [_ Hz]. vm_compute in Hz. inversion Hz as [|x l Hx Hl]. discriminate Hx.
Qed.
