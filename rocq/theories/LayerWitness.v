(** Concrete documents for C111. *)
From Verif Require Import Base SpanModel JsonModel CodecModel JsonSpec DocSpec ParseSpec PoolProofs JaegerModel HandlerModel HandlerSpec
  FormatSpec FormatWitness SwapSpec SwapWitness LayerSpec.

Definition just_key (k : gostring) : json := JObj [(str "key", JStr k)].
Definition keyed (k v : gostring) : json := JObj [(str "key", JStr k); (str "value", JStr v)].
Definition at_time (l : gostring) : json := JObj [(str "timestamp", JNum l)].
(** "binaryAnnotations" three times, the last time empty, and "annotations" twice. *)
Definition twice_v : json := JArr [JObj [
  (str "id", JStr (str "1f"));
  (str "binaryAnnotations", JArr [keyed (str "password") (str "secret"); keyed (str "a") (str "b")]);
  (str "annotations", JArr [cs_v]);
  (str "binaryAnnotations", JArr [just_key (str "user")]);
  (str "annotations", JArr [at_time (str "1005"); cr_v]);
  (str "binaryAnnotations", JArr [])]].
(** The same document with the last list of each name only, where the empty one is left out. *)
Definition last_only_v : json := JArr [JObj [
  (str "id", JStr (str "1f"));
  (str "binaryAnnotations", JArr [just_key (str "user")]);
  (str "annotations", JArr [at_time (str "1005"); cr_v])]].

Lemma any_ok v : plain_json 20 v = true -> (forall rest, delimited v rest) -> (2 * length (render v) + 2 <? 3000)%nat = true -> v1_request_any order_env (order_ask EV1 v) v.
Proof. intros H1 H2 H3. split; [done|]. split; [by exists [], []|]. split; [apply once_new|]. apply body_ok; [done|done|by apply Nat.ltb_lt]. Qed.

Definition twice_span : span :=
  Span 31 0 0 [] (str "shop") 1005000 65000 (<[str "protocolVersion" := str "json v1"]> {[str "user" := str "secret"]}) (Timings 1005000 1070000 0 0).
Lemma twice_read : v1_request_any order_env (order_ask EV1 twice_v) twice_v /\ v1_spans_layered twice_v = Some [twice_span] /\
  handle order_env (order_ask EV1 twice_v) = XDone [Put twice_span; Status 202].
Proof. split; [apply any_ok; [by vm_compute|done|by vm_compute]|]. split; by vm_compute. Qed.

Lemma last_not_alone : exists env q v q' v' s s', v1_request_any env q v /\ v1_request_any env q' v' /\
  handle env q = XDone [Put s; Status 202] /\ handle env q' = XDone [Put s'; Status 202] /\
  v = twice_v /\ v' = last_only_v /\ s_tags s !! str "user" = Some (str "secret") /\ s_tags s' !! str "user" = Some [] /\
  tCS (s_timings s) = 1005000 /\ tCS (s_timings s') = 0.
Proof.
  exists order_env, (order_ask EV1 twice_v), twice_v, (order_ask EV1 last_only_v), last_only_v, twice_span. eexists.
  split; [apply any_ok; [by vm_compute|done|by vm_compute]|]. split; [apply any_ok; [by vm_compute|done|by vm_compute]|].
  split; [by vm_compute|]. split; [vm_compute; reflexivity|]. repeat (split; [by vm_compute|]). by vm_compute.
Qed.

(** Nor are the lists joined: that would be the tags password, a and user. *)
Lemma lists_not_joined : exists env q v s s', v1_request_any env q v /\ handle env q = XDone [Put s; Status 202] /\ v1_spans v = Some [s'] /\
  s_tags s !! str "password" = None /\ s_tags s' !! str "password" = Some (str "secret").
Proof.
  exists order_env, (order_ask EV1 twice_v), twice_v, twice_span. eexists.
  split; [apply any_ok; [by vm_compute|done|by vm_compute]|]. split; [by vm_compute|]. split; [vm_compute; reflexivity|]. split; by vm_compute.
Qed.
