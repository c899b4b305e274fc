(** Properties C90 and C91: how much data, and how much memory, a request or a message can cause. *)
From Verif Require Import Base SpanModel JsonModel CodecModel ParseSpec JaegerModel HandlerModel HandlerSpec SystemSpec BinaryModel StdJsonModel
  SizeSpec SizeProofs SizeHttp SizeJaeger AllocModel AllocSpec AllocProofs EagerTheorems.

(** C90: the spans of a Zipkin request hold no more data than its body, as long as no earlier v1 request repeated the
    member "binaryAnnotations" in an object. *)
Theorem C90_http :
  forall env q chunks e acts, (5 <= length (n_buf env))%nat -> reads env q (Src chunks e) -> handle env q = XDone acts ->
  q_endpoint q = EV2 \/ q_endpoint q = EV1 /\ pooled_once (n_pool env) -> (spans_size (puts_of acts) <= length (concat chunks))%nat.
Proof. exact http_size_once_any. Qed.
Print Assumptions C90_http.

(** C90 for every state of the pool: what is left there is all that can be added. *)
Theorem C90_pool :
  forall env q chunks e acts, (5 <= length (n_buf env))%nat -> reads env q (Src chunks e) -> handle env q = XDone acts ->
  (q_endpoint q = EV2 -> (spans_size (puts_of acts) <= length (concat chunks))%nat) /\
  (q_endpoint q = EV1 -> (spans_size (puts_of acts) <= length (concat chunks) + pool_texts (n_pool env))%nat).
Proof. exact http_size_any. Qed.
Print Assumptions C90_pool.

(** C90 for messages: a decoded span, together with twelve bytes for its integers and lengths, fits into the bytes that were read. *)
Theorem C90_message :
  forall msg s rest, binary_decode msg = DOk s rest ->
  (length (s_name s) + length (s_service s) + tags_size (s_tags s) + 12 + length rest <= length msg)%nat.
Proof. exact binary_size. Qed.
Print Assumptions C90_message.

(** C90 is false without the guard: a v1 request can produce more than twice its own size. *)
Theorem C90_pool_refuted :
  exists env q chunks e acts, pooled (n_pool env) /\ (5 <= length (n_buf env))%nat /\ no_eager_error e /\ reads env q (Src chunks e) /\
  q_endpoint q = EV1 /\ handle env q = XDone acts /\ (2 * length (concat chunks) < spans_size (puts_of acts))%nat.
Proof. exact pool_size_refuted. Qed.
Print Assumptions C90_pool_refuted.

(** C90 is false of Jaeger bodies: every span of a process gets the name of its service. *)
Theorem C90_jaeger_refuted :
  exists env q acts, n_jaeger env = jaeger_body /\ q_endpoint q = EJaeger /\ q_encoding q = [] /\ handle env q = XDone acts /\
  (2 * length (concat (r_chunks (q_body q))) < spans_size (puts_of acts))%nat.
Proof. exact jaeger_size_refuted. Qed.
Print Assumptions C90_jaeger_refuted.

(** C90 for Jaeger bodies: without the names of the services at most three times the body, and each of those names likewise. *)
Theorem C90_jaeger :
  forall env q body acts, n_jaeger env = jaeger_body -> q_endpoint q = EJaeger -> reads env q body -> handle env q = XDone acts ->
  (spans_own_size (puts_of acts) <= 3 * length (concat (r_chunks body)))%nat /\
  Forall (fun s => (length (s_service s) <= 3 * length (concat (r_chunks body)))%nat) (puts_of acts).
Proof. exact http_jaeger_size. Qed.
Print Assumptions C90_jaeger.

(** Factor three is needed: bytes that are not UTF-8 become three each. *)
Example C90_jaeger_instance :
  let name := replicate 90 255 in
  let body := Src [str "{""data"":[{""spans"":[{""operationName"":"""; name; str """,""tags"":[{""key"":""k"",""value"":""v""}]}]}]}"] (EndEOF false) in
  let env := Env 100 (replicate 20 0) new_pool_entry (fun _ => None) jaeger_body in
  reads env (Request EJaeger [] [] body) body /\
  exists acts, handle env (Request EJaeger [] [] body) = XDone acts /\ length (puts_of acts) = 1%nat /\
  map (fun s => length (s_name s)) (puts_of acts) = [270%nat] /\ spans_own_size (puts_of acts) = 276%nat /\ length (concat (r_chunks body)) = 166%nat.
Proof. cbv zeta. split; [right; split; [discriminate|reflexivity]|]. eexists. split; [by vm_compute|]. by vm_compute. Qed.

(** The bound is reached up to the two brackets by spans without members. *)
Example C90_instance :
  let body := Src [str "[{}{"; str "}{}]"] (EndEOF false) in
  let env := Env 100 (replicate 20 0) new_pool_entry (fun _ => None) jaeger_body in
  (5 <= length (n_buf env))%nat /\ reads env (Request EV2 [] [] body) body /\
  (exists acts, handle env (Request EV2 [] [] body) = XDone acts /\ (spans_size (puts_of acts) + 2 = length (concat (r_chunks body)))%nat) /\
  pooled_once (n_pool env) /\
  (exists acts, handle env (Request EV1 (str "application/json") [] body) = XDone acts /\ (spans_size (puts_of acts) + 2 = length (concat (r_chunks body)))%nat) /\
  binary_decode [0; 0; 0; 2; 97; 2; 98; 0; 0; 0; 0; 0; 0; 0; 7] = DOk (Span 0 0 0 [97] [98] 0 0 ∅ (Timings 0 0 0 0)) [7].
Proof.
  cbv zeta. split; [cbn; lia|]. split; [right; split; [discriminate|reflexivity]|]. split; [eexists; split; [by vm_compute|by vm_compute]|].
  split; [apply once_new|]. split; [eexists; split; [by vm_compute|by vm_compute]|]. by vm_compute.
Qed.

(** C91 is false: a message of eight bytes makes the decoder request two gigabytes. *)
Theorem C91_huge_refuted :
  exists msg, length msg = 8%nat /\ requested msg = [2147483647] /\ binary_decode msg = DErr EEof.
Proof. exact requested_huge. Qed.
Print Assumptions C91_huge_refuted.

(** C91: recording the buffers does not change the decoder. *)
Theorem C91_same :
  forall msg, (m_binary_decode msg).2 = binary_decode msg.
Proof. exact m_binary_decode_snd. Qed.
Print Assumptions C91_same.

(** C91: only buffers of more than 8 KiB and less than 2 GiB are requested. *)
Theorem C91_each :
  forall msg, Forall (fun z => 8192 < z <= 2147483647) (requested msg).
Proof. exact requested_each. Qed.
Print Assumptions C91_each.

(** C91 for messages that decode: no more than was read. *)
Theorem C91_accepted :
  forall msg s rest, binary_decode msg = DOk s rest -> total (requested msg) + Z.of_nat (length rest) <= Z.of_nat (length msg).
Proof. exact requested_accepted. Qed.
Print Assumptions C91_accepted.

(** C91 for all messages: only the last buffer can be too much, and then the message is cut off. *)
Theorem C91_last :
  forall msg, total (requested msg) <= Z.of_nat (length msg) \/
  binary_decode msg = DErr EEof /\ exists init z, requested msg = init ++ [z] /\ total init <= Z.of_nat (length msg) /\ z <= 2147483647.
Proof. exact requested_last. Qed.
Print Assumptions C91_last.

(** A name of 8193 bytes in a message that decodes; then nothing but a length. *)
Example C91_instance :
  let msg := [0; 0; 0; 130; 128; 1] ++ replicate (Z.to_nat 8193) 97 in
  requested (msg ++ [0; 0; 0; 0; 0; 0; 0; 0]) = [8193] /\
  (match binary_decode (msg ++ [0; 0; 0; 0; 0; 0; 0; 0]) with DOk s rest => bool_decide (rest = []) | _ => false end) = true /\
  requested (msg ++ [130; 128; 1]) = [8193; 8193].
Proof. by vm_compute. Qed.
